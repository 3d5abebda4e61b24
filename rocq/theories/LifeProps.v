(** Properties of machine descriptions in a process and on disk, and of the age of intermediate files *)
From Verif Require Import LifeModel LifeSpec LifeProofs.
Local Open Scope Z_scope.
Local Open Scope list_scope.

Section Life.
  Context {data : Type}.
  Variables (default : data) (abspath : text -> text) (parse : text -> res (option data)) (supported : data -> res unit) (yaml_dump : data -> res text).
  Notation run := (run default abspath parse supported yaml_dump).
  Notation step := (step default abspath parse supported yaml_dump).
  Notation new := (new default abspath parse supported).
  Notation main := (main default abspath parse supported yaml_dump).

  (** C102: the first model that a process makes of a file has the description that is in the file at this time. *)
  Theorem C102_first_model_of_file : forall files h p st' m, p <> [] ->
    (forall q, In (New (FromFile q)) h -> abspath q <> abspath p) ->
    new (run (initial files) h) (FromFile p) = (st', Ok m) ->
    exists t d, s_disk (run (initial files) h) (abspath p) = Some t /\ parse t = Ok (Some d) /\ supported d = Ok tt /\ description st' m = Some d.
  Proof.
    intros files h p st' m Np Nh H. remember (run (initial files) h) as st eqn:Est.
    assert (W : well st) by (subst st; apply run_well, initial_well).
    assert (L : tget (abspath p) (s_loaded st) = None).
    { destruct (tget (abspath p) (s_loaded st)) eqn:E; [|reflexivity]. exfalso. subst st.
      destruct (run_loaded default abspath parse supported yaml_dump h (initial files) (abspath p)) as [F|(q & I & _ & Eq)]; [congruence| |].
      - apply F. reflexivity.
      - exact (Nh q I Eq). }
    destruct p as [|c p0]; [congruence|]. remember (c :: p0) as p eqn:Ep.
    unfold LifeModel.new in H. assert (Ed : dictionary default abspath parse st (FromFile p) = load abspath parse st p) by (rewrite Ep; reflexivity).
    rewrite Ed in H. unfold load in H. rewrite L in H. destruct (s_disk st (abspath p)) as [t|]; [|discriminate].
    destruct (parse t) as [d|] eqn:Hp; [|discriminate]. cbn in H. rewrite app_nth2, Nat.sub_diag in H by lia. cbn in H.
    destruct d as [d|]; cbn in H; [|discriminate]. destruct (supported d) as [[]|] eqn:Hs; [|discriminate]. injection H as <- <-.
    exists t, d. do 3 (split; [auto|]). unfold description. cbn. rewrite nth_error_app2, Nat.sub_diag by lia. cbn. now rewrite app_nth2, Nat.sub_diag by lia.
  Qed.
  (** C102: a removed file is gone, all others stay; a model of it can only be made if the process has read the file before. *)
  Theorem C102_removed : forall files h p, p <> [] ->
    let st := run (initial files) (h ++ [Remove p]) in
    s_disk st (abspath p) = None /\ (forall q, q <> abspath p -> s_disk st q = s_disk (run (initial files) h) q) /\
    (tget (abspath p) (s_loaded st) = None -> snd (new st (FromFile p)) = Err OSError).
  Proof.
    intros files h p P st. assert (D : st = step (run (initial files) h) (Remove p)) by (unfold st, LifeModel.run; now rewrite fold_left_app).
    assert (E : s_disk st (abspath p) = None). { rewrite D. cbn. unfold erase. destruct (text_eqb_spec (abspath p) (abspath p)); [reflexivity|congruence]. }
    split; [exact E|]. split.
    - intros q Q. rewrite D. cbn. unfold erase. destruct (text_eqb_spec q (abspath p)); [congruence|reflexivity].
    - intros L. unfold LifeModel.new, LifeModel.dictionary. destruct p as [|c p]; [congruence|]. unfold LifeModel.load. rewrite L, E. reflexivity.
  Qed.
  (** C102: all models of one file have the same description at all times. *)
  Theorem C102_models_of_one_file_agree : forall files h1 h2 h3 p q st1 st2 m m', p <> [] -> q <> [] -> abspath p = abspath q ->
    new (run (initial files) h1) (FromFile p) = (st1, Ok m) -> new (run st1 h2) (FromFile q) = (st2, Ok m') ->
    description (run st2 h3) m = description (run st2 h3) m'.
  Proof.
    intros files h1 h2 h3 p q st1 st2 m m' Np Nq E N1 N2.
    assert (W : well (run (initial files) h1)) by apply run_well, initial_well.
    destruct (together default abspath parse supported yaml_dump _ _ _ _ h2 _ _ _ _ (abspath p) W N1 eq_refl N2) as (x & x' & Hx & Hx' & Ex).
    - destruct p; [congruence|reflexivity].
    - destruct q; [congruence|]. cbn. now rewrite E.
    - destruct (new_model default abspath parse supported yaml_dump _ _ _ _ W N1) as (_ & _ & _ & _ & _ & _ & E1).
      destruct (step_well default abspath parse supported yaml_dump _ (New (FromFile p)) W) as [W1 _]. rewrite <- E1 in W1.
      destruct (run_well default abspath parse supported yaml_dump h2 st1 W1) as [W2 _].
      destruct (new_model default abspath parse supported yaml_dump _ _ _ _ W2 N2) as (_ & _ & _ & _ & _ & _ & E2).
      destruct (step_well default abspath parse supported yaml_dump _ (New (FromFile q)) W2) as [W3 _]. rewrite <- E2 in W3.
      now apply (same_data default abspath parse supported yaml_dump h3 st2 m m' x x').
  Qed.
  (** C102: a change through one model does not reach models of other files, of dictionaries, or made from nothing. *)
  Theorem C102_other_models_untouched : forall files h1 h2 h3 s s' st1 st2 m m' f,
    (forall p q, s = FromFile p -> s' = FromFile q -> p <> [] -> q <> [] -> abspath p <> abspath q) ->
    new (run (initial files) h1) s = (st1, Ok m) -> new (run st1 h2) s' = (st2, Ok m') ->
    description (step (run st2 h3) (Change m' f)) m = description (run st2 h3) m
    /\ description (step (run st2 h3) (Change m f)) m' = description (run st2 h3) m'.
  Proof.
    intros files h1 h2 h3 s s' st1 st2 m m' f D N1 N2.
    assert (W : well (run (initial files) h1)) by apply run_well, initial_well.
    assert (D' : different abspath s s').
    { unfold different. destruct s as [[|c p]| | |], s' as [[|c' q]| | |]; cbn; auto. apply (D _ _ eq_refl eq_refl); discriminate. }
    destruct (apart default abspath parse supported yaml_dump _ _ _ _ h2 _ _ _ _ W N1 eq_refl N2 D') as (x & x' & Hx & Hx' & Ex).
    destruct (new_model default abspath parse supported yaml_dump _ _ _ _ W N1) as (_ & _ & _ & _ & _ & _ & E1).
    destruct (step_well default abspath parse supported yaml_dump _ (New s) W) as [W1 _]. rewrite <- E1 in W1.
    destruct (run_well default abspath parse supported yaml_dump h2 st1 W1) as [W2 _].
    destruct (new_model default abspath parse supported yaml_dump _ _ _ _ W2 N2) as (_ & _ & _ & _ & _ & _ & E2).
    destruct (step_well default abspath parse supported yaml_dump _ (New s') W2) as [W3 _]. rewrite <- E2 in W3.
    destruct (run_well default abspath parse supported yaml_dump h3 st2 W3) as [W4 (_ & _ & G & _)].
    destruct (G _ _ Hx) as (y & Hy & Ey). destruct (G _ _ Hx') as (y' & Hy' & Ey').
    split; [apply (step_description default abspath parse supported yaml_dump _ _ m y W4 Hy)|apply (step_description default abspath parse supported yaml_dump _ _ m' y' W4 Hy')];
      intros k z g [= <- <-] Hz; congruence.
  Qed.
  (** C102: new models, other paths, saving and changes of files do not change the description of a model. *)
  Theorem C102_kept_until_changed : forall files h e m, (m < List.length (s_models (run (initial files) h)))%nat -> (forall m' f, e <> Change m' f) ->
    description (step (run (initial files) h) e) m = description (run (initial files) h) m.
  Proof.
    intros files h e m L N. destruct (nth_error (s_models (run (initial files) h)) m) as [x|] eqn:E; [|apply nth_error_None in E; lia].
    apply (step_description default abspath parse supported yaml_dump _ _ m x); [apply run_well, initial_well|exact E|]. intros m' x' f Ee. destruct (N m' f Ee).
  Qed.

  (** C103: the program only writes to its output file: every other file, also the basis, is as it was whenever the program dies. *)
  Theorem C103_only_output_written : forall files base out out_first parts interrupt n q,
    q <> abspath (if text_eqb out (codes "-") then codes "<stdout>" else out) ->
    files_after files (fst (main files base out out_first parts interrupt)) n q = files q.
  Proof.
    intros files base out b parts i n q N. unfold files_after. apply write_all_other.
    assert (F := main_writes default abspath parse supported yaml_dump files base out b parts i).
    apply Forall_forall. intros w I. assert (I' : In w (fst (main files base out b parts i))).
    { rewrite <- (firstn_skipn n (fst (main files base out b parts i))). apply in_or_app. now left. }
    rewrite Forall_forall in F. rewrite (F w I'). intros E. apply N. symmetry. exact E.
  Qed.
  (** C103 does not hold in place: if the basis is the output file, as the program advises after an interruption, the file is emptied before it
      is read, the program fails, and all measurements are lost. *)
  Theorem C103_in_place_refuted : forall files base out out_first parts interrupt t,
    out <> codes "-" -> abspath base = abspath out -> files (abspath base) = Some t -> parse [] = Ok None ->
    let r := main files (Some base) out out_first parts interrupt in
    snd r = Err TypeError /\ (forall n, (0 < n)%nat -> files_after files (fst r) n (abspath base) = Some []).
  Proof.
    intros files base out b parts i t No E Ht Hp. cbv zeta.
    assert (O : opened abspath out = [(abspath out, [])]) by (unfold opened; now rewrite text_eqb_neq).
    assert (P : write_all files (opened abspath out) (abspath base) = Some []) by (rewrite O, E; cbn; unfold put; now rewrite text_eqb_refl).
    assert (M : main files (Some base) out b parts i = (opened abspath out, Err TypeError)).
    { unfold LifeModel.main, basis. rewrite P. destruct b; rewrite ?P, ?Ht, Hp; reflexivity. }
    rewrite M. split; [reflexivity|]. intros [|n] Hn; [lia|]. unfold files_after. cbn [fst].
    rewrite firstn_all2 by (rewrite O; cbn; lia). exact P.
  Qed.

  (** C104: if the program ends well, the output is the description after all parts, or after the parts before the interruption. *)
  Theorem C104_saved_at_end : forall files base out out_first parts interrupt ws d,
    main files base out out_first parts interrupt = (ws, Ok tt) -> snd (basis default abspath parse supported files base out out_first) = Ok d ->
    let k := match interrupt with Some k => k | None => List.length parts end in
    exists d' t, after_parts (map p_change parts) k d = Ok d' /\ yaml_dump d' = Ok t
      /\ files_after files ws (List.length ws) (abspath (if text_eqb out (codes "-") then codes "<stdout>" else out)) = Some t.
  Proof.
    intros files base out b parts i ws d H Hb. cbv zeta. unfold LifeModel.main in H. destruct (basis default abspath parse supported files base out b) as [ws0 r]. cbn in Hb. subst r.
    destruct (update_parts abspath yaml_dump (output_name out) parts i d) as [ws1 [d'|e]] eqn:U; [|discriminate].
    destruct (dump abspath yaml_dump d' None (Some (output_name out))) as [ws2|] eqn:D; [|discriminate]. injection H as <-.
    destruct (dump_writes abspath yaml_dump _ _ _ _ D) as (t & p & Ht & Hp & ->). apply save_path in Hp. subst p.
    exists d', t. split; [|split; [exact Ht|]].
    - apply parts_done in U. destruct i as [k|]; [|exact U]. unfold done in U. rewrite <- (map_length p_change) in U. rewrite after_parts_min in U. exact U.
    - unfold files_after. rewrite firstn_all. change (if text_eqb out (codes "-") then codes "<stdout>" else out) with (output_name out).
      replace (ws0 ++ ws1 ++ [(abspath (output_name out), []); (abspath (output_name out), t)]) with ((ws0 ++ ws1 ++ [(abspath (output_name out), [])]) ++ [(abspath (output_name out), t)])
        by (rewrite <- !app_assoc; reflexivity).
      apply write_all_last.
  Qed.
  (** C104, at every crash: the output is as before the program, empty, or the complete description after some of the parts. What is missing: that
      it is never empty again after a description was saved, which does not hold. *)
  Theorem C104_at_every_crash_partial : forall files base out out_first parts interrupt n d,
    snd (basis default abspath parse supported files base out out_first) = Ok d ->
    let p := abspath (if text_eqb out (codes "-") then codes "<stdout>" else out) in
    let c := files_after files (fst (main files base out out_first parts interrupt)) n p in
    c = files p \/ c = Some [] \/ exists k d' t, after_parts (map p_change parts) k d = Ok d' /\ yaml_dump d' = Ok t /\ c = Some t.
  Proof.
    intros files base out b parts i n d Hb p c.
    assert (G : forall ws : list (text * text), Forall (fun w => fst w = p) ws -> Forall (reached yaml_dump (map p_change parts) d) ws ->
      write_all files ws p = files p \/ write_all files ws p = Some [] \/ exists k d' t, after_parts (map p_change parts) k d = Ok d' /\ yaml_dump d' = Ok t /\ write_all files ws p = Some t).
    { intros ws. induction ws as [|[q t] ws IH] using rev_ind; intros F R; [now left|]. apply Forall_app in F, R. destruct F as [_ F], R as [_ R].
      inversion F as [|? ? Fq _]; subst. inversion R as [|? ? Rq _]; subst. cbn in Fq. subst q. right. rewrite write_all_last. destruct Rq as [E|(k & d' & A & B)]; cbn in *.
      - left. now rewrite E.
      - right. exists k, d', t. auto. }
    unfold c, files_after. apply G.
    - assert (F := main_writes default abspath parse supported yaml_dump files base out b parts i). rewrite <- (firstn_skipn n) in F. apply Forall_app in F. exact (proj1 F).
    - assert (R : Forall (reached yaml_dump (map p_change parts) d) (fst (main files base out b parts i))).
      { assert (Bw : Forall (reached yaml_dump (map p_change parts) d) (fst (basis default abspath parse supported files base out b))).
        { destruct (basis_writes default abspath parse supported files base out b) as [->| ->]; [constructor|]. unfold opened. destruct (text_eqb out standard_output); [constructor|].
          apply Forall_cons; [now left|apply Forall_nil]. }
        unfold LifeModel.main. destruct (basis default abspath parse supported files base out b) as [ws0 r]. cbn in Hb, Bw. subst r.
        pose proof (parts_reached abspath yaml_dump (output_name out) parts i d) as P. destruct (update_parts abspath yaml_dump (output_name out) parts i d) as [ws1 [d'|e]] eqn:U; cbn [fst] in *.
        - destruct (dump abspath yaml_dump d' None (Some (output_name out))) as [ws2|] eqn:D; cbn [fst].
          + destruct (dump_writes abspath yaml_dump _ _ _ _ D) as (t & q & Ht & Hq & ->). apply Forall_app. split; [exact Bw|]. apply Forall_app. split; [exact P|].
            apply Forall_cons; [now left|]. apply Forall_cons; [|apply Forall_nil]. right. exists (done parts i), d'. split; [|exact Ht]. now apply (parts_done _ _ _ _ _ _ _ _ U).
          + apply Forall_app. auto.
        - apply Forall_app. auto. }
      rewrite <- (firstn_skipn n) in R. apply Forall_app in R. exact (proj1 R).
  Qed.
  (** C104 fails with a library that, as ruamel.yaml does, refuses to dump without a stream: the program never ends well, and the output is empty. *)
  Theorem C104_without_stream_refuted : forall files base out out_first parts interrupt d, out <> codes "-" ->
    (forall d, yaml_dump d = Err TypeError) -> snd (basis default abspath parse supported files base out out_first) = Ok d ->
    let r := main files base out out_first parts interrupt in
    (exists e, snd r = Err e) /\ files_after files (fst r) (List.length (fst r)) (abspath out) = Some [].
  Proof.
    intros files base out b parts i d No Y Hb. cbv zeta.
    assert (O : fst (basis default abspath parse supported files base out b) = opened abspath out).
    { revert Hb. unfold basis. destruct base as [p|]; [|reflexivity]. match goal with |- context [match ?q with Some _ => _ | None => _ end] => destruct q end; [reflexivity|discriminate]. }
    assert (O' : opened abspath out = [(abspath out, [])]) by (unfold opened; now rewrite text_eqb_neq).
    unfold LifeModel.main. destruct (basis default abspath parse supported files base out b) as [ws0 r]. cbn in Hb, O. subst r ws0.
    pose proof (parts_no_yaml abspath yaml_dump (output_name out) parts i d (fun d => ex_intro _ TypeError (Y d))) as P.
    destruct (update_parts abspath yaml_dump (output_name out) parts i d) as [ws1 [d'|e]]; cbn [fst] in P; subst ws1.
    - unfold dump. rewrite Y. cbn [bind fst snd]. split; [eauto|]. rewrite app_nil_r, O'. unfold files_after. cbn. unfold put. now rewrite text_eqb_refl.
    - cbn [fst snd]. split; [eauto|]. rewrite app_nil_r, O'. unfold files_after. cbn. unfold put. now rewrite text_eqb_refl.
  Qed.
  (** C104: what a model saves is read again by another process, from the path that was given or else the one that was set last; no other file changes. *)
  Theorem C104_saved_and_loaded : forall files h m given p d t, description (run (initial files) h) m = Some d -> p <> [] ->
    (given = Some p \/ given = None /\ exists h1 h2, h = h1 ++ SetPath m p :: h2 /\ (m < List.length (s_models (run (initial files) h1)))%nat /\ (forall q, ~ In (SetPath m q) h2)) ->
    yaml_dump d = Ok t -> parse t = Ok (Some d) -> supported d = Ok tt ->
    let after := s_disk (step (run (initial files) h) (Dump m given)) in
    (exists st' m', new (initial after) (FromFile p) = (st', Ok m') /\ description st' m' = Some d)
    /\ (forall q, q <> abspath p -> after q = s_disk (run (initial files) h) q).
  Proof.
    intros files h m given p d t Hd Np G Y P S. cbv zeta.
    destruct (nth_error (s_models (run (initial files) h)) m) as [x|] eqn:Hx; [|unfold description in Hd; rewrite Hx in Hd; discriminate].
    assert (Sv : save_to abspath given (m_path x) = Ok (abspath p)).
    { destruct G as [->|(-> & h1 & h2 & -> & Lm & N)]; [destruct p; [congruence|reflexivity]|].
      assert (E : m_path x = Some p).
      { rewrite run_app in Hx. cbn [LifeModel.run fold_left] in Hx. change (nth_error (s_models (run (step (run (initial files) h1) (SetPath m p)) h2)) m = Some x) in Hx.
        refine (path_kept default abspath parse supported yaml_dump h2 _ m p x _ N Hx). apply path_set. exact Lm. }
      rewrite E. destruct p; [congruence|reflexivity]. }
    assert (A : s_disk (step (run (initial files) h) (Dump m given)) = put (abspath p) t (put (abspath p) [] (s_disk (run (initial files) h)))).
    { cbn [LifeModel.step]. rewrite Hx, Hd. unfold dump. rewrite Y. cbn [bind]. rewrite Sv. reflexivity. }
    rewrite A. split.
    - unfold LifeModel.new. assert (Ed : dictionary default abspath parse (initial (put (abspath p) t (put (abspath p) [] (s_disk (run (initial files) h))))) (FromFile p)
        = load abspath parse (initial (put (abspath p) t (put (abspath p) [] (s_disk (run (initial files) h))))) p) by (destruct p; [congruence|reflexivity]).
      rewrite Ed. unfold load. cbn [s_loaded initial tget s_disk]. unfold put at 1. rewrite text_eqb_refl, P. cbn. rewrite S. eexists _, _. split; reflexivity.
    - intros q Nq. unfold put. now rewrite text_eqb_neq.
  Qed.
End Life.

(** ** Examples: a description is a list of numbers; in a file, each number is a character. *)
Definition ex_parse (t : text) : res (option (list N)) := match t with [] => Ok None | 0%N :: _ => Err ValueError | _ => Ok (Some t) end.
Definition ex_supported (d : list N) : res unit := match d with 9%N :: _ => Err ValueError | _ => Ok tt end.
Definition ex_dump (d : list N) : res text := Ok d.
Definition ex_abspath (p : text) : text := match p with 47%N :: _ => p | _ => codes "/home/" ++ p end.
Definition ex_files : disk := put (codes "/home/a.yml") [1; 2]%N (put (codes "/home/b.yml") [1; 7]%N (put (codes "/home/old.yml") [9]%N (fun _ => None))).
Notation ex_run := (run [1%N] ex_abspath ex_parse ex_supported ex_dump).
Notation ex_new := (new [1%N] ex_abspath ex_parse ex_supported).
Definition ex_history : list (@event (list N)) := [New (FromFile (codes "b.yml")); New Nothing; Edit (codes "a.yml") [1; 3]%N; Change 0 (fun d => d ++ [5]%N)].

Example C102_example_first : exists st' m, ex_new (ex_run (initial ex_files) ex_history) (FromFile (codes "a.yml")) = (st', Ok m) /\ m = 2%nat
  /\ description st' m = Some [1; 3]%N /\ description st' 0 = Some [1; 7; 5]%N
  /\ (forall q, In (New (FromFile q)) ex_history -> ex_abspath q <> ex_abspath (codes "a.yml")).
Proof. eexists _, _. split; [vm_compute; reflexivity|]. do 3 (split; [vm_compute; reflexivity|]). intros q [[= <-]|[[=]|[[=]|[[=]|[]]]]]. discriminate. Qed.
Example C102_example_shared : exists st1 st2, ex_new (ex_run (initial ex_files) ex_history) (FromFile (codes "/home/a.yml")) = (st1, Ok 2%nat)
  /\ ex_new (ex_run st1 [Change 2 (fun d => d ++ [6]%N)]) (FromFile (codes "a.yml")) = (st2, Ok 3%nat)
  /\ description (ex_run st2 [Change 3 (fun d => d ++ [8]%N)]) 2 = Some [1; 3; 6; 8]%N
  /\ description (ex_run st2 [Change 3 (fun d => d ++ [8]%N)]) 0 = Some [1; 7; 5]%N.
Proof. eexists _, _. split; [vm_compute; reflexivity|]. do 2 (split; [vm_compute; reflexivity|]). vm_compute. reflexivity. Qed.
(** C102 does not hold for later models: the file is changed, but a new model has the old description, with the changes of other models. A
    description that was unsupported stays so after the file was corrected. *)
Theorem C102_later_models_refuted :
  (exists st1 st2 m, ex_new (initial ex_files) (FromFile (codes "a.yml")) = (st1, Ok m)
     /\ ex_new (ex_run st1 [Edit (codes "a.yml") [1; 4]%N; Change m (fun d => d ++ [8]%N)]) (FromFile (codes "a.yml")) = (st2, Ok 1%nat)
     /\ s_disk st2 (codes "/home/a.yml") = Some [1; 4]%N /\ ex_parse [1; 4]%N = Ok (Some [1; 4]%N) /\ description st2 1 = Some [1; 2; 8]%N)
  /\ (exists st1 st2, ex_new (initial ex_files) (FromFile (codes "old.yml")) = (st1, Err ValueError)
     /\ ex_new (ex_run st1 [Edit (codes "old.yml") [1; 4]%N]) (FromFile (codes "old.yml")) = (st2, Err ValueError)
     /\ s_disk st2 (codes "/home/old.yml") = Some [1; 4]%N /\ ex_supported [1; 4]%N = Ok tt).
Proof. split; [eexists _, _, _|eexists _, _]; (split; [vm_compute; reflexivity|]); (split; [vm_compute; reflexivity|]); vm_compute; auto. Qed.

(** A run with a basis, three parts of which two are saved, interrupted before the third *)
Definition ex_parts : list (@part (list N)) :=
  [mkPart (fun d => Ok (d ++ [20]%N)) false; mkPart (fun d => Ok (d ++ [30]%N)) true; mkPart (fun d => Ok (d ++ [40]%N)) true; mkPart (fun d => Ok (d ++ [50]%N)) false].
Notation ex_main := (main [1%N] ex_abspath ex_parse ex_supported ex_dump).
Example C104_example :
  ex_main ex_files (Some (codes "a.yml")) (codes "b.yml") true ex_parts (Some 2%nat)
  = ([(codes "/home/b.yml", []); (codes "/home/b.yml", []); (codes "/home/b.yml", [1; 2; 20; 30]%N); (codes "/home/b.yml", []); (codes "/home/b.yml", [1; 2; 20; 30]%N)], Ok tt)
  /\ snd (basis [1%N] ex_abspath ex_parse ex_supported ex_files (Some (codes "a.yml")) (codes "b.yml") true) = Ok [1; 2]%N
  /\ after_parts (map p_change ex_parts) 2 [1; 2]%N = Ok [1; 2; 20; 30]%N
  /\ files_after ex_files (fst (ex_main ex_files (Some (codes "a.yml")) (codes "b.yml") true ex_parts (Some 2%nat))) 3 (codes "/home/a.yml") = Some [1; 2]%N.
Proof. vm_compute. auto. Qed.
Example C104_example_saved : exists t, description (ex_run (initial ex_files) (ex_history ++ [SetPath 0 (codes "c.yml"); Change 0 (fun d => d ++ [6]%N)])) 0 = Some [1; 7; 5; 6]%N
  /\ s_disk (ex_run (initial ex_files) (ex_history ++ [SetPath 0 (codes "c.yml"); Change 0 (fun d => d ++ [6]%N); Dump 0 None])) (codes "/home/c.yml") = Some t
  /\ ex_parse t = Ok (Some [1; 7; 5; 6]%N).
Proof. eexists. vm_compute. auto. Qed.
Example C103_example_in_place :
  ex_main ex_files (Some (codes "a.yml")) (codes "a.yml") false ex_parts None = ([(codes "/home/a.yml", [])], Err TypeError) /\ ex_parse [] = Ok None.
Proof. vm_compute. auto. Qed.
Example C104_example_without_stream :
  main [1%N] ex_abspath ex_parse ex_supported (fun _ => Err TypeError) ex_files (Some (codes "a.yml")) (codes "b.yml") true ex_parts None = ([(codes "/home/b.yml", [])], Err TypeError).
Proof. vm_compute. reflexivity. Qed.
(** C104 does not hold at every crash: after the second save has begun, nothing is left of what the first one wrote. And the description is not
    written to the standard output if that is asked for, but to a file with the name "<stdout>". *)
Theorem C104_saved_measurements_stay_refuted :
  (let ws := fst (ex_main ex_files (Some (codes "a.yml")) (codes "b.yml") true ex_parts None) in
   files_after ex_files ws 3 (codes "/home/b.yml") = Some [1; 2; 20; 30]%N /\ files_after ex_files ws 4 (codes "/home/b.yml") = Some [])
  /\ (let ws := fst (ex_main ex_files (Some (codes "a.yml")) (codes "-") true ex_parts None) in
      files_after ex_files ws (List.length ws) (codes "/home/<stdout>") = Some [1; 2; 20; 30; 40; 50]%N).
Proof. vm_compute. auto. Qed.

(** ** Age of intermediate files *)
(** C105: with a machine file, an intermediate file is used exactly if it is newer than the machine file, than every file in the directory of
    kerncraft, than the kernel, and than 1970. What is missing: this holds for the first check in a process only (see below). *)
Theorem C105_used_iff_newer_partial : forall f machine t kernel now zone,
  check_freshness None (Some f) (File (Some machine)) t (Some kernel) now zone = Ok true <->
  newer_than_all f (fun x => x = machine \/ LifeProofs.found t x \/ x = kernel \/ x = 0).
Proof.
  intros f machine t kernel now zone. cbn. destruct (latest_spec t 0) as (A & B & C). split.
  - destruct (Z.ltb_spec machine f) as [H1|]; [|discriminate]. cbn. destruct (Z.ltb_spec (latest t 0) f) as [H2|]; [|discriminate]. cbn.
    intros [= H3]. apply Z.ltb_lt in H3. intros x [->|[F|[->| ->]]]; try lia. specialize (B x F). lia.
  - intros N. assert (H1 : machine < f) by (apply N; auto). assert (H3 : kernel < f) by (apply N; auto).
    assert (H2 : latest t 0 < f) by (destruct C as [C|C]; [rewrite C; apply N; auto|apply N; auto]).
    apply Z.ltb_lt in H1, H2, H3. rewrite H1, H2. cbn. now rewrite H3.
Qed.
(** C105: without an intermediate file there is nothing to use, and a missing input is an error instead of an answer. *)
Theorem C105_missing_files : forall cache f m t kernel now zone,
  check_freshness cache None m t kernel now zone = Ok false
  /\ check_freshness cache (Some f) (File None) t kernel now zone = Err OSError
  /\ check_freshness cache (Some f) m t None now zone <> Ok true.
Proof.
  intros. split; [reflexivity|]. split; [reflexivity|]. cbn. destruct (machine_modified m now zone); cbn; [|discriminate].
  destruct (negb _); [discriminate|]. destruct (negb _); discriminate.
Qed.
(** C105: a machine description that is not in a file was made just now: nothing is used, if the local time is not behind UTC. *)
Theorem C105_no_file_never_used_partial : forall cache f t kernel now zone, 0 <= zone -> f <= now -> check_freshness cache (Some f) NoFile t kernel now zone = Ok false.
Proof. intros. cbn. destruct (Z.ltb_spec (now + zone) f); [lia|reflexivity]. Qed.
(** C105 does not hold west of Greenwich: five hours behind UTC, a file of one hour ago is used for every description that is not in a file. And
    kerncraft's own files are looked at once per process: a later change of them is not noticed. *)
Definition ex_tree : tree := Dir [Some 1000; None] [Dir [Some 3000] []; Dir [] [Dir [Some 2000] []]].
Theorem C105_used_although_older_refuted :
  check_freshness None (Some 96400) NoFile ex_tree (Some 500) 100000 (-18000) = Ok true
  /\ (exists cache m, kerncraft_modified None ex_tree = (cache, m)
      /\ check_freshness cache (Some 5000) (File (Some 400)) (Dir [Some 9000] []) (Some 500) 10000 0 = Ok true
      /\ LifeProofs.found (Dir [Some 9000] []) 9000).
Proof.
  split; [reflexivity|]. eexists _, _. split; [reflexivity|]. split; [reflexivity|]. apply found_here. now left.
Qed.
Example C105_example : check_freshness None (Some 5000) (File (Some 400)) ex_tree (Some 500) 10000 0 = Ok true
  /\ check_freshness None (Some 3000) (File (Some 400)) ex_tree (Some 500) 10000 0 = Ok false /\ LifeProofs.found ex_tree 3000.
Proof. split; [reflexivity|]. split; [reflexivity|]. apply (found_below _ _ _ _ (Dir [Some 3000] [])); [now left|]. apply found_here. now left. Qed.

Print Assumptions C102_first_model_of_file.
Print Assumptions C102_models_of_one_file_agree.
Print Assumptions C102_other_models_untouched.
Print Assumptions C102_kept_until_changed.
Print Assumptions C102_removed.
Print Assumptions C102_later_models_refuted.
Print Assumptions C103_only_output_written.
Print Assumptions C103_in_place_refuted.
Print Assumptions C104_saved_at_end.
Print Assumptions C104_at_every_crash_partial.
Print Assumptions C104_saved_and_loaded.
Print Assumptions C105_missing_files.
Print Assumptions C104_without_stream_refuted.
Print Assumptions C104_saved_measurements_stay_refuted.
Print Assumptions C105_used_iff_newer_partial.
Print Assumptions C105_no_file_never_used_partial.
Print Assumptions C105_used_although_older_refuted.
