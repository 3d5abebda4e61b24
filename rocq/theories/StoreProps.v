(** C45 *)
From Coq Require Import Lia.
From Verif Require Import PyBase StoreModel StoreSpec StoreProofs.
Local Open Scope N_scope.
Local Open Scope list_scope.

(** Results are kept: wherever a run with the option --store is killed, loading the file finds the old results together with those of some number
    of complete combinations of constants: either the unchanged old content or the complete new content after one of the combinations. All that is assumed about
    pickle is that it reads what it wrote and that an empty file raises EOFError. *)
Theorem C45_crash : forall pickle unpickle, (forall s, unpickle (pickle s) = Loaded s) -> unpickle [] = EndOfFile ->
  forall f old batches steps done rest, load unpickle f = Ok old -> proper old -> run pickle unpickle f batches = Ok steps -> steps = done ++ rest ->
  exists k new, (k <= length batches)%nat /\ load unpickle (do_steps f done) = Ok new /\ (k = 0%nat -> store (do_steps f done) = store f) /\
    (k <> 0%nat -> store (do_steps f done) = Some (pickle new)) /\ proper new /\
    forall i r, stored new i r <-> last_result (concat (firstn k batches)) i r \/ (~ mentioned (concat (firstn k batches)) i /\ stored old i r).
Proof.
  intros pickle unpickle HP HE f old batches steps done rest L P R ->. unfold run in R. rewrite L in R. cbn in R. injection R as R.
  destruct (run_crash pickle batches old f done rest R) as [S|(k & K & S)].
  - exists 0%nat, old. split; [lia|]. split; [unfold load in *; now rewrite S|]. split; [easy|]. split; [easy|]. split; [easy|]. intros i r. cbn.
    split; [intros I; right; split; [easy|easy]|]. intros [(a & b & E & _)|[_ I]]; [destruct a; discriminate|easy].
  - destruct (put_results_spec (concat (firstn k batches)) old P) as [P' Q]. exists k, (put_results old (concat (firstn k batches))).
    split; [lia|]. split; [unfold load; now rewrite S, HP|]. split; [lia|]. auto.
Qed.
Print Assumptions C45_crash.
(** A complete run stores the results of every combination. *)
Theorem C45_complete : forall pickle unpickle, (forall s, unpickle (pickle s) = Loaded s) -> unpickle [] = EndOfFile ->
  forall f old batches steps, load unpickle f = Ok old -> proper old -> run pickle unpickle f batches = Ok steps -> batches <> [] ->
  exists new, load unpickle (do_steps f steps) = Ok new /\ temp (do_steps f steps) = None /\
    forall i r, stored new i r <-> last_result (concat batches) i r \/ (~ mentioned (concat batches) i /\ stored old i r).
Proof.
  intros pickle unpickle HP HE f old batches steps L P R N. unfold run in R. rewrite L in R. cbn in R. injection R as <-.
  exists (put_results old (concat batches)). split; [unfold load; now rewrite (run_done pickle batches old f N), HP|].
  split; [|now apply put_results_spec].
  clear HP HE L P. revert old f. induction batches as [|b batches IH]; intros old f; [easy|]. cbn [run_steps]. rewrite steps_app, save_done.
  destruct batches; [easy|]. apply IH. discriminate.
Qed.
Print Assumptions C45_complete.
(** A file that cannot be read is left alone. *)
Theorem C45_broken : forall pickle unpickle f t batches, store f = Some t -> unpickle t = Broken -> run pickle unpickle f batches = Err RuntimeError.
Proof. intros pickle unpickle f t batches S B. unfold run, load. now rewrite S, B. Qed.
Print Assumptions C45_broken.
(** But an unreadable file which ends too early is taken for an empty one, and its content is replaced. *)
Theorem C45_truncated_refuted : forall pickle unpickle f t b, (forall s, unpickle (pickle s) = Loaded s) -> store f = Some t -> unpickle t = EndOfFile ->
  exists steps, run pickle unpickle f [b] = Ok steps /\ store (do_steps f steps) = Some (pickle (put_results [] b)).
Proof.
  intros pickle unpickle f t b HP S B. exists (run_steps pickle [] [b]). unfold run, load. rewrite S, B. split; [easy|].
  rewrite run_done by discriminate. cbn. now rewrite app_nil_r.
Qed.
Print Assumptions C45_truncated_refuted.
(** Two runs at the same time: the second one removes the results of the first. *)
Theorem C45_concurrent_refuted : forall pickle unpickle, (forall s, unpickle (pickle s) = Loaded s) -> forall f old a b sa sb, load unpickle f = Ok old -> proper old ->
  run pickle unpickle f [a] = Ok sa -> run pickle unpickle f [b] = Ok sb ->
  exists new, load unpickle (do_steps f (sa ++ sb)) = Ok new /\ forall i r, mentioned a i -> ~ mentioned b i -> ~ mentioned old i -> ~ stored new i r.
Proof.
  intros pickle unpickle HP f old a b sa sb L P Ra Rb. unfold run in Ra, Rb. rewrite L in Ra, Rb. cbn [bind] in Ra, Rb. assert (Ea : sa = run_steps pickle old [a]) by congruence. assert (Eb : sb = run_steps pickle old [b]) by congruence. rewrite Ea, Eb. clear Ra Rb Ea Eb.
  exists (put_results old b). split.
  - unfold load. rewrite steps_app, run_done by discriminate. cbn [concat]. now rewrite app_nil_r, HP.
  - intros i r Ia Ib Io I. apply (proj1 (proj2 (put_results_spec b old P) i r)) in I as [(x & y & -> & _)|[_ I]].
    + apply Ib. unfold mentioned. rewrite map_app. apply in_or_app. right. now left.
    + apply Io. now apply (in_map fst) in I.
Qed.
Print Assumptions C45_concurrent_refuted.
(** As both use the same temporary file, even results from before may be lost: some schedule of the steps of two runs leaves an empty file, which the next run takes for
    an empty storage. *)
Theorem C45_shared_refuted : forall pickle unpickle, unpickle [] = EndOfFile -> forall f old a b, load unpickle f = Ok old ->
  exists sa sb rest, run pickle unpickle f [a] = Ok sa /\ run pickle unpickle f [b] = Ok (sb ++ rest) /\
    exists before, sa = before ++ [Move] /\ store (do_steps f (before ++ sb ++ [Move])) = Some [] /\ load unpickle (do_steps f (before ++ sb ++ [Move])) = Ok [].
Proof.
  intros pickle unpickle HE f old a b L. exists (save_steps pickle (put_results old a)), [OpenTemp], (map WriteTemp (pickle (put_results old b)) ++ [Move]).
  unfold run. rewrite L. cbn [bind run_steps]. rewrite !app_nil_r. split; [easy|]. split; [easy|].
  exists (OpenTemp :: map WriteTemp (pickle (put_results old a))). split; [easy|].
  assert (S : store (do_steps f ((OpenTemp :: map WriteTemp (pickle (put_results old a))) ++ [OpenTemp] ++ [Move])) = Some []) by (rewrite !steps_app; easy).
  split; [easy|]. unfold load. now rewrite S, HE.
Qed.
Print Assumptions C45_shared_refuted.
(** picklemerge rewrites the file in place: killed after its first step, nothing is left of the destination. *)
Theorem C45_merge_refuted : forall pickle unpickle, unpickle [] = EndOfFile -> forall f merged, exists done rest,
  merge_steps pickle merged = done ++ rest /\ store (do_steps f done) = Some [] /\ load unpickle (do_steps f done) = Ok [].
Proof.
  intros pickle unpickle HE f merged. exists [TruncateStore], (map WriteStore (pickle merged)). split; [easy|]. split; [easy|]. unfold load. cbn. now rewrite HE.
Qed.
Print Assumptions C45_merge_refuted.
(** A complete merge writes the merged dictionary. *)
Theorem C45_merge : forall pickle unpickle, (forall s, unpickle (pickle s) = Loaded s) -> forall f merged, load unpickle (do_steps f (merge_steps pickle merged)) = Ok merged.
Proof.
  intros pickle unpickle HP f merged. unfold merge_steps. cbn. set (g := mkFiles (Some []) (temp f)).
  assert (W : forall l h t, store h = Some t -> store (do_steps h (map WriteStore l)) = Some (t ++ l)).
  { clear. induction l as [|b l IH]; intros h t E; cbn; [now rewrite app_nil_r|]. unfold do_steps in IH. rewrite (IH _ (t ++ [b])); [now rewrite <- app_assoc|]. cbn. now rewrite E. }
  unfold load. fold (do_steps g (map WriteStore (pickle merged))). now rewrite (W (pickle merged) g []), app_nil_l, HP.
Qed.
Print Assumptions C45_merge.

(** ** Cases *)
(** A pickle format: the number of entries first, then identifiers and results *)
Definition toy_pickle (s : storage) : list N := N.of_nat (length s) :: concat (map (fun p => [fst p; snd p]) s).
Fixpoint toy_read (n : nat) (l : list N) : loaded :=
  match n, l with
  | O, _ => Loaded []
  | S n', k :: v :: l' => match toy_read n' l' with Loaded s => Loaded ((k, v) :: s) | e => e end
  | S _, _ => EndOfFile
  end.
Definition toy_unpickle (l : list N) : loaded := match l with [] => EndOfFile | n :: l' => toy_read (N.to_nat n) l' end.
Example C45_toy : (forall s, toy_unpickle (toy_pickle s) = Loaded s) /\ toy_unpickle [] = EndOfFile.
Proof.
  split; [|easy]. intros s. unfold toy_unpickle, toy_pickle. rewrite Nnat.Nat2N.id. induction s as [|[k v] s IH]; [easy|]. cbn [length map concat toy_read]. cbn. now rewrite IH.
Qed.
(** Results 10 and 20 of identifiers 1 and 2 are stored; a run analyses 2 again (21) and then 3 (30), and is killed while writing the second time. *)
Example C45_crash_case : let f := mkFiles (Some (toy_pickle [(1, 10); (2, 20)])) (Some [99]) in exists steps,
  run toy_pickle toy_unpickle f [[(2, 21)]; [(3, 30)]] = Ok steps /\ length steps = 16%nat /\
  do_steps f (firstn 4 steps) = mkFiles (Some [2; 1; 10; 2; 20]) (Some [2; 1; 10]) /\
  do_steps f (firstn 10 steps) = mkFiles (Some [2; 1; 10; 2; 21]) (Some [3; 1]) /\ do_steps f steps = mkFiles (Some [3; 1; 10; 2; 21; 3; 30]) None.
Proof. eexists. vm_compute. repeat split. Qed.
Example C45_first_case : run toy_pickle toy_unpickle (mkFiles (Some []) None) [[(7, 70)]] = Ok [OpenTemp; WriteTemp 1; WriteTemp 7; WriteTemp 70; Move].
Proof. reflexivity. Qed.
