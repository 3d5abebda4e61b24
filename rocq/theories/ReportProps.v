(** C120-C123: reports *)
From Coq Require Import String Lia Lqa Permutation.
From Verif Require Import PyBase PyNum PyNumFacts PyText PyInt PyFloat EcmModel EcmSpec EcmProofs BwModel BwSpec BwProofs ReportModel ReportSpec ReportProofs.
Local Open Scope Q_scope.
Local Open Scope list_scope.

(** ** C120: the ECM report *)
Lemma plain_join a b : plain_word a -> plain_word b -> plain_word (codes "T_" ++ a ++ b).
Proof.
  intros (_ & A1 & A2 & A3) (_ & B1 & B2 & B3). split; [discriminate|]. repeat split; intros I; apply in_app_or in I as [[I|[I|[]]]|I]; try discriminate; apply in_app_or in I as [I|I]; contradiction.
Qed.
Lemma transfers_plain levels : forall previous, plain_word previous -> Forall (fun l => plain_word (fst (fst l))) levels -> Forall (fun t => plain_word (fst (snd t))) (transfers previous levels).
Proof.
  induction levels as [|[[name o] cy] levels IH]; intros previous P F; [apply Forall_nil|]. inversion F as [|? ? N F']; subst. cbn [fst] in N. cbn [transfers]. apply Forall_cons; [cbn [fst snd]; now apply plain_join|now apply IH].
Qed.
Lemma plain_literal s : forallb (fun c => negb (N.eqb c 44) && negb (N.eqb c 40) && negb (N.eqb c 41)) s = true -> s <> [] -> plain_word s.
Proof.
  intros F N. rewrite forallb_forall in F. split; [exact N|]. repeat split; intros I; apply F in I; discriminate I.
Qed.
Lemma items_plain comp regl1 first_name first levels penalty x : plain_word first_name -> Forall (fun l => plain_word (fst (fst l))) levels ->
  construction comp regl1 first_name first levels penalty = Ok x -> Forall plain_word (map fst (fst x)) /\ Forall plain_word (map fst (snd x)) /\ fst x <> [].
Proof.
  intros P F C. apply construction_spec in C as (-> & ->). assert (T := transfers_plain levels first_name P F). rewrite !Forall_forall in *.
  assert (A : forall t, In t ((first, (codes "T_RegL1", regl1)) :: transfers first_name levels) -> plain_word (fst (snd t))).
  { intros t [<-|I]; [|now apply T]. apply plain_literal; [reflexivity|discriminate]. }
  split; [|split; [|discriminate]].
  - intros s I. apply in_map_iff in I as (i & <- & [<-|I]); [apply plain_literal; [reflexivity|discriminate]|]. apply in_map_iff in I as (t & <- & I). apply filter_In in I as (I & _). now apply A.
  - intros s I. apply in_map_iff in I as (i & <- & I). apply in_app_or in I as [I|I].
    + apply in_map_iff in I as (t & <- & I). apply filter_In in I as (I & _). now apply A.
    + destruct (Qeq_bool penalty 0); [destruct I|]. destruct I as [<-|[]]. apply plain_literal; [reflexivity|discriminate].
Qed.
(** The two lines can be read in one way only. The first gives the names and the second the cycles of the contributions in the same order, rounded to one digit:
    in the maximum the computation and all transfers which overlap, in the sum the others and the penalty if there is one. *)
Theorem C120_formula : forall comp regl1 first_name first levels penalty x,
  plain_word first_name -> Forall (fun l => plain_word (fst (fst l))) levels -> construction comp regl1 first_name first levels penalty = Ok x ->
  let all := (first, (codes "T_RegL1", regl1)) :: transfers first_name levels in
  let serial := map snd (filter (fun t => negb (fst t)) all) ++ (if Qeq_bool penalty 0 then [] else [(codes "T_penalty", penalty)]) in
  let overlapping := (codes "T_comp", comp) :: map snd (filter fst all) in
  (exists l s, reads_formula (construction_text x) l s) /\ (exists l s, reads_formula (value_text x) l s) /\
  (forall l s, reads_formula (construction_text x) l s -> l = map fst overlapping /\ s = map fst serial) /\
  (forall l s, reads_formula (value_text x) l s -> Forall2 shows l (map snd overlapping) /\ Forall2 shows s (map snd serial)).
Proof.
  intros comp regl1 first_name first levels penalty x P F C all serial overlapping. destruct (items_plain comp regl1 first_name first levels penalty x P F C) as (P1 & P2 & NE).
  assert (R1 : reads_formula (construction_text x) (map fst (fst x)) (map fst (snd x))).
  { apply formula_read; [|exact P1|exact P2]. destruct (fst x); [easy|discriminate]. }
  assert (R2 : reads_formula (value_text x) (map (fun i => fixed1 (snd i)) (fst x)) (map (fun i => fixed1 (snd i)) (snd x))).
  { apply formula_read; [destruct (fst x); [easy|discriminate]| |]; apply Forall_forall; intros s I; apply in_map_iff in I as (i & <- & _); apply fixed1_plain. }
  apply construction_spec in C as (E1 & E2). fold all in E1, E2.
  split; [eauto|]. split; [eauto|]. split; intros l s R.
  - destruct (formula_unique _ _ _ _ _ R R1) as (-> & ->). unfold overlapping, serial. now rewrite <- E1, <- E2.
  - destruct (formula_unique _ _ _ _ _ R R2) as (-> & ->). unfold overlapping, serial. rewrite <- E1, <- E2. clear.
    assert (G : forall l : list item, Forall2 shows (map (fun i => fixed1 (snd i)) l) (map snd l)) by (induction l; constructor; auto using shows_fixed). split; apply G.
Qed.
(** The value of the formula as it is printed differs from the total by at most half a digit for each number in the sum. *)
Theorem C120_value : forall comp regl1 first_name first levels penalty x l s vs ss,
  plain_word first_name -> Forall (fun l => plain_word (fst (fst l))) levels -> construction comp regl1 first_name first levels penalty = Ok x ->
  reads_formula (value_text x) l s -> map py_float l = map (fun v => Some (Fin v)) vs -> map py_float s = map (fun v => Some (Fin v)) ss ->
  exists y, compose comp regl1 first (map (fun l => (snd (fst l), snd l)) levels) penalty = Ok y /\
    let e := (1 # 20) * inject_Z (Z.max 1 (Z.of_nat (List.length ss))) in total y - e <= formula_value vs ss <= total y + e.
Proof.
  intros comp regl1 first_name first levels penalty x l s vs ss P F C R V S.
  exists (map snd (fst x), map snd (snd x)). split; [rewrite (construction_compose _ _ first_name), C; reflexivity|].
  destruct (C120_formula comp regl1 first_name first levels penalty x P F C) as (_ & _ & _ & H). destruct (H l s R) as (A & B). apply construction_spec in C as (E1 & E2). rewrite <- E1 in A. rewrite <- E2 in B.
  assert (N : forall t xs, Forall2 shows t xs -> forall us, map py_float t = map (fun v => Some (Fin v)) us -> Forall2 (near (1 # 20)) us xs).
  { clear. induction 1 as [|a b t xs (v & R & B & _) F IH]; intros [|u us] E; try discriminate; constructor.
    - cbn in E. injection E as E _. rewrite R in E. injection E as <-. exact B.
    - apply IH. cbn in E. now injection E. }
  cbv zeta. rewrite total_formula. cbn [fst snd]. exact (formula_near vs ss _ _ (N _ _ A vs V) (N _ _ B ss S)).
Qed.
(** Within this bound it can be wrong by more than a printed digit. *)
Theorem C120_digits_refuted : exists comp regl1 levels x y, construction comp regl1 (codes "L1") false levels 0 = Ok x
  /\ compose comp regl1 false (map (fun l => (snd (fst l), snd l)) levels) 0 = Ok y /\ value_text x = codes "max(0.0, sum(0.0, 0.0, 0.0)) cy/CL" /\ fixed1 (total y) = codes "0.1".
Proof.
  exists 0, (1 # 25), [(codes "L2", false, 1 # 25); (codes "MEM", false, 1 # 25)]. do 2 eexists. repeat split; vm_compute; reflexivity.
Qed.
Lemma mapM_length {A B} (f : A -> res B) l : forall r, mapM f l = Ok r -> List.length r = List.length l.
Proof.
  induction l as [|a l IH]; intros r E; [injection E as <-; reflexivity|]. cbn [mapM] in E. destruct (f a); [|discriminate]. cbn [bind] in E.
  destruct (mapM f l) as [t|]; [|discriminate]. injection E as <-. cbn [List.length]. now rewrite (IH t eq_refl).
Qed.
Lemma scale_length T M numa socket sockets r : scale T M numa socket sockets = Ok r -> List.length (scaling_times r) = socket.
Proof.
  unfold scale. destruct (Qeq_bool M 0).
  - destruct (mapM _ (seq 1 socket)) as [t|] eqn:E; intros H; [|discriminate]. injection H as <-. cbn [scaling_times]. rewrite (mapM_length _ _ _ E). apply seq_length.
  - destruct (utilizations T M 1 numa 0 None) as [x|]; [|discriminate]. cbn [bind]. destruct (mapM _ (seq 1 socket)) as [t|] eqn:E; intros H; [|discriminate]. injection H as <-. cbn [scaling_times]. rewrite (mapM_length _ _ _ E). apply seq_length.
Qed.
(** The table: the columns are the cores of the socket, with the prediction for that number of cores. *)
Theorem C120_table : forall T M numa socket sockets r unit conv, scale T M numa socket sockets = Ok r -> (1 <= socket)%nat ->
  (exists cells, reads_row (codes "cores " ++ repeat 32%N (List.length unit + 2) ++ codes " || ") (cores_row unit (predictions r)) cells /\ cells <> []) /\
  (exists cells, reads_row (codes "perf. (" ++ unit ++ codes ") || ") (performance_row unit conv (predictions r)) cells /\ cells <> []) /\
  (forall cells, reads_row (codes "cores " ++ repeat 32%N (List.length unit + 2) ++ codes " || ") (cores_row unit (predictions r)) cells -> cells <> [] ->
     List.length cells = socket /\ forall i c, nth_error cells i = Some c -> py_int c = Some (Z.of_nat (S i))) /\
  (forall cells, reads_row (codes "perf. (" ++ unit ++ codes ") || ") (performance_row unit conv (predictions r)) cells -> cells <> [] ->
     List.length cells = socket /\ forall i c, nth_error cells i = Some c -> exists t, nth_error (scaling_times r) i = Some t /\ shows c (conv t)) /\
  List.length (codes "cores " ++ repeat 32%N (List.length unit + 2) ++ codes " || ") = List.length (codes "perf. (" ++ unit ++ codes ") || ").
Proof.
  intros T M numa socket sockets r unit conv SC S. assert (L := scale_length _ _ _ _ _ _ SC). clear SC.
  assert (LP : List.length (predictions r) = socket) by (unfold predictions; rewrite combine_length, seq_length; lia).
  assert (NP : forall i p, nth_error (predictions r) i = Some p -> exists t, p = (Datatypes.S i, t) /\ nth_error (scaling_times r) i = Some t).
  { intros i p E. assert (i < socket)%nat by (rewrite <- LP; apply nth_error_Some; congruence).
    destruct (nth_error (scaling_times r) i) as [t|] eqn:N; [|apply nth_error_None in N; lia]. exists t. split; [|reflexivity]. apply predictions_nth in N. congruence. }
  set (a := map (fun s => pad 5 (show_nat (N.of_nat (fst s)))) (predictions r)). set (b := map (fun s => pad 5 (fixed1 (conv (snd s)))) (predictions r)).
  assert (RA : reads_row (codes "cores " ++ repeat 32%N (List.length unit + 2) ++ codes " || ") (cores_row unit (predictions r)) a).
  { unfold cores_row. rewrite glue_bars. split; [rewrite <- !app_assoc; reflexivity|]. apply Forall_forall. intros c I. apply in_map_iff in I as (p & <- & _). apply pad_no_bar, digits_no_bar, show_nat_spec. }
  assert (RB : reads_row (codes "perf. (" ++ unit ++ codes ") || ") (performance_row unit conv (predictions r)) b).
  { unfold performance_row. rewrite glue_bars. split; [rewrite <- !app_assoc; reflexivity|]. apply Forall_forall. intros c I. apply in_map_iff in I as (p & <- & _). apply pad_no_bar.
    intros J. apply fixed1_chars in J as [J|[J|J]]; discriminate. }
  assert (NA : a <> []) by (unfold a; destruct (predictions r); [cbn in LP; lia|discriminate]).
  assert (NB : b <> []) by (unfold b; destruct (predictions r); [cbn in LP; lia|discriminate]).
  split; [eauto|]. split; [eauto|]. split; [|split].
  - intros cells R N. rewrite (row_unique _ _ cells a N NA R RA). split; [unfold a; now rewrite map_length|]. intros i c E. unfold a in E. rewrite nth_error_map in E.
    destruct (nth_error (predictions r) i) as [p|] eqn:Q; [|discriminate]. apply NP in Q as (t & -> & _). cbn [option_map fst] in E. injection E as <-. exact (read_cores (Datatypes.S i) 5).
  - intros cells R N. rewrite (row_unique _ _ cells b N NB R RB). split; [unfold b; now rewrite map_length|]. intros i c E. unfold b in E. rewrite nth_error_map in E.
    destruct (nth_error (predictions r) i) as [p|] eqn:Q; [|discriminate]. apply NP in Q as (t & -> & Q). cbn [option_map snd] in E. injection E as <-. exists t. split; [exact Q|]. apply shows_padded.
  - rewrite !app_length, repeat_length. cbn [codes List.length]. lia.
Qed.
(** The columns are below each other if the values take at most five characters. *)
Theorem C120_aligned : forall r unit conv, Forall (fun t => (List.length (fixed1 (conv t)) <= 5)%nat) (scaling_times r) ->
  Forall (fun n => (List.length (show_nat (N.of_nat n)) <= 5)%nat) (seq 1 (List.length (scaling_times r))) ->
  List.length (cores_row unit (predictions r)) = List.length (performance_row unit conv (predictions r)) /\
  Forall (fun p => List.length (pad 5 (show_nat (N.of_nat (fst p)))) = 5%nat /\ List.length (pad 5 (fixed1 (conv (snd p)))) = 5%nat) (predictions r).
Proof.
  intros r unit conv A B. assert (P : forall s, (List.length s <= 5)%nat -> List.length (pad 5 s) = 5%nat) by (intros s L; unfold pad; rewrite app_length, repeat_length; lia).
  assert (F : Forall (fun p => List.length (pad 5 (show_nat (N.of_nat (fst p)))) = 5%nat /\ List.length (pad 5 (fixed1 (conv (snd p)))) = 5%nat) (predictions r)).
  { apply Forall_forall. intros [n t] I. unfold predictions in I. rewrite Forall_forall in A, B. split; apply P.
    - apply B. now apply in_combine_l in I.
    - apply A. now apply in_combine_r in I. }
  split; [|exact F]. unfold cores_row, performance_row. rewrite !app_length, repeat_length. cbn [codes List.length].
  enough (G : forall l, Forall (fun p => List.length (pad 5 (show_nat (N.of_nat (fst p)))) = 5%nat /\ List.length (pad 5 (fixed1 (conv (snd p)))) = 5%nat) l ->
    List.length (glue bar (map (fun s => pad 5 (show_nat (N.of_nat (fst s)))) l)) = List.length (glue bar (map (fun s => pad 5 (fixed1 (conv (snd s)))) l))).
  { rewrite (G _ F). lia. }
  clear. intros l F. induction F as [|p l (X & Y) _ IH]; [reflexivity|]. destruct l as [|q l]; [cbn [map glue]; now rewrite X, Y|].
  change (map ?f (p :: q :: l)) with (f p :: map f (q :: l)). change (glue bar (?x :: map ?f (q :: l))) with (x ++ bar ++ glue bar (map f (q :: l))).
  rewrite !app_length, IH, X, Y. reflexivity.
Qed.
Print Assumptions C120_aligned.
(** The prediction chosen is that for the cores asked for, up to the number of cores of a socket. *)
Theorem C120_cores_partial : forall r cores, (1 <= cores <= Z.of_nat (List.length (scaling_times r)))%Z ->
  exists t, nth_error (scaling_times r) (Z.to_nat (cores - 1)) = Some t /\ multi_core (predictions r) cores = Ok (Some (Z.to_nat cores, t)).
Proof.
  intros r cores H. assert (L : List.length (predictions r) = List.length (scaling_times r)) by (unfold predictions; rewrite combine_length, seq_length; lia).
  destruct (nth_error (scaling_times r) (Z.to_nat (cores - 1))) as [t|] eqn:E; [|apply nth_error_None in E; lia]. exists t. split; [reflexivity|].
  apply predictions_nth in E. destruct (multi_core_spec (predictions r) cores) as (x & X & ->); [lia|]. rewrite X in E. injection E as ->. repeat f_equal. lia.
Qed.
(** More cores than one socket has are an exception, although machines have several sockets; negative numbers are counted from the end. *)
Theorem C120_cores_refuted :
  (forall r cores, (Z.of_nat (List.length (scaling_times r)) < cores)%Z -> multi_core (predictions r) cores = Err IndexError)
  /\ (exists T M r, scale T M 4 8 2 = Ok r /\ multi_core (predictions r) 9 = Err IndexError /\ exists t, multi_core (predictions r) (-1) = Ok (Some (7%nat, t))).
Proof.
  split.
  - intros r cores H. apply multi_core_beyond. unfold predictions. rewrite combine_length, seq_length. lia.
  - exists 10, 4. eexists. split; [vm_compute; reflexivity|]. split; [vm_compute; reflexivity|]. eexists. vm_compute. reflexivity.
Qed.
Print Assumptions C120_formula.
Print Assumptions C120_value.
Print Assumptions C120_digits_refuted.
Print Assumptions C120_table.
Print Assumptions C120_cores_partial.
Print Assumptions C120_cores_refuted.
Definition example_levels := [(codes "L2", false, 5 # 2); (codes "MEM", false, 31 # 7)].
Example C120_example : exists x r, construction (20 # 3) 4 (codes "L1") false example_levels 0 = Ok x
  /\ construction_text x = codes "max(T_comp, sum(T_RegL1, T_L1L2, T_L2MEM)) cy/CL" /\ value_text x = codes "max(6.7, sum(4.0, 2.5, 4.4)) cy/CL"
  /\ plain_word (codes "L1") /\ Forall (fun l => plain_word (fst (fst l))) example_levels
  /\ scale 10 4 2 3 1 = Ok r /\ List.length (scaling_times r) = 3%nat /\ cores_row (codes "cy/CL") (predictions r) = codes "cores         || 1     | 2     | 3    "
  /\ performance_row (codes "cy/CL") (fun t => t) (predictions r) = codes "perf. (cy/CL) || 10.0  | 5.4   | 3.6  ".
Proof.
  do 2 eexists. split; [vm_compute; reflexivity|]. split; [vm_compute; reflexivity|]. split; [vm_compute; reflexivity|].
  split; [apply plain_literal; [reflexivity|discriminate]|]. split; [repeat apply Forall_cons; try apply Forall_nil; (apply plain_literal; [reflexivity|discriminate])|].
  split; [vm_compute; reflexivity|]. repeat split; vm_compute; reflexivity.
Qed.

(** ** C121: layer conditions are reported with the size they hold for *)
(** If the conditions are computed in this run, the size printed is the one they were made for, whatever happened to the machine object before. *)
Theorem C121_computed_agree : forall per_set m kept cores lines, lc_model per_set m kept None cores = Ok lines ->
  forall name header size, In (name, header, size) lines -> header = (size / 1024)%Z.
Proof. exact fresh_agree. Qed.
(** With one core everywhere this also holds for stored conditions of the same machine, and the sizes are those of the whole caches. *)
Theorem C121_one_core_partial : forall per_set m l stored s0 k0 lines, (forall c, In (Get c) l -> c = 1%Z) ->
  get_cachesim m None 1 = Ok (s0, k0) -> stored = None \/ stored = Some (sizes per_set s0) ->
  lc_model per_set m (history m l) stored 1 = Ok lines ->
  lines = map (fun p => (fst p, per_set (fst p) * snd p / 1024, per_set (fst p) * snd p)%Z) (divided m 1).
Proof.
  intros per_set m l stored s0 k0 lines H G ST E.
  assert (D : forall s k, get_cachesim m (history m l) 1 = Ok (s, k) -> sim_levels s = divided m 1) by (intros s k X; apply (get_same_cores m 1 l s k H X)).
  assert (D0 : sim_levels s0 = divided m 1). { apply (get_same_cores m 1 [] s0 k0); [intros c []|exact G]. }
  assert (Z : forall s s', sim_levels s = divided m 1 -> sim_levels s' = divided m 1 ->
     map (fun p => (fst (fst p), snd (fst p) / 1024, snd (snd p))%Z) (combine (sizes per_set s) (sizes per_set s'))
     = map (fun p => (fst p, per_set (fst p) * snd p / 1024, per_set (fst p) * snd p)%Z) (divided m 1)).
  { intros s s' S S'. unfold sizes. rewrite S, S'. clear. induction (divided m 1) as [|x d IH]; [reflexivity|]. cbn [map combine fst snd]. now rewrite IH. }
  unfold lc_model, lc_analyze, lc_report in E. destruct ST as [-> | ->].
  - destruct (get_cachesim m (history m l) 1) as [[s k]|] eqn:A; cbn [bind fst snd] in E; [|discriminate].
    assert (K : k = Some s). { unfold get_cachesim in A. destruct (history m l); [injection A as <- <-; reflexivity|]. destruct (build_sim m 1); cbn in A; [injection A as <- <-; reflexivity|discriminate]. }
    subst k. cbn [get_cachesim bind fst snd] in E. injection E as <-. apply Z; [cbn [sim_levels]; now apply (D s (Some s))|now apply (D s (Some s))].
  - cbn [bind fst snd] in E. destruct (get_cachesim m (history m l) 1) as [[s k]|] eqn:A; cbn [bind fst snd] in E; [|discriminate]. injection E as <-. apply Z; [now apply (D s k)|exact D0].
Qed.
Definition lc_machine := mkMachine [mkCache "L1" 1 64; mkCache "L3" 4 8192]%string 4 [] (fun _ _ => Err KeyError).
Definition lc_per_set (_ : string) : Z := 512.
(** The conditions found in the intermediate file are for one core, the header is for the cores asked for. *)
Theorem C121_stored_refuted : exists stored lines, (exists k, lc_analyze lc_per_set lc_machine None None = Ok (stored, k, Some stored))
  /\ lc_model lc_per_set lc_machine None (Some stored) 4 = Ok lines /\ In ("L3"%string, 1024, 4096 * 1024)%Z lines.
Proof.
  do 2 eexists. split; [eexists; vm_compute; reflexivity|]. split; [vm_compute; reflexivity|]. vm_compute. tauto.
Qed.
(** The conditions do not depend on the cores asked for, but on the models that ran before. *)
Theorem C121_cores_refuted :
  (forall per_set m cores cores', lc_model per_set m None None cores = lc_model per_set m None None cores')
  /\ lc_model lc_per_set lc_machine (history lc_machine [Get 4]) None 4 <> lc_model lc_per_set lc_machine None None 4.
Proof.
  split.
  - intros per_set m c c'. unfold lc_model, lc_analyze. cbn [get_cachesim]. destruct (build_sim m 1); reflexivity.
  - vm_compute. discriminate.
Qed.
Print Assumptions C121_computed_agree.
Print Assumptions C121_one_core_partial.
Print Assumptions C121_stored_refuted.
Print Assumptions C121_cores_refuted.
Example C121_example : lc_model lc_per_set lc_machine None None 1 = Ok [("L1"%string, 32, 32768); ("L3"%string, 4096, 4194304)]%Z
  /\ exists s k, get_cachesim lc_machine None 1 = Ok (s, k) /\ lc_model lc_per_set lc_machine (history lc_machine [Get 1; Use]) (Some (sizes lc_per_set s)) 1 = Ok [("L1"%string, 32, 32768); ("L3"%string, 4096, 4194304)]%Z.
Proof. split; [vm_compute; reflexivity|]. do 2 eexists. split; vm_compute; reflexivity. Qed.

(** ** C122: reports go to the file given *)
Definition to_file (l : list target) : Prop := ~ In Stdout l.
(** This holds for the in-core part and the roofline models, for data transfers without penalty and for the ECM model with a low verbosity. *)
Theorem C122_to_file_partial : forall verbose levels memory complex_flops cpu_bound asm bottlenecks,
  to_file (cpu_report Given verbose complex_flops) /\ to_file (roofline_report Given verbose bottlenecks cpu_bound asm complex_flops)
  /\ to_file (data_report Given verbose levels false memory complex_flops)
  /\ (forall penalty, (verbose <= 1)%Z -> to_file (ecm_report Given verbose levels penalty memory complex_flops))
  /\ (forall caches, (verbose <= 1)%Z -> to_file (bench_report Given verbose true caches)).
Proof.
  assert (W : forall b l, to_file l -> to_file (when b l)) by (intros [|] l H; [exact H|intros []]).
  assert (A : forall l l', to_file l -> to_file l' -> to_file (l ++ l')) by (intros l l' H H' I; apply in_app_or in I as [I|I]; contradiction).
  assert (R : forall n, to_file (repeat Given n)) by (intros n I; apply repeat_spec in I; discriminate).
  assert (S : forall l, forallb (fun t => match t with Stdout => false | _ => true end) l = true -> to_file l) by (intros l F I; rewrite forallb_forall in F; now apply F in I).
  intros. split; [|split; [|split; [|split]]].
  - unfold cpu_report. repeat first [apply A|apply S; reflexivity|apply W|apply R].
  - unfold roofline_report. destruct asm, cpu_bound; repeat first [apply A|apply S; reflexivity|apply W|apply R].
  - unfold data_report. repeat first [apply A|apply S; reflexivity|apply W|apply R].
  - intros penalty V. unfold ecm_report. destruct (Z.ltb_spec 1 verbose); [lia|]. cbn [when]. repeat first [apply A|apply S; reflexivity|apply W|apply R].
  - intros caches V. unfold bench_report. destruct (Z.ltb_spec 1 verbose); [lia|]. cbn [when negb]. repeat first [apply A|apply S; reflexivity|apply W|apply R].
Qed.
(** All other reports are written to standard output, at least in part. *)
Theorem C122_standard_output_refuted : forall verbose levels penalty memory complex_flops caches conditions,
  ~ to_file (data_report Given verbose levels true memory complex_flops) /\ ((1 < verbose)%Z -> ~ to_file (ecm_report Given verbose levels penalty memory complex_flops))
  /\ (forall t, In t (lc_targets Given verbose conditions) -> t = Stdout) /\ ~ to_file (bench_report Given verbose false caches) /\ ((1 < verbose)%Z -> forall n, ~ to_file (bench_report Given verbose n caches)).
Proof.
  assert (IN : forall l, In Stdout l -> ~ to_file l) by (intros l I H; now apply H).
  intros. repeat split.
  - apply IN. unfold data_report. apply in_or_app. right. apply in_or_app. right. apply in_or_app. left. now left.
  - intros V. apply IN. unfold ecm_report. destruct (Z.ltb_spec 1 verbose); [|lia]. apply in_or_app. left. cbn [when]. apply in_or_app. left. unfold cpu_report. apply in_or_app. right. apply in_or_app. left.
    destruct (Z.ltb_spec 1 verbose); [|lia]. now left.
  - intros t I. unfold lc_targets in I. apply in_app_or in I as [I|I].
    + destruct (Z.ltb 2 verbose); [|destruct I]. destruct I as [I|[I|[]]]; now symmetry.
    + apply in_flat_map in I as (n & _ & I). apply in_app_or in I as [[I|[I|[]]]|I]; try now symmetry. apply in_app_or in I as [I|[I|[]]]; [now apply repeat_spec in I|now symmetry].
  - apply IN. unfold bench_report. apply in_or_app. right. apply in_or_app. right. apply in_or_app. right. apply in_or_app. right. apply in_or_app. right. cbn [negb when]. now left.
  - intros V n. apply IN. unfold bench_report. destruct (Z.ltb_spec 1 verbose); [|lia]. apply in_or_app. left. now left.
Qed.
Print Assumptions C122_to_file_partial.
Print Assumptions C122_standard_output_refuted.
(** The lines of the in-core part: T_comp and T_RegL1 at any verbosity, increment, elements, ports, uops and throughput from verbosity 2, the output of the tool from verbosity 3. *)
Theorem C122_cpu_lines : forall verbose complex_flops,
  cpu_report Given verbose complex_flops = repeat Given (if (verbose <=? 1)%Z then 2 else if (verbose =? 2)%Z then 7 else 10) ++ (if complex_flops then [Stderr] else []).
Proof.
  intros v c. unfold cpu_report. destruct (Z.ltb_spec 2 v), (Z.ltb_spec 1 v), (Z.leb_spec v 1), (Z.eqb_spec v 2); try lia; destruct c; reflexivity.
Qed.
Print Assumptions C122_cpu_lines.
(** The lines of the Roofline model: without verbosity the bound alone; from verbosity 1 a table with one row for each level, with the
    information of the predictor before it (RooflineFLOP) or two lines about the analysis of the code after it (RooflineASM). *)
Theorem C122_roofline_lines : forall verbose bottlenecks cpu_bound asm complex_flops,
  roofline_report Given verbose bottlenecks cpu_bound asm complex_flops =
  repeat Given ((if (verbose <=? 0)%Z then 0 else (if (verbose <=? 2)%Z then 0 else 1) + bottlenecks + (if asm then 7 else 6)) + (if cpu_bound then 1 else 3))
  ++ (if complex_flops then [Stderr] else []).
Proof.
  intros v n b a c. unfold roofline_report. destruct (Z.leb_spec 3 v), (Z.leb_spec 1 v), (Z.leb_spec v 0), (Z.leb_spec v 2); try lia;
  destruct a, b, c; cbn [when]; rewrite ?app_nil_r; try reflexivity;
  change [Given; Given; Given; Given] with (repeat Given 4); change [Given; Given; Given] with (repeat Given 3); change [Given; Given] with (repeat Given 2); change [Given] with (repeat Given 1);
  rewrite ?app_assoc, ?app_nil_r; change (@nil target) with (repeat Given 0); repeat rewrite <- (@repeat_app target); match goal with |- repeat _ ?a = repeat _ ?b => replace a with b by lia; reflexivity | |- repeat _ ?a ++ _ = repeat _ ?b ++ _ => replace a with b by lia; reflexivity end.
Qed.
Print Assumptions C122_roofline_lines.
Example C122_roofline_example : roofline_report Given 1 2 true true true = repeat Given 10 ++ [Stderr] /\ roofline_report Given 3 2 false false false = repeat Given 12.
Proof. split; reflexivity. Qed.
(** With a low verbosity, the data transfers take one line for each level, and one for the penalty. *)
Theorem C122_lines : forall verbose levels penalty memory complex_flops, (verbose <= 1)%Z ->
  data_report Given verbose levels penalty memory complex_flops = repeat Given levels ++ (if penalty then [Stdout] else []) ++ (if complex_flops then [Stderr] else []).
Proof. intros v n p m c H. unfold data_report. destruct (Z.ltb_spec 1 v); [lia|]. destruct p, c; reflexivity. Qed.
Print Assumptions C122_lines.
Example C122_example : ecm_report Given 0 3 true true false = [Given] /\ data_report Given 1 3 true true false = [Given; Given; Given; Stdout]
  /\ roofline_report Given 0 3 false true true = [Given; Given; Given; Stderr].
Proof. repeat split. Qed.

(** ** C123: values stand below the names of their metrics *)
Theorem C123_benchmark : forall t, correct_table t (bench_table t) /\
  ((forall l ms, In (l, ms) t -> NoDup (map fst ms) /\ forall n, In n (map fst ms) -> In n ["loads"; "misses"; "stores"; "evicts"]%string) -> complete_table t (bench_table t)).
Proof. intros t. split; [apply bench_correct|]. intros H. now apply bench_complete. Qed.
Theorem C123_standalone_partial : forall t,
  complete_table t (standalone_table t) /\
  ((forall l l' ms ms', In (l, ms) t -> In (l', ms') t -> Permutation (map fst ms) (map fst ms')) -> correct_table t (standalone_table t)).
Proof. intros t. split; [apply standalone_complete|apply standalone_correct]. Qed.
(** Main memory has no misses: its loads are printed as evicts, and its stores as loads. *)
Definition uneven := [("L1", [("loads", "1.00 LOAD/CL"); ("evicts", "0.50 CL/CL"); ("misses", "2.00 CL/CL")]); ("MEM", [("loads", "0.75 CL/CL"); ("stores", "0.25 CL/CL")])]%string.
Theorem C123_standalone_refuted : standalone_table uneven = (["evicts"; "loads"; "misses"], [("L1", ["0.50 CL/CL"; "1.00 LOAD/CL"; "2.00 CL/CL"]); ("MEM", ["0.75 CL/CL"; "0.25 CL/CL"])])%string
  /\ ~ correct_table uneven (standalone_table uneven).
Proof.
  split; [vm_compute; reflexivity|]. intros H. destruct (H "MEM"%string ["0.75 CL/CL"; "0.25 CL/CL"]%string) as (ms & _ & L & _); [right; left; vm_compute; reflexivity|]. vm_compute in L. discriminate.
Qed.
(** Metrics with other names are left out of the table of the usual benchmark. *)
Theorem C123_other_names_refuted : ~ complete_table [("L1", [("accesses", "1.00 LOAD/CL")])]%string (bench_table [("L1", [("accesses", "1.00 LOAD/CL")])]%string).
Proof.
  intros H. destruct (H "L1"%string [("accesses", "1.00 LOAD/CL")]%string (or_introl eq_refl)) as (values & I & C). specialize (C _ _ (or_introl eq_refl)).
  destruct I as [I|[]]. apply (f_equal snd) in I. cbn [snd] in I. rewrite <- I in C. vm_compute in C. repeat (destruct C as [C|C]; [discriminate|]). exact C.
Qed.
Print Assumptions C123_benchmark.
Print Assumptions C123_standalone_partial.
Print Assumptions C123_standalone_refuted.
Print Assumptions C123_other_names_refuted.
Example C123_example : bench_table uneven = (["loads"; "misses"; "stores"; "evicts"], [("L1", ["1.00 LOAD/CL"; "2.00 CL/CL"; "-"; "0.50 CL/CL"]); ("MEM", ["0.75 CL/CL"; "-"; "0.25 CL/CL"; "-"])])%string
  /\ correct_table (firstn 1 uneven) (standalone_table (firstn 1 uneven)).
Proof.
  split; [vm_compute; reflexivity|]. apply C123_standalone_partial. intros l l' ms ms' [E|[]] [E'|[]]. injection E as <- <-. injection E' as <- <-. reflexivity.
Qed.
