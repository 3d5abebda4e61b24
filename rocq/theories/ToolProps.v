(** C80-C82: outputs of in-core analysis tools. *)
From Coq Require Import Lia.
From Verif Require Import CtrModel CtrSpec CtrProofs MarkModel MarkSpec PerfModel PerfProofs PyNumFacts ToolModel ToolProofs PyText ToolSpec.
Local Open Scope N_scope.
Local Open Scope list_scope.

(** ** C80: the results of llvm-mca are those of its report: cycles and micro-operations per iteration, the greatest pressure among all units
    of a name for exactly the names in use, and the cycles from the first dispatch to the last retirement of the first iteration.
    What is missing: names with other characters, incomplete timelines (refuted below). *)
Theorem C80_partial : forall t units row cycles iterations n,
  report t units row cycles iterations n -> iterations <> 0 ->
  (forall i p, In (i, p) row -> exists m q, called units i m /\ pressure p q) ->
  complete t -> (exists l, in_timeline t l) ->
  exists r, read_mca t = Ok r
    /\ (exists x, throughput r = Fin x /\ (x * inject_Z (Z.of_N iterations) == inject_Z (Z.of_N cycles))%Q)
    /\ lcd r = Some (throughput r)
    /\ (exists x, uops r = Some (Fin x) /\ (x * inject_Z (Z.of_N iterations) == inject_Z (Z.of_N n))%Q)
    /\ (exists k, cp_latency r = Some (Fin (inject_Z k)) /\ path_length t k)
    /\ (forall m, (exists v, tget m (ports r) = Some v) <-> exists q, used units row m q)
    /\ (forall m v, tget m (ports r) = Some v -> exists q, v = Fin q /\ greatest (used units row m) q).
Proof.
  intros t units row cycles iterations n R I0 RW C L. destruct (names_report _ _ _ _ _ _ R) as (names & PN & NM).
  destruct (pressure_report _ _ _ _ _ _ R) as (ls & PL & PR). destruct R as (_ & _ & _ & ND & _ & _ & LC & LI & LU).
  destruct (add_ports_tracks units names row ND NM) with (P := fun (_ : text) (_ : Q) => False) (d := @nil (text * num)) as (d & D & T).
  { apply Forall_forall. intros [i p] H. exact (RW i p H). }
  { split; [intros m; split; [intros [q []]|intros [v V]; discriminate]|intros m v V; discriminate]. }
  apply (tracks_ext _ (used units row)) in T as [T1 T2]; [|intros m q; tauto].
  destruct (latency_complete t C L) as (k & K & KP). unfold read_mca, port_cycles. rewrite PN. cbn [bind]. rewrite PL. cbn [group bind].
  match goal with |- context [add_ports names [] ?l] => replace l with row by (symmetry; exact PR) end. rewrite D. cbn [bind].
  rewrite (number_labelled _ _ _ LC), (number_labelled _ _ _ LI). cbn [bind]. unfold quotient.
  assert (Z0 : (Z.of_N iterations =? 0)%Z = false) by (apply Z.eqb_neq; lia). rewrite !Z0. cbn [bind]. rewrite K. cbn [bind].
  rewrite (number_labelled _ _ _ LU). cbn [bind]. eexists. split; [reflexivity|]. cbn [throughput lcd uops cp_latency ports].
  assert (NZ : ~ (inject_Z (Z.of_N iterations) == 0)%Q) by (unfold Qeq; cbn; lia).
  repeat split; try (eexists; split; [reflexivity|]); try (field; exact NZ).
  - exact KP.
  - apply (proj2 (T1 m)).
  - apply (proj1 (T1 m)).
  - exact T2.
Qed.
Print Assumptions C80_partial.

(** Whatever text is read successfully: cycles, iterations and micro-operations are numbers that stand behind their labels in it. *)
Theorem C80_printed : forall t r, read_mca t = Ok r ->
  exists cycles iterations n, printed (codes "Total Cycles:") t cycles /\ printed (codes "Iterations:") t iterations /\ printed (codes "Total uOps:") t n
    /\ iterations <> 0
    /\ (exists x, throughput r = Fin x /\ (x * inject_Z (Z.of_N iterations) == inject_Z (Z.of_N cycles))%Q)
    /\ (exists x, uops r = Some (Fin x) /\ (x * inject_Z (Z.of_N iterations) == inject_Z (Z.of_N n))%Q).
Proof.
  intros t r. unfold read_mca. destruct (port_cycles t) as [pc|]; cbn [bind]; [|discriminate].
  destruct (number_of (codes "Total Cycles:") t) as [c|] eqn:EC; cbn [bind]; [|discriminate].
  destruct (number_of (codes "Iterations:") t) as [i|] eqn:EI; cbn [bind]; [|discriminate]. unfold quotient.
  destruct (Z.eqb_spec i 0) as [Z0|Z0]; cbn [bind]; [discriminate|]. destruct (latency t) as [cp|]; cbn [bind]; [|discriminate].
  destruct (number_of (codes "Total uOps:") t) as [u|] eqn:EU; cbn [bind]; [|discriminate]. intros [= <-]. cbn [throughput uops].
  apply number_printed in EC as (c' & -> & PC). apply number_printed in EI as (i' & -> & PI). apply number_printed in EU as (u' & -> & PU).
  exists c', i', u'. assert (NZ : ~ (inject_Z (Z.of_N i') == 0)%Q) by (unfold Qeq; cbn; lia).
  split; [exact PC|]. split; [exact PI|]. split; [exact PU|]. split; [lia|]. split; (eexists; split; [reflexivity|]; field; exact NZ).
Qed.
Print Assumptions C80_printed.

(** Text of lines *)
Definition page (ls : list string) : text := flat_map (fun l => codes l ++ [10]) ls.
Definition summary : list string :=
  ["Iterations:        100"; "Instructions:      300"; "Total Cycles:      410"; "Total uOps:        500"; ""]%string.
Definition timeline_view : list string :=
  ["Timeline view:"; "Index     0123456789"; "[0,0]     DeeeeER  .   vmulsd %xmm0, %xmm1, %xmm2"; "[0,1]     D====eeER.   vaddsd"; "[1,0]     .DeeeeER     vmulsd"]%string.
Definition example_report : text :=
  page (summary ++ ["Resources:"; "[0]   - SBDivider"; "[6.0] - SBPort23"; "[6.1] - SBPort23"; ""; "Resource pressure per iteration:"; "[0]    [6.0]  [6.1]  "; " -     1.50   0.50   "; ""]%string ++ timeline_view).
Definition example_units : list unit_entry :=
  [mkUnit (codes "0") (codes "   ") (codes " ") (codes "SBDivider");
   mkUnit (codes "6.0") (codes " ") (codes " ") (codes "SBPort23");
   mkUnit (codes "6.1") (codes " ") (codes " ") (codes "SBPort23")].
Definition example_row : list (text * text) := [(codes "[0]", codes "-"); (codes "[6.0]", codes "1.50"); (codes "[6.1]", codes "0.50")].
Lemma labelled_by label t n a rest : search (behind label) t = Some (a ++ show_nat n ++ rest) -> a <> [] -> spaces a -> ends digit rest -> labelled label t n.
Proof. intros H A S E. exists a, rest. split; [now apply first_search|auto]. Qed.
Ltac each_char := cbn; repeat (apply Forall_cons; [unfold blank, letter_or_digit, lower, upper, digit, plain_char; lia|]); apply Forall_nil.
Ltac good_units := repeat (apply Forall_cons; [repeat split; try discriminate; each_char|]); apply Forall_nil.
Ltac free_of := cbn; intros K; repeat destruct K as [K|K]; try discriminate K; easy.
Ltac all_white := intros c K; cbn in K; unfold white; cbn [In]; repeat destruct K as [K|K]; try (subst c; tauto); easy.
Example C80_example_report : report example_report example_units example_row 410 100 500.
Proof.
  assert (B : forall l b, search (behind l) example_report = Some b -> first l example_report b) by (intros; now apply first_search).
  split; [eexists; apply B; vm_compute; reflexivity|]. split; [discriminate|]. split; [good_units|].
  split; [repeat constructor; free_of|]. split.
  { exists (codes "[0]    [6.0]  [6.1]  "), (codes " -     1.50   0.50   "). eexists. split; [apply B; vm_compute; reflexivity|].
    split; [right; eexists; reflexivity|]. split; [free_of|]. split; [free_of|]. split; apply fields_words. }
  split; [discriminate|]. split; [|split].
  - eapply (labelled_by _ _ _ (codes "      ")); [vm_compute; reflexivity|discriminate|all_white|intros c r [= <- _] D; unfold digit in D; lia].
  - eapply (labelled_by _ _ _ (codes "        ")); [vm_compute; reflexivity|discriminate|all_white|intros c r [= <- _] D; unfold digit in D; lia].
  - eapply (labelled_by _ _ _ (codes "        ")); [vm_compute; reflexivity|discriminate|all_white|intros c r [= <- _] D; unfold digit in D; lia].
Qed.
Example C80_example_row : forall i p, In (i, p) example_row -> exists m q, called example_units i m /\ pressure p q.
Proof.
  intros i p H. repeat destruct H as [H|H]; try easy; injection H as <- <-.
  - exists (codes "SBDivider"), 0%Q. split; [eexists; split; [left; reflexivity|split; reflexivity]|]. left. split; reflexivity.
  - eexists _, _. split; [eexists; split; [right; left; reflexivity|split; reflexivity]|]. right. split; [discriminate|vm_compute; reflexivity].
  - eexists _, _. split; [eexists; split; [right; right; left; reflexivity|split; reflexivity]|]. right. split; [discriminate|vm_compute; reflexivity].
Qed.
Lemma column_index c l k : index_of c l = Ok k -> exists k, column c l k.
Proof.
  intros H. destruct (in_dec N.eq_dec c l) as [I|N]; [|rewrite index_missing in H by exact N; discriminate].
  apply in_split in I as (a & b & E). clear H k. subst l. induction a as [|x a IH]; [exists 0%Z; now exists [], b|].
  destruct (N.eq_dec x c) as [->|X]; [exists 0%Z; exists [], (a ++ c :: b); auto|]. destruct IH as (k & a' & b' & E & N & ->).
  eexists. exists (x :: a'), b'. split; [cbn; now rewrite E|]. split; [intros [K|K]; [now apply X|now apply N]|reflexivity].
Qed.
Lemma complete_by t : forallb (fun l => match index_of 68 l, index_of 82 l with Ok _, Ok _ => true | _, _ => false end) (first_lines (split 10 t)) = true -> complete t.
Proof.
  intros H l L. apply timeline_lines in L. rewrite forallb_forall in H. specialize (H l L). destruct (index_of 68 l) eqn:D; [|discriminate].
  destruct (index_of 82 l) eqn:R; [|discriminate]. apply column_index in D, R. auto.
Qed.
Example C80_example_timeline : complete example_report /\ exists l, in_timeline example_report l.
Proof. split; [apply complete_by; vm_compute; reflexivity|]. eexists. apply timeline_lines. vm_compute. left. reflexivity. Qed.
Example C80_example : match read_mca example_report with
  | Ok r => num_eq (throughput r) (Fin (41 # 10)) /\ match ports r with [(a, x); (b, y)] => a = codes "SBDivider" /\ num_eq x (Fin 0) /\ b = codes "SBPort23" /\ num_eq y (Fin (3 # 2)) | _ => False end
            /\ match cp_latency r with Some x => num_eq x (Fin 8) | None => False end /\ match uops r with Some x => num_eq x (Fin 5) | None => False end
  | Err _ => False end.
Proof. vm_compute. repeat split. Qed.

(** Units whose names differ only behind another character than a letter or digit are taken for the same port. *)
Definition names_report_text : text :=
  page (summary ++ ["Resources:"; "[0]   - P10_BF"; "[1]   - P10_DX"; ""; "Resource pressure per iteration:"; "[0]    [1]    "; "3.00   2.00   "; ""]%string ++ timeline_view).
Theorem C80_names_refuted : exists r x, read_mca names_report_text = Ok r /\ ports r = [(codes "P10", x)]
  /\ tget (codes "P10_BF") (ports r) = None /\ tget (codes "P10_DX") (ports r) = None.
Proof. eexists. eexists. split; [vm_compute; reflexivity|]. vm_compute. auto. Qed.
Print Assumptions C80_names_refuted.
(** In every text: an instruction of the first iteration without dispatch or retirement in the timeline stops the analysis with a ValueError,
    and without any timeline the latency is minus infinity. *)
Definition cut_report : text :=
  page (summary ++ ["Resources:"; "[0]   - SBDivider"; ""; "Resource pressure per iteration:"; "[0]    "; " -     "; ""; "[0,0]     DeeeeER  ."; "[0,1]     D====eeee"]%string).
Definition no_timeline : text :=
  page (summary ++ ["Resources:"; "[0]   - SBDivider"; ""; "Resource pressure per iteration:"; "[0]    "; " -     "; ""]%string).
Theorem C80_timeline_refuted :
  read_mca cut_report = Err ValueError
  /\ (forall t, ~ (complete t) -> latency t = Err ValueError)
  /\ (forall t, (forall l, ~ in_timeline t l) -> latency t = Ok NInf)
  /\ exists r, read_mca no_timeline = Ok r /\ cp_latency r = Some NInf.
Proof. split; [vm_compute; reflexivity|]. split; [exact latency_incomplete|]. split; [exact latency_none|]. eexists. split; vm_compute; reflexivity. Qed.
Print Assumptions C80_timeline_refuted.

(** ** C81: the results of IACA are those of its report: the block throughput, the number of micro-operations, and one entry per port and
    per subunit, in the order of the table. *)
Theorem C81_table : forall t tp q pcs ccs entries n,
  iaca_report t tp pcs ccs n -> py_float tp = Some (Fin q) -> table pcs ccs entries -> pcs <> [] -> NoDup (map fst entries) ->
  exists r u, read_iaca t = Ok r /\ throughput r = Fin q /\ ports r = entries /\ uops r = Some (Fin u) /\ (u == inject_Z (Z.of_N n))%Q
    /\ lcd r = None /\ cp_latency r = None.
Proof.
  intros t tp q pcs ccs entries n ((rt & LT) & (TN & TF) & LP & LC & (ru & LU & EU)) Q T NE ND. unfold read_iaca.
  rewrite (first_line_found match_throughput _ t _ tp) with (2 := LT).
  2:{ intros s y. unfold match_throughput. destruct (starts_with (codes "Block Throughput: ") s) eqn:W; [|discriminate]. intros _. now apply starts_with_spec. }
  2:{ unfold match_throughput. rewrite starts_app, skip_app. rewrite (span_class id_char _ tp (codes " Cycles" ++ rt) id_char_spec TF).
      2:{ intros c r [= <- _] W. unfold digit in W. lia. }
      rewrite starts_app. now destruct tp. }
  cbn [asserted bind]. unfold to_float at 1. rewrite Q. cbn [bind].
  destruct (filter_found _ _ _ LP) as [rp ->]. destruct (filter_found _ _ _ LC) as [rc ->]. destruct (table_free _ _ _ T) as [FP FC].
  assert (NC : ccs <> []) by (destruct T; [easy|discriminate]). rewrite cells_port, cells_cycles by assumption.
  assert (RC := read_cells_spec _ _ _ T []). cbn [app List.length] in RC. rewrite RC. cbn [bind].
  destruct (show_nat_digits n) as (DN & DD & DV).
  rewrite (first_line_found match_uops _ t _ (show_nat n)) with (2 := LU).
  2:{ intros s y. unfold match_uops. destruct (starts_with (codes "Total Num Of Uops: ") s) eqn:W; [|discriminate]. intros _. now apply starts_with_spec. }
  2:{ unfold match_uops. rewrite starts_app, skip_app. rewrite (span_class is_digit digit (show_nat n) ru is_digit_spec DD EU). now destruct (show_nat n). }
  cbn [asserted bind]. unfold to_float. rewrite show_nat_float. cbn [bind]. eexists _, _. split; [reflexivity|]. cbn [throughput ports uops lcd cp_latency].
  split; [reflexivity|]. split; [exact (tupdate_new entries [] ND)|]. split; [reflexivity|]. split; [|auto]. unfold power10. cbn. ring.
Qed.
Print Assumptions C81_table.

Definition iaca_text : text :=
  page ["Intel(R) Architecture Code Analyzer"; "Block Throughput: 5.50 Cycles       Throughput Bottleneck: Backend"; "-----";
        "|  Port  |  0   -  DV  |  1   |  2   -  D   |"; "-----"; "| Cycles | 4.0    0.0  | 3.0  | 5.0    4.5  |"; "Total Num Of Uops: 22"]%string.
Definition port_row : list text := [codes "  0   -  DV  "; codes "  1   "; codes "  2   -  D   "; []].
Definition cycle_row : list text := [codes " 4.0    0.0  "; codes " 3.0  "; codes " 5.0    4.5  "; []].
Definition iaca_entries : list (text * num) :=
  [(codes "0", Fin (40 # 10)); (codes "0DV", Fin (0 # 10)); (codes "1", Fin (30 # 10)); (codes "2", Fin (50 # 10)); (codes "2D", Fin (45 # 10))].
Lemma first_line_by p t k : nth_error (split 10 t) k <> None -> begins p (nth k (split 10 t) []) ->
  forallb (fun l => negb (starts_with p l)) (firstn k (split 10 t)) = true -> first_line_with (begins p) t (nth k (split 10 t) []).
Proof.
  intros N B F. exists (firstn k (split 10 t)), (skipn (S k) (split 10 t)). split; [|split; [exact B|]].
  - apply nth_error_Some in N. rewrite <- (firstn_skipn k (split 10 t)) at 1. f_equal. clear - N. revert k N. induction (split 10 t) as [|x l IH]; intros k N; [cbn in N; lia|].
    destruct k as [|k]; [reflexivity|]. cbn. apply IH. cbn in N. lia.
  - apply Forall_forall. intros x X Y. rewrite forallb_forall in F. apply F in X. apply starts_with_spec in Y. now rewrite Y in X.
Qed.
Ltac pads := repeat constructor.
Ltac a_name := split; [discriminate|each_char].
Example C81_example_report : iaca_report iaca_text (codes "5.50") port_row cycle_row 22.
Proof.
  split; [exists (codes "       Throughput Bottleneck: Backend"); apply (first_line_by _ iaca_text 1); [vm_compute; discriminate|vm_compute; eexists; reflexivity|vm_compute; reflexivity]|].
  split; [split; [discriminate|each_char]|].
  split; [apply (first_line_by _ iaca_text 3); [vm_compute; discriminate|vm_compute; eexists; reflexivity|vm_compute; reflexivity]|].
  split; [apply (first_line_by _ iaca_text 5); [vm_compute; discriminate|vm_compute; eexists; reflexivity|vm_compute; reflexivity]|].
  exists []. split; [apply (first_line_by _ iaca_text 6); [vm_compute; discriminate|vm_compute; eexists; reflexivity|vm_compute; reflexivity]|].
  intros c r [=].
Qed.
Example C81_example_table : exists entries, table port_row cycle_row entries /\ map fst entries = map fst iaca_entries /\ NoDup (map fst entries).
Proof.
  eexists. split.
  - unfold port_row, cycle_row.
    eapply T_cell. { apply (C_divided (codes "  ") (codes "0") (codes "   ") (codes "  ") (codes "DV") (codes "  ") (codes " ") (codes "4.0") (codes "    ") (codes "0.0") (codes "  ")); try (now pads); try a_name; try discriminate; split; try a_name; vm_compute; reflexivity. }
    eapply T_cell. { apply (C_port (codes "  ") (codes "1") (codes "   ") (codes " ") (codes "3.0") (codes "  ")); try (now pads); try a_name; split; try a_name; vm_compute; reflexivity. }
    eapply T_cell. { apply (C_divided (codes "  ") (codes "2") (codes "   ") (codes "  ") (codes "D") (codes "   ") (codes " ") (codes "5.0") (codes "    ") (codes "4.5") (codes "  ")); try (now pads); try a_name; try discriminate; split; try a_name; vm_compute; reflexivity. }
    eapply T_cell; [apply C_empty; constructor|apply T_end].
  - split; [reflexivity|]. repeat constructor; cbn; intros K; repeat destruct K as [K|K]; try discriminate K; easy.
Qed.
Example C81_example : match read_iaca iaca_text with Ok r => num_eq (throughput r) (Fin (11 # 2)) /\ map fst (ports r) = map fst iaca_entries | Err _ => False end.
Proof. vm_compute. repeat split. Qed.
(** Without a throughput the analysis fails. *)
Theorem C81_missing : forall t,
  (forall l, In l (split 10 t) -> ~ begins (codes "Block Throughput: ") l) -> read_iaca t = Err AssertionError.
Proof.
  intros t H. unfold read_iaca. assert (E : first_line match_throughput (split 10 t) = None); [|now rewrite E].
  induction (split 10 t) as [|l ls IH]; [reflexivity|]. cbn [first_line]. unfold match_throughput at 1. destruct (starts_with (codes "Block Throughput: ") l) eqn:S.
  - apply starts_with_spec in S. destruct (H l (or_introl eq_refl)). exact S.
  - apply IH. intros l' I. apply H. now right.
Qed.
Print Assumptions C81_missing.
(** A port with a subunit but a single number keeps the text of its cell as name: neither the port nor its subunit is found. *)
Definition single_text : text :=
  page ["Block Throughput: 5.50 Cycles"; "|  Port  |  2   -  D   |"; "| Cycles | 5.0         |"; "Total Num Of Uops: 22"]%string.
Theorem C81_single_refuted : exists r, read_iaca single_text = Ok r /\ map fst (ports r) = [codes "2   -  D"] /\ tget (codes "2") (ports r) = None /\ tget (codes "2D") (ports r) = None.
Proof. eexists. split; [vm_compute; reflexivity|]. vm_compute. auto. Qed.
Print Assumptions C81_single_refuted.

(** ** C82: the throughput of OSACA is the greatest of all port loads and the loop-carried dependency, which is never negative;
    every port has its own load and the critical path is the sum of its latencies. *)
Theorem C82_throughput : forall names values lcds path,
  let r := read_osaca names values lcds path in
  exists l, lcd r = Some (Fin l) /\ greatest (fun x => x = 0%Q \/ In x lcds) l
    /\ exists q, throughput r = Fin q /\ greatest (fun x => x = l \/ In x values) q.
Proof.
  intros names values lcds path r. unfold r, read_osaca. cbn [lcd throughput]. exists (qmax 0 lcds). split; [reflexivity|].
  destruct (qmax_spec lcds 0%Q) as (A & B & C). split.
  - split; [exact A|]. intros x [->|X]; auto.
  - eexists. split; [reflexivity|]. set (m := qmax 0 lcds) in *. destruct values as [|v vs]; cbn [app hd tl].
    + split; [now left|]. intros x [->|[]]. apply Qle_refl.
    + destruct (qmax_spec (vs ++ [m]) v) as (D & E & F). split.
      * destruct D as [D|D]; [right; left; congruence|]. apply in_app_iff in D as [D|[D|[]]]; [right; now right|left; congruence].
      * intros x [->|[<-|X]]; [apply F; apply in_app_iff; right; now left|exact E|apply F; apply in_app_iff; now left].
Qed.
Print Assumptions C82_throughput.
Theorem C82_ports : forall names values lcds path, NoDup names -> List.length names = List.length values ->
  let r := read_osaca names values lcds path in
  forall k n v, nth_error names k = Some n -> nth_error values k = Some v -> tget n (ports r) = Some (Fin v).
Proof.
  intros names values lcds path ND L r k n v KN KV. unfold r, read_osaca. cbn [ports]. apply tupdate_nodup.
  - clear - ND L. revert values L. induction ND as [|x names X ND IH]; intros [|v values] L; try discriminate; [constructor|]. cbn [map combine fst].
    injection L as L. constructor; [|exact (IH values L)]. intros H. apply X. apply in_map_iff in H as ([a b] & <- & H). exact (in_combine_l _ _ _ _ H).
  - clear - KN KV. revert values k KN KV. induction names as [|x names IH]; intros values k KN KV; [destruct k; discriminate|]. destruct values as [|w values]; [destruct k; discriminate|].
    destruct k as [|k]; cbn in *; [left; congruence|right; now apply IH with k].
Qed.
Print Assumptions C82_ports.
Theorem C82_path : forall names values lcds path a b, path = a ++ b ->
  exists x y z, cp_latency (read_osaca names values lcds path) = Some (Fin x) /\ cp_latency (read_osaca names values lcds a) = Some (Fin y)
    /\ cp_latency (read_osaca names values lcds b) = Some (Fin z) /\ (x == y + z)%Q
    /\ (forall p, cp_latency (read_osaca names values lcds [p]) = Some (Fin (p + 0))).
Proof.
  intros names values lcds path a b ->. cbn [cp_latency read_osaca]. eexists _, _, _. do 3 (split; [reflexivity|]). split; [|reflexivity].
  induction a as [|x a IH]; cbn [app fold_right]; [ring|]. rewrite IH. ring.
Qed.
Print Assumptions C82_path.
Example C82_example : let r := read_osaca [codes "0"; codes "1"] [1%Q; 2%Q] [3%Q; (5 # 2)%Q] [4%Q; 1%Q] in
  throughput r = Fin 3 /\ lcd r = Some (Fin 3) /\ ports r = [(codes "0", Fin 1); (codes "1", Fin 2)] /\ NoDup [codes "0"; codes "1"].
Proof. cbn. repeat split. repeat constructor; cbn; intros K; repeat destruct K as [K|K]; try discriminate K; easy. Qed.
