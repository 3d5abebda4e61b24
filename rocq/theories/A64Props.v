(** C71, C72: pointer increments of AArch64 blocks. *)
From Coq Require Import Lia.
From Verif Require Import A64Model A64Spec A64Proofs.
Local Open Scope Z_scope.
Local Open Scope list_scope.

(** ** C71 *)
(** If an increment is detected, then from some iteration on each considered reference that moves advances by exactly that increment, at any
    place in the block, for any contents of the registers and any effect of the instructions that agrees with the parsed operands.
    Missing: blocks with registers that are computed more than once or subtracted from, references where both registers move or the index is
    no counter, and references with different scales (see the refutations). *)
Theorem C71_partial : forall block inc sigma,
  (forall l, In l block -> shape l) -> derived_once block -> detect block = Ok (Some inc) ->
  (forall m, considered block m -> still block m \/ by_base block m /\ sigma = 1 \/ by_index block m /\ scale m = sigma) ->
  exists warmup, forall step m, respects step block -> considered block m -> ~ still block m ->
    forall pre post k s, block = pre ++ post -> (warmup <= k)%nat -> advance step block pre m k s = inc.
Proof. exact detect_advance. Qed.
(** Registers have the same name in the analysis if and only if they are the same, in 32 or 64 bits. *)
Theorem C71_names : forall r s a b, letter r a -> letter s b -> (exists n, named r n /\ named s n) <-> same_register r s.
Proof. exact names_spec. Qed.
Print Assumptions C71_partial.
Print Assumptions C71_names.

Definition x_ (n : string) : reg := mkReg (Some (codes "x")) (codes n).
Definition d_ (n : string) : reg := mkReg (Some (codes "d")) (codes n).
Definition at_ (b : string) : mem := mkMem (Some (x_ b)) None None None false NotPost.
Definition at_index (b i : string) (k : option Z) : mem := mkMem (Some (x_ b)) (Some (x_ i)) k None false NotPost.
Definition ins (m : string) (ops src dst : list operand) : line := mkLine (Some (codes m)) ops src dst [].
Definition str (m : mem) : line := ins "str" [Reg (d_ "0"); Mem m] [Reg (d_ "0")] [Mem m].
Definition add_imm (m : string) (r : string) (z : Z) : line := ins m [Reg (x_ r); Reg (x_ r); Imm z] [Reg (x_ r); Imm z] [Reg (x_ r)].
Definition op3 (m : string) (d a b : string) : line := ins m [Reg (x_ d); Reg (x_ a); Reg (x_ b)] [Reg (x_ a); Reg (x_ b)] [Reg (x_ d)].
Definition lsl_ (d a : string) (z : Z) : line := ins "lsl" [Reg (x_ d); Reg (x_ a); Imm z] [Reg (x_ a); Imm z] [Reg (x_ d)].

Lemma no_named r n : named r n -> normalize r = Ok n.
Proof. auto. Qed.
Ltac no_call := match goal with H : called _ _ |- _ => exfalso; revert H; apply not_called; reflexivity end.
Ltac ops := repeat match goal with
  | H : operands _ = _ |- _ => cbn [operands ins str add_imm op3 lsl_] in H; first [discriminate H | injection H; clear H; intros; subst]
  | H : named (x_ _) _ |- _ => vm_compute in H; injection H; clear H; intros; subst end.

(** lsl x4, x3, #3; add x5, x2, x4; str d0, [x5]; str d0, [x6]; add x3, x3, #2: addresses are computed from the loop counter; the second store stays. *)
Definition computed : list line := [lsl_ "4" "3" 3; op3 "add" "5" "2" "4"; str (at_ "5"); str (at_ "6"); add_imm "add" "3" 2].
(** str d0, [x1, x3, lsl 3]; str d0, [x2, x3, lsl 3]; adds x3, x3, #4 *)
Definition indexed : list line := [str (at_index "1" "3" (Some 3)); str (at_index "2" "3" (Some 3)); add_imm "adds" "3" 4].
(** str d0, [x0], #16; ldr d0, [x1, #8]! *)
Definition post16 : mem := mkMem (Some (x_ "0")) None None None false (PostBy 16).
Definition pre8 : mem := mkMem (Some (x_ "1")) None None (Some (Immediate 8)) true NotPost.
Definition updating : list line := [str post16; ins "ldr" [Reg (d_ "0"); Mem pre8] [Mem pre8] [Reg (d_ "0")]].

Ltac each_line I := repeat (destruct I as [<-|I]); [..|destruct I].
Ltac each_op I := cbn in I; repeat (destruct I as [I|I]; [try discriminate I; try (injection I; clear I; intros; subst)|]); try destruct I.
Ltac shape_tac :=
  split; [intros ?C; first [no_call|do 3 eexists; split; [reflexivity|cbn; auto]]|];
  split; [intros ? ? ? [?C (? & ? & ?O & _)]; first [no_call|ops; lia]|];
  split; [let I := fresh in intros ? I; each_op I; intros; first [reflexivity|discriminate|contradiction]|];
  split; [let I := fresh in intros ? I; each_op I; first [discriminate|contradiction]|discriminate].
Lemma computed_shape l : In l computed -> shape l.
Proof. intros I. each_line I; shape_tac. Qed.
Lemma computed_once : derived_once computed.
Proof.
  split; [|split]; intros l ? ? ? I; [intros [C (? & ? & O & N & _)]|intros [C (? & ? & ? & O & N & _)]|intros [C (? & ? & ? & O & N & _)]]; each_line I; first [no_call|ops; vm_compute; reflexivity].
Qed.
Ltac simple_tac I := each_line I; let J := fresh in intros ? J; each_op J; first [discriminate|contradiction|eauto].
Lemma computed_step : respects a64_step computed.
Proof. apply a64_step_respects. intros l I. split; [now apply computed_shape|]. revert I. unfold simple_indexing. intros I. simple_tac I. Qed.
Lemma computed_considered m : considered computed m <-> m = at_ "5".
Proof.
  assert (Q : forall m, is_store computed m <-> m = at_ "5").
  { intros q. split.
    - intros (l & I & _ & J & K & _). each_line I; destruct J as [J|J]; each_op J; [reflexivity|]. exfalso. destruct K as [(x & n & E & N & W)|(x & n & E & _)]; [|discriminate]. injection E as <-. vm_compute in N. injection N as <-. now apply W.
    - intros ->. exists (str (at_ "5")). split; [cbn; auto|]. split; [discriminate|]. split; [left; now left|]. split; [|discriminate]. left. exists (x_ "5"), (codes "x5"). split; [reflexivity|]. split; [reflexivity|]. vm_compute. discriminate. }
  split; [intros [H|[H _]]; [now apply Q|exfalso; apply (H (at_ "5")), Q; reflexivity]|]. intros ->. left. now apply Q.
Qed.
Lemma computed_moves : by_base computed (at_ "5").
Proof.
  split; [|intros x n E; discriminate]. exists (x_ "5"), (codes "x5"). split; [reflexivity|]. split; [reflexivity|]. vm_compute. discriminate.
Qed.
Lemma moves_not_still block m : by_base block m -> ~ still block m.
Proof. intros [(x & n & E & N & W) _] [C _]. now apply W, (C x). Qed.
Example C71_example : (forall l, In l computed -> shape l) /\ derived_once computed /\ detect computed = Ok (Some 16) /\
  (forall m, considered computed m -> still computed m \/ by_base computed m /\ 1 = 1 \/ by_index computed m /\ scale m = 1) /\
  respects a64_step computed /\ considered computed (at_ "5") /\ ~ still computed (at_ "5").
Proof.
  split; [apply computed_shape|]. split; [apply computed_once|]. split; [vm_compute; reflexivity|]. split.
  - intros m C. apply computed_considered in C. subst. right. left. split; [apply computed_moves|reflexivity].
  - split; [apply computed_step|]. split; [now apply computed_considered|]. apply moves_not_still, computed_moves.
Qed.
Example C71_more : detect indexed = Ok (Some 32) /\ detect updating = Ok (Some 16) /\
  (forall s, advance a64_step updating [] post16 0 s = 16) /\ forall s, advance a64_step indexed [] (at_index "1" "3" (Some 3)) 0 s = 32.
Proof. split; [vm_compute; reflexivity|]. split; [vm_compute; reflexivity|]. split; intros s; unfold advance, address; cbn - [Z.mul Z.add]; lia. Qed.

Example C71_names_example : letter (mkReg (Some (codes "w")) (codes "3")) 119 /\ same_register (mkReg (Some (codes "w")) (codes "3")) (x_ "3") /\ ~ same_register (d_ "3") (x_ "3").
Proof.
  split; [reflexivity|]. split.
  - split; [reflexivity|]. exists 119%N, 120%N. repeat split. right. split; [now left|now right].
  - intros [_ (a & b & A & B & H)]. vm_compute in A, B. injection A as <-. injection B as <-. destruct H as [H|[[G|G] _]]; vm_compute in *; discriminate.
Qed.

(** What is missing is needed. *)
Ltac stored m b := left; exists (str m); split; [cbn; auto|]; split; [discriminate|]; split; [left; now left|]; split; [|discriminate]; first
  [ left; eexists _, _; split; [reflexivity|]; split; [vm_compute; reflexivity|]; vm_compute; discriminate
  | right; eexists _, _; split; [reflexivity|]; split; [vm_compute; reflexivity|]; vm_compute; discriminate ].
Ltac moved := intros s; unfold advance, address; cbn - [Z.mul Z.add Z.sub]; lia.
(** A constant subtracted from a counter: sub x5, x3, x2; str d0, [x5]; add x3, x3, #8. The address goes up by 8, -8 is reported. *)
Definition minus_constant : list line := [op3 "sub" "5" "3" "2"; str (at_ "5"); add_imm "add" "3" 8].
Theorem C71_subtraction_refuted : detect minus_constant = Ok (Some (-8)) /\ considered minus_constant (at_ "5") /\ forall s, advance a64_step minus_constant (firstn 1 minus_constant) (at_ "5") 1 s = 8.
Proof. split; [vm_compute; reflexivity|]. split; [stored (at_ "5") minus_constant|]. moved. Qed.
(** Different scales of one index: str d0, [x1, x3, lsl 3]; str s0, [x2, x3, lsl 2]; add x3, x3, #1. The first store moves by 8, 4 is reported. *)
Definition two_scales : list line := [str (at_index "1" "3" (Some 3)); str (at_index "2" "3" (Some 2)); add_imm "add" "3" 1].
Theorem C71_scales_refuted : detect two_scales = Ok (Some 4) /\ considered two_scales (at_index "1" "3" (Some 3)) /\ forall s, advance a64_step two_scales [] (at_index "1" "3" (Some 3)) 0 s = 8.
Proof. split; [vm_compute; reflexivity|]. split; [stored (at_index "1" "3" (Some 3)) two_scales|]. moved. Qed.
(** Base and index move: str d0, [x1, x3, lsl 3]; add x1, x1, #8; add x3, x3, #1. 8 is reported instead of 16. *)
Definition both_move : list line := [str (at_index "1" "3" (Some 3)); add_imm "add" "1" 8; add_imm "add" "3" 1].
Theorem C71_both_refuted : detect both_move = Ok (Some 8) /\ considered both_move (at_index "1" "3" (Some 3)) /\ forall s, advance a64_step both_move [] (at_index "1" "3" (Some 3)) 0 s = 16.
Proof. split; [vm_compute; reflexivity|]. split; [stored (at_index "1" "3" (Some 3)) both_move|]. moved. Qed.
(** An index which is no counter is ignored: str d0, [x0]; str d0, [x1, x4]; add x4, x4, x3; add x0, x0, #8. The second store moves by the contents of x3. *)
Definition other_index : list line := [str (at_ "0"); str (at_index "1" "4" None); op3 "add" "4" "4" "3"; add_imm "add" "0" 8].
Theorem C71_index_refuted : detect other_index = Ok (Some 8) /\ considered other_index (at_index "1" "4" None) /\ forall s, advance a64_step other_index [] (at_index "1" "4" None) 0 s = s (codes "x3").
Proof. split; [vm_compute; reflexivity|]. split; [stored (at_index "1" "4" None) other_index|]. moved. Qed.
(** A register that is read and written by the same operand does not count as modified: str d0, [x0]; add x0, x0, #8; and an instruction that
    adds 4 to x0 as such an operand (like incd). 8 is reported instead of 12. *)
Definition read_write : list line := [str (at_ "0"); add_imm "add" "0" 8; mkLine (Some (codes "incd")) [Reg (x_ "0")] [] [] [Reg (x_ "0")]].
Definition incd_step (l : line) (s : state) : state := if is_one_of ["incd"%string] l then assign s (Some (x_ "0")) (value s (Some (x_ "0")) + 4) else a64_step l s.
Theorem C71_read_write_refuted : detect read_write = Ok (Some 8) /\ considered read_write (at_ "0") /\ forall s, advance incd_step read_write [] (at_ "0") 0 s = 12.
Proof. split; [vm_compute; reflexivity|]. split; [stored (at_ "0") read_write|]. moved. Qed.
Print Assumptions C71_subtraction_refuted.
Print Assumptions C71_scales_refuted.
Print Assumptions C71_both_refuted.
Print Assumptions C71_index_refuted.
Print Assumptions C71_read_write_refuted.

(** A sum which is computed several times in the loop (as in unrolled code), with the same result: the increment is found. [derived_once] of C71_partial does not hold here.
    add x5, x3, x2; str d0, [x5]; add x5, x3, x2; str d0, [x5]; add x3, x3, #z *)
Definition same_sum (z : Z) : list line := [op3 "add" "5" "3" "2"; str (at_ "5"); op3 "add" "5" "3" "2"; str (at_ "5"); add_imm "add" "3" z].
Theorem C71_same_sum : forall z, detect (same_sum z) = Ok (Some z) /\ considered (same_sum z) (at_ "5") /\
  forall n s, advance a64_step (same_sum z) (firstn 1 (same_sum z)) (at_ "5") n s = z /\ advance a64_step (same_sum z) (firstn 3 (same_sum z)) (at_ "5") n s = z.
Proof.
  intros z. split.
  - lazy -[Z.eqb Z.mul]. repeat progress (change (1 =? 1) with true; change (2 =? 1) with false; rewrite ?Z.eqb_refl, ?Z.mul_1_l, ?Z.mul_1_r; lazy -[Z.eqb Z.mul]). reflexivity.
  - split; [stored (at_ "5") (same_sum z)|]. intros n s. unfold advance. cbn [iterations]. set (t := iterations _ _ _ _). clearbody t. split; unfold address; cbn - [Z.mul Z.add Z.sub]; lia.
Qed.
Print Assumptions C71_same_sum.

(** ** C72 *)
(** On complete instructions the analysis ends without error. *)
Theorem C72_no_error : forall block, (forall l, In l block -> complete l) -> exists r, detect block = Ok r.
Proof. exact detect_ok. Qed.
(** A loop with one counter, which is increased by one addition of a number, and which is the base of all considered references without
    index, or the index of all of them with the same scale: the increment is found. *)
Theorem C72_detects : forall block r l y c sigma m0,
  (forall l, In l block -> complete l) -> writes r block = 1%nat -> In l block -> called ["add"; "adds"]%string l -> operands l = [Reg y; Reg y; Imm c] -> named y r ->
  considered block m0 ->
  (forall m, considered block m -> base m <> None /\ (forall x, base m = Some x -> named x r) /\ index m = None) /\ sigma = 1 \/
  (forall m, considered block m -> (exists x, index m = Some x /\ named x r) /\ scale m = sigma) ->
  detect block = Ok (Some (c * sigma)) /\ forall cached, pointer_increment cached block = Ok (Some (c * sigma)).
Proof.
  intros block r l y c sigma m0 W One Il Add Ops Ny C0 U. assert (D := detects block W r l y c One Il Add Ops Ny sigma m0 C0 U).
  split; [assumption|]. intros cached. unfold pointer_increment. rewrite D. reflexivity.
Qed.
(** The same loop downwards is not found, and the increment must come from the user or the cache: str d0, [x0]; sub x0, x0, #8 *)
Definition downwards : list line := [str (at_ "0"); add_imm "sub" "0" 8].
Theorem C72_down_refuted : (forall l, In l downwards -> complete l) /\ detect downwards = Ok None /\ (forall s, advance a64_step downwards [] (at_ "0") 0 s = -8) /\
  forall cached, pointer_increment cached downwards = Ok cached.
Proof.
  split; [|split; [vm_compute; reflexivity|split; [moved|]]].
  - intros l I. each_line I; (split; [shape_tac|split; [|split]]).
    + intros o J. each_op J; cbn; try (eexists; reflexivity); intros r [E|E]; (discriminate || (injection E as <-; eexists; reflexivity)).
    + intros m J. each_op J. discriminate.
    + intros C. no_call.
    + intros o J. each_op J; cbn; try (eexists; reflexivity); exact Logic.I.
    + intros m J. each_op J.
    + intros C. no_call.
  - intros cached. vm_compute. reflexivity.
Qed.
Lemma indexed_complete l : In l indexed -> complete l.
Proof.
  intros I. each_line I; (split; [shape_tac|split; [|split]]);
    try (intros C; no_call); try (let J := fresh in intros m J; each_op J; discriminate);
    intros o J; each_op J; cbn; try (eexists; reflexivity); try exact Logic.I; intros r [E|E]; injection E as <-; eexists; reflexivity.
Qed.
Example C72_example : (forall l, In l indexed -> complete l) /\ writes (codes "x3") indexed = 1%nat /\ considered indexed (at_index "1" "3" (Some 3)) /\
  forall m, considered indexed m -> (exists x, index m = Some x /\ named x (codes "x3")) /\ scale m = 8.
Proof.
  split; [apply indexed_complete|]. split; [reflexivity|]. assert (X : considered indexed (at_index "1" "3" (Some 3))) by (stored (at_index "1" "3" (Some 3)) indexed). split; [exact X|].
  intros m [(l & I & _ & J & _)|[No _]].
  - each_line I; destruct J as [J|J]; each_op J; (split; [eexists; split; [reflexivity|vm_compute; reflexivity]|reflexivity]).
  - exfalso. destruct X as [X|[_ (l & I & _ & J)]]; [now apply (No _ X)|]. each_line I; destruct J as [J|J]; each_op J.
Qed.
Print Assumptions C72_no_error.
Print Assumptions C72_detects.
Print Assumptions C72_down_refuted.

(** ** C33 for AArch64 *)
(** The scores of a block are the sums of those of its lines; comments and labels count nothing. *)
Theorem C33_a64_lines : forall l b, metric (l :: b) = map (fun p => fst p + snd p) (combine (metric [l]) (metric b)) /\ (mnemonic l = None -> metric [l] = [0; 0; 0; 0]).
Proof.
  intros l b. assert (A : forall {X} (x : list X) y, Z.of_nat (length (x ++ y)) = Z.of_nat (length x) + Z.of_nat (length y)) by (intros; rewrite app_length; lia). split.
  - unfold metric. cbn [combine map fst snd]. change (l :: b) with ([l] ++ b). rewrite !filter_app, flat_map_app, filter_app, !A. reflexivity.
  - intros M. unfold metric. cbn [filter]. unfold counted, has_mnemonic. rewrite M. reflexivity.
Qed.
(** Scores of an instruction: operands that are vector registers; floating point operations; integer operations; 1. *)
Theorem C33_a64_instruction : forall l m, mnemonic l = Some m ->
  exists v f i, metric [l] = [v; f; i; 1] /\
    (forall o, operands l = [o] -> v = 1 <-> exists r, o = Reg r /\ exists p, prefix r = Some p /\ In p (map codes ["z"; "v"; "zv"; ""]%string)) /\
    (f = 1 <-> called ["fadd"; "fsub"; "fmul"; "fdiv"]%string l) /\ (i = 1 <-> called ["add"; "sub"; "mul"]%string l) /\ f + i <= 1.
Proof.
  intros l m M. unfold metric, counted, has_mnemonic. cbn [filter]. rewrite M. cbn [length flat_map]. rewrite app_nil_r.
  assert (B : forall c : bool, Z.of_nat (length (if c then [l] else [])) = 1 <-> c = true) by (intros []; cbn; split; congruence).
  eexists _, _, _. split; [reflexivity|]. split; [|split; [|split]].
  - intros o ->. cbn [filter]. assert (V : vector_register o = true <-> exists r, o = Reg r /\ exists p, prefix r = Some p /\ In p (map codes ["z"; "v"; "zv"; ""]%string)).
    { destruct o as [r| | |]; cbn [vector_register]; try (split; [discriminate|intros (? & E & _); discriminate]). destruct (prefix r) as [p|] eqn:P.
      - unfold one_of. rewrite existsb_exists. split.
        + intros (q & I & T). apply teqb_eq in T. subst q. exists r. split; [reflexivity|]. exists p. split; [assumption|]. unfold tx in I. cbn [map In] in *. intuition.
        + intros (r' & E & p' & P' & I). injection E as <-. assert (p' = p) by congruence. subst. exists p. split; [|apply teqb_refl]. unfold tx. cbn [map In] in *. intuition.
      - split; [discriminate|]. intros (r' & E & p' & P' & _). injection E as <-. congruence. }
    rewrite <- V. destruct (vector_register o); cbn; split; congruence.
  - rewrite B. change (one_of m [tx "fmul"; tx "fdiv"; tx "fadd"; tx "fsub"]) with (one_of m (map codes ["fmul"; "fdiv"; "fadd"; "fsub"]%string)). split.
    + intros H. apply one_of_called in H as (n & -> & I). exists n. split; [assumption|]. cbn in *. intuition.
    + intros (n & E & I). apply (one_of_intro m n); [cbn in *; intuition|congruence].
  - rewrite B. change (one_of m [tx "add"; tx "sub"; tx "mul"]) with (one_of m (map codes ["add"; "sub"; "mul"]%string)). split.
    + intros H. apply one_of_called in H as (n & -> & I). exists n. split; [assumption|]. cbn in *. intuition.
    + intros (n & E & I). apply (one_of_intro m n); [cbn in *; intuition|congruence].
  - destruct (one_of m [tx "fmul"; _; _; _]) eqn:F; [|destruct (one_of m [tx "add"; tx "sub"; tx "mul"]); cbn [length Z.of_nat]; lia]. apply (one_of_called m ["fmul"; "fdiv"; "fadd"; "fsub"]%string) in F as (n & -> & I).
    destruct I as [<-|[<-|[<-|[<-|[]]]]]; vm_compute; discriminate.
Qed.
Print Assumptions C33_a64_lines.
Print Assumptions C33_a64_instruction.
Example C33_a64_example : metric computed = [0; 0; 2; 5] /\ metric [ins "fadd" [Reg (mkReg (Some (codes "v")) (codes "0")); Reg (mkReg (Some (codes "z")) (codes "1")); Imm 1] [] []; mkLine None [] [] [] []] = [2; 1; 0; 1].
Proof. split; vm_compute; reflexivity. Qed.

(** The base register changes with pre-indexed and with post-indexed references, and with no others. *)
Theorem C71_indexing : forall m, indexing m = true <-> pre_indexed m = true \/ post_indexed m <> NotPost.
Proof. intros m. unfold indexing. destruct (post_indexed m), (pre_indexed m); split; intros H; auto; try discriminate; try (right; discriminate); destruct H; congruence. Qed.
Print Assumptions C71_indexing.
