(** Properties C01, C02, C03: interval sets. *)
From Coq Require Import Permutation.
From Verif Require Import PyBase IntervalsModel IntervalsSpec IntervalsProofs.

(** C01: membership is exact. *)
Theorem C01_membership : forall rs x,
  intervals_contains (intervals rs) x = true <-> covered rs x.
Proof. exact intervals_membership. Qed.
Print Assumptions C01_membership.

Theorem C01_union : forall a b x,
  intervals_contains (intervals_and a b) x = true <->
  intervals_contains a x = true \/ intervals_contains b x = true.
Proof. exact intervals_and_membership. Qed.
Print Assumptions C01_union.

Example C01_case :
  intervals [(3,4); (0,10); (7,7); (9,2); (1,2)] = [(0,10); (3,4)]
  /\ intervals_contains (intervals [(3,4); (0,10); (7,7); (9,2); (1,2)]) 9 = true
  /\ intervals_contains (intervals [(3,4); (0,10); (7,7); (9,2); (1,2)]) 10 = false.
Proof. vm_compute. auto. Qed.

(** C02: the length counts each integer once.  False in general: [0,10), [1,2), [3,4). *)
Theorem C02_len_refuted : exists rs n,
  counts (covered rs) n /\ intervals_len (intervals rs) <> n.
Proof.
  exists [(0,10); (1,2); (3,4)], 10. split.
  - exists [0;1;2;3;4;5;6;7;8;9]. repeat split.
    + repeat constructor; cbn; lia.
    + intros Hx. exists 0, 10. split; [now left|]. cbn in Hx. lia.
    + intros (lo & hi & [[= <- <-]|[[= <- <-]|[[= <- <-]|[]]]] & Hx); cbn; lia.
  - vm_compute. discriminate.
Qed.
Print Assumptions C02_len_refuted.

(** It never counts too few. *)
Theorem C02_len_lower_bound : forall rs n,
  counts (covered rs) n -> n <= intervals_len (intervals rs).
Proof. exact len_never_undercounts. Qed.
Print Assumptions C02_len_lower_bound.

(** It is exact if no range touches two others. Missing for the full property: longer chains,
    where the claim is false (see above). *)
Theorem C02_len_partial : forall rs n,
  at_most_pairs_touch rs -> counts (covered rs) n -> intervals_len (intervals rs) = n.
Proof. exact len_exact. Qed.
Print Assumptions C02_len_partial.

(** In particular for at most two ranges. *)
Theorem C02_two_ranges_partial : forall rs, (length rs <= 2)%nat -> at_most_pairs_touch rs.
Proof. exact short_pairs_touch. Qed.
Print Assumptions C02_two_ranges_partial.

Example C02_case : at_most_pairs_touch [(0,10); (5,15)] /\ counts (covered [(0,2); (1,4)]) 4
  /\ intervals_len (intervals [(0,2); (1,4)]) = 4.
Proof.
  split; [apply short_pairs_touch; cbn; lia|]. split; [|reflexivity].
  exists [0;1;2;3]. repeat split.
  - repeat constructor; cbn; lia.
  - cbn. intros [<-|[<-|[<-|[<-|[]]]]].
    all: first [exists 0, 2; split; [now left|lia]|exists 1, 4; split; [now (right; left)|lia]].
  - intros (lo & hi & [[= <- <-]|[[= <- <-]|[]]] & Hx); cbn; lia.
Qed.

(** Equality: equal objects have equal members; the converse fails in general. *)
Theorem C02_eq_sound : forall a b,
  intervals_eq a b = true -> forall x, intervals_contains a x = intervals_contains b x.
Proof. exact eq_sound. Qed.
Print Assumptions C02_eq_sound.

Theorem C02_eq_refuted : exists rs rs',
  (forall x, covered rs x <-> covered rs' x) /\ intervals_eq (intervals rs) (intervals rs') = false.
Proof.
  exists [(0,10); (1,2); (3,4)], [(0,10)]. split; [|reflexivity].
  intros x; split; intros (lo & hi & Hin & Hx).
  - exists 0, 10. split; [now left|].
    destruct Hin as [[= <- <-]|[[= <- <-]|[[= <- <-]|[]]]]; lia.
  - exists lo, hi. split; [|assumption]. destruct Hin as [<-|[]]. now left.
Qed.
Print Assumptions C02_eq_refuted.

Theorem C02_eq_partial : forall rs rs',
  at_most_pairs_touch rs -> at_most_pairs_touch rs' ->
  (intervals_eq (intervals rs) (intervals rs') = true <->
   forall x, covered rs x <-> covered rs' x).
Proof. exact eq_iff_same_members. Qed.
Print Assumptions C02_eq_partial.

Example C02_eq_case :
  at_most_pairs_touch [(0,2); (2,5)] /\ at_most_pairs_touch [(3,5); (0,4)]
  /\ intervals_eq (intervals [(0,2); (2,5)]) (intervals [(3,5); (0,4)]) = true.
Proof. repeat split; try (apply short_pairs_touch; cbn; lia). Qed.

(** C03: the heap model computes the same result as the value model as long as no range object is
    passed twice, and never touches other objects ... *)
Theorem C03_result : forall h args,
  NoDup args ->
  let '(h', d') := h_intervals h args in
  h_data h' d' = intervals (h_data h args)
  /\ (forall r, ~ In r args -> h' r = h r).
Proof. exact h_intervals_refines. Qed.
Print Assumptions C03_result.

(** ... but [a & b] can change its operand [a]: *)
Definition C03_heap : heap := fun r => if Nat.eqb r 0 then (0,5) else (1,9).
Theorem C03_operands_refuted : exists h a b x,
  h_data h a = intervals (h_data h a) /\ h_data h b = intervals (h_data h b) /\
  let h' := fst (h_intervals_and h a b) in
  intervals_contains (h_data h a) x = false /\ intervals_contains (h_data h' a) x = true
  /\ intervals_len (h_data h' a) <> intervals_len (h_data h a).
Proof. exists C03_heap, [0%nat], [1%nat], 7. vm_compute. repeat split; discriminate. Qed.
Print Assumptions C03_operands_refuted.

(** Operands are unchanged if no two ranges touch. Missing: touching ranges, where it is false. *)
Theorem C03_operands_partial : forall h args,
  none_touch (h_data h args) -> fst (h_intervals h args) = h.
Proof. exact h_intervals_unchanged. Qed.
Print Assumptions C03_operands_partial.

Example C03_case :
  none_touch (h_data (fun r => if Nat.eqb r 0 then (0,5) else (7,9)) [0%nat; 1%nat]).
Proof.
  intros a b rest Hp. cbn in Hp.
  assert (Ha : In a [(0,5); (7,9)]) by (eapply Permutation_in; [symmetry; exact Hp|now left]).
  assert (Hb : In b [(0,5); (7,9)]) by (eapply Permutation_in; [symmetry; exact Hp|now (right; left)]).
  assert (Hnd : NoDup (a :: b :: rest)).
  { eapply Permutation_NoDup; [exact Hp|]. repeat constructor; cbn; intuition congruence. }
  inversion Hnd as [|? ? Hn _]; subst.
  destruct Ha as [<-|[<-|[]]], Hb as [<-|[<-|[]]]; unfold touch; cbn in *; intuition (try lia).
Qed.
