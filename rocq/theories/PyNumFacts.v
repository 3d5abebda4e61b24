From Coq Require Import Lqa Qfield Setoid Morphisms.
From Verif Require Import PyBase PyNum.
Local Open Scope Q_scope.

Lemma Qltb_spec x y : reflect (x < y) (Qltb x y).
Proof.
  unfold Qltb. destruct (Qle_bool y x) eqn:E; constructor.
  - apply Qle_bool_iff in E. lra.
  - apply Qnot_le_lt. intros H. apply Qle_bool_iff in H. congruence.
Qed.

Lemma Qle_bool_spec x y : reflect (x <= y) (Qle_bool x y).
Proof.
  destruct (Qle_bool x y) eqn:E; constructor.
  - now apply Qle_bool_iff.
  - intros H. apply Qle_bool_iff in H. congruence.
Qed.

Lemma Qeq_bool_spec x y : reflect (x == y) (Qeq_bool x y).
Proof.
  destruct (Qeq_bool x y) eqn:E; constructor.
  - now apply Qeq_bool_iff.
  - intros H. apply Qeq_bool_iff in H. congruence.
Qed.

Global Instance Qltb_proper : Proper (Qeq ==> Qeq ==> eq) Qltb.
Proof. intros x x' Hx y y' Hy. unfold Qltb. now rewrite Hx, Hy. Qed.

Global Instance round_even_proper : Proper (Qeq ==> eq) round_even.
Proof.
  intros x x' H. unfold round_even.
  rewrite (Qfloor_comp _ _ H).
  assert (E : (x - inject_Z (Qfloor x') ?= 1 # 2) = (x' - inject_Z (Qfloor x') ?= 1 # 2)) by now rewrite H.
  now rewrite E.
Qed.

Global Instance round2_proper : Proper (Qeq ==> Qeq) round2.
Proof. intros x x' H. unfold round2. now rewrite H. Qed.

(** [round_even] is a nearest integer, and the even one in a tie. *)
Lemma round_even_near q : Qabs (inject_Z (round_even q) - q) <= 1 # 2.
Proof.
  unfold round_even. pose proof (Qfloor_le q) as H1. pose proof (Qlt_floor q) as H2.
  rewrite inject_Z_plus in H2. change (inject_Z 1) with 1 in H2.
  apply Qabs_Qle_condition.
  destruct (Qcompare_spec (q - inject_Z (Qfloor q)) (1 # 2)) as [E|E|E].
  - destruct (Z.even (Qfloor q)); rewrite ?inject_Z_plus; change (inject_Z 1) with 1; split; lra.
  - split; lra.
  - rewrite inject_Z_plus; change (inject_Z 1) with 1; split; lra.
Qed.

Lemma inject_Z_lt a b : inject_Z a < inject_Z b <-> (a < b)%Z.
Proof. now rewrite Zlt_Qlt. Qed.
Lemma inject_Z_le a b : inject_Z a <= inject_Z b <-> (a <= b)%Z.
Proof. now rewrite Zle_Qle. Qed.

Lemma round_even_tie q :
  Qabs (inject_Z (round_even q) - q) == 1 # 2 -> Z.even (round_even q) = true.
Proof.
  unfold round_even. pose proof (Qfloor_le q) as H1. pose proof (Qlt_floor q) as H2.
  rewrite inject_Z_plus in H2. change (inject_Z 1) with 1 in H2.
  destruct (Qcompare_spec (q - inject_Z (Qfloor q)) (1 # 2)) as [E|E|E].
  - intros _. destruct (Z.even (Qfloor q)) eqn:Ev; [assumption|].
    rewrite Z.even_add, Ev. reflexivity.
  - intros H. exfalso. assert (Hp : inject_Z (Qfloor q) - q <= 0) by lra. rewrite (Qabs_neg _ Hp) in H. lra.
  - intros H. exfalso. rewrite inject_Z_plus in H. change (inject_Z 1) with 1 in H.
    assert (Hp : 0 <= inject_Z (Qfloor q) + 1 - q) by lra. rewrite (Qabs_pos _ Hp) in H. lra.
Qed.

Lemma round_even_nonneg q : 0 <= q -> (0 <= round_even q)%Z.
Proof.
  intros H. pose proof (round_even_near q) as Hn. apply Qabs_Qle_condition in Hn as [Hn _].
  assert (inject_Z (-1) < inject_Z (round_even q)) by (change (inject_Z (-1)) with (-(1)); lra).
  apply (proj1 (inject_Z_lt _ _)) in H0. lia.
Qed.

Lemma round2_near q : Qabs (round2 q - q) <= 1 # 200.
Proof.
  unfold round2. pose proof (round_even_near (q * inject_Z 100)) as H.
  change (inject_Z 100) with (100 # 1) in *.
  apply Qabs_Qle_condition in H as [H1 H2]. apply Qabs_Qle_condition.
  set (r := inject_Z _) in *. unfold Qdiv. change (/ (100 # 1)) with (1 # 100). split; lra.
Qed.

Lemma round2_nonneg q : 0 <= q -> 0 <= round2 q.
Proof.
  intros H. unfold round2. assert (0 <= q * inject_Z 100) by (change (inject_Z 100) with (100 # 1); lra).
  apply round_even_nonneg in H0. apply (proj2 (inject_Z_le _ _)) in H0. change (inject_Z 0) with 0 in H0.
  unfold Qdiv. change (/ inject_Z 100) with (1 # 100). lra.
Qed.

Lemma num_eq_refl a : num_eq a a.
Proof. destruct a; cbn; auto with qarith. Qed.
Lemma num_eq_sym a b : num_eq a b -> num_eq b a.
Proof. destruct a, b; cbn; auto with qarith. Qed.
Lemma num_eq_trans a b c : num_eq a b -> num_eq b c -> num_eq a c.
Proof. destruct a, b, c; cbn; intros; try tauto. now rewrite H. Qed.
Global Instance num_eq_equiv : Equivalence num_eq.
Proof. split; [exact num_eq_refl|exact num_eq_sym|exact num_eq_trans]. Qed.

Lemma inf_times_pos i q : 0 < q -> inf_times i q = i.
Proof. intros H. unfold inf_times. apply Qgt_alt in H. now rewrite H. Qed.

(** Congruences for the operations used on the base value. *)
Global Instance nround2_proper : Proper (num_eq ==> num_eq) nround2.
Proof. intros [x| | |] [y| | |] H; cbn in *; try tauto. now rewrite H. Qed.
Global Instance nabs_proper : Proper (num_eq ==> num_eq) nabs.
Proof. intros [x| | |] [y| | |] H; cbn in *; try tauto. now rewrite H. Qed.
Global Instance nopp_proper : Proper (num_eq ==> num_eq) nopp.
Proof. intros [x| | |] [y| | |] H; cbn in *; try tauto. now rewrite H. Qed.
Global Instance nadd_proper : Proper (num_eq ==> num_eq ==> num_eq) nadd.
Proof.
  intros [x| | |] [y| | |] H [x'| | |] [y'| | |] H'; cbn in *; try tauto. now rewrite H, H'.
Qed.
Global Instance nsub_proper : Proper (num_eq ==> num_eq ==> num_eq) nsub.
Proof. intros a b H c d H'. unfold nsub. now rewrite H, H'. Qed.
Lemma inf_times_proper i x y : x == y -> inf_times i x = inf_times i y.
Proof. intros H. unfold inf_times. now rewrite H. Qed.
Global Instance nmul_proper : Proper (num_eq ==> num_eq ==> num_eq) nmul.
Proof.
  intros [x| | |] [y| | |] H [x'| | |] [y'| | |] H'; cbn in *; try tauto; try reflexivity.
  - now rewrite H, H'.
  - now rewrite (inf_times_proper _ _ _ H).
  - now rewrite (inf_times_proper _ _ _ H).
  - now rewrite (inf_times_proper _ _ _ H').
  - now rewrite (inf_times_proper _ _ _ H').
Qed.
Global Instance nltb_proper : Proper (num_eq ==> num_eq ==> eq) nltb.
Proof.
  intros [x| | |] [y| | |] H [x'| | |] [y'| | |] H'; cbn in *; try tauto. now rewrite H, H'.
Qed.
Global Instance ngtb_proper : Proper (num_eq ==> num_eq ==> eq) ngtb.
Proof. intros a b H c d H'. unfold ngtb. now rewrite H, H'. Qed.

Lemma ndiv_proper a b v : num_eq a b -> ~ v == 0 ->
  exists x y, ndiv a (Fin v) = Ok x /\ ndiv b (Fin v) = Ok y /\ num_eq x y.
Proof.
  intros H Hv. cbn. destruct (Qeq_bool_spec v 0); [contradiction|].
  destruct a as [x| | |], b as [y| | |]; cbn in H; try tauto; eexists _, _;
    (split; [reflexivity|split; [reflexivity|]]); cbn; try reflexivity. now rewrite H.
Qed.
