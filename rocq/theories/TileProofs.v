From Coq Require Import Lia Lqa.
From Verif Require Import PyBase PyNum PyNumFacts TileModel TileSpec.
Local Open Scope Z_scope.

Section Search.
  Variable simulate : Z -> Q.
  Lemma widen_spec n r len upper len' max' : 0 < len -> widen simulate n r len upper = Ok (len', max') ->
    max' <= len' /\ max' <= upper /\ (max' = upper /\ len <= len' \/ (r < simulate max')%Q /\ len' = max' /\ len <= max' < upper).
  Proof.
    revert len. induction n as [|n IH]; intros len P; cbn [widen]; destruct (Z.ltb_spec len upper) as [L|L]; cbn [negb]; try discriminate; try (intros [= <- <-]; lia).
    destruct (Qltb_spec r (simulate len)) as [E|E].
    - intros H. assert (X : widen simulate n r len len = Ok (len, len)) by (destruct n; cbn; rewrite Z.ltb_irrefl; reflexivity).
      rewrite X in H. injection H as <- <-. split; [lia|]. split; [lia|]. right. split; [easy|lia].
    - intros H. destruct (IH (len * 2) ltac:(lia) H) as (A & B & C). split; [lia|]. split; [lia|]. destruct C as [C|(C1 & C2 & C3)]; [left; lia|right]. split; [easy|lia].
  Qed.
  Lemma widen_terminates n r len upper : 0 < len -> upper - len < Z.of_nat n -> exists x, widen simulate n r len upper = Ok x.
  Proof.
    revert len. induction n as [|n IH]; intros len P L; cbn [widen]; destruct (Z.ltb_spec len upper); cbn [negb]; try (eexists; reflexivity); [lia|].
    destruct (Qltb r (simulate len)).
    - exists (len, len). destruct n; cbn; rewrite Z.ltb_irrefl; reflexivity.
    - apply IH; lia.
  Qed.
  Lemma bisect_terminates n mn r mx len : mx - mn <= Z.of_nat n -> exists x, bisect simulate n mn r mx len = Ok x.
  Proof.
    revert mn r mx len. induction n as [|n IH]; intros mn r mx len L; cbn [bisect]; destruct (Z.ltb_spec 10 (mx - mn)) as [G|G]; cbn [negb]; try (eexists; reflexivity); [lia|].
    assert (D : 0 < (mx - mn) / 2 < mx - mn) by (split; [apply Z.div_str_pos; lia|apply Z.div_lt; lia]).
    cbv zeta. destruct (Qle_bool _ r); apply IH; lia.
  Qed.
  (** The last length tried is an end of the final window. *)
  Lemma bisect_spec n mn r mx len len' mx' base upper : bisect simulate n mn r mx len = Ok (len', mx') -> mn < mx -> (r <= base)%Q -> (r == simulate mn)%Q ->
    (mx = upper \/ (r < simulate mx)%Q) -> (10 < mx - mn \/ len = mn \/ len = mx) ->
    exists mn', mn <= mn' < mx' /\ mx' <= mx /\ mx' - mn' <= 10 /\ (simulate mn' <= base)%Q /\ (mx' = upper \/ (simulate mn' < simulate mx')%Q) /\ (len' = mn' \/ len' = mx').
  Proof.
    revert mn r mx len. induction n as [|n IH]; intros mn r mx len; cbn [bisect]; destruct (Z.ltb_spec 10 (mx - mn)) as [G|G]; cbn [negb]; try discriminate.
    - intros [= <- <-] L B R X LE. exists mn. repeat split; try lia; [lra|]. destruct X as [X|X]; [now left|right; lra].
    - intros H L B R X LE. cbv zeta in H. set (m := (mx - mn) / 2 + mn) in *.
      assert (D : 0 < (mx - mn) / 2 < mx - mn) by (split; [apply Z.div_str_pos; lia|apply Z.div_lt; lia]).
      destruct (Qle_bool (simulate m) r) eqn:E.
      + apply Qle_bool_iff in E. destruct (IH _ _ _ _ H) as (mn' & A & C & F & S & K & T); [lia|lra|lra|destruct X as [X|X]; [now left|right; lra]|auto|]. exists mn'. repeat split; try lia; easy.
      + assert (E' : (r < simulate m)%Q) by (apply Qnot_le_lt; intros Q; apply Qle_bool_iff in Q; congruence).
        destruct (IH _ _ _ _ H) as (mn' & A & C & F & S & K & T); [lia|lra|lra|now right|auto|]. exists mn'. repeat split; try lia; easy.
    - intros [= <- <-] L B R X LE. exists mn. repeat split; try lia; [lra|]. destruct X as [X|X]; [now left|right; lra].
  Qed.
  Lemma search_spec n mn upper o : 0 < mn -> 10 < upper - mn -> search simulate n mn upper = Ok o ->
    exists len good bad, o = Some len /\ (len = good \/ len = bad) /\ boundary simulate mn upper good bad.
  Proof.
    intros P U H. unfold search in H. destruct (widen simulate n (simulate mn) (mn * 3) upper) as [[l1 m1]|] eqn:W; [|discriminate]. cbn [bind] in H.
    destruct (bisect simulate n mn (simulate mn) m1 l1) as [[l2 m2]|] eqn:B; [|discriminate]. cbn [bind] in H. injection H as <-.
    apply widen_spec in W as (A & C & D); [|lia]. assert (MM : mn < m1) by lia.
    destruct (bisect_spec n mn (simulate mn) m1 l1 l2 m2 (simulate mn) upper B MM) as (good & G1 & G2 & G3 & G4 & G5 & G6); [lra|lra| |lia|].
    { destruct D as [[-> _]|(Q & _ & _)]; [now left|now right]. }
    exists l2, good, m2. split.
    { destruct (Z.leb_spec l2 m2); [easy|]. lia. }
    split; [easy|]. unfold boundary. repeat split; try lia; easy.
  Qed.
  Lemma search_terminates mn upper : 0 < mn -> exists n0, forall n, (n0 <= n)%nat -> exists o, search simulate n mn upper = Ok o.
  Proof.
    intros P. exists (Z.to_nat (1 + Z.abs upper + mn)). intros n L. unfold search.
    destruct (widen_terminates n (simulate mn) (mn * 3) upper ltac:(lia) ltac:(lia)) as [[l1 m1] W]. rewrite W. cbn [bind].
    apply widen_spec in W as (A & C & D); [|lia]. destruct (bisect_terminates n mn (simulate mn) m1 l1 ltac:(lia)) as [[l2 m2] B]. rewrite B. eexists. reflexivity.
  Qed.
  Lemma search_zero n upper : 0 < upper -> search simulate n 0 upper = Err OutOfFuel.
  Proof.
    intros P. unfold search. change (0 * 3) with 0.
    assert (W : widen simulate n (simulate 0) 0 upper = Err OutOfFuel).
    { induction n as [|n IH]; cbn [widen]; destruct (Z.ltb_spec 0 upper); try lia; cbn [negb]; [easy|]. assert (E : Qltb (simulate 0) (simulate 0) = false).
      { destruct (Qltb_spec (simulate 0) (simulate 0)) as [E|E]; [|easy]. lra. } rewrite E. change (0 * 2) with 0. exact IH. }
    now rewrite W.
  Qed.
  Lemma search_negative n mn upper : mn < 0 -> 0 <= upper -> (forall l, l < 0 -> (simulate l <= simulate mn)%Q) -> search simulate n mn upper = Err OutOfFuel.
  Proof.
    intros N U M. unfold search.
    assert (W : forall len, len < 0 -> widen simulate n (simulate mn) len upper = Err OutOfFuel).
    { induction n as [|n IH]; intros len L; cbn [widen]; destruct (Z.ltb_spec len upper); try lia; cbn [negb]; [easy|]. assert (E : Qltb (simulate mn) (simulate len) = false).
      { destruct (Qltb_spec (simulate mn) (simulate len)) as [E|E]; [|easy]. specialize (M len L). lra. } rewrite E. apply IH. lia. }
    rewrite W by lia. reflexivity.
  Qed.
End Search.
