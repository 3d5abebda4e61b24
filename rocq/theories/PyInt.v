(** Decimal representation of integers as texts: [str(n)] and [int(s)]. Nothing in here is specific to kerncraft. *)
From Coq Require Import Lia.
From Verif Require Export PyText.
Local Open Scope N_scope.
Local Open Scope list_scope.

Definition is_decimal (c : N) : bool := (48 <=? c) && (c <=? 57).
Fixpoint digits (fuel : nat) (n : N) : text :=
  match fuel with
  | O => []
  | S fuel' => if n <? 10 then [48 + n] else digits fuel' (n / 10) ++ [48 + n mod 10]
  end.
(** [str(n)] for natural numbers and for integers *)
Definition show_nat (n : N) : text := digits (S (N.to_nat (N.log2 n))) n.
Definition show_int (z : Z) : text := match z with Z0 => show_nat 0 | Zpos p => show_nat (Npos p) | Zneg p => 45 :: show_nat (Npos p) end.
(** Value of a sequence of digits *)
Definition value (s : text) : N := fold_left (fun a c => 10 * a + (c - 48)) s 0.
(** [int(s)] for a text without white space: optional sign, then digits. Simplification: underscores between digits and non-ASCII digits,
    which Python accepts, are errors here. *)
Definition all_digits (s : text) : bool := match s with [] => false | _ => forallb is_decimal s end.
Definition parse_int (s : text) : option Z :=
  match s with
  | 45 :: s' => if all_digits s' then Some (- Z.of_N (value s'))%Z else None
  | 43 :: s' => if all_digits s' then Some (Z.of_N (value s')) else None
  | _ => if all_digits s then Some (Z.of_N (value s)) else None
  end.

Lemma value_snoc s c : value (s ++ [c]) = 10 * value s + (c - 48).
Proof. unfold value. now rewrite fold_left_app. Qed.
Lemma digits_spec fuel n : n < 2 ^ N.of_nat fuel -> (fuel <> 0)%nat ->
  value (digits fuel n) = n /\ forallb is_decimal (digits fuel n) = true /\ digits fuel n <> [].
Proof.
  revert n. induction fuel as [|fuel IH]; intros n H F; [easy|]. cbn [digits]. destruct (N.ltb_spec n 10) as [L|L].
  - repeat split; [unfold value; cbn [fold_left]; lia| |discriminate]. cbn [forallb]. unfold is_decimal. rewrite andb_true_r.
    apply andb_true_iff. split; apply N.leb_le; lia.
  - assert (M := N.mod_upper_bound n 10 ltac:(lia)). assert (D := N.div_mod' n 10).
    assert (F' : (fuel <> 0)%nat). { intros ->. change (2 ^ N.of_nat 1) with 2 in H. lia. }
    assert (H' : n / 10 < 2 ^ N.of_nat fuel).
    { rewrite Nat2N.inj_succ, N.pow_succ_r' in H. apply N.div_lt_upper_bound; [lia|]. nia. }
    destruct (IH (n / 10) H' F') as (I1 & I2 & I3). repeat split.
    + rewrite value_snoc, I1. clear - D M. revert D M. generalize (n / 10), (n mod 10). intros q r D M. lia.
    + rewrite forallb_app, I2. cbn [forallb andb]. unfold is_decimal. apply andb_true_iff. split; [|easy].
      clear - M. revert M. generalize (n mod 10). intros r M. apply andb_true_iff. split; apply N.leb_le; lia.
    + intros E. apply app_eq_nil in E as [_ E]. discriminate.
Qed.
Lemma show_nat_spec n : value (show_nat n) = n /\ forallb is_decimal (show_nat n) = true /\ show_nat n <> [].
Proof.
  apply digits_spec; [|easy]. rewrite Nat2N.inj_succ, N2Nat.id. destruct (N.eq_dec n 0) as [->|Z]; [reflexivity|]. now apply N.log2_spec; lia.
Qed.
Lemma is_decimal_spec c : is_decimal c = true <-> 48 <= c <= 57.
Proof. unfold is_decimal. rewrite andb_true_iff, !N.leb_le. easy. Qed.
Lemma parse_digits s : all_digits s = true -> parse_int s = Some (Z.of_N (value s)).
Proof.
  intros H. unfold parse_int. destruct s as [|c s]; [easy|]. assert (C : is_decimal c = true) by (cbn in H; now apply andb_true_iff in H).
  apply is_decimal_spec in C. rewrite H.
  assert (c <> 45) by lia. assert (c <> 43) by lia. clear C.
  destruct c as [|p]; [easy|]. do 6 (destruct p as [p|p|]; try easy).
Qed.
Lemma show_int_parse z : parse_int (show_int z) = Some z.
Proof.
  assert (A : forall n, all_digits (show_nat n) = true).
  { intros n. destruct (show_nat_spec n) as (_ & H & N). unfold all_digits. now destruct (show_nat n). }
  destruct z as [|p|p]; cbn [show_int].
  - reflexivity.
  - rewrite parse_digits by apply A. now rewrite (proj1 (show_nat_spec (Npos p))).
  - cbn [parse_int]. rewrite A. now rewrite (proj1 (show_nat_spec (Npos p))).
Qed.
Lemma show_int_inj a b : show_int a = show_int b -> a = b.
Proof. intros H. apply (f_equal parse_int) in H. rewrite !show_int_parse in H. congruence. Qed.
(** Characters of numbers: digits and the minus sign *)
Lemma show_int_chars z c : In c (show_int z) -> 48 <= c <= 57 \/ c = 45.
Proof.
  assert (A : forall n, In c (show_nat n) -> 48 <= c <= 57).
  { intros n I. apply is_decimal_spec. destruct (show_nat_spec n) as (_ & H & _). rewrite forallb_forall in H. auto. }
  destruct z as [|p|p]; cbn [show_int]; intros I; [left; eauto|left; eauto|]. destruct I as [<-|I]; [now right|left; eauto].
Qed.
Lemma show_int_not_nil z : show_int z <> [].
Proof. destruct z as [|p|p]; cbn [show_int]; [apply show_nat_spec|apply show_nat_spec|discriminate]. Qed.
Example show_example : show_int (-1203) = codes "-1203" /\ parse_int (codes "-1203") = Some (-1203)%Z /\ show_int 0 = codes "0".
Proof. repeat split. Qed.
