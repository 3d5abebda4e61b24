(** Reading numbers: [float(s)] and [int(s)] for texts. Nothing in here is specific to kerncraft. *)
From Coq Require Import Lia.
From Verif Require Export PyInt PyNum.
Local Open Scope N_scope.
Local Open Scope list_scope.

(** White space of ASCII, as [str.strip] removes it. Simplification: other white space and digits of Unicode are not
    recognised. *)
Definition is_space (c : N) : bool := ((9 <=? c) && (c <=? 13)) || ((28 <=? c) && (c <=? 32)).
Fixpoint lstrip (s : text) : text := match s with c :: r => if is_space c then lstrip r else s | [] => [] end.
Definition strip (s : text) : text := rev (lstrip (rev (lstrip s))).
(** The rest of a sequence of digits after the first one, with single underscores in between: the digits, and the text behind *)
Fixpoint more_digits (s : text) : text * text :=
  match s with
  | [] => ([], [])
  | c :: r =>
      if is_decimal c then let (d, t) := more_digits r in (c :: d, t)
      else match r with
           | d :: r' => if (c =? 95) && is_decimal d then let (ds, t) := more_digits r' in (d :: ds, t) else ([], s)
           | [] => ([], s)
           end
  end.
Definition digit_part (s : text) : text * text :=
  match s with
  | c :: r => if is_decimal c then let (d, t) := more_digits r in (c :: d, t) else ([], s)
  | [] => ([], [])
  end.
Definition sign_part (s : text) : bool * text :=
  match s with
  | 45 :: r => (true, r)
  | 43 :: r => (false, r)
  | _ => (false, s)
  end.
(** Exponent: [e], an optional sign and digits *)
Definition exponent_part (s : text) : option (Z * text) :=
  match s with
  | c :: r =>
      if (c =? 101) || (c =? 69) then
        let (neg, r) := sign_part r in
        match digit_part r with
        | ([], _) => None
        | (d, t) => Some ((if neg then - Z.of_N (value d) else Z.of_N (value d))%Z, t)
        end
      else Some (0%Z, s)
  | [] => Some (0%Z, s)
  end.
Definition power10 (e : Z) : Q := if (0 <=? e)%Z then inject_Z (10 ^ e) else (1 / inject_Z (10 ^ (- e)))%Q.
(** Number without sign *)
Definition unsigned (s : text) : option num :=
  let (i, r) := digit_part s in
  let (f, r) := match r with c :: r' => if c =? 46 then digit_part r' else ([], r) | [] => ([], r) end in
  match i ++ f with
  | [] => None
  | ds => match exponent_part r with
          | Some (e, []) => Some (Fin (inject_Z (Z.of_N (value ds)) * power10 (e - Z.of_nat (List.length f)))%Q)
          | _ => None
          end
  end.
Definition lower_case (s : text) : text := map (fun c => if (65 <=? c) && (c <=? 90) then c + 32 else c) s.
(** [float(s)], None for ValueError. Numbers are exact (see PyNum.v). *)
Definition py_float (s : text) : option num :=
  let (neg, r) := sign_part (strip s) in
  let sgn x := if neg : bool then nopp x else x in
  let l := lower_case r in
  if text_eqb l (codes "inf") || text_eqb l (codes "infinity") then Some (sgn PInf)
  else if text_eqb l (codes "nan") then Some NaN
  else match unsigned r with Some x => Some (sgn x) | None => None end.
(** [int(s)], None for ValueError *)
Definition py_int (s : text) : option Z :=
  let (neg, r) := sign_part (strip s) in
  match digit_part r with
  | ((_ :: _) as d, []) => Some (if neg : bool then (- Z.of_N (value d))%Z else Z.of_N (value d))
  | _ => None
  end.

Lemma strip_id s : (forall c, In c s -> is_space c = false) -> strip s = s.
Proof.
  assert (L : forall s, (forall c, In c s -> is_space c = false) -> lstrip s = s).
  { intros [|c r] H; [reflexivity|]. cbn. now rewrite (H c (or_introl eq_refl)). }
  intros H. unfold strip. rewrite (L s H), L, rev_involutive; [reflexivity|]. intros c I. apply H, in_rev, I.
Qed.
Lemma more_digits_all s : forallb is_decimal s = true -> more_digits s = (s, []).
Proof.
  induction s as [|c s IH]; [reflexivity|]. cbn [forallb more_digits]. intros H. apply andb_true_iff in H as [C H].
  now rewrite C, (IH H).
Qed.
Lemma digit_part_all s : forallb is_decimal s = true -> digit_part s = (s, []).
Proof.
  destruct s as [|c s]; [reflexivity|]. cbn [forallb digit_part]. intros H. apply andb_true_iff in H as [C H].
  now rewrite C, (more_digits_all s H).
Qed.
Lemma sign_part_other c s : c <> 45 -> c <> 43 -> sign_part (c :: s) = (false, c :: s).
Proof. intros A B. unfold sign_part. destruct c as [|p]; [easy|]. do 6 (destruct p as [p|p|]; try easy). Qed.
Lemma show_int_read z : py_int (show_int z) = Some z.
Proof.
  assert (D : forall n, exists c r, show_nat n = c :: r /\ is_decimal c = true /\ forallb is_decimal (c :: r) = true /\ value (c :: r) = n).
  { intros n. destruct (show_nat_spec n) as (V & A & N). destruct (show_nat n) as [|c r]; [easy|]. exists c, r. repeat split; auto.
    now apply andb_true_iff in A. }
  assert (W : strip (show_int z) = show_int z).
  { apply strip_id. intros c I. apply show_int_chars in I. unfold is_space. apply orb_false_iff.
    split; apply andb_false_iff; right; apply N.leb_gt; lia. }
  unfold py_int. rewrite W. clear W. destruct z as [|p|p]; cbn [show_int].
  - reflexivity.
  - destruct (D (N.pos p)) as (c & r & -> & C & A & V). apply is_decimal_spec in C. rewrite sign_part_other by lia.
    rewrite digit_part_all by exact A. now rewrite V.
  - cbn [sign_part]. destruct (D (N.pos p)) as (c & r & -> & C & A & V). rewrite digit_part_all by exact A. now rewrite V.
Qed.
(** Names that begin with a letter are no numbers, apart from infinity and not-a-number. *)
Lemma name_not_float c s : 65 <= c <= 90 -> c <> 73 -> c <> 78 -> (forall x, In x s -> is_space x = false) -> py_float (c :: s) = None.
Proof.
  intros R I N W. unfold py_float. rewrite strip_id.
  2:{ intros x [<-|J]; [|auto]. unfold is_space. apply orb_false_iff. split; apply andb_false_iff; right; apply N.leb_gt; lia. }
  rewrite sign_part_other by lia. cbv zeta. cbn [lower_case map].
  replace (65 <=? c) with true by (symmetry; apply N.leb_le; lia). replace (c <=? 90) with true by (symmetry; apply N.leb_le; lia). cbn [andb].
  assert (H : forall r t d, d <> c + 32 -> text_eqb (c + 32 :: r) (d :: t) = false).
  { intros r t d E. cbn [text_eqb]. now rewrite (proj2 (N.eqb_neq _ _)) by congruence. }
  change (codes "inf") with (105 :: codes "nf"). change (codes "infinity") with (105 :: codes "nfinity").
  change (codes "nan") with (110 :: codes "an"). rewrite !H by lia. cbn [orb].
  assert (D : is_decimal c = false) by (unfold is_decimal; apply andb_false_iff; right; apply N.leb_gt; lia).
  unfold unsigned. cbn [digit_part]. rewrite D. replace (c =? 46) with false by (symmetry; apply N.eqb_neq; lia). reflexivity.
Qed.

Example py_float_examples :
  py_float (codes " -1.5e2 ") = Some (Fin (- (inject_Z 15 * power10 1)))%Q
  /\ py_float (codes "nan") = Some NaN /\ py_float (codes "-Inf") = Some NInf /\ py_float (codes "1_0.") <> None /\ py_float (codes ".5") <> None
  /\ py_float (codes ".") = None /\ py_float (codes "PMC0") = None /\ py_float (codes "1__0") = None /\ py_float (codes "1e") = None
  /\ py_float (codes "1 2") = None /\ py_int (codes " +1_2 ") = Some 12%Z /\ py_int (codes "1.0") = None.
Proof. vm_compute. repeat split; discriminate. Qed.
