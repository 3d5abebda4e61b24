(** Properties C04-C07: quantities with prefixes ([PrefixedUnit]). *)
From Coq Require Import String Ascii.
From Verif Require Import PyBase PyNum PyNumFacts UnitModel UnitSpec UnitProofs.
Local Open Scope string_scope.
Local Open Scope Q_scope.

(** C04: same base value (also infinite ones) and unit under every known prefix. *)
Theorem C04_with_prefix : forall q p f, factor p = Some f ->
  exists q', with_prefix q p = Ok q' /\ prefix q' = p /\ unit q' = unit q
    /\ num_eq (base_value q') (base_value q).
Proof. exact with_prefix_ok. Qed.
Print Assumptions C04_with_prefix.

Theorem C04_unknown_prefix : forall q p, factor p = None -> with_prefix q p = Err KeyError.
Proof. exact with_prefix_unknown. Qed.
Print Assumptions C04_unknown_prefix.

Theorem C04_reduced : forall q,
  exists q', reduced q = Ok q' /\ unit q' = unit q /\ valid q'
    /\ num_eq (base_value q') (base_value q).
Proof. exact reduced_ok. Qed.
Print Assumptions C04_reduced.

Definition q_ex := mkq (Fin (2250 # 1)) "M" "B/s".
Example C04_case : factor "G" = Some (10 ^ 9)%Z /\ factor "m" = None
  /\ reduced q_ex = Ok (mkq (Fin (2250000000 # 1000000000)) "G" "B/s").
Proof. repeat split. Qed.

(** C05 *)
Theorem C05_add_partial : forall a o x y,
  base_value a = Fin x -> ofloat o = Fin y -> (forall b, o = OQ b -> unit b = unit a) ->
  plain_unit (unit a) ->
  exists r z, q_add a o = Ok r /\ unit r = unit a /\ base_value r = Fin z /\ z == x + y.
Proof. exact q_add_ok. Qed.
Print Assumptions C05_add_partial.

Theorem C05_sub_partial : forall a o x y,
  base_value a = Fin x -> ofloat o = Fin y -> (forall b, o = OQ b -> unit b = unit a) ->
  plain_unit (unit a) ->
  exists r z, q_sub a o = Ok r /\ unit r = unit a /\ base_value r = Fin z /\ z == x - y.
Proof. exact q_sub_ok. Qed.
Print Assumptions C05_sub_partial.

Theorem C05_mul_partial : forall a o x y u,
  base_value a = Fin x -> ofloat o = Fin y ->
  u = match o with OQ b => unit a ++ unit b | ON _ => unit a end -> plain_unit u ->
  exists r z, q_mul a o = Ok r /\ unit r = u /\ base_value r = Fin z /\ z == x * y.
Proof. exact q_mul_ok. Qed.
Print Assumptions C05_mul_partial.

Theorem C05_div_partial : forall a o x y u,
  base_value a = Fin x -> ofloat o = Fin y -> ~ y == 0 ->
  u = match o with OQ b => unit a ++ "/" ++ unit b | ON _ => unit a end -> plain_unit u ->
  exists r z, q_div a o = Ok r /\ unit r = u /\ base_value r = Fin z /\ z == x / y.
Proof. exact q_div_ok. Qed.
Print Assumptions C05_div_partial.

Theorem C05_div_zero : forall a o y,
  ofloat o = Fin y -> y == 0 -> q_div a o = Err ZeroDivisionError.
Proof. exact q_div_zero. Qed.
Print Assumptions C05_div_zero.

Theorem C05_unit_mismatch : forall a b, unit a <> unit b ->
  q_add a (OQ b) = Err ValueError /\ q_sub a (OQ b) = Err ValueError.
Proof. intros a b H. exact (conj (q_add_mismatch a b H) (q_sub_mismatch a b H)). Qed.
Print Assumptions C05_unit_mismatch.

Example C05_case :
  base_value q_ex = Fin (2250000000 # 1) /\ plain_unit (unit q_ex) /\ plain_unit ("B" ++ "/" ++ "s")
  /\ q_add q_ex (OQ (mkq (Fin (1 # 2)) "G" "B/s")) = Ok (mkq (Fin (5500000000 # 2000000000)) "G" "B/s").
Proof.
  repeat split.
  - apply has_newline_spec. reflexivity.
  - exists "B"%char, "/s". split; [reflexivity|right]. now apply is_parse_prefix_spec.
  - apply has_newline_spec. reflexivity.
  - exists "B"%char, "/s". split; [reflexivity|right]. now apply is_parse_prefix_spec.
Qed.

(** Missing: units whose name starts with a prefix letter: 1 Pa + 1 Pa is 2e16 a. *)
Theorem C05_prefix_like_unit_refuted : exists a b r,
  valid a /\ valid b /\ unit a = unit b /\ base_value a = Fin 1 /\ base_value b = Fin 1 /\
  q_add a (OQ b) = Ok r /\ num_eq (base_value r) (Fin (inject_Z (2 * 10 ^ 16))) /\ unit r = "a".
Proof.
  exists (mkq (Fin 1) "" "Pa"), (mkq (Fin 1) "" "Pa"). eexists.
  split; [now exists 1%Z|]. split; [now exists 1%Z|]. do 3 (split; [vm_compute; reflexivity|]).
  split; [vm_compute; reflexivity|]. split; vm_compute; reflexivity.
Qed.
Print Assumptions C05_prefix_like_unit_refuted.

(** Missing: dimensionless quantities: [PrefixedUnit(5) * 2] fails. *)
Theorem C05_dimensionless_refuted : forall v o,
  (forall y, o <> OQ y) ->
  exists a, make1 v = Ok a /\ q_mul a o = Err AssertionError /\ q_add a o = Err AssertionError.
Proof.
  intros v [q|y] H; [now destruct (H q)|]. eexists. repeat split.
Qed.
Print Assumptions C05_dimensionless_refuted.

(** C06 *)
Theorem C06_largest_partial : forall q bv err min fmin max,
  base_value q = Fin bv -> 0 <= bv -> factor min = Some fmin -> max_known max ->
  exists r fr, good_prefix q err min max = Ok r /\ factor r = Some fr /\ (fmin <= fr)%Z
    /\ (r = min \/ (admissible bv err fr /\ allowed max fr))
    /\ (forall k f, factor k = Some f -> allowed max f -> admissible bv err f -> (f <= fr)%Z).
Proof. exact good_prefix_largest. Qed.
Print Assumptions C06_largest_partial.

(** The rounding in the specification: nearest hundredth, ties to the even one. *)
Theorem C06_rounding : forall x,
  Qabs (round2 x - x) <= 1 # 200 /\
  (Qabs (inject_Z (round_even (x * inject_Z 100)) - x * inject_Z 100) == 1 # 2 ->
   Z.even (round_even (x * inject_Z 100)) = true).
Proof. intros x. exact (conj (round2_near x) (round_even_tie _)). Qed.
Print Assumptions C06_rounding.

Example C06_case : base_value q_ex = Fin (2250000000 # 1) /\ max_known None
  /\ good_prefix q_ex (1 # 100) "" None = Ok "G" /\ good_prefix q_ex (1 # 100) "" (Some "M") = Ok "M"
  /\ good_prefix q_ex (1 # 100) "T" None = Ok "T".
Proof. repeat split. Qed.

(** Missing: negative quantities.  -5000 B has the admissible prefix k, but gets none. *)
Theorem C06_negative_refuted : exists q bv,
  base_value q = Fin bv /\ admissible bv (1 # 100) (10 ^ 3) /\ factor "k" = Some (10 ^ 3)%Z /\
  good_prefix q (1 # 100) "" None = Ok "".
Proof.
  exists (mkq (Fin (-5000 # 1)) "" "B"), (-5000 # 1). do 2 (split; [repeat split; vm_compute; first [reflexivity|discriminate]|]).
  split; vm_compute; reflexivity.
Qed.
Print Assumptions C06_negative_refuted.

(** The factors: k, M, G, Z, Y are the SI powers of ten, T, P and E are ten times too large. *)
Theorem C06_si_partial : forall k e, In (k, e) SI -> ~ In k ["T"; "P"; "E"] ->
  factor k = Some (10 ^ e)%Z.
Proof.
  intros k e H Hn. cbn [SI In] in H.
  repeat (destruct H as [[= <- <-]|H]; [first [reflexivity|exfalso; cbn in Hn; tauto]|]). destruct H.
Qed.
Print Assumptions C06_si_partial.

Theorem C06_si_refuted : forall k e, In (k, e) SI -> In k ["T"; "P"; "E"] ->
  factor k = Some (10 * 10 ^ e)%Z.
Proof.
  intros k e H Hn. cbn [SI In] in H.
  repeat (destruct H as [[= <- <-]|H]; [first [reflexivity|exfalso; cbn in Hn; intuition discriminate]|]).
  destruct H.
Qed.
Print Assumptions C06_si_refuted.

(** C07: printing followed by parsing; half of the last printed digit is the error bound, and 1 % for
    quantities which are not tiny. *)
Theorem C07_roundtrip_partial : forall fuel q bv,
  valid q -> base_value q = Fin bv -> 0 <= bv -> bv < inject_Z (895 * 10 ^ 16) ->
  printable_unit (unit q) ->
  exists s q' f bv',
    to_string (S fuel) q = Ok s /\ parse s = Ok q' /\ unit q' = unit q
    /\ factor (prefix q') = Some f /\ base_value q' = Fin bv'
    /\ Qabs (bv' - bv) <= (1 # 200) * inject_Z f
    /\ (9 # 10 <= bv -> Qabs (bv' - bv) <= (1 # 100) * bv).
Proof. exact print_parse_error. Qed.
Print Assumptions C07_roundtrip_partial.

Example C07_case : valid q_ex /\ printable_unit (unit q_ex)
  /\ to_string 1 q_ex = Ok "2.25 GB/s"
  /\ exists q', parse "2.25 GB/s" = Ok q' /\ num_eq (base_value q') (base_value q_ex).
Proof.
  split; [now exists (10 ^ 6)%Z|]. split; [|split; [reflexivity|eexists; split; reflexivity]].
  split; [now apply has_newline_spec|]. split.
  - exists "B"%char, "/s". split; [reflexivity|]. now apply is_parse_prefix_spec.
  - exists "B/", "s"%char. split; [reflexivity|]. now apply not_space.
Qed.

(** Printed quantities neither begin nor end with white space: a unit that ends with it is not read back as it was. *)
Theorem C07_trimmed fuel q s : to_string fuel q = Ok s -> (forall c r, s = String c r -> ~ white_space c) /\ (forall c r, s = r ++ String c "" -> ~ white_space c).
Proof. intros H. apply to_string_strip in H as (s' & ->). split; intros c r; [apply strip_start|apply strip_end]. Qed.
Print Assumptions C07_trimmed.
Example C07_trimmed_case : to_string 1 (mkq (Fin (3 # 1)) "k" "B	") = Ok "3.00 kB" /\ to_string 1 (mkq (Fin (3 # 1)) "" "") = Ok "3.00".
Proof. split; vm_compute; reflexivity. Qed.

(** Missing: large values (prefix E, Z, Y are printed, but not read). *)
Theorem C07_large_refuted : exists q s q',
  valid q /\ to_string 1 q = Ok s /\ parse s = Ok q' /\ s = "2.00 EB" /\ unit q = "B" /\ unit q' = "EB".
Proof.
  exists (mkq (Fin (2000 # 1)) "P" "B"). eexists _, _. split; [now exists (10 ^ 16)%Z|].
  do 2 (split; [vm_compute; reflexivity|]). repeat split.
Qed.
Print Assumptions C07_large_refuted.

(** Missing: infinite quantities, which occur as performance without memory traffic. *)
Theorem C07_inf_refuted : exists q s q',
  parse "inf It/s" = Ok q /\ to_string 1 q = Ok s /\ parse s = Ok q' /\ unit q = "It/s" /\ unit q' = "YIt/s".
Proof. eexists _, _, _. do 3 (split; [vm_compute; reflexivity|]). repeat split. Qed.
Print Assumptions C07_inf_refuted.

(** Missing: dimensionless and negative quantities are printed, but cannot be parsed. *)
Theorem C07_unparsable_refuted :
  (exists q s, make1 (Fin 5) = Ok q /\ to_string 1 q = Ok s /\ parse s = Err AssertionError) /\
  (exists q s, make2 (Fin (-5 # 1)) "B" = Ok q /\ to_string 1 q = Ok s /\ parse s = Err AssertionError).
Proof. split; eexists _, _; do 2 (split; [vm_compute; reflexivity|]); vm_compute; reflexivity. Qed.
Print Assumptions C07_unparsable_refuted.

(** C59: comparisons agree with the values, whatever the prefixes. *)
Theorem C59_comparisons : forall a o x y,
  base_value a = Fin x -> ofloat o = Fin y ->
  (q_lt a o = true <-> x < y) /\ (q_gt a o = true <-> y < x) /\ (q_le a o = true <-> x <= y)
  /\ (q_ge a o = true <-> y <= x) /\ (q_eq a o = true <-> x == y) /\ (q_ne a o = true <-> ~ x == y).
Proof. exact q_cmp_ok. Qed.
Print Assumptions C59_comparisons.

Theorem C59_abs_partial : forall a x, base_value a = Fin x -> plain_unit (unit a) ->
  exists r z, q_abs a = Ok r /\ unit r = unit a /\ base_value r = Fin z /\ z == Qabs x.
Proof. exact q_abs_ok. Qed.
Print Assumptions C59_abs_partial.

Theorem C59_floordiv_partial : forall a o x y u,
  base_value a = Fin x -> ofloat o = Fin y -> ~ y == 0 ->
  u = match o with OQ b => unit a ++ "/" ++ unit b | ON _ => unit a end -> plain_unit u ->
  exists r k z, q_floordiv a o = Ok r /\ unit r = u /\ base_value r = Fin z /\ z == inject_Z k
    /\ inject_Z k <= x / y < inject_Z (k + 1).
Proof. exact q_floordiv_ok. Qed.
Print Assumptions C59_floordiv_partial.

Theorem C59_mod_partial : forall a o x y,
  base_value a = Fin x -> ofloat o = Fin y -> ~ y == 0 -> (forall b, o = OQ b -> unit b = unit a) ->
  plain_unit (unit a) ->
  exists r z k, q_mod a o = Ok r /\ unit r = unit a /\ base_value r = Fin z /\ x == y * inject_Z k + z
    /\ (0 < y -> 0 <= z < y) /\ (y < 0 -> y < z <= 0).
Proof. exact q_mod_ok. Qed.
Print Assumptions C59_mod_partial.

Theorem C59_division_by_zero : forall a o y,
  ofloat o = Fin y -> y == 0 -> (forall b, o = OQ b -> unit b = unit a) ->
  q_floordiv a o = Err ZeroDivisionError /\ q_mod a o = Err ZeroDivisionError.
Proof. exact q_zero_ok. Qed.
Print Assumptions C59_division_by_zero.

Example C59_case :
  base_value (mkq (Fin (3 # 1)) "k" "B") = Fin (3000 # 1)
  /\ ofloat (OQ (mkq (Fin (2999 # 1)) "" "B")) = Fin (2999 # 1) /\ plain_unit "B"
  /\ q_gt (mkq (Fin (3 # 1)) "k" "B") (OQ (mkq (Fin (2999 # 1)) "" "B")) = true
  /\ q_floordiv (mkq (Fin (3 # 1)) "k" "B") (OQ (mkq (Fin (2999 # 1)) "" "B")) = Ok (mkq (Fin 1) "" "B/B")
  /\ q_mod (mkq (Fin (3 # 1)) "k" "B") (OQ (mkq (Fin (2999 # 1)) "" "B")) = Ok (mkq (Fin 1) "" "B").
Proof.
  split; [reflexivity|]. split; [reflexivity|]. split.
  - split; [apply has_newline_spec; reflexivity|]. exists "B"%char, "". auto.
  - split; [|split]; vm_compute; reflexivity.
Qed.

(** Quantities of different units are equal if their numbers are. *)
Theorem C59_units_refuted : exists a b, unit a <> unit b /\ q_eq a (OQ b) = true.
Proof. exists (mkq (Fin 1) "" "cy/CL"), (mkq (Fin 1) "" "B/s"). split; [discriminate|reflexivity]. Qed.
Print Assumptions C59_units_refuted.
