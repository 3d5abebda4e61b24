(** Specification for quantities with prefixes. *)
From Coq Require Import String Ascii.
From Verif Require Import PyBase PyNum UnitModel.
Local Open Scope string_scope.

(** SI prefixes and their exponents. *)
Definition SI : list (string * Z) :=
  [("", 0); ("k", 3); ("M", 6); ("G", 9); ("T", 12); ("P", 15); ("E", 18); ("Z", 21); ("Y", 24)]%Z.

(** A prefix of factor [f] may be used for [bv]: relative error at most [err] after rounding to two
    decimals and a rounded number of at least 0.9. *)
Definition admissible (bv err : Q) (f : Z) : Prop :=
  (Qabs (round2 (bv / inject_Z f) * inject_Z f - bv) <= Qabs bv * err)%Q /\
  (9 # 10 <= Qabs (round2 (bv / inject_Z f)))%Q.

(** Not excluded by the requested maximal prefix. *)
Definition allowed (max_prefix : option string) (f : Z) : Prop :=
  match max_prefix with
  | None => True
  | Some m => forall fm, factor m = Some fm -> (f <= fm)%Z
  end.

Definition valid (q : quantity) : Prop := exists f, factor (prefix q) = Some f.

(** Characters which are read as prefix. *)
Definition prefix_chars : list ascii := ["k"; "M"; "G"; "T"; "P"]%char.

(** Unit names that cannot be mistaken for a prefixed unit. *)
Definition no_newline (u : string) : Prop := forall a b, u <> a ++ String newline b.
Definition plain_unit (u : string) : Prop :=
  no_newline u /\ exists c r, u = String c r /\ (r = "" \/ ~ In c prefix_chars).

(** White space: blank, tabulator, line feed, vertical tabulator, form feed, carriage return, and the four separators *)
Definition white_space (c : ascii) : Prop := In c [" "; "009"; "010"; "011"; "012"; "013"; "028"; "029"; "030"; "031"]%char.
(** Units that can be printed and read back. *)
Definition printable_unit (u : string) : Prop :=
  no_newline u /\ (exists c r, u = String c r /\ ~ In c prefix_chars)
  /\ (exists r c, u = r ++ String c "" /\ ~ white_space c).
