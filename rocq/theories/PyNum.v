(** Python floats, idealised: exact rationals plus the IEEE special values.
    Rounding to 53 bits, overflow and signed zeros are not modelled. *)
From Coq Require Export QArith Qround Qabs.
From Verif Require Export PyBase.
Open Scope Z_scope.

Inductive num := Fin (q : Q) | PInf | NInf | NaN.

Definition nopp (a : num) : num :=
  match a with Fin q => Fin (- q) | PInf => NInf | NInf => PInf | NaN => NaN end.
Definition nabs (a : num) : num :=
  match a with Fin q => Fin (Qabs q) | PInf | NInf => PInf | NaN => NaN end.

Definition nadd (a b : num) : num :=
  match a, b with
  | NaN, _ | _, NaN => NaN
  | Fin x, Fin y => Fin (x + y)
  | PInf, NInf | NInf, PInf => NaN
  | PInf, _ | _, PInf => PInf
  | NInf, _ | _, NInf => NInf
  end.
Definition nsub (a b : num) : num := nadd a (nopp b).

(** [inf * x] according to the sign of [x]. *)
Definition inf_times (i : num) (q : Q) : num :=
  match Qcompare q 0 with Eq => NaN | Gt => i | Lt => nopp i end.
Definition nmul (a b : num) : num :=
  match a, b with
  | NaN, _ | _, NaN => NaN
  | Fin x, Fin y => Fin (x * y)
  | Fin x, i => inf_times i x
  | i, Fin y => inf_times i y
  | PInf, PInf | NInf, NInf => PInf
  | _, _ => NInf
  end.

(** Python float division raises ZeroDivisionError. *)
Definition ndiv (a b : num) : res num :=
  match b with
  | Fin y =>
      if Qeq_bool y 0 then Err ZeroDivisionError
      else match a with
           | Fin x => Ok (Fin (x / y))
           | NaN => Ok NaN
           | i => Ok (inf_times i y)
           end
  | NaN => Ok NaN
  | _ => match a with Fin _ => Ok (Fin 0) | _ => Ok NaN end
  end.

Definition Qltb (x y : Q) : bool := negb (Qle_bool y x).

(** Comparisons; everything involving NaN is false. *)
Definition nltb (a b : num) : bool :=
  match a, b with
  | Fin x, Fin y => Qltb x y
  | NaN, _ | _, NaN => false
  | NInf, NInf | PInf, PInf => false
  | NInf, _ | _, PInf => true
  | _, _ => false
  end.
Definition neqb (a b : num) : bool :=
  match a, b with
  | Fin x, Fin y => Qeq_bool x y
  | PInf, PInf | NInf, NInf => true
  | _, _ => false
  end.
Definition ngtb a b := nltb b a.
Definition nleb a b := (nltb a b || neqb a b)%bool.
Definition ngeb a b := nleb b a.

(** Rounding half to even, as Python's [round] and the [.2f] format do. *)
Definition round_even (q : Q) : Z :=
  let f := Qfloor q in
  match Qcompare (q - inject_Z f) (1 # 2) with
  | Lt => f
  | Gt => f + 1
  | Eq => if Z.even f then f else f + 1
  end.

(** [round(x, 2)] *)
Definition round2 (q : Q) : Q := inject_Z (round_even (q * inject_Z 100)) / inject_Z 100.
Definition nround2 (a : num) : num := match a with Fin q => Fin (round2 q) | x => x end.

(** Equality of numbers as denotations. *)
Definition num_eq (a b : num) : Prop :=
  match a, b with
  | Fin x, Fin y => (x == y)%Q
  | PInf, PInf | NInf, NInf | NaN, NaN => True
  | _, _ => False
  end.
