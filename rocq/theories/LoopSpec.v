(** Specification for loop nests and arrays, independent of the model. *)
From Coq Require Import String.
From Verif Require Import PyBase LoopModel.
(** Of the model, only the record [loop] (variable, start, end, increment) is used here. *)

(** The values of the variable of [for (v = start; v < stop; v += incr)], in execution order. *)
Inductive for_values : Z -> Z -> Z -> list Z -> Prop :=
| fv_done start stop incr : stop <= start -> for_values start stop incr []
| fv_step start stop incr vs : start < stop -> for_values (start + incr) stop incr vs ->
    for_values start stop incr (start :: vs).

(** Nested iteration: all combinations, the first list varying slowest. *)
Fixpoint combinations (vss : list (list Z)) : list (list Z) :=
  match vss with
  | [] => [[]]
  | vs :: rest => flat_map (fun v => map (cons v) (combinations rest)) vs
  end.

(** [executes bounds its]: executing the nest of loops with the given (start, stop, incr), outermost
    first, runs the body once for each index tuple of [its], in this order. *)
Definition executes (bounds : list (Z * Z * Z)) (its : list (list Z)) : Prop :=
  exists vss, Forall2 (fun b vs => for_values (fst (fst b)) (snd (fst b)) (snd b) vs) bounds vss
              /\ its = combinations vss.

(** All index tuples of an array with the given dimensions, in row-major order. *)
Definition zrange (n : Z) : list Z := map Z.of_nat (seq 0 (Z.to_nat n)).
Definition row_major (dims : list Z) : list (list Z) := combinations (map zrange dims).

(** Index tuple inside the declared dimensions. *)
Definition in_range (dims access : list Z) : Prop := Forall2 (fun d i => 0 <= i < d) dims access.

(** Bounds of a loop stack (outermost loop first). *)
Definition bounds (stack : list loop) : list (Z * Z * Z) :=
  map (fun l => (lstart l, lend l, lincr l)) stack.

(** No loop runs backwards; increments are positive. *)
Definition proper (stack : list loop) : Prop :=
  Forall (fun l => lstart l <= lend l /\ 0 < lincr l) stack.

(** All loops have at least one iteration and increment 1. *)
Definition unit_stack (stack : list loop) : Prop :=
  Forall (fun l => lstart l < lend l /\ lincr l = 1) stack.
