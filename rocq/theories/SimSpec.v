(** Specification of the schedule of a cache simulation. *)
From Verif Require Import PyBase.
Local Open Scope Z_scope.

(** [schedule max p l q]: the ranges of iterations [l] follow each other without a gap, starting after
    position [p] and ending at [q]. They consist of iterations of the kernel only, and start again with
    iteration 0 only after the last one. *)
Inductive schedule (max : Z) : Z -> list (Z * Z) -> Z -> Prop :=
| sch_nil p : schedule max p [] p
| sch_next p b l q : 0 <= p < b -> b <= max -> schedule max b l q -> schedule max p ((p, b) :: l) q
| sch_again b l q : 0 < b <= max -> schedule max b l q -> schedule max max ((0, b) :: l) q.

(** Memory is accessed linearly around an iteration: [s] bytes further in each iteration. *)
Definition linear_around (offset : Z -> Z) (i d s : Z) : Prop :=
  forall j, i - d <= j <= i + d -> offset j = offset i + (j - i) * s.

(** [n] steps of [inc] iterations, from the first iteration on. *)
Fixpoint sweep (inc : Z) (n : nat) : list (Z * Z) :=
  match n with O => [] | S m => sweep inc m ++ [(Z.of_nat m * inc, Z.of_nat (S m) * inc)] end.
(** The last step ends with the last iteration, and the caches are not full before. *)
Definition ends_exactly (inc iterations : Z) (invalid : list (Z * Z) -> Z) : Prop :=
  exists n, (1 <= n <= 100)%nat /\ iterations = Z.of_nat n * inc /\ forall m, (m < n)%nat -> 0 < invalid (sweep inc m).
