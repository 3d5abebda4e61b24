(** Specification for C111 and C135 with references which stay at the same line in the innermost loop, as [c[j][0]] in a loop over i. *)
From Coq Require Import String.
From Verif Require Import PyBase AstModel LCModel LCSpec FrontModel FrontSpec LruSpec EvictSpec.
Local Open Scope list_scope.
Local Open Scope Z_scope.

(** What an iteration accesses: elements moving with the iterations, and lines which stay; each read or written, in the order of the statements *)
Inductive target := Moves (r : ref) | Stays (l : line).
Notation slot := (target * bool)%type.
Definition target_line (width t : Z) (x : target) : line := match x with Moves r => line_of width t r | Stays l => l end.
Definition slot_access (width t : Z) (x : slot) : event := (target_line width t (fst x), snd x).
Definition slot_trace (width : Z) (slots : list slot) (ts : list Z) : list event := flat_map (fun t => map (slot_access width t) slots) ts.
Definition movers (slots : list slot) : list wref := flat_map (fun x => match fst x with Moves r => [(r, snd x)] | Stays _ => [] end) slots.
Definition stayers (slots : list slot) : list line := flat_map (fun x => match fst x with Moves _ => [] | Stays l => [l] end) slots.
(** They are in different arrays. *)
Definition separate (slots : list slot) : Prop := forall r l, In r (map fst (movers slots)) -> In l (stayers slots) -> fst r <> fst l.

(** ** Kernels *)
(** The index is used in one of the references to the array. *)
Definition uses_index (k : front) (x n : string) : bool :=
  existsb (existsb (fun s => match shape s with Some (Some v, _) => String.eqb v x | _ => false end)) (array_references k n).
Definition moving (k : front) (x : string) : list (string * option (list sym)) := filter (fun v => uses_index k x (fst v)) (variables k).
Definition staying (k : front) (x : string) : list (string * option (list sym)) := filter (fun v => negb (uses_index k x (fst v))) (variables k).
(** The slots are those of the kernel, in any order. *)
Definition slots_of (number : string -> nat) (env : string -> Z) (k : front) (x : string) (width : Z) (slots : list slot) : Prop :=
  Permutation.Permutation (map fst (movers slots)) (kernel_refs number env k (moving k x)) /\
  forall l, In l (stayers slots) <-> In l (map (line_of width 0) (kernel_refs number env k (staying k x))).
(** Written elements are those of the kernel; at most one element is written in each array that uses the index. *)
Definition writes_of (number : string -> nat) (env : string -> Z) (k : front) (x : string) (slots : list slot) : Prop :=
  forall r, In r (written (movers slots)) <-> In r (kernel_writes number env k (moving k x)).
Definition one_moving_written (k : front) (x : string) : Prop :=
  forall n dims, In (n, Some dims) (moving k x) -> entries (destinations k) n = [] \/ exists idx, entries (destinations k) n = [Some idx].
