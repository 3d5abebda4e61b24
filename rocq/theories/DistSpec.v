(** Specification for distances between references: elements of arrays in the order of C. *)
From Coq Require Import String.
From Verif Require Import PyBase DistModel.
Local Open Scope Z_scope.

(** Value of an expression, for given values of the symbols *)
Fixpoint value (v : string -> Z) (e : expr) : Z :=
  match e with Num z => z | Sym s => v s | Add a b => value v a + value v b | Sub a b => value v a - value v b | Mul a b => value v a * value v b end.
(** Number of an element of an array with given sizes (row by row, as C stores them), by Horner's rule *)
Definition element (sizes idx : list Z) : Z := fold_left (fun acc p => acc * fst p + snd p) (combine sizes idx) 0.
(** Simplified expressions have the same value. *)
Definition sound (simplify : expr -> expr) : Prop := forall v e, value v (simplify e) = value v e.
(** Elements of [name] that are referenced, sources first *)
Definition referenced (v : string -> Z) (sizes : list expr) (srcs dsts : references) (name : string) : list Z :=
  map (fun a => element (map (value v) sizes) (map (value v) a)) (present (get srcs name) ++ present (get dsts name)).
(** The entry of a defaultdict(list) *)
Definition entry (name : string) (d : list (string * list expr)) : list expr := match find_key name d with Some l => l | None => [] end.
Fixpoint sum (l : list Z) : Z := match l with [] => 0 | x :: l' => x + sum l' end.
Definition indices_match (sizes : list expr) (srcs dsts : references) (name : string) : Prop :=
  forall a, In a (present (get srcs name) ++ present (get dsts name)) -> length a = length sizes.
