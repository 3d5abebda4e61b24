(** Small library of Python notions shared by all models.
    Nothing in here is specific to kerncraft. *)
From Coq Require Export ZArith List Bool Lia.
Export ListNotations.
Open Scope Z_scope.

(** Python exceptions that the modelled code can raise, as values.
    [OutOfFuel] is not a Python exception: it marks that a loop model ran out of its fuel. *)
Inductive exn :=
| ValueError | TypeError | KeyError | IndexError | AssertionError | AttributeError
| ZeroDivisionError | NameError | NotImplementedError | OSError | RuntimeError | SystemExit
| OutOfFuel.

Inductive res (A : Type) :=
| Ok (a : A)
| Err (e : exn).
Arguments Ok {A} a.
Arguments Err {A} e.

Definition bind {A B} (r : res A) (f : A -> res B) : res B :=
  match r with Ok a => f a | Err e => Err e end.
Notation "'do' x <- r ; k" := (bind r (fun x => k))
  (at level 200, x pattern, r at level 100, k at level 200).

Definition rmap {A B} (f : A -> B) (r : res A) : res B :=
  match r with Ok a => Ok (f a) | Err e => Err e end.

(** Left-to-right traversal which stops at the first exception. *)
Fixpoint mapM {A B} (f : A -> res B) (l : list A) : res (list B) :=
  match l with
  | [] => Ok []
  | x :: l' => do y <- f x; do ys <- mapM f l'; Ok (y :: ys)
  end.

(** Python's [sorted(l, key=...)]/[list.sort(key=...)] for integer keys.  Python guarantees a
    stable sort, hence the result is determined by the keys; insertion sort computes it. *)
Section StableSort.
  Context {A : Type} (key : A -> Z).
  Fixpoint insert_by (x : A) (l : list A) : list A :=
    match l with
    | [] => [x]
    | y :: l' => if key x <=? key y then x :: l else y :: insert_by x l'
    end.
  Definition sort_by (l : list A) : list A := fold_right insert_by [] l.
End StableSort.

(** Python's [sum] over integers. *)
Definition zsum (l : list Z) : Z := fold_right Z.add 0 l.
(** [functools.reduce(operator.mul, l, 1)] *)
Definition zprod (l : list Z) : Z := fold_right Z.mul 1 l.

(** Python's [sorted] with a comparison given as a boolean "less or equal" (stable). *)
Section SortWith.
  Context {A : Type} (leb : A -> A -> bool).
  Fixpoint insert_with (x : A) (l : list A) : list A :=
    match l with
    | [] => [x]
    | y :: l' => if leb x y then x :: l else y :: insert_with x l'
    end.
  Definition sort_with (l : list A) : list A := fold_right insert_with [] l.
End SortWith.
