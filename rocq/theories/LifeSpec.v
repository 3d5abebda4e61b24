(** Specification of the life of machine descriptions and of the age of intermediate files *)
From Verif Require Export PyBase PyText.
Local Open Scope Z_scope.

(** What a part of the work makes of a description; the description after the first [k] parts *)
Fixpoint after_parts {data} (changes : list (data -> res data)) (k : nat) (d : data) : res data :=
  match k, changes with
  | O, _ | _, [] => Ok d
  | S k', f :: rest => do d' <- f d; after_parts rest k' d'
  end.

(** A directory: the times of its files, None if a file has vanished, and its directories; a time is found somewhere inside *)
Section Tree.
  Variable tree : Type.
  Variables (files : tree -> list (option Z)) (dirs : tree -> list tree).
  Inductive found : tree -> Z -> Prop :=
  | found_here t m : In (Some m) (files t) -> found t m
  | found_below t t' m : In t' (dirs t) -> found t' m -> found t m.
End Tree.
(** An intermediate file that was made at [f] is newer than everything it depends on. *)
Definition newer_than_all (f : Z) (times : Z -> Prop) : Prop := forall t, times t -> t < f.
