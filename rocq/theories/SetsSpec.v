(** Specification for C138: caches with sets. Caches, references and distances are those of [LruSpec]. *)
From Verif Require Import PyBase LCSpec LruSpec.
Local Open Scope list_scope.
Local Open Scope Z_scope.

(** Arrays are contiguous in memory: line i of an array is i lines behind its first line, which is line [base array] of the memory. *)
Definition in_memory (base : nat -> Z) (l : line) : Z := base (fst l) + snd l.
(** Number of misses of accesses which follow [past], in a cache of [sets] sets with [ways] lines each; each set is a cache with least recently
    used replacement for the lines whose number in memory has the same remainder. *)
Fixpoint misses_in_sets (sets : Z) (ways : nat) (base : nat -> Z) (past future : list line) : Z :=
  match future with
  | [] => 0
  | l :: future' => (if hit_in_set sets ways (in_memory base) past l then 0 else 1) + misses_in_sets sets ways base (past ++ [l]) future'
  end.
