(** Specification for C136: a hierarchy of caches with least recently used replacement. Each level is asked for what missed in the level above, and
    nothing else. Of the models the records of simulated counts are used; caches, lines, references and positions are those of [LruSpec], [needed] that of [LCSpec]. *)
From Verif Require Import PyBase LCSpec LruSpec EvictSpec CsimModel CsimSpec.
Local Open Scope list_scope.
Local Open Scope Z_scope.

(** The accesses of [future] which miss in a cache of n lines, after those of [past] *)
Fixpoint missed (n : nat) (past future : list line) : list line :=
  match future with [] => [] | l :: future' => (if hit n past l then [] else [l]) ++ missed n (past ++ [l]) future' end.
(** Misses in a cache of n lines below caches of [above] lines, the first one being next to the processor *)
Fixpoint level_misses (above : list nat) (n : nat) (past future : list line) : Z :=
  match above with [] => misses_after n past future | m :: above' => level_misses above' n (missed m [] past) (missed m past future) end.
(** Number of lines of some caches together *)
Definition together (ns : list nat) : nat := fold_right Nat.add 0%nat ns.
(** Distance to the first access to an element: that of the reference which is furthest ahead *)
Definition maximum (l : list Z) : option Z := match l with [] => None | x :: l' => Some (fold_right Z.max x l') end.
Definition farthest (refs : list ref) (r : ref) : option Z := maximum (larger refs r).
(** All streams fit in n lines from the first access to the line until it is used for the last time by this reference. *)
Definition held (n : nat) (width : Z) (refs : list ref) (r : ref) : bool :=
  match farthest refs r with Some v => needed (distances refs) (v + width) + 2 * Z.of_nat (List.length refs) * (width - 1) <=? Z.of_nat n * width | None => false end.
(** No reference to the array is ahead of this one. *)
Definition first_of_array (refs : list ref) (r : ref) : bool := match farthest refs r with Some _ => false | None => true end.

(** ** The simulator *)
(** Its caches are such a hierarchy of [ns] lines, the first one being next to the processor; misses are counted after the warm-up. *)
Definition hierarchy (ns : list nat) (line_size : Z) (run : list row -> list row -> list stats) : Prop :=
  forall before during i n, nth_error ns i = Some n ->
  exists s, nth_error (run before during) i = Some s /\ n_miss (lines s) = level_misses (firstn i ns) n (touched line_size before) (touched line_size during).
