(** Specification for C111: caches with least recently used replacement, and the accesses of a kernel that streams through its arrays. Of the
    models, only the references of a kernel (FrontModel) are used; [needed], [reused] and [classified] are those of [LCSpec]. *)
From Coq Require Import String.
From Verif Require Import PyBase AstModel LCModel LCSpec FrontModel FrontSpec.
Local Open Scope list_scope.
Local Open Scope Z_scope.

(** ** Caches *)
(** A cache line: number of the array and number of the line in it. Different arrays have no lines in common. *)
Definition line := (nat * Z)%type.
Definition line_eqb (a b : line) : bool := (Nat.eqb (fst a) (fst b) && (snd a =? snd b))%bool.
(** A fully associative cache of n lines; contents from the most to the least recently used line *)
Definition touch (n : nat) (c : list line) (l : line) : list line := firstn n (l :: filter (fun x => negb (line_eqb x l)) c).
Definition cache_after (n : nat) (past : list line) : list line := fold_left (touch n) past [].
Definition hit (n : nat) (past : list line) (l : line) : bool := existsb (line_eqb l) (cache_after n past).
(** Number of misses of accesses which follow [past] *)
Fixpoint misses_after (n : nat) (past future : list line) : Z :=
  match future with [] => 0 | l :: future' => (if hit n past l then 0 else 1) + misses_after n (past ++ [l]) future' end.
(** Cache of [sets] sets with [ways] lines each: each set is a cache of its own for its lines; [place] is the number of a line in memory. *)
Definition hit_in_set (sets : Z) (ways : nat) (place : line -> Z) (past : list line) (l : line) : bool :=
  hit ways (filter (fun x => place x mod sets =? place l mod sets) past) l.

(** ** Accesses *)
(** A reference: number of the array and offset. In the iteration at position t it accesses element [offset + t] of the array. The references are
    in the order of the statements. *)
Definition ref := (nat * Z)%type.
Definition ref_eqb (a b : ref) : bool := (Nat.eqb (fst a) (fst b) && (snd a =? snd b))%bool.
(** Lines have [width] elements. *)
Definition line_of (width t : Z) (r : ref) : line := (fst r, (snd r + t) / width).
Definition iteration (width : Z) (refs : list ref) (t : Z) : list line := map (line_of width t) refs.
Definition trace (width : Z) (refs : list ref) (ts : list Z) : list line := flat_map (iteration width refs) ts.
(** Positions from s to below e *)
Definition positions (s e : Z) : list Z := map (fun i => s + Z.of_nat i) (seq 0 (Z.to_nat (e - s))).

(** ** Reuse distances *)
(** Number of iterations since the element was accessed last: 0 if it is accessed before in the same iteration, otherwise the smallest distance to a
    larger offset, [None] if there is none. *)
Definition larger (refs : list ref) (r : ref) : list Z :=
  map (fun q => snd q - snd r) (filter (fun q => Nat.eqb (fst q) (fst r) && (snd r <? snd q))%bool refs).
Definition minimum (l : list Z) : option Z := match l with [] => None | x :: l' => Some (fold_right Z.min x l') end.
Definition distance (refs before : list ref) (r : ref) : option Z := if existsb (ref_eqb r) before then Some 0 else minimum (larger refs r).
Fixpoint distances_from (refs before l : list ref) : list (option Z) :=
  match l with [] => [] | r :: l' => distance refs before r :: distances_from refs (before ++ [r]) l' end.
Definition distances (refs : list ref) : list (option Z) := distances_from refs [] refs.
(** Accesses which are not reused in a cache of [size] elements *)
Definition missing (vs : list (option Z)) (size : Z) : Z :=
  Z.of_nat (List.length (filter (fun v => match v with Some x => size <? needed vs x | None => true end) vs)).

(** ** References of a kernel *)
(** All references of the kernel to elements of arrays, in the iteration given by the values of the loop variables; [number] numbers the arrays. *)
Definition kernel_refs (number : string -> nat) (env : string -> Z) (k : front) (vars : list (string * option (list sym))) : list ref :=
  flat_map (fun v => match v with (n, Some dims) => map (fun idx => (number n, place env dims idx)) (array_references k n) | (_, None) => [] end) vars.
(** Distances are not negative with these values of constants. *)
Definition not_negative (rho : string -> Z) (d : dist) : Prop := match dist_value rho d with Some v => 0 <= v | None => True end.
