(** Model of the loop-nest, index and layout computations of [/repo/kerncraft/kernel.py].
    All symbolic expressions are taken after substitution of the constants, i.e. they are integers.
    Loop bounds do not depend on other loop variables (otherwise the code fails to lambdify). *)
From Coq Require Import String QArith Qround.
From Verif Require Import PyBase.
Local Open Scope Z_scope.

(** kernel.py:1020-1097 produces, kernel.py:391 consumes: (index, start, end, increment),
    outermost loop first in [_loop_stack]. *)
Record loop := mkloop { lvar : string; lstart : Z; lend : Z; lincr : Z }.

(** symbolic/utils.py:12-16, [int_ceil]: [sympy.ceiling(x / y)] on numbers.
    [y = 0] yields sympy's [zoo]; that case is outside the model. *)
Definition int_ceil (x y : Z) : Z := - ((- x) / y).

(** kernel.py:393 / 487 / 515 *)
Definition loop_length (l : loop) : Z := int_ceil (lend l - lstart l) (lincr l).

(** kernel.py:377-395, [iteration_length()] with [dimension=None]. *)
Definition iteration_length (stack : list loop) : Z :=
  fold_left (fun total l => total * loop_length l) (rev stack) 1.

(** kernel.py:472-504, [global_iterator_to_indices(git)]; the dictionary is returned as an
    association list in insertion order (innermost loop first).  A zero [length] would raise
    ZeroDivisionError / give [nan] in sympy; theorems assume non-empty loops. *)
Fixpoint gi_to_indices_loop (rstack : list loop) (total last_incr git : Z) : list (string * Z) :=
  match rstack with
  | [] => []
  | l :: r =>
      let length := loop_length l in
      let counter := lstart l + ((((git * last_incr) / total) * lincr l) mod length) in
      (lvar l, counter) :: gi_to_indices_loop r (total * length) (lincr l) git
  end.
Definition global_iterator_to_indices (stack : list loop) (git : Z) : list (string * Z) :=
  gi_to_indices_loop (rev stack) 1 1 git.

(** kernel.py:506-527, [global_iterator] with the given indices substituted
    ([indices_to_global_iterator]); [indices] gives the value of each loop variable. *)
Fixpoint gi_loop (rstack : list loop) (total : Z) (indices : string -> Z) (acc : Z) : Z :=
  match rstack with
  | [] => acc
  | l :: r =>
      gi_loop r (total * loop_length l) indices (acc + (indices (lvar l) - lstart l) * total)
  end.
Definition indices_to_global_iterator (stack : list loop) (indices : string -> Z) : Z :=
  gi_loop (rev stack) 1 indices 0.

(** Dictionary lookup used to feed the result of [global_iterator_to_indices] into
    [indices_to_global_iterator] (sympy substitution; a missing variable stays symbolic, the
    default 0 is never used when the dictionary has all loop variables) (kernel.py:520-527). *)
Fixpoint lookup (d : list (string * Z)) (k : string) : Z :=
  match d with
  | [] => 0
  | (k', v) :: d' => if String.eqb k k' then v else lookup d' k
  end.

(** kernel.py:529-533, [max_global_iteration]. *)
Definition max_global_iteration (stack : list loop) : Z :=
  indices_to_global_iterator stack
    (lookup (map (fun l => (lvar l, lend l - 1)) stack)).

(** models/benchmark.py:395-399, [iterations_per_repetition] (exact sympy rationals). *)
Definition bench_iterations (stack : list loop) : Q :=
  fold_left (fun acc l => acc * (inject_Z (lend l - lstart l) / inject_Z (lincr l)))%Q stack 1%Q.

(** kernel.py:2017-2024, [region__iterations_per_repetition] of a binary description
    ([floor] of a float quotient, taken exactly here). *)
Definition region_iterations (stack : list loop) : Z :=
  fold_left (fun acc l => acc * ((lend l - lstart l) / lincr l)) stack 1.

(** kernel.py:358-375, [access_to_sympy]: row-major offset of an access;
    [dims] are the declared sizes, [base_sizes[dimension+1:]] is [skipn (S dimension) dims]. *)
Fixpoint access_loop (dims : list Z) (dimension : nat) (access : list Z) (expr : Z) : Z :=
  match access with
  | [] => expr
  | a :: access' =>
      let base_size := zprod (skipn (S dimension) dims) in
      access_loop dims (S dimension) access' (expr + base_size * a)
  end.
Definition access_to_sympy (dims access : list Z) : Z := access_loop dims 0 access 0.

(** kernel.py:298-326, [array_sizes(in_bytes=..)] for one array. *)
Definition array_elements (dims : list Z) : Z := fold_left Z.mul dims 1.
Definition array_bytes (elem : Z) (dims : list Z) : Z := array_elements dims * elem.

(** kernel.py:580-587: size of an array in the virtual address space.
    [~(cl-1)] is Python's bitwise complement. *)
Definition padded_size (cl spacing bytes : Z) : Z :=
  Z.land ((bytes + spacing) + cl - 1) (Z.lnot (cl - 1)).

(** kernel.py:573-587: arrays in alphabetical order, one behind the other.
    Input: name and size in bytes; output: name, base offset and size in bytes. *)
Fixpoint layout_loop (cl spacing base : Z) (arrays : list (string * Z)) : list (string * Z * Z) :=
  match arrays with
  | [] => []
  | (name, bytes) :: r =>
      (name, base, bytes) :: layout_loop cl spacing (base + padded_size cl spacing bytes) r
  end.
Definition layout (cl spacing : Z) (arrays : list (string * Z)) : list (string * Z * Z) :=
  layout_loop cl spacing 0 (sort_with (fun a b => String.leb (fst a) (fst b)) arrays).

(** kernel.py:599-601: byte offset of an access. *)
Definition byte_offset (base elem : Z) (dims access : list Z) : Z :=
  access_to_sympy dims access * elem + base.
