(** Specification for C139 and C140. *)
From Coq Require Import String.
From Verif Require Import PyBase PyText PyInt PyFloat InfoSpec.
Local Open Scope list_scope.

(** What a row of the table says: data which is loaded from [lower] to [upper] and stored the other way, in bytes for each cache line of work *)
Definition says (row upper lower : text) (loaded stored : Z) : Prop :=
  exists a b, words row = [upper ++ codes "-" ++ lower; codes "|"; a; codes "B/CL"; codes "|"; b; codes "B/CL"; codes "|"] /\ py_int a = Some loaded /\ py_int b = Some stored.
(** A number rounded to an integer *)
Definition rounded (z : Z) (q : Q) : Prop := (q - (1 # 2) <= inject_Z z <= q + (1 # 2))%Q.
(** A tuple of offsets, counted from its end; behind its beginning there are zeros. *)
Definition from_end (a : list Z) (k : nat) : Z := nth k (rev a) 0%Z.
(** [a] comes before [b]: it is smaller in the first dimension in which they differ. *)
Definition before (a b : list Z) : Prop := exists k, (from_end a k < from_end b k)%Z /\ forall j, (k < j)%nat -> from_end a j = from_end b j.
