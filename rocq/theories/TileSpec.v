(** What a search for the block length is to find *)
From Coq Require Export QArith.
From Verif Require Export PyBase.
Local Open Scope Z_scope.

(** [good] is a length of the window which is not slower than the minimal one, and [bad], at most ten longer, is the end of the window or slower. *)
Definition boundary (simulate : Z -> Q) (min_length upper good bad : Z) : Prop :=
  min_length <= good < bad /\ bad <= upper /\ bad - good <= 10 /\
  (simulate good <= simulate min_length)%Q /\ (bad = upper \/ (simulate good < simulate bad)%Q).
