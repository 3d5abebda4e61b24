(** What ranges of values are to mean *)
From Verif Require Export PyBase PyNum PyText.
From Coq Require Import Qabs.
Local Open Scope Q_scope.

(** [z] is [q] rounded to an integer. *)
Definition rounded (q : Q) (z : Z) : Prop := Qabs (inject_Z z - q) <= 1 # 2.
(** Never decreasing; never increasing *)
Definition ascending (l : list Z) : Prop := forall i j x y, (i <= j)%nat -> nth_error l i = Some x -> nth_error l j = Some y -> (x <= y)%Z.
Definition descending (l : list Z) : Prop := forall i j x y, (i <= j)%nat -> nth_error l i = Some x -> nth_error l j = Some y -> (y <= x)%Z.
