(** What the parts of the ECM model are to mean. *)
From Verif Require Export PyBase PyNum.
Local Open Scope Q_scope.
Local Open Scope list_scope.

(** Smallest multiple of [base] that is not below [x] *)
Definition next_multiple (x : Q) (base z : Z) : Prop :=
  (exists k, z = base * k)%Z /\ x <= inject_Z z /\ (forall k, x <= inject_Z (base * k) -> (z <= base * k)%Z).

(** [m] is the largest of [l]. *)
Definition largest (m : Q) (l : list Q) : Prop := (exists x, In x l /\ m == x) /\ (forall x, In x l -> x <= m).
(** Sum of numbers *)
Fixpoint sum_of (l : list Q) : Q := match l with [] => 0 | x :: l' => x + sum_of l' end.
(** Contributions of the levels (overlap flag and cycles): an overlapping one after one that does not overlap is not allowed. *)
Definition back_and_forth (l : list (bool * Q)) : Prop := exists a x b y c, l = a ++ (false, x) :: b ++ (true, y) :: c.
Definition overlapping (l : list (bool * Q)) : list Q := map snd (filter fst l).
Definition serial (l : list (bool * Q)) : list Q := map snd (filter (fun x => negb (fst x)) l).

(** Never decreasing, never increasing *)
Definition nondecreasing (l : list Q) : Prop := forall i j x y, (i <= j)%nat -> nth_error l i = Some x -> nth_error l j = Some y -> x <= y.
Definition nonincreasing (l : list Q) : Prop := forall i j x y, (i <= j)%nat -> nth_error l i = Some x -> nth_error l j = Some y -> y <= x.
