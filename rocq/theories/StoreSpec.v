(** What is to be kept of stored results *)
From Coq Require Export NArith.
From Verif Require Export PyBase.
Local Open Scope list_scope.

Definition stored (s : list (N * N)) (k v : N) : Prop := In (k, v) s.
(** The last result for an identifier in a list of results *)
Definition last_result (l : list (N * N)) (k v : N) : Prop := exists a b, l = a ++ (k, v) :: b /\ ~ In k (map fst b).
Definition mentioned (l : list (N * N)) (k : N) : Prop := In k (map fst l).
(** Every identifier once *)
Definition proper (s : list (N * N)) : Prop := NoDup (map fst s).
