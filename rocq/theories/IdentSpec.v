(** When results belong to the same arguments *)
From Verif Require Export PyVal.
Local Open Scope string_scope.
Local Open Scope list_scope.

(** Equal, where lists and tuples are not distinguished *)
Inductive alike : value -> value -> Prop :=
| alike_same v : alike v v
| alike_elements a b la lb : elements a = Some la -> elements b = Some lb -> Forall2 alike la lb -> alike a b.
(** Files count by their name. *)
Definition by_name (v : value) : value := match v with VFile name _ => VStr name | _ => v end.
Definition same_argument (v w : value) : Prop := alike (by_name v) (by_name w).
(** Arguments which do not matter, and those which are given with the analysis *)
Definition irrelevant (k : string) : Prop := In k ["verbose"; "store"; "unit"; "clean_intermediates"; "define"; "pmodel"].
Definition has_argument (args : list (string * value)) (k : string) (v : value) : Prop := In (k, v) args.
Definition same_arguments (a b : list (string * value)) : Prop :=
  (forall k v, ~ irrelevant k -> has_argument a k v -> exists w, has_argument b k w /\ same_argument v w) /\
  (forall k w, ~ irrelevant k -> has_argument b k w -> exists v, has_argument a k v /\ same_argument v w).
