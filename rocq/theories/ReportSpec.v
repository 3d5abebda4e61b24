(** What a reader takes from the reports *)
From Coq Require Import String.
From Verif Require Export PyBase PyNum PyText PyFloat.
Local Open Scope Q_scope.
Local Open Scope list_scope.

(** ** Formulas *)
(** Items separated by commas *)
Definition commas (l : list text) : text := match l with [] => [] | x :: l' => x ++ flat_map (fun y => codes ", " ++ y) l' end.
(** A word without separators *)
Definition plain_word (s : text) : Prop := s <> [] /\ ~ In 44%N s /\ ~ In 40%N s /\ ~ In 41%N s.
(** The text is the largest of [largest_of] and the sum of [sum_of]. *)
Definition reads_formula (t : text) (largest_of sum_of : list text) : Prop :=
  t = codes "max(" ++ commas largest_of ++ codes ", sum(" ++ commas sum_of ++ codes ")) cy/CL" /\ largest_of <> [] /\ Forall plain_word largest_of /\ Forall plain_word sum_of.
(** The printed number is [q] rounded to one digit behind the point. *)
Definition shows (s : text) (q : Q) : Prop := exists v, py_float s = Some (Fin v) /\ q - (1 # 20) <= v <= q + (1 # 20) /\ exists z, v == inject_Z z / 10.
(** Value of a formula of numbers *)
Fixpoint sum_up (l : list Q) : Q := match l with [] => 0 | x :: l' => x + sum_up l' end.
Fixpoint biggest (b : Q) (l : list Q) : Q := match l with [] => b | x :: l' => (let m := biggest b l' in if Qle_bool m x then x else m) end.
Definition formula_value (largest_of sum_of : list Q) : Q := biggest (sum_up sum_of) largest_of.
(** Named contributions: transfers between neighbouring levels, each with whether it overlaps *)
Fixpoint transfers (previous : text) (levels : list (text * bool * Q)) : list (bool * (text * Q)) :=
  match levels with [] => [] | (name, o, cy) :: levels' => (o, (codes "T_" ++ previous ++ name, cy)) :: transfers name levels' end.

(** ** Rows of tables *)
(** The row starts with [head]; its cells are separated by bars. *)
Definition reads_row (head t : text) (cells : list text) : Prop :=
  t = head ++ (match cells with [] => [] | x :: l' => x ++ flat_map (fun y => codes " | " ++ y) l' end) /\ Forall (fun c => ~ In 124%N c) cells.

(** ** Tables *)
(** Each value stands below the name of its metric; metrics which were not measured have a dash. *)
Definition correct_table (transfers : list (string * list (string * string))) (table : list string * list (string * list string)) : Prop :=
  forall level values, In (level, values) (snd table) -> exists ms, In (level, ms) transfers /\ List.length values = List.length (fst table) /\
    forall i name v, nth_error (fst table) i = Some name -> nth_error values i = Some v -> In (name, v) ms \/ (v = "-"%string /\ ~ In name (map fst ms)).
(** All levels have a row. *)
Definition complete_table (transfers : list (string * list (string * string))) (table : list string * list (string * list string)) : Prop :=
  forall level ms, In (level, ms) transfers -> exists values, In (level, values) (snd table) /\ forall name v, In (name, v) ms -> In v values.
