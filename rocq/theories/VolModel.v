(** What the ECM model prints about transferred data with [-vv]: models/ecm.py:198-207, and the order of the accesses the predictor keeps for it: cacheprediction.py:24-35
    and 410-411. *)
From Coq Require Import String.
From Verif Require Export PyBase PyNum PyText PyInt.
From Verif Require Import EcmModel InfoModel.
Local Open Scope list_scope.

(** ** Transfers *)
(** ['{:.0f}'.format(q)], for exact numbers (models/ecm.py:203-206) *)
Definition fixed0 (q : Q) : text := (if Qltb q 0 then [45%N] else []) ++ show_nat (Z.to_N (Z.abs (round_even q))).
(** One row: the names of two levels next to each other, and the loads and stores in cache lines (models/ecm.py:203-206) *)
Definition transfer_row (line_size : Z) (upper lower : text) (l s : Q) : text :=
  rjust 7 (upper ++ codes "-" ++ lower) ++ codes " | " ++ rjust 3 (fixed0 (l * inject_Z line_size)) ++ codes " B/CL | " ++ rjust 3 (fixed0 (s * inject_Z line_size)) ++ codes " B/CL |".
(** The levels from number [i] on; [upper] is the one before (models/ecm.py:202-206). *)
Fixpoint transfer_rows (line_size : Z) (upper : text) (i : nat) (levels : list text) (loads stores : list Q) : res text :=
  match levels with
  | [] => Ok []
  | lower :: levels' =>
      do l <- nth_res loads i; do s <- nth_res stores i;
      do r <- transfer_rows line_size lower (S i) levels' loads stores;
      Ok (line (transfer_row line_size upper lower l s) ++ r)
  end.
(** models/ecm.py:198-207. Entries 0 of [loads] and [stores] (which are nan for layer conditions) are not used. *)
Definition report_data_transfers (line_size : Z) (hierarchy : list text) (loads stores : list Q) : res text :=
  let title := line (codes "Data Transfers:") ++ line (codes "Level   | Loads    | Store    |") in
  match hierarchy with
  | [] => Ok title
  | first :: levels => do r <- transfer_rows line_size first 1 levels loads stores; Ok (title ++ r)
  end.

(** ** Order of accesses *)
(** Python's comparison of tuples (cacheprediction.py:30-35). Simplification: offsets are integers, expressions which cannot be compared are left out. *)
Fixpoint compare_tuples (a b : list Z) : comparison :=
  match a, b with
  | [], [] => Eq
  | [], _ :: _ => Lt
  | _ :: _, [] => Gt
  | x :: a', y :: b' => match (x ?= y)%Z with Eq => compare_tuples a' b' | c => c end
  end.
(** cacheprediction.py:24-35 *)
Definition uneven_tuple_cmp (a b : list Z) : Z :=
  let diff := (Nat.max (List.length a) (List.length b) - Nat.min (List.length a) (List.length b))%nat in
  let a' := if (List.length a <? List.length b)%nat then repeat 0%Z diff ++ a else a in
  let b' := if (List.length a <? List.length b)%nat then b else if (List.length b <? List.length a)%nat then repeat 0%Z diff ++ b else b in
  match compare_tuples a' b' with Gt => 1%Z | Lt => (-1)%Z | Eq => 0%Z end.
(** [sorted(list(v), key=cmp_to_key(uneven_tuple_cmp))] (cacheprediction.py:410) *)
Definition sorted_accesses (v : list (list Z)) : list (list Z) := sort_with (fun a b => (uneven_tuple_cmp a b <=? 0)%Z) v.
