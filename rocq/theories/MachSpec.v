(** Specification for C50-C52, independent of the code. *)
From Verif Require Import MachModel.
Local Open Scope Z_scope.
Local Open Scope list_scope.

(** ** C51: versions are compared number by number, a shorter version is older *)
Inductive older : list Z -> list Z -> Prop :=
| older_short x b : older [] (x :: b)
| older_here x y a b : x < y -> older (x :: a) (y :: b)
| older_later x a b : older a b -> older (x :: a) (x :: b).
(** Numbers with dots between them. *)
Definition digits (d : text) : Prop := d <> [] /\ Forall (fun c => 48 <= c <= 57)%N d.
Fixpoint value (d : text) : Z :=
  match d with [] => 0 | c :: d' => (Z.of_N c - 48) * 10 ^ Z.of_nat (length d') + value d' end.
Definition dotted (ds : list text) : text := join 46 ds.

(** ** C52: what is set is the first that is not empty *)
Definition empty (o : option text) : Prop := o = None \/ o = Some [].

(** ** C50 *)
(** One result per size, which is the largest of the measured values. *)
Definition complete (c : cell) : Prop :=
  exists r s, c_results c = Some r /\ c_stats c = Some s /\ length r = c_sizes c /\ length s = c_sizes c.
Definition largest (m : Q) (l : list Q) : Prop := In m l /\ forall x, In x l -> (x <= m)%Q.
Definition fresh_results (c : cell) : Prop :=
  exists r s, c_results c = Some r /\ c_stats c = Some s /\ Forall2 largest r s.
(** States of the file after any number of interrupted updates. *)
Inductive history (cells : list cell) : list cell -> Prop :=
| never : history cells cells
| again l measure budget : history cells l -> history cells (fst (run_cells measure O budget l)).
Definition all_sizes (cells : list cell) : nat := fold_right Nat.add O (map c_sizes cells).
