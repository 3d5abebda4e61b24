(** Specification for processes that hold locks on several files. *)
From Verif Require Import PyBase DeadlockModel.

Definition finished (x : proc) : Prop := todo x = [] /\ holds x = [].
Definition all_finished (s : list proc) : Prop := forall p x, nth_error s p = Some x -> finished x.

(** What a process does next. *)
Definition about_to_use (s : list proc) (p : nat) (f : file) : Prop :=
  exists k h, nth_error s p = Some (mkProc (Use f :: k) h).
Definition about_to_make (s : list proc) (p : nat) (f : file) : Prop :=
  exists k h, nth_error s p = Some (mkProc (Make f :: k) h).
Definition has_lock (s : list proc) (p : nat) (f : file) (m : mode) : Prop :=
  exists x, nth_error s p = Some x /\ In (f, m) (holds x).
