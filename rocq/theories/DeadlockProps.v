(** Properties C54 and C58: processes that lock several intermediate files. *)
From Verif Require Import PyBase DeadlockModel DeadlockSpec DeadlockProofs.
Local Open Scope Z_scope.

(** In every reachable state of any number of processes, each running any sequence of analyses,
    all are finished or some process can make a step without another one being killed. *)
Theorem C54_no_deadlock : forall header ps l s,
  run (start header ps) l = Some s -> all_finished s \/ exists p b s', exec s (Step p b) = Some s'.
Proof. exact no_deadlock. Qed.
Print Assumptions C54_no_deadlock.

(** There is no infinite schedule. *)
Theorem C54_schedules_end : forall header ps,
  exists n, forall l s, run (start header ps) l = Some s -> (length l <= n)%nat.
Proof. exact bounded_schedules. Qed.
Print Assumptions C54_schedules_end.

(** A file is written only under its exclusive lock, while nobody else has any lock on it. *)
Theorem C58_writing_is_exclusive : forall header ps l s p f,
  run (start header ps) l = Some s -> about_to_make s p f ->
  has_lock s p f EX /\ forall q m, q <> p -> ~ has_lock s q f m.
Proof. exact make_exclusive. Qed.
Print Assumptions C58_writing_is_exclusive.

(** A file is read only under a lock, while nobody else has the exclusive lock; this leaves out the
    header file read when the benchmark program is built. *)
Theorem C58_reading_is_locked_partial : forall ps l s p f,
  run (start false ps) l = Some s -> about_to_use s p f ->
  (exists m, has_lock s p f m) /\ forall q, q <> p -> ~ has_lock s q f EX.
Proof. exact use_shared. Qed.
Print Assumptions C58_reading_is_locked_partial.

Fixpoint steps (p : nat) (l : list bool) : list action :=
  match l with [] => [] | b :: l' => Step p b :: steps p l' end.

(** Two processes: the first builds the benchmark, the second analyses the same kernel and waits for
    the header. *)
Definition two : list (list call) := [[CBenchmark 0 0; CLayerConditions 0]; [CIncore true 1 2 0]].
Definition to_header : list bool :=   (* Executable, MainCode, Object, Header: all need an update *)
  [false; false; false; false;   false; false; false; false; false; true;   false; false; false; false;
   false; false; false; false].
Example C54_case : exists s,
  run (start true two) (steps 0 to_header ++ steps 1 (repeat false 12)) = Some s
  /\ about_to_make s 0 (mkFile Header 0)
  /\ (forall b, exec s (Step 1 b) = None)
  /\ exists s', exec s (Step 0 true) = Some s'.
Proof.
  eexists. split; [vm_compute; reflexivity|]. split; [now eexists; eexists|]. split; [intros []; reflexivity|].
  eexists; vm_compute; reflexivity.
Qed.

Example C54_case_end : exists s,
  run (start true two) (steps 0 (repeat true 4 ++ repeat true 4) ++ steps 1 (repeat true 4)) = Some s
  /\ all_finished s.
Proof.
  eexists. split; [vm_compute; reflexivity|]. intros p x.
  destruct p as [|[|p]]; cbn; [intros [= <-]; now split| intros [= <-]; now split|destruct p; discriminate].
Qed.

(** While the benchmark program is built, kernel.h is read without its lock: another process writes
    it at the same time. *)
Theorem C58_reading_is_locked_refuted : exists ps l s p q f,
  run (start true ps) l = Some s /\ p <> q /\
  about_to_use s p f /\ about_to_make s q f /\ forall m, ~ has_lock s p f m.
Proof.
  exists [[CBenchmark 0 0]; [CIncore false 1 2 0]].
  (* 0: executable and main.c new, object file cached; then 1 renews everything down to the header *)
  exists (steps 0 ([false; false; false; false] ++ [false; false; false; false; false; true] ++ [true; true]
                   ++ [true; true])
          ++ steps 1 (repeat false 16)).
  eexists. exists 0%nat, 1%nat, (mkFile Header 0). split; [vm_compute; reflexivity|]. split; [discriminate|].
  split; [now eexists; eexists|]. split; [now eexists; eexists|].
  intros m (x & [= <-] & Hin). cbn in Hin. intuition congruence.
Qed.
Print Assumptions C58_reading_is_locked_refuted.
