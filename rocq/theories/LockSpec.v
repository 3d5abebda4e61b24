(** Specification for the use of intermediate files: what an observer sees of the state. *)
From Verif Require Import PyBase LockModel.
Local Open Scope Z_scope.

(** Initial states: processes not yet started, no locks, an old file or none on the disk. *)
Definition initial (s : state) : Prop :=
  (forall p x, nth_error (procs s) p = Some x -> at_ x = Start /\ held x = None)
  /\ (forall ino, lockfile s = Some ino -> ino < next_inode s)
  /\ (forall i, inputs s i <= now s)
  /\ (forall f, disk s = Some f -> mtime f <= now s)
  (* a file on the disk is completely written, or older than an input; *)
  /\ (forall f, disk s = Some f -> complete f = true \/ exists i, mtime f <= inputs s i)
  (* a file newer than the inputs was generated from them. *)
  /\ (forall f, disk s = Some f -> src f = version s \/ exists i, mtime f <= inputs s i).

Definition reads (s : state) (p : nat) : Prop :=
  exists x, nth_error (procs s) p = Some x /\ at_ x = Reading.
(** Told to write, writing, or finished writing but still exclusive. *)
Definition writes (s : state) (p : nat) : Prop :=
  exists x, nth_error (procs s) p = Some x /\ (at_ x = ToWrite \/ at_ x = Writing \/ at_ x = Written).
Definition finds_complete (s : state) : Prop :=
  exists f, disk s = Some f /\ complete f = true.
Definition nobody_runs (s : state) : Prop :=
  forall p x, nth_error (procs s) p = Some x -> at_ x = Start \/ at_ x = Dead.
