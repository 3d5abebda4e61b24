(** Properties C17, C18 and C57: intermediate files shared by several processes. *)
From Verif Require Import PyBase LockModel LockSpec LockProofs.
Local Open Scope Z_scope.

(** While a process may write, no other process may read or write. Holds for every number of
    processes, every schedule, crashes at any point and modifications of the inputs at any time. *)
Theorem C17_mutual_exclusion_partial : forall c s l s' p q,
  locking c = true -> removal c = false -> initial s -> run c s l = Some s' ->
  writes s' p -> p <> q -> ~ writes s' q /\ ~ reads s' q.
Proof. exact mutual_exclusion. Qed.
Print Assumptions C17_mutual_exclusion_partial.

(** A process which is told to read finds a completely written file, unless some process was killed
    while writing (see C18). *)
Theorem C17_readers_find_complete_file_partial : forall c s l s' p,
  locking c = true -> removal c = false -> crash_writing c = false ->
  initial s -> run c s l = Some s' -> reads s' p -> finds_complete s'.
Proof. exact readers_complete. Qed.
Print Assumptions C17_readers_find_complete_file_partial.

(** After crashes at any point (also while writing), an incomplete file is not used once an input
    has been modified. *)
Theorem C18_recovery_partial : forall c s l1 s1 i s2 c' l2 s3 p,
  locking c = true -> removal c = false ->
  locking c' = true -> removal c' = false -> crash_writing c' = false ->
  initial s -> run c s l1 = Some s1 -> nobody_runs s1 ->
  exec c s1 (Modify i) = Some s2 -> run c' s2 l2 = Some s3 -> reads s3 p -> finds_complete s3.
Proof. exact recovery. Qed.
Print Assumptions C18_recovery_partial.

(** A file that is read was generated from the version of the inputs its reader uses, if the inputs
    are not modified while processes are running. *)
Theorem C57_current_content_partial : forall c s l s' p x,
  locking c = true -> removal c = false -> modify_busy c = false ->
  initial s -> run c s l = Some s' -> nth_error (procs s') p = Some x -> at_ x = Reading ->
  exists f, disk s' = Some f /\ src f = version s' /\ src f = ver x.
Proof. exact readers_current. Qed.
Print Assumptions C57_current_content_partial.

(** Three processes, an old file on the disk. *)
Definition start3 : state :=
  mkState [mkProc Start 0 None 0; mkProc Start 0 None 0; mkProc Start 0 None 0]
          (Some (mkFile 1 true 6)) None 1 10 (fun i => match i with Source => 5 | _ => 0 end) 7.
Definition plain : config := mkConfig true false false false.

Lemma start3_initial : initial start3.
Proof.
  repeat split; cbn.
  - destruct p as [|[|[|p]]]; cbn in H; try (injection H as <-; reflexivity). destruct p; discriminate.
  - destruct p as [|[|[|p]]]; cbn in H; try (injection H as <-; reflexivity). destruct p; discriminate.
  - discriminate.
  - intros []; lia.
  - intros f [= <-]. cbn. lia.
  - intros f [= <-]. now left.
  - intros f [= <-]. right. exists Source. cbn. lia.
Qed.

Definition enter (p : nat) : list action := [Load p; Open p; LockShared p; Check p].
Definition become_writer (p : nat) : list action := enter p ++ [Unlock p; LockExclusive p; Check p].
Definition produce (p : nat) : list action := [OpenWrite p; Write p; CloseWrite p; Release p].

(** Process 0 writes while 1 and 2 are waiting; then 0 gives up its lock before it has the shared
    one, process 1 gets the exclusive lock in between, and finally all three read. *)
Example C17_case : exists s',
  run plain start3
    (enter 0 ++ enter 1 ++ [Unlock 0; Unlock 1; LockExclusive 0; Load 2; Check 0; Open 2]
     ++ produce 0 ++ [GiveUp 0; LockExclusive 1; Check 1; Convert 1; AcquireAgain 0; LockShared 2; Check 2])%nat
  = Some s' /\ reads s' 0 /\ reads s' 1 /\ reads s' 2 /\ finds_complete s'.
Proof.
  eexists. split; [vm_compute; reflexivity|].
  repeat split; eexists; split; reflexivity.
Qed.

Example C17_case_exclusion : exists s',
  run plain start3 (become_writer 0 ++ [OpenWrite 0] ++ [Load 1; Open 1])%nat = Some s'
  /\ writes s' 0 /\ exec plain s' (LockShared 1) = None.
Proof.
  eexists. split; [vm_compute; reflexivity|]. split; [|vm_compute; reflexivity].
  eexists; split; [reflexivity|]. auto.
Qed.

(** Without support of locks by the file system two processes write at the same time. *)
Theorem C17_no_locking_refuted : exists c s l s',
  removal c = false /\ crash_writing c = false /\ initial s /\ run c s l = Some s'
  /\ writes s' 0 /\ writes s' 1.
Proof.
  exists (mkConfig false false false false), start3,
    [Load 0; Open 0; LockShared 0; Load 1; Open 1; LockShared 1]%nat.
  eexists. split; [reflexivity|split; [reflexivity|split; [exact start3_initial|]]].
  split; [vm_compute; reflexivity|]. split; eexists; (split; [reflexivity|auto]).
Qed.
Print Assumptions C17_no_locking_refuted.

(** If a process removes the intermediate files at its end (--clean-intermediates), the lock file is
    removed as well and another process writes while a third one writes. *)
Theorem C17_removal_refuted : exists c s l s',
  locking c = true /\ crash_writing c = false /\ initial s /\ run c s l = Some s'
  /\ writes s' 0 /\ writes s' 1.
Proof.
  exists (mkConfig true false true false), start3,
    (become_writer 0 ++ [Load 2; Remove 2] ++ become_writer 1)%nat.
  eexists. split; [reflexivity|split; [reflexivity|split; [exact start3_initial|]]].
  split; [vm_compute; reflexivity|]. split; eexists; (split; [reflexivity|auto]).
Qed.
Print Assumptions C17_removal_refuted.

(** The error exit of the in-core analysis deletes the file while others are told to read it. *)
Theorem C17_unlink_refuted : exists c s l s',
  locking c = true /\ crash_writing c = false /\ initial s /\ run c s l = Some s'
  /\ reads s' 1 /\ disk s' = None.
Proof.
  exists (mkConfig true false true false), start3,
    (become_writer 0 ++ produce 0 ++ [Convert 0] ++ enter 1 ++ [Unlink 0])%nat.
  eexists. split; [reflexivity|split; [reflexivity|split; [exact start3_initial|]]].
  split; [vm_compute; reflexivity|]. split; [|reflexivity]. eexists; split; reflexivity.
Qed.
Print Assumptions C17_unlink_refuted.

(** A process dies while writing: the next one reads the incomplete file. *)
Theorem C18_crash_refuted : exists c s l s',
  locking c = true /\ removal c = false /\ modify_busy c = false /\ initial s /\ run c s l = Some s'
  /\ reads s' 1 /\ ~ finds_complete s'.
Proof.
  exists (mkConfig true true false false), start3,
    (become_writer 0 ++ [OpenWrite 0; Write 0; Crash 0] ++ enter 1)%nat.
  eexists. split; [reflexivity|split; [reflexivity|split; [reflexivity|split; [exact start3_initial|]]]].
  split; [vm_compute; reflexivity|]. split; [eexists; split; reflexivity|].
  intros (f & [= <-] & [=]).
Qed.
Print Assumptions C18_crash_refuted.

(** The same followed by a modification of the kernel: everything is well again. *)
Example C18_case : exists s1 s2 s3,
  run (mkConfig true true false false) start3
    (become_writer 0 ++ [OpenWrite 0; Write 0; Crash 0])%nat = Some s1 /\ nobody_runs s1 /\
  exec (mkConfig true true false false) s1 (Modify Source) = Some s2 /\
  run plain s2 (Tick 1 :: become_writer 1 ++ produce 1 ++ [Convert 1])%nat = Some s3 /\
  reads s3 1 /\ finds_complete s3.
Proof.
  eexists; eexists; eexists. split; [vm_compute; reflexivity|]. split.
  { intros p x. destruct p as [|[|[|p]]]; cbn; intros H; try (injection H as <-; cbn; auto).
    destruct p; discriminate. }
  split; [vm_compute; reflexivity|]. split; [vm_compute; reflexivity|].
  split; eexists; split; reflexivity.
Qed.

(** A process that has loaded the old kernel before it is modified writes its result afterwards; a
    process that has loaded the new kernel uses it. *)
Theorem C57_stale_content_refuted : exists c s l s' x f,
  locking c = true /\ removal c = false /\ crash_writing c = false /\ initial s /\ run c s l = Some s'
  /\ nth_error (procs s') 1 = Some x /\ at_ x = Reading /\ disk s' = Some f
  /\ ver x = version s' /\ src f <> version s'.
Proof.
  exists (mkConfig true false false true), start3,
    (Load 0 :: Tick 1 :: Modify Source :: Tick 1
      :: [Open 0; LockShared 0; Check 0; Unlock 0; LockExclusive 0; Check 0] ++ produce 0
      ++ [Convert 0] ++ enter 1)%nat.
  eexists; eexists; eexists.
  split; [reflexivity|split; [reflexivity|split; [reflexivity|split; [exact start3_initial|]]]].
  split; [vm_compute; reflexivity|]. split; [reflexivity|]. split; [reflexivity|]. split; [reflexivity|].
  split; [reflexivity|discriminate].
Qed.
Print Assumptions C57_stale_content_refuted.

(** Modified between two runs: the new content is produced from the new kernel. *)
Example C57_case : exists s' x f,
  run plain start3 (become_writer 0 ++ produce 0 ++ [Convert 0; Close 0; Crash 0; Tick 1; Modify Source; Tick 1]
                    ++ become_writer 1 ++ produce 1 ++ [Convert 1])%nat = Some s'
  /\ nth_error (procs s') 1 = Some x /\ at_ x = Reading /\ disk s' = Some f /\ src f = 8.
Proof.
  eexists; eexists; eexists. split; [vm_compute; reflexivity|]. repeat split.
Qed.

(** Inputs can be changed at any time when no process runs, which is what the restriction of [modify_busy] is about. *)
Theorem C57_inputs_can_change : forall c s i, (forall x, In x (procs s) -> at_ x = Start \/ at_ x = Dead) ->
  exists s', run c s [Modify i] = Some s' /\ inputs s' i = now s /\ version s' = version s + 1 /\ disk s' = disk s.
Proof.
  intros c s i H. cbn. assert (F : forallb idle (procs s) = true). { apply forallb_forall. intros x I. unfold idle. destruct (H x I) as [-> | ->]; reflexivity. }
  rewrite F, orb_true_r. eexists. split; [reflexivity|]. cbn. split; [|split; reflexivity]. now destruct i.
Qed.
Print Assumptions C57_inputs_can_change.

(** Locks are granted: the exclusive lock exactly if no other process holds a lock on the same file, the shared lock exactly if no
    other process holds an exclusive one. *)
Definition free (s : state) (p : nat) (ino : Z) (bad : mode -> Prop) : Prop :=
  forall q y m, nth_error (procs s) q = Some y -> q <> p -> fd y = ino -> held y = Some m -> ~ bad m.
Lemma conflicts_free s p ino bad (P : mode -> Prop) : (forall m, bad (Some m) = true <-> P m) -> bad None = false ->
  conflicts s p ino bad = false <-> free s p ino P.
Proof.
  intros H N. split.
  - intros C q y m A B F G I. pose proof (conflicts_false _ _ _ _ q y C A B F) as D. rewrite G in D. apply H in I. congruence.
  - intros F. unfold conflicts. apply Bool.not_true_is_false. intros E. apply existsb_exists in E. destruct E as (q & _ & E).
    destruct (nth_error (procs s) q) as [y|] eqn:A; [|discriminate]. apply andb_prop in E. destruct E as [E B].
    apply andb_prop in E. destruct E as [E G]. destruct (Nat.eqb_spec q p); [discriminate|]. apply Z.eqb_eq in G.
    destruct (held y) as [m|] eqn:K; [|congruence]. apply H in B. exact (F q y m A n G K B).
Qed.
Theorem C17_exclusive_granted : forall c s p x, nth_error (procs s) p = Some x -> at_ x = Unlocked ->
  (exists s', exec c s (LockExclusive p) = Some s') <-> free s p (fd x) (fun _ => True).
Proof.
  intros c s p x A B. rewrite <- (conflicts_free s p (fd x) is_any) by (reflexivity || (intros m; cbn; tauto)).
  cbn. rewrite A, B. destruct (conflicts s p (fd x) is_any); split; intros H; try reflexivity; try discriminate; [now destruct H|eauto].
Qed.
Print Assumptions C17_exclusive_granted.
Theorem C17_shared_granted : forall c s p x, locking c = true -> nth_error (procs s) p = Some x ->
  (at_ x = Opened -> (exists s', exec c s (LockShared p) = Some s') <-> free s p (fd x) (fun m => m = EX)) /\
  (at_ x = Waiting -> (exists s', exec c s (AcquireAgain p) = Some s') <-> free s p (fd x) (fun m => m = EX)).
Proof.
  intros c s p x L A. rewrite <- (conflicts_free s p (fd x) is_ex) by (reflexivity || (intros [|]; cbn; split; intros; congruence)).
  split; intros B; cbn; rewrite A, B, ?L; destruct (conflicts s p (fd x) is_ex); split; intros H; try reflexivity; try discriminate; try (now destruct H); eauto.
Qed.
Print Assumptions C17_shared_granted.
(** Three processes have opened the same file: one waits for the exclusive lock, one reads, one has no lock. *)
Definition waiting_state (h : option mode) : state :=
  mkState [mkProc Unlocked 7 None 0; mkProc Reading 7 h 0; mkProc Opened 7 None 0] None (Some 7) 8 100 (fun _ => 0) 0.
Example C17_granted_example : let c := mkConfig true false false false in
  (exists s', exec c (waiting_state None) (LockExclusive 0%nat) = Some s') /\ exec c (waiting_state (Some SH)) (LockExclusive 0%nat) = None /\
  (exists s', exec c (waiting_state (Some SH)) (LockShared 2%nat) = Some s') /\ exec c (waiting_state (Some EX)) (LockShared 2%nat) = None.
Proof. cbn. repeat split; eauto. Qed.
