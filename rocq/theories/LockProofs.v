From Verif Require Import PyBase LockModel LockSpec.
From Coq Require Import Lia.
Local Open Scope Z_scope.

Lemma nth_set_nth {A} (l : list A) p q x :
  nth_error (set_nth l p x) q =
  if (q =? p)%nat then match nth_error l q with Some _ => Some x | None => None end else nth_error l q.
Proof.
  revert p q. induction l as [|y l IH]; intros [|p] [|q]; cbn; try reflexivity.
  - now destruct (q =? p)%nat.
  - apply IH.
Qed.

Lemma set_nth_inv {A} (l : list A) p q x y z :
  nth_error l p = Some z ->
  nth_error (set_nth l p x) q = Some y -> (q = p /\ y = x) \/ (q <> p /\ nth_error l q = Some y).
Proof.
  intros Hp. rewrite nth_set_nth. destruct (Nat.eqb_spec q p) as [->|Hq]; [|now right].
  rewrite Hp. intros [= <-]. now left.
Qed.

Lemma set_nth_eq {A} (l : list A) p x z : nth_error l p = Some z -> nth_error (set_nth l p x) p = Some x.
Proof. intros H. now rewrite nth_set_nth, Nat.eqb_refl, H. Qed.

Lemma set_nth_neq {A} (l : list A) p q x : q <> p -> nth_error (set_nth l p x) q = nth_error l q.
Proof. intros H. rewrite nth_set_nth. now destruct (Nat.eqb_spec q p). Qed.

Lemma conflicts_false s p ino bad q y :
  conflicts s p ino bad = false -> nth_error (procs s) q = Some y -> q <> p -> fd y = ino -> bad (held y) = false.
Proof.
  unfold conflicts. intros H Hq Hne Hfd.
  destruct (bad (held y)) eqn:E; [|reflexivity]. exfalso.
  assert (H' : existsb (fun q => match nth_error (procs s) q with
                    | Some x => (negb (q =? p)%nat && (fd x =? ino) && bad (held x))%bool
                    | None => false
                    end) (seq 0 (length (procs s))) = true).
  { apply existsb_exists. exists q. split.
    - apply in_seq. split; [lia|]. apply nth_error_Some. congruence.
    - rewrite Hq, E, Hfd, Z.eqb_refl. destruct (Nat.eqb_spec q p); [contradiction|reflexivity]. }
  congruence.
Qed.

Lemma fresh_spec s : fresh s = true <-> exists f, disk s = Some f /\ forall i, inputs s i < mtime f.
Proof.
  unfold fresh. destruct (disk s) as [f|].
  - rewrite !andb_true_iff, !Z.gtb_lt. split.
    + intros [[H1 H2] H3]. exists f. split; [reflexivity|]. now intros [].
    + intros (g & [= <-] & H). auto.
  - split; [discriminate|]. intros (f & [=] & _).
Qed.

(** ** Locks *)

Definition lock_of (l : pc) : option mode :=
  match l with
  | Shared | NotFresh | Reading => Some SH
  | Exclusive | Degrade | ToWrite | Writing | Written => Some EX
  | _ => None
  end.
Definition has_fd (l : pc) : bool := match l with Start | Loaded | Dead => false | _ => true end.

Record lock_inv (s : state) : Prop := {
  LI_lock : forall p x, nth_error (procs s) p = Some x -> held x = lock_of (at_ x);
  LI_fd : forall p x, nth_error (procs s) p = Some x -> has_fd (at_ x) = true -> lockfile s = Some (fd x);
  LI_mx : forall p q x y, p <> q -> nth_error (procs s) p = Some x -> nth_error (procs s) q = Some y ->
            held x = Some EX -> held y = None }.

Lemma initial_lock s : initial s -> lock_inv s.
Proof.
  intros (H & _). split.
  - intros p x Hx. destruct (H p x Hx) as [-> ->]. reflexivity.
  - intros p x Hx. destruct (H p x Hx) as [-> _]. discriminate.
  - intros p q x y _ Hx _. destruct (H p x Hx) as [_ ->]. discriminate.
Qed.

(** A step of process [p] from [x] to [x'] preserves [lock_inv]. *)
Lemma lock_step s p x x' d lf ni :
  lock_inv s -> nth_error (procs s) p = Some x ->
  held x' = lock_of (at_ x') ->
  (has_fd (at_ x') = true -> lf = Some (fd x')) ->
  (lf = lockfile s \/ lockfile s = None) ->
  (held x' = Some EX -> held x = Some EX \/ conflicts s p (fd x') is_any = false) ->
  (held x' = Some SH -> held x <> None \/ conflicts s p (fd x') is_ex = false) ->
  forall t i v, lock_inv (mkState (set_nth (procs s) p x') d lf ni t i v).
Proof.
  intros [H1 H2 H3] Hp L1 L2 L3 L4 L5 t i v. split; cbn [procs lockfile].
  - intros q y Hq. destruct (set_nth_inv _ _ _ _ _ _ Hp Hq) as [[-> ->]|[Hne Hq']]; [assumption|].
    exact (H1 q y Hq').
  - intros q y Hq Hf. destruct (set_nth_inv _ _ _ _ _ _ Hp Hq) as [[-> ->]|[Hne Hq']]; [auto|].
    specialize (H2 q y Hq' Hf). destruct L3 as [->|E]; congruence.
  - assert (Hfd : forall q y, nth_error (procs s) q = Some y -> held y <> None -> has_fd (at_ x') = true ->
                    fd y = fd x').
    { intros q y Hq Hh Hf. assert (lockfile s = Some (fd y)).
      { apply (H2 q y Hq). rewrite (H1 q y Hq) in Hh. destruct (at_ y); cbn in *; congruence. }
      specialize (L2 Hf). destruct L3; congruence. }
    assert (Hhf : held x' <> None -> has_fd (at_ x') = true).
    { rewrite L1. destruct (at_ x'); cbn; congruence. }
    intros a b ya yb Hab Ha Hb Hex.
    destruct (set_nth_inv _ _ _ _ _ _ Hp Ha) as [[-> ->]|[Hna Ha']];
    destruct (set_nth_inv _ _ _ _ _ _ Hp Hb) as [[-> ->]|[Hnb Hb']].
    + congruence.
    + destruct (L4 Hex) as [E|E]; [exact (H3 p b x yb Hab Hp Hb' E)|].
      destruct (held yb) eqn:Eb; [|reflexivity]. exfalso.
      assert (Ef : fd yb = fd x') by (apply (Hfd b yb Hb'); [congruence|apply Hhf; congruence]).
      pose proof (conflicts_false _ _ _ _ b yb E Hb' Hnb Ef) as C. rewrite Eb in C. discriminate.
    + destruct (held x') as [[|]|] eqn:E'; [| |reflexivity]; exfalso.
      * destruct (L5 eq_refl) as [E|E].
        -- apply E. exact (H3 a p ya x Hna Ha' Hp Hex).
        -- assert (Ef : fd ya = fd x') by (apply (Hfd a ya Ha'); [congruence|apply Hhf; congruence]).
           pose proof (conflicts_false _ _ _ _ a ya E Ha' Hna Ef) as C. rewrite Hex in C. discriminate.
      * destruct (L4 eq_refl) as [E|E].
        -- specialize (H3 a p ya x Hna Ha' Hp Hex). congruence.
        -- assert (Ef : fd ya = fd x') by (apply (Hfd a ya Ha'); [congruence|apply Hhf; congruence]).
           pose proof (conflicts_false _ _ _ _ a ya E Ha' Hna Ef) as C. rewrite Hex in C. discriminate.
    + exact (H3 a b ya yb Hab Ha' Hb' Hex).
Qed.

Lemma lock_inv_env s t i v d :
  lock_inv s -> lock_inv (mkState (procs s) d (lockfile s) (next_inode s) t i v).
Proof. intros [H1 H2 H3]. split; assumption. Qed.

Ltac use_proc H :=
  match type of H with
  | context [nth_error (procs ?s) ?p] =>
      let x := fresh "x" in let E := fresh "Hp" in
      destruct (nth_error (procs s) p) as [x|] eqn:E; [|discriminate H]
  end.

Lemma exec_lock c s a s' :
  locking c = true -> removal c = false -> lock_inv s -> exec c s a = Some s' -> lock_inv s'.
Proof.
  intros Hl Hr HI H.
  destruct a; cbn [exec] in H; try use_proc H;
    try (destruct (at_ x) eqn:Ea; try discriminate H);
    rewrite ?Hl, ?Hr in H; try discriminate H;
    try (pose proof (LI_lock _ HI _ _ Hp) as Hlk; rewrite Ea in Hlk; cbn in Hlk);
    try (pose proof (LI_fd _ HI _ _ Hp) as Hfd; rewrite Ea in Hfd; cbn in Hfd);
    repeat match type of H with
    | (if conflicts ?a ?b ?c ?d then _ else _) = _ => destruct (conflicts a b c d) eqn:?; [discriminate H|]
    | (match lockfile s with _ => _ end) = _ => destruct (lockfile s) eqn:?
    | (if ?b then _ else _) = _ => destruct b eqn:?; [|discriminate H]
    end; try discriminate H; injection H as <-;
    try (unfold with_disk, with_proc; cbn [procs lockfile next_inode disk now inputs version];
         eapply lock_step; [eassumption|eassumption| | | | |]; cbn [held at_ fd goto]; rewrite ?Hlk;
         repeat match goal with |- context [if fresh ?s then _ else _] => destruct (fresh s) end; cbn [lock_of has_fd];
         try reflexivity; try congruence; try discriminate; auto; try (intros _; left; congruence); try (intros _; now left); fail).
  - unfold with_disk. now apply lock_inv_env.
  - now apply lock_inv_env.
  - now apply lock_inv_env.
Qed.

Lemma run_lock c l s s' :
  locking c = true -> removal c = false -> lock_inv s -> run c s l = Some s' -> lock_inv s'.
Proof.
  intros Hl Hr. revert s. induction l as [|a l IH]; intros s HI H; cbn in H; [congruence|].
  destruct (exec c s a) as [s1|] eqn:E; [|discriminate]. apply (IH s1); [|assumption].
  now apply (exec_lock c s a).
Qed.

Lemma mutual_exclusion c s l s' p q :
  locking c = true -> removal c = false -> initial s -> run c s l = Some s' ->
  writes s' p -> p <> q -> ~ writes s' q /\ ~ reads s' q.
Proof.
  intros Hl Hr Hi H (x & Hx & Wx) Hne.
  pose proof (run_lock c l s s' Hl Hr (initial_lock s Hi) H) as HI.
  assert (Hex : held x = Some EX).
  { rewrite (LI_lock _ HI _ _ Hx). destruct Wx as [->|[->| ->]]; reflexivity. }
  split.
  - intros (y & Hy & Wy). pose proof (LI_mx _ HI p q x y Hne Hx Hy Hex) as E.
    rewrite (LI_lock _ HI _ _ Hy) in E. destruct Wy as [W|[W|W]]; rewrite W in E; discriminate.
  - intros (y & Hy & Wy). pose proof (LI_mx _ HI p q x y Hne Hx Hy Hex) as E.
    rewrite (LI_lock _ HI _ _ Hy) in E. rewrite Wy in E; discriminate.
Qed.

(** ** Content *)

Definition some_writing (s : state) : Prop :=
  exists p x, nth_error (procs s) p = Some x /\ at_ x = Writing.
Definition sees (l : pc) : bool := match l with Reading | Degrade | Written => true | _ => false end.

Record data_inv (s : state) : Prop := {
  DI_in : forall i, inputs s i <= now s;
  DI_now : forall f, disk s = Some f -> mtime f <= now s;
  DI_file : forall f, disk s = Some f ->
     complete f = true \/ some_writing s \/ exists i, mtime f <= inputs s i;
  DI_sees : forall p x, nth_error (procs s) p = Some x -> sees (at_ x) = true ->
     exists f, disk s = Some f /\ complete f = true;
  DI_wait : forall p x, nth_error (procs s) p = Some x -> at_ x = Waiting ->
     exists f, disk s = Some f /\ (complete f = true \/ some_writing s) }.

Lemma initial_data s : initial s -> data_inv s.
Proof.
  intros (H & H1 & H2 & H3 & H4 & H5). split; auto.
  - intros f Hf. destruct (H4 f Hf); auto.
  - intros p x Hx. destruct (H p x Hx) as [-> _]. discriminate.
  - intros p x Hx. destruct (H p x Hx) as [-> _]. discriminate.
Qed.

(** Steps which do not change the file. *)
Lemma data_step s p x x' lf ni :
  data_inv s -> nth_error (procs s) p = Some x -> at_ x <> Writing -> at_ x' <> Writing ->
  (sees (at_ x') = true -> sees (at_ x) = true \/ finds_complete s) ->
  (at_ x' = Waiting -> sees (at_ x) = true) ->
  data_inv (mkState (set_nth (procs s) p x') (disk s) lf ni (now s) (inputs s) (version s)).
Proof.
  intros [D1 D2 D3 D4 D5] Hp N1 N2 S1 S2.
  assert (SW : some_writing s ->
    some_writing (mkState (set_nth (procs s) p x') (disk s) lf ni (now s) (inputs s) (version s))).
  { intros (q & y & Hq & Hy). exists q, y. split; [|assumption]. cbn [procs].
    rewrite set_nth_neq; [assumption|]. intros ->. congruence. }
  split; cbn [procs disk now inputs]; auto.
  - intros f Hf. destruct (D3 f Hf) as [?|[?|?]]; auto.
  - intros q y Hq Hs. destruct (set_nth_inv _ _ _ _ _ _ Hp Hq) as [[-> ->]|[_ Hq']].
    + destruct (S1 Hs) as [E|E]; [exact (D4 p x Hp E)|exact E].
    + exact (D4 q y Hq' Hs).
  - intros q y Hq Hw. destruct (set_nth_inv _ _ _ _ _ _ Hp Hq) as [[-> ->]|[_ Hq']].
    + destruct (D4 p x Hp (S2 Hw)) as (f & E & C). exists f. auto.
    + destruct (D5 q y Hq' Hw) as (f & E & [C|C]); exists f; auto.
Qed.

Lemma no_writing s p x q y :
  lock_inv s -> nth_error (procs s) p = Some x -> held x <> None -> nth_error (procs s) q = Some y ->
  at_ y = Writing -> q = p.
Proof.
  intros HI Hx Hh Hy Wy. destruct (Nat.eq_dec q p) as [|N]; [assumption|exfalso].
  apply Hh. apply (LI_mx _ HI q p y x N Hy Hx). now rewrite (LI_lock _ HI _ _ Hy), Wy.
Qed.

Lemma fresh_complete s p x :
  lock_inv s -> data_inv s -> nth_error (procs s) p = Some x -> held x <> None -> at_ x <> Writing ->
  fresh s = true -> finds_complete s.
Proof.
  intros HI HD Hx Hh Hw Hf. apply fresh_spec in Hf as (f & Hf & Hi).
  destruct (DI_file _ HD f Hf) as [C|[(q & y & Hq & Wy)|(i & L)]].
  - now exists f.
  - pose proof (no_writing s p x q y HI Hx Hh Hq Wy) as ->. congruence.
  - specialize (Hi i). lia.
Qed.

(** While [p] is the writer nobody else sees the file. *)
Lemma writer_alone s p x q y :
  lock_inv s -> nth_error (procs s) p = Some x -> held x = Some EX -> nth_error (procs s) q = Some y ->
  q <> p -> sees (at_ y) = false.
Proof.
  intros HI Hx Hh Hy N. pose proof (LI_mx _ HI p q x y (not_eq_sym N) Hx Hy Hh) as E.
  rewrite (LI_lock _ HI _ _ Hy) in E. destruct (at_ y); cbn in *; congruence.
Qed.

Lemma exec_data c s a s' :
  locking c = true -> removal c = false -> crash_writing c = false ->
  lock_inv s -> data_inv s -> exec c s a = Some s' -> data_inv s'.
Proof.
  intros Hl Hr Hc HI HD H.
  destruct a; cbn [exec] in H; try use_proc H;
    try (destruct (at_ x) eqn:Ea; try discriminate H);
    rewrite ?Hl, ?Hr, ?Hc in H; try discriminate H;
    try (pose proof (LI_lock _ HI _ _ Hp) as Hlk; rewrite Ea in Hlk; cbn in Hlk);
    try (pose proof (fresh_complete s p x HI HD Hp) as HF; rewrite Hlk, Ea in HF);
    repeat match type of H with
    | (if conflicts ?a ?b ?c ?d then _ else _) = _ => destruct (conflicts a b c d) eqn:?; [discriminate H|]
    | (match lockfile s with _ => _ end) = _ => destruct (lockfile s) eqn:?
    | (if ?b then _ else _) = _ => destruct b eqn:?; [|discriminate H]
    end; try discriminate H; injection H as <-;
    try (unfold with_disk, with_proc; cbn [procs lockfile next_inode disk now inputs version];
         eapply data_step; [eassumption|eassumption| | | |]; cbn [at_ goto]; rewrite ?Ea;
         repeat match goal with |- context [if fresh ?s then _ else _] => destruct (fresh s) end; cbn [sees];
         try reflexivity; try congruence; try discriminate; auto;
         try (intros _; right; apply HF; congruence); fail).
  - (* AcquireAgain *)
    unfold with_proc. eapply data_step; try eassumption; cbn [at_ goto]; try congruence.
    intros _. right. destruct (DI_wait _ HD _ _ Hp Ea) as (f & Hf & [C|(q & y & Hq & Wy)]); [now exists f|].
    exfalso. assert (N : q <> p) by (intros ->; congruence).
    assert (F : fd y = fd x).
    { assert (E1 : lockfile s = Some (fd y)) by (apply (LI_fd _ HI q y Hq); now rewrite Wy).
      assert (E2 : lockfile s = Some (fd x)) by (apply (LI_fd _ HI p x Hp); now rewrite Ea). congruence. }
    pose proof (conflicts_false _ _ _ _ q y Heqb Hq N F) as C.
    rewrite (LI_lock _ HI _ _ Hq), Wy in C. discriminate.
  - (* OpenWrite *)
    unfold with_disk, with_proc. cbn [procs disk lockfile next_inode now inputs version].
    set (s1 := mkState _ _ _ _ _ _ _).
    assert (SW : some_writing s1).
    { exists p, (goto x Writing (held x)). split; [cbn; now apply (set_nth_eq _ _ _ x)|reflexivity]. }
    split; cbn [s1 procs disk now inputs].
    + exact (DI_in _ HD).
    + intros f [= <-]. cbn. lia.
    + intros f _. now right; left.
    + intros q y Hq Hs. destruct (set_nth_inv _ _ _ _ _ _ Hp Hq) as [[-> ->]|[N Hq']]; [discriminate|].
      pose proof (writer_alone s p x q y HI Hp Hlk Hq' N). congruence.
    + intros q y Hq Hw. eexists; split; [reflexivity|]. now right.
  - (* Write *)
    unfold with_disk. set (s1 := mkState _ _ _ _ _ _ _).
    assert (SW : some_writing s1) by (exists p, x; split; assumption).
    split; cbn [s1 procs disk now inputs].
    + exact (DI_in _ HD).
    + intros f [= <-]. cbn. lia.
    + intros f _. now right; left.
    + intros q y Hq Hs. destruct (Nat.eq_dec q p) as [->|N].
      * rewrite Hp in Hq. injection Hq as <-. rewrite Ea in Hs. discriminate.
      * pose proof (writer_alone s p x q y HI Hp Hlk Hq N). congruence.
    + intros q y Hq Hw. eexists; split; [reflexivity|]. now right.
  - (* CloseWrite *)
    unfold with_disk, with_proc. cbn [procs disk lockfile next_inode now inputs version].
    split; cbn [procs disk now inputs].
    + exact (DI_in _ HD).
    + intros f [= <-]. cbn. lia.
    + intros f [= <-]. now left.
    + intros q y _ _. eexists; split; reflexivity.
    + intros q y _ _. eexists; split; [reflexivity|now left].
  - (* Tick *)
    split; cbn [procs disk now inputs].
    + intros i. pose proof (DI_in _ HD i). lia.
    + intros f Hf. pose proof (DI_now _ HD f Hf). lia.
    + exact (DI_file _ HD).
    + exact (DI_sees _ HD).
    + exact (DI_wait _ HD).
  - (* Modify *)
    split; cbn [procs disk now inputs].
    + intros j. pose proof (DI_in _ HD j). destruct (input_eqb j i); lia.
    + exact (DI_now _ HD).
    + intros f Hf. destruct (DI_file _ HD f Hf) as [?|[?|(j & Hj)]]; [now left|now right; left|].
      right; right. exists j. pose proof (DI_in _ HD j). destruct (input_eqb j i); lia.
    + exact (DI_sees _ HD).
    + exact (DI_wait _ HD).
Qed.

Lemma run_data c l s s' :
  locking c = true -> removal c = false -> crash_writing c = false ->
  lock_inv s -> data_inv s -> run c s l = Some s' -> data_inv s'.
Proof.
  intros Hl Hr Hc. revert s. induction l as [|a l IH]; intros s HI HD H; cbn in H; [congruence|].
  destruct (exec c s a) as [s1|] eqn:E; [|discriminate]. apply (IH s1); [| |assumption].
  - now apply (exec_lock c s a).
  - now apply (exec_data c s a).
Qed.

Lemma readers_complete c s l s' p :
  locking c = true -> removal c = false -> crash_writing c = false ->
  initial s -> run c s l = Some s' -> reads s' p -> finds_complete s'.
Proof.
  intros Hl Hr Hc Hi H (x & Hx & Rx).
  pose proof (run_data c l s s' Hl Hr Hc (initial_lock s Hi) (initial_data s Hi) H) as HD.
  apply (DI_sees _ HD p x Hx). now rewrite Rx.
Qed.

(** ** Recovery from crashes while writing, if an input is changed afterwards *)

Lemma exec_time c s a s' :
  (forall i, inputs s i <= now s) -> (forall f, disk s = Some f -> mtime f <= now s) ->
  exec c s a = Some s' ->
  (forall i, inputs s' i <= now s') /\ (forall f, disk s' = Some f -> mtime f <= now s').
Proof.
  intros T1 T2 H.
  destruct a; cbn [exec] in H; try use_proc H;
    try (destruct (at_ x) eqn:Ea; try discriminate H);
    repeat match type of H with
    | (match lockfile s with _ => _ end) = _ => destruct (lockfile s) eqn:?
    | (if ?b then _ else _) = _ => destruct b eqn:?; try discriminate H
    end; try discriminate H; injection H as <-;
    unfold with_disk, with_proc; cbn [disk now inputs]; (split; [try exact T1|try exact T2]);
    try (intros f [= <-]; cbn [mtime]; lia); try discriminate.
  - intros i. specialize (T1 i). lia.
  - intros f Hf. specialize (T2 f Hf). lia.
  - intros j. specialize (T1 j). destruct (input_eqb j i); lia.
Qed.

Lemma run_time c l s s' :
  (forall i, inputs s i <= now s) -> (forall f, disk s = Some f -> mtime f <= now s) ->
  run c s l = Some s' ->
  (forall i, inputs s' i <= now s') /\ (forall f, disk s' = Some f -> mtime f <= now s').
Proof.
  revert s. induction l as [|a l IH]; intros s T1 T2 H; cbn in H; [injection H as <-; now split|].
  destruct (exec c s a) as [s1|] eqn:E; [|discriminate].
  destruct (exec_time c s a s1 T1 T2 E) as [U1 U2]. now apply (IH s1).
Qed.

Lemma recovery c s l1 s1 i s2 c' l2 s3 p :
  locking c = true -> removal c = false ->
  locking c' = true -> removal c' = false -> crash_writing c' = false ->
  initial s -> run c s l1 = Some s1 -> nobody_runs s1 ->
  exec c s1 (Modify i) = Some s2 -> run c' s2 l2 = Some s3 -> reads s3 p -> finds_complete s3.
Proof.
  intros Hl Hr Hl' Hr' Hc' Hi H1 Hn Hm H2 (x & Hx & Rx).
  pose proof (run_lock c l1 s s1 Hl Hr (initial_lock s Hi) H1) as HI1.
  pose proof (exec_lock c s1 _ s2 Hl Hr HI1 Hm) as HI2.
  assert (T : (forall i, inputs s1 i <= now s1) /\ (forall f, disk s1 = Some f -> mtime f <= now s1)).
  { destruct Hi as (_ & _ & T1 & T2 & _). now apply (run_time c l1 s). }
  destruct T as [T1 T2].
  assert (HD2 : data_inv s2).
  { cbn [exec] in Hm. destruct (modify_busy c || forallb idle (procs s1))%bool; [|discriminate].
    injection Hm as <-. split; cbn [procs disk now inputs].
    - intros j. specialize (T1 j). destruct (input_eqb j i); lia.
    - exact T2.
    - intros f Hf. right; right. exists i. destruct i; cbn; auto.
    - intros q y Hq. destruct (Hn q y Hq) as [-> | ->]; discriminate.
    - intros q y Hq. destruct (Hn q y Hq) as [-> | ->]; discriminate. }
  pose proof (run_data c' l2 s2 s3 Hl' Hr' Hc' HI2 HD2 H2) as HD3.
  apply (DI_sees _ HD3 p x Hx). now rewrite Rx.
Qed.

(** ** Content belongs to the current inputs *)

Definition active (l : pc) : bool := match l with Start | Dead => false | _ => true end.
Definition uses (l : pc) : bool := match l with Reading | Degrade | Written | Waiting | Writing => true | _ => false end.

Record ver_inv (s : state) : Prop := {
  VI_in : forall i, inputs s i <= now s;
  VI_now : forall f, disk s = Some f -> mtime f <= now s;
  VI_ver : forall p x, nth_error (procs s) p = Some x -> active (at_ x) = true -> ver x = version s;
  VI_file : forall f, disk s = Some f -> src f = version s \/ exists i, mtime f <= inputs s i;
  VI_uses : forall p x, nth_error (procs s) p = Some x -> uses (at_ x) = true ->
     exists f, disk s = Some f /\ src f = version s }.

Lemma initial_ver s : initial s -> ver_inv s.
Proof.
  intros (H & H1 & H2 & H3 & H4 & H5). split; auto.
  - intros p x Hx. destruct (H p x Hx) as [-> _]. discriminate.
  - intros p x Hx. destruct (H p x Hx) as [-> _]. discriminate.
Qed.

Lemma ver_step s p x x' lf ni :
  ver_inv s -> nth_error (procs s) p = Some x ->
  (active (at_ x') = true -> ver x' = version s) ->
  (uses (at_ x') = true -> uses (at_ x) = true \/ fresh s = true) ->
  ver_inv (mkState (set_nth (procs s) p x') (disk s) lf ni (now s) (inputs s) (version s)).
Proof.
  intros [V1 V2 V3 V4 V5] Hp A U. split; cbn [procs disk now inputs version]; auto.
  - intros q y Hq Hs. destruct (set_nth_inv _ _ _ _ _ _ Hp Hq) as [[-> ->]|[_ Hq']]; [auto|exact (V3 q y Hq' Hs)].
  - intros q y Hq Hs. destruct (set_nth_inv _ _ _ _ _ _ Hp Hq) as [[-> ->]|[_ Hq']]; [|exact (V5 q y Hq' Hs)].
    destruct (U Hs) as [E|E]; [exact (V5 p x Hp E)|].
    apply fresh_spec in E as (f & Hf & Hi). exists f. split; [assumption|].
    destruct (V4 f Hf) as [?|(i & L)]; [assumption|]. specialize (Hi i). lia.
Qed.

Lemma ver_disk s p x x' t b :
  ver_inv s -> nth_error (procs s) p = Some x -> active (at_ x) = true -> ver x' = ver x -> t <= now s ->
  ver_inv (mkState (set_nth (procs s) p x') (Some (mkFile t b (ver x))) (lockfile s) (next_inode s) (now s) (inputs s) (version s)).
Proof.
  intros [V1 V2 V3 V4 V5] Hp A E Ht. pose proof (V3 p x Hp A) as Ev.
  split; cbn [procs disk now inputs version]; auto.
  - intros f [= <-]. exact Ht.
  - intros q y Hq Hs. destruct (set_nth_inv _ _ _ _ _ _ Hp Hq) as [[-> ->]|[_ Hq']]; [congruence|exact (V3 q y Hq' Hs)].
  - intros f [= <-]. now left.
  - intros q y _ _. eexists; split; [reflexivity|exact Ev].
Qed.

Lemma set_nth_same {A} (l : list A) p x : nth_error l p = Some x -> set_nth l p x = l.
Proof.
  revert p. induction l as [|y l IH]; intros [|p] H; cbn in *; try discriminate; [congruence|]. f_equal. now apply IH.
Qed.

Lemma exec_ver c s a s' :
  locking c = true -> removal c = false -> modify_busy c = false ->
  ver_inv s -> exec c s a = Some s' -> ver_inv s'.
Proof.
  intros Hl Hr Hc HV H.
  destruct a; cbn [exec] in H; try use_proc H;
    try (destruct (at_ x) eqn:Ea; try discriminate H);
    rewrite ?Hl, ?Hr, ?Hc in H; try discriminate H;
    try (pose proof (VI_ver _ HV _ _ Hp) as Hv; rewrite Ea in Hv; cbn in Hv);
    repeat match type of H with
    | (if conflicts ?a ?b ?c ?d then _ else _) = _ => destruct (conflicts a b c d) eqn:?; [discriminate H|]
    | (match lockfile s with _ => _ end) = _ => destruct (lockfile s) eqn:?
    | (if ?b then _ else _) = _ => destruct b eqn:?; [|discriminate H]
    end; try discriminate H; injection H as <-;
    try (unfold with_disk, with_proc; cbn [procs lockfile next_inode disk now inputs version];
         eapply ver_step; [eassumption|eassumption| |]; cbn [at_ goto ver]; rewrite ?Ea;
         repeat match goal with |- context [if fresh ?s then _ else _] => destruct (fresh s) eqn:? end; cbn [active uses];
         try reflexivity; try congruence; try discriminate; auto; fail).
  - unfold with_disk, with_proc; cbn [procs lockfile next_inode disk now inputs version].
    apply ver_disk; try assumption; try reflexivity; now rewrite Ea.
  - unfold with_disk. rewrite <- (set_nth_same (procs s) p x Hp).
    apply ver_disk; try assumption; try reflexivity; now rewrite Ea.
  - unfold with_disk, with_proc; cbn [procs lockfile next_inode disk now inputs version].
    apply ver_disk; try assumption; try reflexivity; now rewrite Ea.
  - split; cbn [procs disk now inputs version].
    + intros i. pose proof (VI_in _ HV i). lia.
    + intros f Hf. pose proof (VI_now _ HV f Hf). lia.
    + exact (VI_ver _ HV).
    + exact (VI_file _ HV).
    + exact (VI_uses _ HV).
  - cbn [orb] in Heqb. rewrite forallb_forall in Heqb.
    assert (Hidle : forall q y, nth_error (procs s) q = Some y -> active (at_ y) = false /\ uses (at_ y) = false).
    { intros q y Hq. specialize (Heqb y (nth_error_In _ _ Hq)). unfold idle in Heqb.
      destruct (at_ y); try discriminate; now split. }
    split; cbn [procs disk now inputs version].
    + intros j. pose proof (VI_in _ HV j). destruct (input_eqb j i); lia.
    + exact (VI_now _ HV).
    + intros q y Hq. destruct (Hidle q y Hq). congruence.
    + intros f Hf. right. exists i. pose proof (VI_now _ HV f Hf). destruct i; cbn; lia.
    + intros q y Hq. destruct (Hidle q y Hq). congruence.
Qed.

Lemma run_ver c l s s' :
  locking c = true -> removal c = false -> modify_busy c = false ->
  ver_inv s -> run c s l = Some s' -> ver_inv s'.
Proof.
  intros Hl Hr Hc. revert s. induction l as [|a l IH]; intros s HV H; cbn in H; [congruence|].
  destruct (exec c s a) as [s1|] eqn:E; [|discriminate]. apply (IH s1); [|assumption].
  now apply (exec_ver c s a).
Qed.

Lemma readers_current c s l s' p x :
  locking c = true -> removal c = false -> modify_busy c = false ->
  initial s -> run c s l = Some s' -> nth_error (procs s') p = Some x -> at_ x = Reading ->
  exists f, disk s' = Some f /\ src f = version s' /\ src f = ver x.
Proof.
  intros Hl Hr Hc Hi H Hx Rx.
  pose proof (run_ver c l s s' Hl Hr Hc (initial_ver s Hi) H) as HV.
  destruct (VI_uses _ HV p x Hx) as (f & Hf & Hs); [now rewrite Rx|].
  exists f. split; [assumption|]. split; [assumption|].
  rewrite (VI_ver _ HV p x Hx); [assumption|now rewrite Rx].
Qed.
