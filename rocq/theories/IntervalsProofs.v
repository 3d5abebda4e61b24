From Coq Require Import Permutation Sorted.
From Verif Require Import PyBase PyBaseFacts IntervalsModel IntervalsSpec.
Local Open Scope Z_scope.

Definition le_fst (a b : range) := fst a <= fst b.

Lemma filter_nonempty rs :
  filter (fun d : range => snd d >? fst d) rs = nonempty_ranges rs.
Proof.
  unfold nonempty_ranges. apply filter_ext. intros a. now rewrite Z.gtb_ltb.
Qed.

Definition prep (rs : list range) := sort_by fst (nonempty_ranges rs).

Lemma intervals_prep rs : intervals rs = enforce_no_overlap (prep rs).
Proof. unfold intervals, prep. now rewrite filter_nonempty. Qed.

Lemma prep_sorted rs : Sorted le_fst (prep rs).
Proof. apply sort_by_sorted. Qed.

Lemma prep_perm rs : Permutation (nonempty_ranges rs) (prep rs).
Proof. apply sort_by_perm. Qed.

Lemma prep_covered rs x : covered (prep rs) x <-> covered rs x.
Proof.
  unfold covered, prep.
  split; intros (lo & hi & Hin & Hx); exists lo, hi; split; try assumption.
  - apply sort_by_in, filter_In in Hin. apply Hin.
  - apply sort_by_in, filter_In. split; [assumption|]. cbn. apply Z.ltb_lt. lia.
Qed.

Lemma prep_nonempty rs : Forall (fun d : range => fst d < snd d) (prep rs).
Proof.
  apply Forall_forall. intros d Hd. apply sort_by_in, filter_In in Hd.
  destruct Hd as [_ Hd]. now apply Z.ltb_lt.
Qed.

Lemma covered_cons d rs x :
  covered (d :: rs) x <-> (fst d <= x < snd d \/ covered rs x).
Proof.
  unfold covered. split.
  - intros (lo & hi & [Heq|Hin] & Hx).
    + subst d. now left.
    + right. eauto.
  - intros [Hx|(lo & hi & Hin & Hx)].
    + exists (fst d), (snd d). split; [left; now destruct d|assumption].
    + exists lo, hi. split; [now right|assumption].
Qed.

Lemma covered_nil x : covered [] x <-> False.
Proof. split; [intros (? & ? & [] & _)|tauto]. Qed.

(** One unfolding step of the merge loop, in readable form. *)
Inductive loop_step : list range -> range -> list range -> Prop :=
| LMerge l0 u0 l1 u1 rest : l1 <= u0 ->
    loop_step ((l0,u0) :: (l1,u1) :: rest) (l0, Z.max u0 u1) rest
| LKeep l0 u0 l1 u1 rest : u0 < l1 ->
    loop_step ((l0,u0) :: (l1,u1) :: rest) (l0,u0) ((l1,u1) :: rest).

Lemma no_overlap_step f d0 d1 rest :
  exists d ds, loop_step (d0 :: d1 :: rest) d ds /\
    no_overlap_fuel (S f) (d0 :: d1 :: rest) = d :: no_overlap_fuel f ds.
Proof.
  destruct d0 as [l0 u0], d1 as [l1 u1]. cbn [no_overlap_fuel].
  destruct (u0 >=? l1) eqn:E; rewrite Z.geb_leb in E.
  - apply Z.leb_le in E. exists (l0, Z.max u0 u1), rest. split; [now constructor|].
    do 2 f_equal. destruct (Z.ltb_spec u0 u1); lia.
  - apply Z.leb_gt in E. eexists _, _. split; [now constructor|]. reflexivity.
Qed.

Lemma loop_step_sorted ds d rest :
  loop_step ds d rest -> Sorted le_fst ds -> Sorted le_fst rest.
Proof.
  intros [l0 u0 l1 u1 r H|l0 u0 l1 u1 r H] Hs.
  - inversion Hs as [|? ? Hs' ?]; subst. now inversion Hs'.
  - now inversion Hs.
Qed.

Lemma loop_step_length ds d rest : loop_step ds d rest -> (length rest < length ds)%nat.
Proof. intros [? ? ? ? ? ?|? ? ? ? ? ?]; cbn; lia. Qed.

Lemma loop_step_covered ds d rest x :
  loop_step ds d rest -> Sorted le_fst ds ->
  (covered ds x <-> covered (d :: rest) x).
Proof.
  intros [l0 u0 l1 u1 r H|l0 u0 l1 u1 r H] Hs; rewrite !covered_cons; cbn [fst snd]; [|tauto].
  inversion Hs as [|? ? ? Hhd]; subst. inversion Hhd as [|? ? Hle]; subst.
  unfold le_fst in Hle; cbn in Hle.
  split; [intros [|[|]]|intros [|]]; try tauto; try (left; lia).
  destruct (Z_lt_ge_dec x u0); [left|right; left]; lia.
Qed.

Lemma no_overlap_covered f ds x :
  (length ds <= f)%nat -> Sorted le_fst ds ->
  (covered (no_overlap_fuel f ds) x <-> covered ds x).
Proof.
  revert ds. induction f as [|f IH]; intros ds Hlen Hs; [reflexivity|].
  destruct ds as [|d0 [|d1 rest]]; try (destruct d0; reflexivity); [reflexivity|].
  destruct (no_overlap_step f d0 d1 rest) as (d & ds' & Hst & Heq).
  rewrite Heq, (loop_step_covered _ _ _ x Hst Hs), !covered_cons.
  rewrite IH; [reflexivity| |].
  - apply loop_step_length in Hst. lia.
  - eapply loop_step_sorted; eassumption.
Qed.

Lemma intervals_covered rs x : covered (intervals rs) x <-> covered rs x.
Proof.
  rewrite intervals_prep. unfold enforce_no_overlap.
  rewrite no_overlap_covered; [apply prep_covered|lia|apply prep_sorted].
Qed.

Lemma contains_covered ds x : intervals_contains ds x = true <-> covered ds x.
Proof.
  unfold intervals_contains, covered. rewrite existsb_exists. split.
  - intros ([lo hi] & Hin & H). cbn in H. exists lo, hi. split; [assumption|lia].
  - intros (lo & hi & Hin & H). exists (lo, hi). split; [assumption|]. cbn. lia.
Qed.

Lemma intervals_membership rs x :
  intervals_contains (intervals rs) x = true <-> covered rs x.
Proof. rewrite contains_covered. apply intervals_covered. Qed.

Lemma covered_app a b x : covered (a ++ b) x <-> covered a x \/ covered b x.
Proof.
  induction a as [|d a IH]; cbn [app].
  - rewrite covered_nil. tauto.
  - rewrite !covered_cons, IH. tauto.
Qed.

Lemma intervals_and_membership a b x :
  intervals_contains (intervals_and a b) x = true <->
  intervals_contains a x = true \/ intervals_contains b x = true.
Proof.
  unfold intervals_and. rewrite intervals_membership, !contains_covered. apply covered_app.
Qed.

(** ** Length *)
Definition enum (d : range) : list Z :=
  map (fun k => fst d + Z.of_nat k) (seq 0 (Z.to_nat (snd d - fst d))).

Lemma enum_in d x : In x (enum d) <-> fst d <= x < snd d.
Proof.
  unfold enum. rewrite in_map_iff. split.
  - intros (k & Hk & Hin). apply in_seq in Hin. lia.
  - intros H. exists (Z.to_nat (x - fst d)). split; [lia|]. apply in_seq. lia.
Qed.

Lemma enum_nodup d : NoDup (enum d).
Proof.
  unfold enum. apply FinFun.Injective_map_NoDup; [|apply seq_NoDup].
  intros a b H. lia.
Qed.

Lemma enum_length d : fst d <= snd d -> Z.of_nat (length (enum d)) = snd d - fst d.
Proof. intros H. unfold enum. rewrite map_length, seq_length. lia. Qed.

Lemma flat_enum_in ds x : In x (flat_map enum ds) <-> covered ds x.
Proof.
  rewrite in_flat_map. unfold covered. split.
  - intros ([lo hi] & Hin & Hx). apply enum_in in Hx. eauto.
  - intros (lo & hi & Hin & Hx). exists (lo, hi). split; [assumption|]. now apply enum_in.
Qed.

Lemma flat_enum_length ds :
  Forall (fun d : range => fst d <= snd d) ds ->
  intervals_len ds = Z.of_nat (length (flat_map enum ds)).
Proof.
  unfold intervals_len.
  induction 1 as [|d ds Hd _ IH]; [reflexivity|].
  cbn [flat_map map zsum fold_right]. rewrite app_length, Nat2Z.inj_add, enum_length by assumption.
  unfold zsum in IH. now rewrite IH.
Qed.

Lemma counts_unique P n m : counts P n -> counts P m -> n = m.
Proof.
  intros (l & Hl & HP & ->) (k & Hk & HP' & ->). f_equal.
  apply Nat.le_antisymm; apply NoDup_incl_length; try assumption;
    intros x Hx; [apply HP', HP|apply HP, HP']; assumption.
Qed.

Lemma counts_ext P Q n : (forall x, P x <-> Q x) -> counts P n -> counts Q n.
Proof.
  intros H (l & Hl & HP & ->). exists l. repeat split; try assumption.
  - intros Hx. now apply H, HP.
  - intros Hx. now apply HP, H.
Qed.

Lemma no_overlap_nonempty f (ds : list range) :
  Forall (fun d : range => fst d < snd d) ds -> Sorted le_fst ds ->
  Forall (fun d : range => fst d < snd d) (no_overlap_fuel f ds).
Proof.
  revert ds. induction f as [|f IH]; intros ds H Hs; [assumption|].
  destruct ds as [|d0 [|d1 rest]]; try (destruct d0; assumption); [assumption|].
  destruct (no_overlap_step f d0 d1 rest) as (d & ds' & Hst & Heq). rewrite Heq.
  pose proof (loop_step_sorted _ _ _ Hst Hs) as Hs'.
  inversion Hst; subst; inversion H as [|? ? H0 H1]; subst; inversion H1 as [|? ? H2 H3]; subst;
    constructor; cbn [fst snd] in *; try lia; apply IH; assumption.
Qed.

Lemma intervals_nonempty rs : Forall (fun d : range => fst d < snd d) (intervals rs).
Proof.
  rewrite intervals_prep. apply no_overlap_nonempty; [apply prep_nonempty|apply prep_sorted].
Qed.

Lemma intervals_len_flat rs :
  intervals_len (intervals rs) = Z.of_nat (length (flat_map enum (intervals rs))).
Proof.
  apply flat_enum_length. eapply Forall_impl; [|apply intervals_nonempty]. cbn. intros; lia.
Qed.

Lemma len_never_undercounts rs n :
  counts (covered rs) n -> n <= intervals_len (intervals rs).
Proof.
  intros (l & Hl & HP & ->). rewrite intervals_len_flat. apply inj_le.
  apply NoDup_incl_length; [assumption|]. intros x Hx.
  apply flat_enum_in, intervals_covered, HP, Hx.
Qed.

(** ** Separated results *)
Definition sep (ds : list range) := StronglySorted (fun a b : range => snd a < fst b) ds.

Lemma sep_nodup ds :
  sep ds -> Forall (fun d : range => fst d < snd d) ds -> NoDup (flat_map enum ds).
Proof.
  induction 1 as [|d ds Hs IH Hall]; intros Hne; cbn [flat_map]; [constructor|].
  inversion Hne; subst.
  assert (Hdis : forall x, In x (enum d) -> ~ In x (flat_map enum ds)).
  { intros x Hx Hin. apply enum_in in Hx. apply in_flat_map in Hin as (e & He & Hxe).
    apply enum_in in Hxe. rewrite Forall_forall in Hall. specialize (Hall _ He).
    cbn in Hall. lia. }
  specialize (IH H2). clear - IH Hdis.
  pose proof (enum_nodup d) as Hnd. induction Hnd as [|x l Hx Hnd IHl]; [assumption|].
  cbn [app]. constructor.
  - rewrite in_app_iff. intros [H|H]; [now apply Hx|]. apply (Hdis x); [now left|assumption].
  - apply IHl. intros y Hy. apply Hdis. now right.
Qed.

Lemma sep_len rs n :
  sep (intervals rs) -> counts (covered rs) n -> intervals_len (intervals rs) = n.
Proof.
  intros Hsep Hn. eapply counts_unique; [|exact Hn].
  exists (flat_map enum (intervals rs)). repeat split.
  - apply sep_nodup; [assumption|apply intervals_nonempty].
  - intros Hx. apply intervals_covered. now apply flat_enum_in.
  - intros Hx. apply flat_enum_in, intervals_covered, Hx.
  - apply intervals_len_flat.
Qed.

(** The merge is exact if no range touches two others. *)
Definition pairs_only (ds : list range) :=
  forall a b c rest, Permutation ds (a :: b :: c :: rest) -> ~ (touch a b /\ touch b c).

Lemma pairs_only_tail d ds : pairs_only (d :: ds) -> pairs_only ds.
Proof.
  intros H a b c rest Hp. apply (H a b c (d :: rest)).
  rewrite Hp. etransitivity; [apply perm_swap|]. apply perm_skip.
  etransitivity; [apply perm_swap|]. apply perm_skip. apply perm_swap.
Qed.

Lemma sorted_hd_le d ds e : Sorted le_fst (d :: ds) -> In e ds -> fst d <= fst e.
Proof.
  intros Hs Hin. apply Sorted_StronglySorted in Hs; [|intros x y z; unfold le_fst; lia].
  inversion Hs as [|? ? _ Hall]; subst. rewrite Forall_forall in Hall. now apply Hall.
Qed.

Lemma no_overlap_lower f (ds : list range) (e : range) :
  Sorted le_fst ds -> In e (no_overlap_fuel f ds) -> exists d, In d ds /\ fst d = fst e.
Proof.
  revert ds. induction f as [|f IH]; intros ds Hs Hin; [eauto|].
  destruct ds as [|d0 [|d1 rest]]; try (destruct d0); try (eexists; split; [exact Hin|reflexivity]).
  destruct (no_overlap_step f (z,z0) d1 rest) as (d & ds' & Hst & Heq). rewrite Heq in Hin.
  pose proof (loop_step_sorted _ _ _ Hst Hs) as Hs'.
  destruct Hin as [Hin|Hin].
  - subst e. exists (z,z0). split; [now left|]. now inversion Hst.
  - apply IH in Hin; [|assumption]. destruct Hin as (d2 & Hd2 & Hf). exists d2.
    split; [|assumption]. inversion Hst; subst; cbn; tauto.
Qed.

Lemma no_overlap_sep f (ds : list range) :
  (length ds <= f)%nat -> Sorted le_fst ds -> Forall (fun d : range => fst d < snd d) ds ->
  pairs_only ds -> sep (no_overlap_fuel f ds).
Proof.
  revert ds. induction f as [|f IH]; intros ds Hlen Hs Hne Hp.
  - destruct ds; [constructor|cbn in Hlen; lia].
  - destruct ds as [|d0 [|d1 rest]]; try (destruct d0; repeat constructor); [constructor|].
    destruct (no_overlap_step f (z,z0) d1 rest) as (d & ds' & Hst & Heq). rewrite Heq. clear Heq.
    pose proof (loop_step_sorted _ _ _ Hst Hs) as Hs'.
    pose proof (loop_step_length _ _ _ Hst) as Hl'.
    assert (Hne' : Forall (fun d : range => fst d < snd d) ds').
    { inversion Hst; subst; inversion Hne as [|? ? ? Hne1]; subst; [|assumption].
      now inversion Hne1. }
    assert (Hp' : pairs_only ds').
    { inversion Hst; subst; apply pairs_only_tail in Hp; [|assumption].
      now apply pairs_only_tail in Hp. }
    constructor.
    + apply IH; [lia|assumption|assumption|assumption].
    + apply Forall_forall. intros e He.
      apply no_overlap_lower in He; [|assumption]. destruct He as (d2 & Hd2 & Hf).
      rewrite <- Hf.
      inversion Hst as [l0 u0 l1 u1 r Hle|l0 u0 l1 u1 r Hlt]; subst; cbn [fst snd].
      * (* merged: a third range must be behind both *)
        pose proof (sorted_hd_le _ _ d2 Hs (or_intror Hd2)) as Hle2. cbn in Hle2.
        assert (Hs1 : Sorted le_fst ((l1,u1) :: ds')) by now inversion Hs.
        pose proof (sorted_hd_le _ _ d2 Hs1 Hd2) as Hle3. cbn in Hle3.
        pose proof (sorted_hd_le _ _ (l1,u1) Hs (or_introl eq_refl)) as Hle1. cbn in Hle1.
        apply in_split in Hd2 as (p1 & p2 & ->).
        inversion Hne as [|? ? Hn0 Hn1]; subst; inversion Hn1 as [|? ? Hn2 Hn3]; subst.
        cbn [fst snd] in *.
        assert (Hn4 : fst d2 < snd d2).
        { rewrite Forall_forall in Hn3. apply Hn3. apply in_app_iff. right. now left. }
        assert (H1 : ~ touch (l1,u1) d2).
        { intros Ht. apply (Hp (z,z0) (l1,u1) d2 (p1 ++ p2)).
          - apply perm_skip, perm_skip. symmetry. apply Permutation_middle.
          - split; [|assumption]. unfold touch; cbn. lia. }
        assert (H2 : ~ touch (z,z0) d2).
        { intros Ht. apply (Hp (l1,u1) (z,z0) d2 (p1 ++ p2)).
          - etransitivity; [apply perm_swap|]. apply perm_skip, perm_skip.
            symmetry. apply Permutation_middle.
          - split; [|assumption]. unfold touch; cbn. lia. }
        unfold touch in H1, H2. cbn in H1, H2. lia.
      * inversion Hs as [|? ? Hs1 _]; subst.
        destruct Hd2 as [<-|Hd2]; [assumption|].
        pose proof (sorted_hd_le _ _ d2 Hs1 Hd2) as Hle3. cbn in Hle3. lia.
Qed.

Lemma pairs_only_perm ds ds' : Permutation ds ds' -> pairs_only ds -> pairs_only ds'.
Proof. intros Hp H a b c rest Hq. apply (H a b c rest). now rewrite Hp. Qed.

Lemma intervals_sep rs : at_most_pairs_touch rs -> sep (intervals rs).
Proof.
  intros H. rewrite intervals_prep. apply no_overlap_sep.
  - lia.
  - apply prep_sorted.
  - apply prep_nonempty.
  - eapply pairs_only_perm; [apply prep_perm|exact H].
Qed.

Lemma len_exact rs n :
  at_most_pairs_touch rs -> counts (covered rs) n -> intervals_len (intervals rs) = n.
Proof. intros H. apply sep_len. now apply intervals_sep. Qed.

Lemma short_pairs_touch rs : (length rs <= 2)%nat -> at_most_pairs_touch rs.
Proof.
  intros Hlen a b c rest Hp _. apply Permutation_length in Hp.
  assert (length (nonempty_ranges rs) <= length rs)%nat.
  { unfold nonempty_ranges. clear. induction rs as [|d rs IH]; cbn; [lia|].
    destruct (fst d <? snd d); cbn; lia. }
  cbn in Hp. lia.
Qed.

(** ** Equality *)
Lemma range_eqb_eq d e : range_eqb d e = true <-> d = e.
Proof.
  destruct d, e. unfold range_eqb. cbn. split.
  - intros H. f_equal; lia.
  - intros [= -> ->]. lia.
Qed.

Lemma intervals_eq_eq a b : intervals_eq a b = true <-> a = b.
Proof.
  revert b. induction a as [|d a IH]; intros [|e b]; cbn; try (split; congruence).
  rewrite andb_true_iff, range_eqb_eq, IH. split; [intros [-> ->]|intros [= -> ->]]; auto.
Qed.

Lemma sep_unique a b :
  sep a -> sep b -> Forall (fun d : range => fst d < snd d) a -> Forall (fun d : range => fst d < snd d) b ->
  (forall x, covered a x <-> covered b x) -> a = b.
Proof.
  intros Ha. revert b. induction Ha as [|d a Ha IH Hall]; intros b Hb Hna Hnb Hcov.
  - destruct b as [|e b]; [reflexivity|].
    inversion Hnb; subst. exfalso. apply (covered_nil (fst e)). apply Hcov, covered_cons. left. lia.
  - destruct Hb as [|e b Hb Hball].
    { inversion Hna; subst. exfalso. apply (covered_nil (fst d)). apply Hcov, covered_cons. left. lia. }
    inversion Hna as [|? ? Hd Hna']; subst. inversion Hnb as [|? ? He Hnb']; subst.
    rewrite Forall_forall in Hall, Hball, Hna', Hnb'.
    (* membership in the tail lies beyond the head *)
    assert (HTa : forall x, covered a x -> snd d < x).
    { intros x (lo & hi & Hin & Hx). specialize (Hall _ Hin). cbn in Hall. lia. }
    assert (HTb : forall x, covered b x -> snd e < x).
    { intros x (lo & hi & Hin & Hx). specialize (Hball _ Hin). cbn in Hball. lia. }
    assert (Hcov' : forall x, (fst d <= x < snd d \/ covered a x) <-> (fst e <= x < snd e \/ covered b x)).
    { intros x. rewrite <- !covered_cons. apply Hcov. }
    assert (Hfst : fst d = fst e).
    { pose proof (proj1 (Hcov' (fst d)) ltac:(left; lia)) as H1.
      pose proof (proj2 (Hcov' (fst e)) ltac:(left; lia)) as H2.
      destruct H1 as [H1|H1], H2 as [H2|H2]; try (apply HTa in H2); try (apply HTb in H1); lia. }
    assert (Hsnd : snd d = snd e).
    { destruct (Z.lt_trichotomy (snd d) (snd e)) as [Hlt|[Heq|Hlt]]; [|assumption|].
      - pose proof (proj2 (Hcov' (snd d)) ltac:(left; lia)) as [H1|H1]; [lia|].
        apply HTa in H1. lia.
      - pose proof (proj1 (Hcov' (snd e)) ltac:(left; lia)) as [H1|H1]; [lia|].
        apply HTb in H1. lia. }
    assert (d = e) by (destruct d, e; cbn in *; congruence). subst e. f_equal.
    apply IH; try assumption; try (apply Forall_forall; assumption).
    intros x. specialize (Hcov' x). split; intros Hx.
    + destruct (proj1 Hcov' (or_intror Hx)) as [H1|H1]; [|assumption]. apply HTa in Hx. lia.
    + destruct (proj2 Hcov' (or_intror Hx)) as [H1|H1]; [|assumption]. apply HTb in Hx. lia.
Qed.

Lemma eq_iff_same_members rs rs' :
  at_most_pairs_touch rs -> at_most_pairs_touch rs' ->
  (intervals_eq (intervals rs) (intervals rs') = true <->
   forall x, covered rs x <-> covered rs' x).
Proof.
  intros H H'. rewrite intervals_eq_eq. split.
  - intros Heq x. rewrite <- (intervals_covered rs), <- (intervals_covered rs'), Heq. reflexivity.
  - intros Hcov. apply sep_unique; try (now apply intervals_sep); try apply intervals_nonempty.
    intros x. rewrite !intervals_covered. apply Hcov.
Qed.

Lemma eq_sound a b :
  intervals_eq a b = true -> forall x, intervals_contains a x = intervals_contains b x.
Proof. intros H x. apply intervals_eq_eq in H. now subst. Qed.

(** ** Heap model *)
Lemma h_no_overlap_refines f h data :
  NoDup data ->
  let '(h', d') := h_no_overlap_fuel f h data in
  map h' d' = no_overlap_fuel f (map h data)
  /\ incl d' data
  /\ (forall r, ~ In r data -> h' r = h r).
Proof.
  revert h data. induction f as [|f IH]; intros h data Hnd.
  - cbn. split; [reflexivity|]. split; [now apply incl_refl|auto].
  - destruct data as [|r0 [|r1 rest]].
    + cbn. split; [reflexivity|]. split; [now apply incl_refl|auto].
    + cbn. split; [now destruct (h r0)|]. split; [now apply incl_refl|auto].
    + cbn [h_no_overlap_fuel map].
      destruct (h r0) as [l0 u0] eqn:E0. destruct (h r1) as [l1 u1] eqn:E1.
      cbn [fst snd no_overlap_fuel].
      inversion Hnd as [|? ? Hn0 Hnd1]; subst. inversion Hnd1 as [|? ? Hn1 Hnd2]; subst.
      destruct (u0 >=? l1) eqn:Eg.
      * set (hh := if u0 <? u1 then upd h r0 (l0, u1) else h).
        assert (Hhh : forall r, r <> r0 -> hh r = h r).
        { intros r Hr. unfold hh. destruct (u0 <? u1); [|reflexivity].
          unfold upd. destruct (Nat.eqb_spec r0 r); congruence. }
        assert (Hh0 : hh r0 = (l0, if u0 <? u1 then u1 else u0)).
        { unfold hh. destruct (u0 <? u1); [unfold upd; now rewrite Nat.eqb_refl|exact E0]. }
        specialize (IH hh rest Hnd2).
        destruct (h_no_overlap_fuel f hh rest) as [h'' d'] eqn:E.
        destruct IH as (IH1 & IH2 & IH3).
        split; [|split].
        -- cbn [map]. f_equal.
           ++ rewrite IH3; [exact Hh0|]. intros Hin. apply Hn0. now right.
           ++ rewrite IH1. f_equal. apply map_ext_in. intros r Hr. apply Hhh.
              intros ->. apply Hn0. now right.
        -- intros r [<-|Hr]; [now left|]. right. right. now apply IH2.
        -- intros r Hr. rewrite IH3.
           ++ apply Hhh. intros ->. apply Hr. now left.
           ++ intros Hin. apply Hr. right. now right.
      * specialize (IH h (r1 :: rest) Hnd1).
        destruct (h_no_overlap_fuel f h (r1 :: rest)) as [h'' d'] eqn:E.
        destruct IH as (IH1 & IH2 & IH3).
        split; [|split].
        -- cbn [map]. f_equal; [rewrite IH3; assumption|]. rewrite IH1. cbn [map]. now rewrite E1.
        -- intros r [<-|Hr]; [now left|]. right. now apply IH2.
        -- intros r Hr. apply IH3. intros Hin. apply Hr. now right.
Qed.

Lemma map_insert_by (h : heap) r l :
  map h (insert_by (fun r : ref => fst (h r)) r l) = insert_by fst (h r) (map h l).
Proof.
  induction l as [|s l IH]; cbn [insert_by map]; [reflexivity|].
  destruct (fst (h r) <=? fst (h s)); cbn [map]; [reflexivity|]. now rewrite IH.
Qed.

Lemma map_sort_by (h : heap) l :
  map h (sort_by (fun r : ref => fst (h r)) l) = sort_by fst (map h l).
Proof.
  induction l as [|r l IH]; cbn [sort_by fold_right map]; [reflexivity|].
  rewrite map_insert_by. unfold sort_by in IH. now rewrite IH.
Qed.

Lemma map_filter (h : heap) l :
  map h (filter (fun r : ref => snd (h r) >? fst (h r)) l)
  = filter (fun d : range => snd d >? fst d) (map h l).
Proof.
  induction l as [|r l IH]; cbn [filter map]; [reflexivity|].
  destruct (snd (h r) >? fst (h r)); cbn [map]; now rewrite IH.
Qed.

Lemma h_prep_nodup (h : heap) l :
  NoDup l -> NoDup (sort_by (fun r : ref => fst (h r)) (filter (fun r => snd (h r) >? fst (h r)) l)).
Proof.
  intros H. eapply Permutation_NoDup; [apply sort_by_perm|]. now apply NoDup_filter.
Qed.

Lemma h_intervals_refines h args :
  NoDup args ->
  let '(h', d') := h_intervals h args in
  h_data h' d' = intervals (h_data h args)
  /\ (forall r, ~ In r args -> h' r = h r).
Proof.
  intros Hnd. unfold h_intervals.
  set (data := sort_by _ _).
  pose proof (h_no_overlap_refines (length data) h data (h_prep_nodup h args Hnd)) as H.
  destruct (h_no_overlap_fuel (length data) h data) as [h' d'] eqn:E.
  destruct H as (H1 & H2 & H3). split.
  - unfold h_data. rewrite H1. unfold intervals, enforce_no_overlap, data.
    rewrite map_sort_by, map_filter. f_equal.
    rewrite <- map_filter, <- map_sort_by, map_length. reflexivity.
  - intros r Hr. apply H3. unfold data. rewrite sort_by_in, filter_In. tauto.
Qed.

Definition sep' (ds : list range) := Sorted (fun a b : range => snd a < fst b) ds.

Lemma h_no_overlap_unchanged f h data :
  Sorted (fun a b => snd (h a) < fst (h b)) data ->
  h_no_overlap_fuel f h data = (h, data).
Proof.
  revert data. induction f as [|f IH]; intros data Hs; [reflexivity|].
  destruct data as [|r0 [|r1 rest]]; try reflexivity.
  cbn [h_no_overlap_fuel]. inversion Hs as [|? ? Hs1 Hhd]; subst. inversion Hhd; subst.
  destruct (snd (h r0) >=? fst (h r1)) eqn:E; [rewrite Z.geb_leb in E; apply Z.leb_le in E; lia|].
  now rewrite IH.
Qed.

Lemma none_touch_prep_sorted rs :
  none_touch rs -> Sorted (fun a b : range => snd a < fst b) (prep rs).
Proof.
  intros H.
  assert (Hp : forall a b rest, Permutation (prep rs) (a :: b :: rest) -> ~ touch a b).
  { intros a b rest Hp. apply (H a b rest). etransitivity; [apply prep_perm|exact Hp]. }
  clear H. pose proof (prep_sorted rs) as Hs. pose proof (prep_nonempty rs) as Hn.
  revert Hp Hs Hn. generalize (prep rs) as l. induction l as [|a l IH]; intros Hp Hs Hn; [constructor|].
  inversion Hs as [|? ? Hs' Hhd]; subst. inversion Hn as [|? ? Hna Hn']; subst.
  constructor.
  - apply IH; try assumption. intros x y rest Hq. apply (Hp x y (a :: rest)).
    rewrite Hq. etransitivity; [apply perm_swap|]. apply perm_skip, perm_swap.
  - destruct l as [|b l]; constructor.
    specialize (Hp a b l (Permutation_refl _)). inversion Hhd as [|? ? Hle]; subst.
    unfold le_fst in Hle. inversion Hn' as [|? ? Hnb _]; subst. unfold touch in Hp. lia.
Qed.

Lemma h_intervals_unchanged h args :
  none_touch (h_data h args) -> fst (h_intervals h args) = h.
Proof.
  intros H. unfold h_intervals.
  rewrite h_no_overlap_unchanged; [reflexivity|].
  apply none_touch_prep_sorted in H. unfold prep, h_data in H.
  rewrite <- filter_nonempty, <- map_filter, <- map_sort_by in H.
  revert H. generalize (sort_by (fun r => fst (h r)) (filter (fun r => snd (h r) >? fst (h r)) args)).
  induction l as [|r l IH]; intros Hs; [constructor|].
  cbn [map] in Hs. inversion Hs as [|? ? Hs' Hhd]; subst. constructor; [now apply IH|].
  destruct l; [constructor|]. cbn [map] in Hhd. inversion Hhd; subst. now constructor.
Qed.
