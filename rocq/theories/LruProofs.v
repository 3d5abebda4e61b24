(** Proofs for C111. *)
From Coq Require Import Permutation.
From Verif Require Import PyBase PyBaseFacts LCSpec LruSpec.
Local Open Scope list_scope.
Local Open Scope Z_scope.

(** ** Stack distances *)
Lemma line_eqb_spec a b : reflect (a = b) (line_eqb a b).
Proof.
  destruct a as [x y], b as [u v]. unfold line_eqb. cbn [fst snd]. destruct (Nat.eqb_spec x u) as [->|N]; [|constructor; congruence].
  destruct (Z.eqb_spec y v) as [->|N]; constructor; congruence.
Qed.
Lemma ref_eqb_spec (a b : ref) : reflect (a = b) (ref_eqb a b).
Proof. exact (line_eqb_spec a b). Qed.
Definition line_dec (a b : line) : {a = b} + {a <> b}.
Proof. destruct (line_eqb_spec a b); [now left|now right]. Defined.
Definition others (l : line) (c : list line) : list line := filter (fun x => negb (line_eqb x l)) c.
Lemma others_in l c x : In x (others l c) <-> In x c /\ x <> l.
Proof. unfold others. rewrite filter_In. destruct (line_eqb_spec x l); cbn; intuition congruence. Qed.
Lemma others_nodup l c : NoDup c -> NoDup (others l c).
Proof. apply NoDup_filter. Qed.
(** All lines of the past, most recently used first *)
Definition recency (past : list line) : list line := fold_left (fun c l => l :: others l c) past [].
Lemma recency_snoc past l : recency (past ++ [l]) = l :: others l (recency past).
Proof. unfold recency. now rewrite fold_left_app. Qed.
Lemma cache_snoc n past l : cache_after n (past ++ [l]) = touch n (cache_after n past) l.
Proof. unfold cache_after. now rewrite fold_left_app. Qed.
Lemma recency_in past x : In x (recency past) <-> In x past.
Proof.
  induction past as [|l past IH] using rev_ind; [reflexivity|]. rewrite recency_snoc, in_app_iff. cbn [In]. rewrite others_in, IH. destruct (line_dec x l); intuition congruence.
Qed.
Lemma recency_nodup past : NoDup (recency past).
Proof.
  induction past as [|l past IH] using rev_ind; [constructor|]. rewrite recency_snoc. constructor; [rewrite others_in; tauto|now apply others_nodup].
Qed.
Lemma firstn_others n l c : NoDup c -> firstn n (l :: others l (firstn n c)) = firstn n (l :: others l c).
Proof.
  intros ND. destruct n as [|n]; [reflexivity|]. cbn [firstn]. f_equal. revert n. induction ND as [|x c N ND IH]; intros n; [reflexivity|]. cbn [firstn others filter].
  destruct (line_eqb_spec x l) as [->|NE]; cbn [negb].
  - assert (E : forall m, others l (firstn m c) = firstn m c).
    { intros m. unfold others. assert (H : forall y, In y (firstn m c) -> y <> l) by (intros y I ->; apply N; rewrite <- (firstn_skipn m c); apply in_or_app; now left).
      clear - H. induction (firstn m c) as [|y s IH]; [reflexivity|]. cbn. destruct (line_eqb_spec y l) as [->|]; [now destruct (H l (or_introl eq_refl))|]. cbn. rewrite IH; [reflexivity|]. intros z I. apply H. now right. }
    change (filter (fun x => negb (line_eqb x l)) (firstn n c)) with (others l (firstn n c)). change (filter (fun x => negb (line_eqb x l)) c) with (others l c).
    rewrite E. rewrite <- (firstn_all c) at 2. rewrite E, firstn_all. rewrite firstn_firstn. now rewrite Nat.min_id.
  - destruct n as [|n]; [reflexivity|]. cbn [firstn]. f_equal. exact (IH n).
Qed.
Lemma cache_recency n past : cache_after n past = firstn n (recency past).
Proof.
  induction past as [|l past IH] using rev_ind; [now destruct n|]. rewrite cache_snoc, recency_snoc, IH. unfold touch. apply firstn_others, recency_nodup.
Qed.
(** Lines accessed since the last access to a line are before it in the order of recency. *)
Lemma recency_split l p1 p2 : ~ In l p2 -> exists a b, recency (p1 ++ l :: p2) = a ++ l :: b /\ (forall x, In x a <-> In x p2) /\ NoDup a.
Proof.
  induction p2 as [|y p2 IH] using rev_ind; intros N.
  - rewrite recency_snoc. exists [], (others l (recency p1)). split; [reflexivity|]. split; [reflexivity|constructor].
  - destruct IH as (a & b & E & H & D); [intros I; apply N; apply in_or_app; now left|]. replace (p1 ++ l :: p2 ++ [y]) with ((p1 ++ l :: p2) ++ [y]) by (now rewrite <- app_assoc).
    rewrite recency_snoc, E. assert (NY : l <> y) by (intros ->; apply N, in_or_app; right; now left).
    exists (y :: others y a), (others y b). split; [|split].
    + unfold others. rewrite filter_app. cbn [filter]. destruct (line_eqb_spec l y); [congruence|]. reflexivity.
    + intros x. cbn [In]. rewrite others_in, H, in_app_iff. cbn [In]. destruct (line_dec x y); intuition congruence.
    + constructor; [rewrite others_in; tauto|now apply others_nodup].
Qed.
Lemma in_firstn_split {X} n (a : list X) l b : NoDup (a ++ l :: b) -> In l (firstn n (a ++ l :: b)) <-> (length a < n)%nat.
Proof.
  intros ND. assert (NA : ~ In l a). { apply NoDup_remove_2 in ND. intros I. apply ND, in_or_app. now left. } rewrite firstn_app. split.
  - intros I. apply in_app_or in I as [I|I]; [rewrite <- (firstn_skipn n a) in NA; destruct NA; apply in_or_app; now left|].
    destruct (n - length a)%nat eqn:E; [destruct I|lia].
  - intros L. apply in_or_app. right. destruct (n - length a)%nat eqn:E; [lia|]. now left.
Qed.
Lemma last_access (l : line) past : In l past -> exists p1 p2, past = p1 ++ l :: p2 /\ ~ In l p2.
Proof.
  induction past as [|y past IH] using rev_ind; [easy|]. intros I. destruct (line_dec l y) as [->|N]; [exists past, []; auto|].
  apply in_app_or in I as [I|[I|[]]]; [|congruence]. destruct (IH I) as (p1 & p2 & -> & H). exists p1, (p2 ++ [y]). split; [now rewrite <- app_assoc|]. intros J. apply in_app_or in J as [J|[J|[]]]; [auto|congruence].
Qed.
Lemma hit_split n p1 l p2 : ~ In l p2 -> exists a, hit n (p1 ++ l :: p2) l = (length a <? n)%nat /\ (forall x, In x a <-> In x p2) /\ NoDup a.
Proof.
  intros N. destruct (recency_split l p1 p2 N) as (a & b & E & H & D). exists a. split; [|auto]. unfold hit. rewrite cache_recency, E.
  assert (ND := recency_nodup (p1 ++ l :: p2)). rewrite E in ND. assert (Q := in_firstn_split n a l b ND). destruct (Nat.ltb_spec (length a) n) as [L|L].
  - apply Q in L. apply existsb_exists. exists l. split; [assumption|]. now destruct (line_eqb_spec l l).
  - apply not_true_is_false. intros X. apply existsb_exists in X as (x & I & EX). destruct (line_eqb_spec l x) as [<-|]; [|discriminate]. apply Q in I. lia.
Qed.
Lemma hit_never n past l : ~ In l past -> hit n past l = false.
Proof.
  intros N. unfold hit. rewrite cache_recency. apply not_true_is_false. intros X. apply existsb_exists in X as (x & I & EX). destruct (line_eqb_spec l x) as [<-|]; [|discriminate].
  apply N. apply recency_in. rewrite <- (firstn_skipn n (recency past)). apply in_or_app. now left.
Qed.
(** Sufficient conditions *)
Lemma hit_within n p1 l p2 c : incl p2 c -> (length (nodup line_dec (l :: c)) <= n)%nat -> hit n (p1 ++ l :: p2) l = true.
Proof.
  intros I L. destruct (last_access l (p1 ++ l :: p2)) as (q1 & q2 & E & N); [apply in_or_app; right; now left|].
  assert (I' : incl q2 p2).
  { clear - E N. revert q1 E. induction p1 as [|y p1 IH]; intros q1 E.
    - destruct q1 as [|z q1]; cbn in E; injection E as E; subst; [apply incl_refl|]. intros x J. apply in_or_app. right. now right.
    - destruct q1 as [|z q1]; cbn in E; injection E as E1 E2.
      + exfalso. apply N. rewrite <- E2. apply in_or_app. right. now left.
      + now apply (IH q1). }
  rewrite E. destruct (hit_split n q1 l q2 N) as (a & -> & H & D). apply Nat.ltb_lt.
  assert (LE : (length (l :: a) <= length (nodup line_dec (l :: c)))%nat); [|cbn [length] in LE; lia].
  apply NoDup_incl_length; [constructor; [rewrite H; assumption|assumption]|]. intros x [<-|J]; apply nodup_In; [now left|]. right. apply I, I', H, J.
Qed.
Lemma miss_beyond n past l c : NoDup c -> (n <= length c)%nat -> (forall p1 p2, past = p1 ++ l :: p2 -> ~ In l p2 -> incl c p2) -> hit n past l = false.
Proof.
  intros D L H. destruct (in_dec line_dec l past) as [I|N]; [|now apply hit_never]. destruct (last_access l past I) as (p1 & p2 & -> & N). specialize (H p1 p2 eq_refl N).
  destruct (hit_split n p1 l p2 N) as (a & -> & HA & _). apply Nat.ltb_ge. etransitivity; [exact L|]. apply NoDup_incl_length; [assumption|]. intros x J. now apply HA, H.
Qed.

(** ** Elements accessed in consecutive iterations *)
Definition zrange (lo m : Z) : list Z := map (fun i => lo + Z.of_nat i) (seq 0 (Z.to_nat m)).
Lemma zrange_in lo m y : In y (zrange lo m) <-> lo <= y < lo + m.
Proof.
  unfold zrange. rewrite in_map_iff. split.
  - intros (i & <- & I). apply in_seq in I. lia.
  - intros H. exists (Z.to_nat (y - lo)). split; [lia|]. apply in_seq. lia.
Qed.
Lemma zrange_length lo m : length (zrange lo m) = Z.to_nat m.
Proof. unfold zrange. now rewrite map_length, seq_length. Qed.
Lemma zrange_nodup lo m : NoDup (zrange lo m).
Proof. apply FinFun.Injective_map_NoDup; [intros a b E; lia|apply seq_NoDup]. Qed.
Lemma minimum_some l m : minimum l = Some m -> In m l /\ forall x, In x l -> m <= x.
Proof.
  destruct l as [|x l]; [discriminate|]. cbn [minimum]. intros [= <-].
  assert (G : (fold_right Z.min x l = x \/ In (fold_right Z.min x l) l) /\ fold_right Z.min x l <= x /\ forall y, In y l -> fold_right Z.min x l <= y).
  { induction l as [|z l IH]; cbn [fold_right]; [split; [now left|]; split; [lia|easy]|]. destruct IH as (I1 & I2 & I3). set (f := fold_right Z.min x l) in *. split; [|split].
    - destruct (Z.min_spec z f) as [[_ ->]|[_ ->]]; [right; now left|]. destruct I1 as [I1|I1]; [now left|right; now right].
    - lia.
    - intros y [<-|I]; [lia|]. specialize (I3 y I). lia. }
  destruct G as (G1 & G2 & G3). split; [destruct G1 as [->|G1]; [now left|now right]|]. intros y [<-|I]; auto.
Qed.
Lemma minimum_none l : minimum l = None -> l = [].
Proof. destruct l; [reflexivity|discriminate]. Qed.
Lemma larger_in refs r x : In x (larger refs r) <-> exists q, In q refs /\ fst q = fst r /\ snd r < snd q /\ x = snd q - snd r.
Proof.
  unfold larger. rewrite in_map_iff. split.
  - intros (q & <- & I). apply filter_In in I as [I H]. apply andb_true_iff in H as [H1 H2]. apply Nat.eqb_eq in H1. apply Z.ltb_lt in H2. exists q. auto.
  - intros (q & I & H1 & H2 & ->). exists q. split; [reflexivity|]. apply filter_In. split; [assumption|]. apply andb_true_iff. split; [now apply Nat.eqb_eq|now apply Z.ltb_lt].
Qed.
Lemma before_in r before : existsb (ref_eqb r) before = true <-> In r before.
Proof.
  rewrite existsb_exists. split; [intros (x & I & E); destruct (ref_eqb_spec r x) as [->|]; [assumption|discriminate]|]. intros I. exists r. split; [assumption|]. now destruct (ref_eqb_spec r r).
Qed.
Lemma distance_cases refs before r : (In r before /\ distance refs before r = Some 0)
  \/ (~ In r before /\ distance refs before r = None /\ forall q, In q refs -> fst q = fst r -> snd q <= snd r)
  \/ (~ In r before /\ exists v q, distance refs before r = Some v /\ 0 < v /\ In q refs /\ fst q = fst r /\ snd q = snd r + v /\ forall q, In q refs -> fst q = fst r -> snd r < snd q -> snd r + v <= snd q).
Proof.
  unfold distance. destruct (existsb (ref_eqb r) before) eqn:B; [left; split; [now apply before_in|reflexivity]|]. right.
  assert (NB : ~ In r before) by (intros I; apply before_in in I; congruence). destruct (minimum (larger refs r)) as [v|] eqn:M; [right|left]; (split; [assumption|]).
  - apply minimum_some in M as [I H]. apply larger_in in I as (q & I & H1 & H2 & ->). exists (snd q - snd r), q. split; [reflexivity|]. split; [lia|]. split; [assumption|]. split; [assumption|]. split; [lia|].
    intros q' I' E' L'. specialize (H (snd q' - snd r) (proj2 (larger_in refs r _) (ex_intro _ q' (conj I' (conj E' (conj L' eq_refl)))))). lia.
  - split; [reflexivity|]. apply minimum_none in M. intros q I E. destruct (Z.le_gt_cases (snd q) (snd r)) as [L|L]; [assumption|]. exfalso.
    assert (J : In (snd q - snd r) (larger refs r)) by (apply larger_in; exists q; auto). rewrite M in J. destruct J.
Qed.
Lemma distance_nonneg refs before r v : distance refs before r = Some v -> 0 <= v.
Proof. destruct (distance_cases refs before r) as [(_ & ->)|[(_ & -> & _)|(_ & w & q & -> & L & _)]]; intros E; try discriminate; injection E as <-; lia. Qed.
Definition clip (v : option Z) (w : Z) : Z := match v with Some x => Z.min x w | None => w end.
Definition piece (refs before : list ref) (r : ref) (x w : Z) : list (nat * Z) := map (pair (fst r)) (zrange (snd r + x) (clip (distance refs before r) w)).
Fixpoint cover (refs before l : list ref) (x w : Z) : list (nat * Z) :=
  match l with [] => [] | r :: l' => piece refs before r x w ++ cover refs (before ++ [r]) l' x w end.
Lemma piece_in refs before r x w e : In e (piece refs before r x w) <-> fst e = fst r /\ snd r + x <= snd e < snd r + x + clip (distance refs before r) w.
Proof.
  unfold piece. rewrite in_map_iff. split.
  - intros (y & <- & I). apply zrange_in in I. auto.
  - intros [E H]. exists (snd e). split; [rewrite <- E; now destruct e|]. now apply zrange_in.
Qed.
Lemma cover_split refs x w e : forall l before, In e (cover refs before l x w) <-> exists pre r post, l = pre ++ r :: post /\ In e (piece refs (before ++ pre) r x w).
Proof.
  induction l as [|r l IH]; intros before; cbn [cover].
  - split; [intros []|]. intros (pre & r & post & E & _). destruct pre; discriminate.
  - rewrite in_app_iff, IH. split.
    + intros [I|(pre & q & post & -> & I)]; [exists [], r, l; rewrite app_nil_r; auto|]. exists (r :: pre), q, post. split; [reflexivity|]. now rewrite <- app_assoc in I.
    + intros ([|r' pre] & q & post & E & I).
      * injection E as -> ->. left. now rewrite app_nil_r in I.
      * injection E as -> ->. right. exists pre, q, post. split; [reflexivity|]. now rewrite <- app_assoc.
Qed.
Lemma clip_le v w : clip v w <= w.
Proof. destruct v; cbn; lia. Qed.
Lemma largest (l : list Z) : l <> [] -> exists m, In m l /\ forall x, In x l -> x <= m.
Proof.
  induction l as [|a l IH]; [congruence|]. intros _. destruct l as [|b l]; [exists a; split; [now left|]; intros x [<-|[]]; lia|]. destruct IH as (m & I & H); [discriminate|].
  destruct (Z.le_gt_cases a m) as [L|L].
  - exists m. split; [now right|]. intros x [<-|J]; [lia|auto].
  - exists a. split; [now left|]. intros x [<-|J]; [lia|]. specialize (H x J). lia.
Qed.
Lemma first_access (r : ref) l : In r l -> exists pre post, l = pre ++ r :: post /\ ~ In r pre.
Proof.
  induction l as [|q l IH]; [easy|]. intros I. destruct (ref_eqb_spec r q) as [->|N]; [exists [], l; auto|]. destruct I as [I|I]; [congruence|]. destruct (IH I) as (pre & post & -> & H).
  exists (q :: pre), post. split; [reflexivity|]. intros [J|J]; [congruence|auto].
Qed.
Lemma cover_in refs x w e : In e (cover refs [] refs x w) <-> exists r, In r refs /\ fst r = fst e /\ snd r + x <= snd e < snd r + x + w.
Proof.
  rewrite cover_split. split.
  - intros (pre & r & post & E & I). apply piece_in in I as [F H]. exists r. split; [rewrite E; apply in_or_app; right; now left|]. split; [now symmetry|]. pose proof (clip_le (distance refs ([] ++ pre) r) w). lia.
  - intros (r & I & F & H). set (os := map snd (filter (fun q => Nat.eqb (fst q) (fst e) && (snd q + x <=? snd e))%bool refs)).
    assert (OI : forall o, In o os <-> In (fst e, o) refs /\ o + x <= snd e).
    { intros o. unfold os. rewrite in_map_iff. split.
      - intros (q & <- & J). apply filter_In in J as [J K]. apply andb_true_iff in K as [K1 K2]. apply Nat.eqb_eq in K1. apply Z.leb_le in K2. split; [rewrite <- K1; now destruct q|assumption].
      - intros [J K]. exists (fst e, o). split; [reflexivity|]. apply filter_In. split; [assumption|]. apply andb_true_iff. split; [now apply Nat.eqb_eq|now apply Z.leb_le]. }
    destruct (largest os) as (m & IM & HM). { intros E. assert (J : In (snd r) os) by (apply OI; rewrite <- F; split; [now destruct r|lia]). rewrite E in J. destruct J. }
    assert (LM : snd r <= m) by (apply HM, OI; rewrite <- F; split; [now destruct r|lia]). apply OI in IM as [IM KM].
    destruct (first_access (fst e, m) refs IM) as (pre & post & E & N). exists pre, (fst e, m), post. split; [assumption|]. apply piece_in. split; [reflexivity|]. cbn [app fst snd]. split; [assumption|].
    destruct (distance_cases refs pre (fst e, m)) as [(J & _)|[(_ & -> & _)|(_ & v & q & -> & LV & IQ & FQ & SQ & _)]]; [contradiction|cbn [clip]; lia|]. cbn [clip fst snd] in *.
    assert (snd e < m + x + v); [|lia]. destruct (Z.lt_ge_cases (snd e) (m + x + v)) as [L|L]; [assumption|]. exfalso. assert (J : In (m + v) os) by (apply OI; rewrite <- FQ, <- SQ; split; [now destruct q|lia]). specialize (HM _ J). lia.
Qed.
Lemma cover_length refs x w : 0 <= w -> forall l before, Z.of_nat (length (cover refs before l x w)) = zsum (map (fun v => clip v w) (distances_from refs before l)).
Proof.
  intros W. induction l as [|r l IH]; intros before; [reflexivity|]. cbn [cover distances_from map]. rewrite app_length, Nat2Z.inj_add, IH. unfold piece. rewrite map_length, zrange_length.
  change (zsum (clip (distance refs before r) w :: map (fun v => clip v w) (distances_from refs (before ++ [r]) l))) with (clip (distance refs before r) w + zsum (map (fun v => clip v w) (distances_from refs (before ++ [r]) l))).
  rewrite Z2Nat.id; [reflexivity|]. destruct (distance refs before r) as [v|] eqn:E; cbn [clip]; [apply distance_nonneg in E; lia|assumption].
Qed.
Lemma needed_clip vs w : needed vs w = zsum (map (fun v => clip v w) vs).
Proof. reflexivity. Qed.
Lemma pieces_disjoint refs pre r mid q x w e : In r refs -> In q refs -> In e (piece refs pre r x w) -> In e (piece refs (pre ++ r :: mid) q x w) -> False.
Proof.
  intros IR IQ H1 H2. apply piece_in in H1 as [F1 H1]. apply piece_in in H2 as [F2 H2]. rewrite F1 in F2.
  destruct (Z.lt_trichotomy (snd r) (snd q)) as [L|[L|L]].
  - destruct (distance_cases refs pre r) as [(_ & E)|[(_ & E & A)|(_ & v & q' & E & LV & _ & _ & _ & A)]]; rewrite E in H1; cbn [clip] in H1; [lia| |].
    + specialize (A q IQ (eq_sym F2)). lia.
    + specialize (A q IQ (eq_sym F2) L). lia.
  - assert (EQ : q = r) by (destruct q, r; cbn in *; congruence). subst q. destruct (distance_cases refs (pre ++ r :: mid) r) as [(_ & E)|[(N & _)|(N & _)]]; [rewrite E in H2; cbn [clip] in H2; lia| |]; apply N, in_or_app; right; now left.
  - destruct (distance_cases refs (pre ++ r :: mid) q) as [(_ & E)|[(_ & E & A)|(_ & v & q' & E & LV & _ & _ & _ & A)]]; rewrite E in H2; cbn [clip] in H2; [lia| |].
    + specialize (A r IR F2). lia.
    + specialize (A r IR F2 L). lia.
Qed.
Lemma cover_nodup refs x w : forall l before, incl l refs -> NoDup (cover refs before l x w).
Proof.
  induction l as [|r l IH]; intros before I; [constructor|]. cbn [cover]. assert (IR : In r refs) by (apply I; now left). assert (IL : incl l refs) by (intros y J; apply I; now right).
  assert (G : forall a b : list (nat * Z), NoDup a -> NoDup b -> (forall e, In e a -> In e b -> False) -> NoDup (a ++ b)).
  { clear. induction a as [|e a IH]; intros b A B H; [assumption|]. inversion_clear A. cbn. constructor; [intros J; apply in_app_or in J as [J|J]; [contradiction|apply (H e); [now left|assumption]]|]. apply IH; auto. intros y J. apply H. now right. }
  apply G; [apply FinFun.Injective_map_NoDup; [intros a b E; congruence|apply zrange_nodup]|now apply IH|].
  intros e J K. apply cover_split in K as (pre & q & post & -> & K). rewrite <- app_assoc in K. apply (pieces_disjoint refs before r pre q x w e); auto. apply IL, in_or_app. right. now left.
Qed.

(** ** Lines accessed in consecutive iterations *)
Definition piece_lines (L : Z) (refs before : list ref) (r : ref) (x w : Z) : list line :=
  let m := clip (distance refs before r) w in
  if 0 <? m then map (pair (fst r)) (zrange ((snd r + x) / L) ((snd r + x + m - 1) / L - (snd r + x) / L + 1)) else [].
Fixpoint cover_lines (L : Z) (refs before l : list ref) (x w : Z) : list line :=
  match l with [] => [] | r :: l' => piece_lines L refs before r x w ++ cover_lines L refs (before ++ [r]) l' x w end.
Lemma piece_lines_in L refs before r x w e : 0 < L -> In e (piece refs before r x w) -> In (fst e, snd e / L) (piece_lines L refs before r x w).
Proof.
  intros LP I. apply piece_in in I as [F H]. unfold piece_lines. set (m := clip (distance refs before r) w) in *. replace (0 <? m) with true by (symmetry; apply Z.ltb_lt; lia).
  rewrite F. apply in_map. apply zrange_in. assert ((snd r + x) / L <= snd e / L) by (apply Z.div_le_mono; lia). assert (snd e / L <= (snd r + x + m - 1) / L) by (apply Z.div_le_mono; lia). lia.
Qed.
Lemma cover_lines_in L refs x w e : 0 < L -> forall l before, In e (cover refs before l x w) -> In (fst e, snd e / L) (cover_lines L refs before l x w).
Proof.
  intros LP. induction l as [|r l IH]; intros before I; [destruct I|]. cbn [cover cover_lines] in *. apply in_app_or in I as [I|I]; apply in_or_app; [left; now apply piece_lines_in|right; now apply IH].
Qed.
Lemma piece_lines_length L refs before r x w : 0 < L -> 0 <= w -> L * Z.of_nat (length (piece_lines L refs before r x w)) <= clip (distance refs before r) w + 2 * (L - 1).
Proof.
  intros LP W. unfold piece_lines. set (m := clip (distance refs before r) w). destruct (Z.ltb_spec 0 m) as [M|M].
  - rewrite map_length, zrange_length. set (a := snd r + x). pose proof (Z.div_mod (a + m - 1) L ltac:(lia)). pose proof (Z.mod_pos_bound (a + m - 1) L LP). pose proof (Z.div_mod a L ltac:(lia)). pose proof (Z.mod_pos_bound a L LP).
    assert (a / L <= (a + m - 1) / L) by (apply Z.div_le_mono; lia). rewrite Z2Nat.id by lia. nia.
  - cbn [length]. assert (0 <= m); [|lia]. subst m. destruct (distance refs before r) as [v|] eqn:E; cbn [clip]; [apply distance_nonneg in E; lia|assumption].
Qed.
Lemma cover_lines_length L refs x w : 0 < L -> 0 <= w -> forall l before,
  L * Z.of_nat (length (cover_lines L refs before l x w)) <= zsum (map (fun v => clip v w) (distances_from refs before l)) + 2 * Z.of_nat (length l) * (L - 1).
Proof.
  intros LP W. induction l as [|r l IH]; intros before; [cbn; lia|]. cbn [cover_lines distances_from map]. rewrite app_length, Nat2Z.inj_add. specialize (IH (before ++ [r])). pose proof (piece_lines_length L refs before r x w LP W).
  change (zsum (clip (distance refs before r) w :: map (fun v => clip v w) (distances_from refs (before ++ [r]) l))) with (clip (distance refs before r) w + zsum (map (fun v => clip v w) (distances_from refs (before ++ [r]) l))).
  cbn [length]. rewrite Nat2Z.inj_succ. nia.
Qed.
Lemma distances_length refs : forall l before, length (distances_from refs before l) = length l.
Proof. induction l as [|r l IH]; intros before; [reflexivity|]. cbn [distances_from length]. now rewrite IH. Qed.
(** Accesses between two to the same line *)
Definition in_window (L : Z) (refs : list ref) (x w : Z) (e : line) : Prop := exists r t, In r refs /\ x <= t < x + w /\ e = line_of L t r.
Lemma window_covered L refs x w e : 0 < L -> in_window L refs x w e -> In e (cover_lines L refs [] refs x w).
Proof.
  intros LP (r & t & I & H & ->). unfold line_of. change (fst r, (snd r + t) / L) with (fst (fst r, snd r + t), snd (fst r, snd r + t) / L). apply cover_lines_in; [assumption|]. apply cover_in. exists r. cbn [fst snd]. split; [assumption|]. split; [reflexivity|lia].
Qed.
Lemma hit_window n L refs x w p1 l p2 : 0 < L -> 0 <= w -> in_window L refs x w l -> Forall (in_window L refs x w) p2 ->
  needed (distances refs) w + 2 * Z.of_nat (length refs) * (L - 1) <= Z.of_nat n * L -> hit n (p1 ++ l :: p2) l = true.
Proof.
  intros LP W IL IP H. apply (hit_within n p1 l p2 (cover_lines L refs [] refs x w)).
  - intros y J. apply window_covered; [assumption|]. exact (proj1 (Forall_forall _ _) IP y J).
  - assert (LE : (length (nodup line_dec (l :: cover_lines L refs [] refs x w)) <= length (cover_lines L refs [] refs x w))%nat).
    { apply NoDup_incl_length; [apply NoDup_nodup|]. intros y J. apply nodup_In in J as [<-|J]; [now apply window_covered|assumption]. }
    pose proof (cover_lines_length L refs x w LP W refs []) as CL. fold (distances refs) in CL. rewrite <- needed_clip in CL. nia.
Qed.
Definition lines_between (L : Z) (refs : list ref) (x w : Z) : list line := nodup line_dec (map (fun e => (fst e, snd e / L)) (cover refs [] refs x w)).
Lemma lines_between_length L refs x w : 0 < L -> 0 <= w -> needed (distances refs) w <= L * Z.of_nat (length (lines_between L refs x w)).
Proof.
  intros LP W. rewrite needed_clip. unfold distances. rewrite <- (cover_length refs x w W). set (c := lines_between L refs x w).
  assert (LE : (length (cover refs [] refs x w) <= length (flat_map (fun l => map (fun y => (fst l, y)) (zrange (L * snd l) L)) c))%nat).
  { apply NoDup_incl_length; [apply cover_nodup, incl_refl|]. intros e I. apply in_flat_map. exists (fst e, snd e / L). split; [apply nodup_In, in_map_iff; exists e; auto|]. apply in_map_iff. exists (snd e). split; [now destruct e|].
    apply zrange_in. cbn [fst snd]. pose proof (Z.div_mod (snd e) L ltac:(lia)). pose proof (Z.mod_pos_bound (snd e) L LP). lia. }
  assert (FL : forall c : list line, length (flat_map (fun l => map (fun y => (fst l, y)) (zrange (L * snd l) L)) c) = (length c * Z.to_nat L)%nat).
  { clear. induction c as [|l c IH]; [reflexivity|]. cbn [flat_map length]. rewrite app_length, IH, map_length, zrange_length. lia. }
  rewrite FL in LE. nia.
Qed.
Lemma lines_between_in L refs x w e : In e (lines_between L refs x w) -> in_window L refs x w e.
Proof.
  intros I. apply nodup_In, in_map_iff in I as (y & <- & I). apply cover_in in I as (r & IR & F & H). exists r, (snd y - snd r). split; [assumption|]. split; [lia|]. unfold line_of. rewrite F. f_equal. f_equal. lia.
Qed.
(** ** Accesses of a stream *)
Lemma trace_app L refs a b : trace L refs (a ++ b) = trace L refs a ++ trace L refs b.
Proof. apply flat_map_app. Qed.
Lemma trace_in L refs ts e : In e (trace L refs ts) <-> exists t r, In t ts /\ In r refs /\ e = line_of L t r.
Proof.
  unfold trace, iteration. rewrite in_flat_map. split; [intros (t & I & J); apply in_map_iff in J as (r & <- & J); eauto|]. intros (t & r & I & J & ->). exists t. split; [assumption|]. now apply in_map.
Qed.
Lemma positions_in s e t : In t (positions s e) <-> s <= t < e.
Proof. change (positions s e) with (zrange s (e - s)). rewrite zrange_in. lia. Qed.
Lemma positions_app s m e : s <= m <= e -> positions s e = positions s m ++ positions m e.
Proof.
  intros H. unfold positions. replace (Z.to_nat (e - s)) with (Z.to_nat (m - s) + Z.to_nat (e - m))%nat by lia. rewrite seq_app, map_app. f_equal. cbn [plus].
  rewrite <- (Nat.add_0_r (Z.to_nat (m - s))) at 1. generalize 0%nat as k. induction (Z.to_nat (e - m)) as [|j IH]; intros k; [reflexivity|]. cbn [seq map]. f_equal; [lia|]. replace (S (Z.to_nat (m - s) + k)) with (Z.to_nat (m - s) + S k)%nat by lia. apply IH.
Qed.
Lemma positions_snoc s e : s <= e -> positions s (e + 1) = positions s e ++ [e].
Proof. intros H. rewrite (positions_app s e (e + 1)) by lia. f_equal. unfold positions. replace (Z.to_nat (e + 1 - e)) with 1%nat by lia. cbn. f_equal. lia. Qed.
Definition before_access (L : Z) (refs : list ref) (ts : list Z) (t : Z) (pre : list ref) : list line := trace L refs ts ++ map (line_of L t) pre.
Lemma access_hit n L refs pre r post ts t v : 0 < L -> refs = pre ++ r :: post -> distance refs pre r = Some v -> (0 < v -> exists ts1 ts2, ts = ts1 ++ (t - v) :: ts2 /\ Forall (fun p => t - v <= p < t) ts2) ->
  needed (distances refs) (v + 1) + 2 * Z.of_nat (length refs) * (L - 1) <= Z.of_nat n * L -> hit n (before_access L refs ts t pre) (line_of L t r) = true.
Proof.
  intros LP E D TS H. assert (VN := distance_nonneg _ _ _ _ D). assert (IR : In r refs) by (rewrite E; apply in_or_app; right; now left).
  assert (IPRE : incl pre refs) by (intros q I; rewrite E; apply in_or_app; now left).
  assert (WR : in_window L refs (t - v) (v + 1) (line_of L t r)) by (exists r, t; split; [assumption|]; split; [lia|reflexivity]).
  assert (WP : forall l, incl l refs -> Forall (in_window L refs (t - v) (v + 1)) (map (line_of L t) l)).
  { intros l IL. apply Forall_forall. intros y I. apply in_map_iff in I as (q & <- & I). exists q, t. split; [now apply IL|]. split; [lia|reflexivity]. }
  destruct (distance_cases refs pre r) as [(I & D')|[(_ & D' & _)|(_ & w & q & D' & LV & IQ & FQ & SQ & _)]]; rewrite D' in D; [|discriminate|]; injection D as <-.
  - apply in_split in I as (a & b & EP). unfold before_access. rewrite EP, map_app. cbn [map]. rewrite app_assoc. apply (hit_window n L refs (t - 0) (0 + 1)); [assumption|lia|assumption| |assumption].
    apply WP. intros y I. apply IPRE. rewrite EP. apply in_or_app. right. now right.
  - destruct (TS LV) as (ts1 & ts2 & -> & FT). apply in_split in IQ as (a & b & EQ). unfold before_access. rewrite trace_app. cbn [trace flat_map]. unfold iteration at 1.
    assert (EL : line_of L (t - w) q = line_of L t r) by (unfold line_of; rewrite FQ, SQ; f_equal; f_equal; lia).
    assert (EM : map (line_of L (t - w)) refs = map (line_of L (t - w)) a ++ line_of L t r :: map (line_of L (t - w)) b) by (rewrite <- EL; rewrite EQ at 1; now rewrite map_app).
    rewrite EM. rewrite <- !app_assoc, app_assoc. rewrite <- app_comm_cons.
    apply (hit_window n L refs (t - w) (w + 1)); [assumption|lia|assumption| |assumption].
    apply Forall_app. split; [|apply Forall_app; split; [|now apply WP]].
    + apply Forall_forall. intros y I. apply in_map_iff in I as (z & <- & I). exists z, (t - w). split; [rewrite EQ; apply in_or_app; right; now right|]. split; [lia|reflexivity].
    + apply Forall_forall. intros y I. apply trace_in in I as (p & z & IP & IZ & ->). exists z, p. split; [assumption|]. split; [|reflexivity]. rewrite Forall_forall in FT. specialize (FT p IP). lia.
Qed.
(** The same line as in the iteration before *)
Lemma neighbour_hit n L refs pre r post ts t : 0 < L -> refs = pre ++ r :: post -> (snd r + t) mod L <> 0 ->
  needed (distances refs) 2 + 2 * Z.of_nat (length refs) * (L - 1) <= Z.of_nat n * L -> hit n (before_access L refs (ts ++ [t - 1]) t pre) (line_of L t r) = true.
Proof.
  intros LP E M H. assert (IR : In r refs) by (rewrite E; apply in_or_app; right; now left). unfold before_access. rewrite trace_app. cbn [trace flat_map]. rewrite app_nil_r. unfold iteration.
  assert (EL : line_of L (t - 1) r = line_of L t r).
  { unfold line_of. f_equal. replace (snd r + (t - 1)) with (snd r + t - 1) by lia. set (y := snd r + t) in *. pose proof (Z.div_mod y L ltac:(lia)). pose proof (Z.mod_pos_bound y L LP). symmetry; apply (Z.div_unique_pos (y - 1) L (y / L) (y mod L - 1)); lia. }
  assert (EM : map (line_of L (t - 1)) refs = map (line_of L (t - 1)) pre ++ line_of L t r :: map (line_of L (t - 1)) post) by (rewrite <- EL; rewrite E at 1; now rewrite map_app).
  rewrite EM. rewrite <- !app_assoc, app_assoc. rewrite <- app_comm_cons. apply (hit_window n L refs (t - 1) 2); [assumption|lia| | |assumption].
  - exists r, t. split; [assumption|]. split; [lia|reflexivity].
  - apply Forall_app. split; apply Forall_forall; intros y I; apply in_map_iff in I as (z & <- & I).
    + exists z, (t - 1). split; [rewrite E; apply in_or_app; right; now right|]. split; [lia|reflexivity].
    + exists z, t. split; [rewrite E; apply in_or_app; now left|]. split; [lia|reflexivity].
Qed.
(** The first access to a line by a reference *)
Lemma access_miss n L refs pre r post s t : 0 < L -> refs = pre ++ r :: post -> s <= t -> (snd r + t) mod L = 0 ->
  match distance refs pre r with Some v => L <= v /\ Z.of_nat n * L <= needed (distances refs) (v - L) | None => True end ->
  hit n (before_access L refs (positions s t) t pre) (line_of L t r) = false.
Proof.
  intros LP E ST M C. assert (IR : In r refs) by (rewrite E; apply in_or_app; right; now left). assert (IPRE : incl pre refs) by (intros q I; rewrite E; apply in_or_app; now left).
  set (y := snd r + t) in *. assert (EY : y = L * (y / L)) by (pose proof (Z.div_mod y L ltac:(lia)); lia).
  (* accesses to the same line *)
  assert (SAME : forall q p, line_of L p q = line_of L t r -> fst q = fst r /\ y <= snd q + p < y + L).
  { intros q p EQ. unfold line_of in EQ. injection EQ as F1 F2. fold y in F2. split; [assumption|]. pose proof (Z.div_mod (snd q + p) L ltac:(lia)). pose proof (Z.mod_pos_bound (snd q + p) L LP). lia. }
  assert (PRE : forall q, In q pre -> line_of L t q = line_of L t r -> match distance refs pre r with Some v => v < L | None => False end).
  { intros q I EQ. destruct (SAME q t EQ) as [F K]. destruct (distance_cases refs pre r) as [(_ & ->)|[(N & -> & A)|(N & v & q' & -> & LV & _ & _ & _ & A)]]; [assumption| |].
    - specialize (A q (IPRE q I) F). apply N. replace r with q; [assumption|]. destruct q, r. cbn in *. f_equal; [assumption|]. lia.
    - destruct (Z.eq_dec (snd q) (snd r)) as [EO|NO]; [destruct N; replace r with q; [assumption|]; destruct q, r; cbn in *; congruence|]. specialize (A q (IPRE q I) F ltac:(lia)). lia. }
  assert (OLD : forall q p, In q refs -> p < t -> line_of L p q = line_of L t r -> match distance refs pre r with Some v => v < L \/ p < t - v + L | None => False end).
  { intros q p I LT EQ. destruct (SAME q p EQ) as [F K]. destruct (distance_cases refs pre r) as [(_ & ->)|[(N & -> & A)|(N & v & q' & -> & LV & _ & _ & _ & A)]]; [now left| |].
    - specialize (A q I F). lia.
    - right. specialize (A q I F ltac:(lia)). lia. }
  destruct (distance refs pre r) as [v|].
  - destruct C as [LV C]. set (u := t - v + L). destruct (Z.lt_ge_cases u s) as [US|US].
    + apply hit_never. intros I. apply in_app_or in I as [I|I].
      * apply trace_in in I as (p & q & IP & IQ & EQ). apply positions_in in IP. destruct (OLD q p IQ ltac:(lia) (eq_sym EQ)); lia.
      * apply in_map_iff in I as (q & EQ & I). specialize (PRE q I EQ). lia.
    + destruct (Z.eq_dec v L) as [EV|NV].
      * assert (Z0 : Z.of_nat n * L <= 0). { replace (v - L) with 0 in C by lia. assert (needed (distances refs) 0 = 0); [|lia]. rewrite needed_clip. unfold distances. rewrite <- (cover_length refs 0 0 ltac:(lia)).
          destruct (cover refs [] refs 0 0) as [|e c] eqn:EC; [reflexivity|]. exfalso. assert (J : In e (cover refs [] refs 0 0)) by (rewrite EC; now left). apply cover_in in J as (q & _ & _ & H). lia. }
        assert (n = 0)%nat by nia. subst n. unfold hit. rewrite cache_recency. reflexivity.
      * apply (miss_beyond n _ _ (lines_between L refs u (v - L))); [apply NoDup_nodup| |].
        -- pose proof (lines_between_length L refs u (v - L) LP ltac:(lia)). nia.
        -- intros p1 p2 EP N. unfold before_access in EP. rewrite (positions_app s u t) in EP by lia. rewrite trace_app, <- app_assoc in EP. set (B := trace L refs (positions u t) ++ map (line_of L t) pre) in *.
           assert (NB : ~ In (line_of L t r) B).
           { intros I. apply in_app_or in I as [I|I].
             - apply trace_in in I as (p & q & IP & IQ & EQ). apply positions_in in IP. destruct (OLD q p IQ ltac:(lia) (eq_sym EQ)); lia.
             - apply in_map_iff in I as (q & EQ & I). specialize (PRE q I EQ). lia. }
           assert (SUF : incl B p2).
           { clear - EP NB. revert p1 EP. induction (trace L refs (positions s u)) as [|a A IH]; intros p1 EP.
             - cbn [app] in EP. exfalso. apply NB. rewrite EP. apply in_or_app. right. now left.
             - destruct p1 as [|b p1]; cbn in EP; injection EP as E1 E2; [rewrite <- E2; intros z I; apply in_or_app; now right|]. now apply (IH p1). }
           intros e I. apply SUF, in_or_app. left. apply lines_between_in in I as (q & p & IQ & H & ->). apply trace_in. exists p, q. split; [apply positions_in; lia|auto].
  - apply hit_never. intros I. apply in_app_or in I as [I|I].
    + apply trace_in in I as (p & q & IP & IQ & EQ). apply positions_in in IP. exact (OLD q p IQ ltac:(lia) (eq_sym EQ)).
    + apply in_map_iff in I as (q & EQ & I). exact (PRE q I EQ).
Qed.

(** ** Misses while a line of each stream is used *)
Lemma misses_app n past a b : misses_after n past (a ++ b) = misses_after n past a + misses_after n (past ++ a) b.
Proof.
  revert past. induction a as [|l a IH]; intros past; cbn [app misses_after]; [now rewrite app_nil_r|]. rewrite IH, <- app_assoc. cbn [app]. lia.
Qed.
Definition miss (n : nat) (L : Z) (refs : list ref) (s t : Z) (pre : list ref) (r : ref) : Z := if hit n (before_access L refs (positions s t) t pre) (line_of L t r) then 0 else 1.
Fixpoint row_misses (n : nat) (L : Z) (refs : list ref) (s t : Z) (pre l : list ref) : Z :=
  match l with [] => 0 | r :: l' => miss n L refs s t pre r + row_misses n L refs s t (pre ++ [r]) l' end.
Lemma row_misses_after n L refs s t : forall l pre, misses_after n (before_access L refs (positions s t) t pre) (map (line_of L t) l) = row_misses n L refs s t pre l.
Proof.
  induction l as [|r l IH]; intros pre; [reflexivity|]. cbn [map misses_after row_misses]. f_equal. rewrite <- IH. f_equal. unfold before_access. now rewrite <- app_assoc, map_app.
Qed.
Lemma block_misses n L refs s t : s <= t -> forall j, misses_after n (trace L refs (positions s t)) (trace L refs (positions t (t + Z.of_nat j)))
  = zsum (map (fun i => row_misses n L refs s (t + Z.of_nat i) [] refs) (seq 0 j)).
Proof.
  intros ST. induction j as [|j IH].
  - replace (positions t (t + Z.of_nat 0)) with (@nil Z); [reflexivity|]. unfold positions. replace (Z.to_nat (t + Z.of_nat 0 - t)) with 0%nat by lia. reflexivity.
  - replace (t + Z.of_nat (S j)) with (t + Z.of_nat j + 1) by lia. rewrite positions_snoc, trace_app, misses_app, IH by lia. rewrite seq_S, map_app, zsum_app. cbn [map plus]. f_equal.
    rewrite <- trace_app, <- positions_app by lia. cbn [trace flat_map]. rewrite app_nil_r. unfold iteration. rewrite <- row_misses_after. unfold before_access. cbn [map]. rewrite app_nil_r. cbn. lia.
Qed.
Fixpoint ref_misses (n : nat) (L : Z) (refs : list ref) (s t : Z) (j : nat) (pre l : list ref) : Z :=
  match l with [] => 0 | r :: l' => zsum (map (fun i => miss n L refs s (t + Z.of_nat i) pre r) (seq 0 j)) + ref_misses n L refs s t j (pre ++ [r]) l' end.
Lemma zsum_plus {X} (f g : X -> Z) l : zsum (map (fun x => f x + g x) l) = zsum (map f l) + zsum (map g l).
Proof. induction l as [|x l IH]; [reflexivity|]. cbn [map]. change (zsum (f x + g x :: map (fun x => f x + g x) l)) with (f x + g x + zsum (map (fun x => f x + g x) l)). rewrite IH.
  change (zsum (f x :: map f l)) with (f x + zsum (map f l)). change (zsum (g x :: map g l)) with (g x + zsum (map g l)). lia. Qed.
Lemma row_ref n L refs s t j : forall l pre, zsum (map (fun i => row_misses n L refs s (t + Z.of_nat i) pre l) (seq 0 j)) = ref_misses n L refs s t j pre l.
Proof.
  induction l as [|r l IH]; intros pre; cbn [row_misses ref_misses].
  - induction (seq 0 j) as [|i is IHi]; [reflexivity|]. exact IHi.
  - rewrite zsum_plus, IH. reflexivity.
Qed.
Lemma zsum_zero {X} (f : X -> Z) l : (forall x, In x l -> f x = 0) -> zsum (map f l) = 0.
Proof. induction l as [|x l IH]; intros H; [reflexivity|]. cbn [map]. change (zsum (f x :: map f l)) with (f x + zsum (map f l)). rewrite IH, (H x (or_introl eq_refl)); [reflexivity|]. intros y I. apply H. now right. Qed.
Lemma zsum_at_most_one (f : nat -> Z) l : NoDup l -> (forall i, In i l -> 0 <= f i <= 1) -> (forall i k, In i l -> In k l -> f i <> 0 -> f k <> 0 -> i = k) -> 0 <= zsum (map f l) <= 1.
Proof.
  induction 1 as [|i l N ND IH]; intros B U; [cbn; lia|]. cbn [map]. change (zsum (f i :: map f l)) with (f i + zsum (map f l)). destruct (Z.eq_dec (f i) 0) as [E|NE].
  - rewrite E. apply IH; [intros k I; apply B; now right|]. intros a b Ia Ib. apply U; now right.
  - rewrite (zsum_zero f l); [specialize (B i (or_introl eq_refl)); lia|]. intros k I. destruct (Z.eq_dec (f k) 0) as [Ek|Nk]; [assumption|]. exfalso. apply N. rewrite (U i k); auto; [now left|now right].
Qed.
Lemma zsum_at_least (f : nat -> Z) l i : In i l -> (forall k, In k l -> 0 <= f k) -> f i <= zsum (map f l).
Proof.
  induction l as [|k l IH]; [easy|]. intros I H. cbn [map]. change (zsum (f k :: map f l)) with (f k + zsum (map f l)). assert (P : 0 <= zsum (map f l)).
  { assert (H' : forall k, In k l -> 0 <= f k) by (intros y J; apply H; now right). clear - H'. induction l as [|y l IH]; [reflexivity|]. cbn [map]. change (zsum (f y :: map f l)) with (f y + zsum (map f l)). specialize (H' y (or_introl eq_refl)) as P. specialize (IH (fun k I => H' k (or_intror I))). lia. }
  destruct I as [->|I]; [lia|]. specialize (IH I (fun k J => H k (or_intror J))). specialize (H k (or_introl eq_refl)). lia.
Qed.
Lemma miss_bounds n L refs s t pre r : 0 <= miss n L refs s t pre r <= 1.
Proof. unfold miss. destruct (hit _ _ _); lia. Qed.
Lemma needed_lipschitz vs t d : 0 <= d -> needed vs (t + d) <= needed vs t + Z.of_nat (length vs) * d.
Proof.
  intros D. rewrite !needed_clip. induction vs as [|v vs IH]; [cbn; lia|]. cbn [map length].
  change (zsum (clip v (t + d) :: map (fun v => clip v (t + d)) vs)) with (clip v (t + d) + zsum (map (fun v => clip v (t + d)) vs)). change (zsum (clip v t :: map (fun v => clip v t) vs)) with (clip v t + zsum (map (fun v => clip v t) vs)).
  assert (clip v (t + d) <= clip v t + d) by (destruct v; cbn; lia). lia.
Qed.
Lemma needed_upper vs t : 0 <= t -> needed vs t <= Z.of_nat (length vs) * t.
Proof. intros T. pose proof (needed_lipschitz vs 0 t T) as H. replace (0 + t) with t in H by lia. assert (needed vs 0 <= 0); [|lia]. clear. rewrite needed_clip. induction vs as [|v vs IH]; [cbn; lia|]. cbn [map].
  change (zsum (clip v 0 :: map (fun v => clip v 0) vs)) with (clip v 0 + zsum (map (fun v => clip v 0) vs)). pose proof (clip_le v 0). lia. Qed.
Section Block.
  Context (n : nat) (L : Z) (refs : list ref) (s t : Z).
  Hypothesis LP : 0 < L.
  Hypothesis ST : s < t.
  Notation vs := (distances refs).
  Notation len := (Z.of_nat (length refs)).
  Notation size := (Z.of_nat n * L).
  Definition lost (bound : Z) (v : option Z) : bool := match v with Some x => bound <? needed vs x | None => true end.
  (** The access with the first element of a line *)
  Lemma entering (r : ref) : exists i, (i < Z.to_nat L)%nat /\ (snd r + (t + Z.of_nat i)) mod L = 0 /\ forall k, (k < Z.to_nat L)%nat -> (snd r + (t + Z.of_nat k)) mod L = 0 -> k = i.
  Proof.
    exists (Z.to_nat ((- (snd r + t)) mod L)). pose proof (Z.mod_pos_bound (- (snd r + t)) L LP) as B. split; [lia|]. split.
    - rewrite Z2Nat.id by lia. replace (snd r + (t + (- (snd r + t)) mod L)) with ((- (snd r + t)) mod L + (snd r + t)) by lia. rewrite Zplus_mod_idemp_l. replace (- (snd r + t) + (snd r + t)) with 0 by lia. reflexivity.
    - intros k KL M. apply Nat2Z.inj. rewrite Z2Nat.id by lia. set (y := snd r + t) in *. replace (snd r + (t + Z.of_nat k)) with (y + Z.of_nat k) in M by lia.
      apply (Z.mod_unique (-y) L (- ((y + Z.of_nat k) / L)) (Z.of_nat k)); [left; lia|]. pose proof (Z.div_mod (y + Z.of_nat k) L ltac:(lia)). lia.
  Qed.
  Lemma ref_lower r pre post : refs = pre ++ r :: post -> lost (size + len * L) (distance refs pre r) = true -> 1 <= zsum (map (fun i => miss n L refs s (t + Z.of_nat i) pre r) (seq 0 (Z.to_nat L))).
  Proof.
    intros E LO. destruct (entering r) as (i & IL & M & _). etransitivity; [|apply (zsum_at_least (fun i => miss n L refs s (t + Z.of_nat i) pre r) _ i); [apply in_seq; lia|intros k _; apply miss_bounds]].
    unfold miss. rewrite (access_miss n L refs pre r post s (t + Z.of_nat i)); [lia|assumption|assumption|lia|assumption|]. destruct (distance refs pre r) as [v|] eqn:D; [|exact Logic.I]. cbn [lost] in LO. apply Z.ltb_lt in LO.
    assert (DL : length vs = length refs) by apply distances_length. assert (VN := distance_nonneg _ _ _ _ D).
    assert (LV : L <= v). { destruct (Z.lt_ge_cases v L) as [H|H]; [|assumption]. exfalso. pose proof (needed_upper vs v VN). rewrite DL in *. nia. }
    split; [assumption|]. pose proof (needed_lipschitz vs (v - L) L ltac:(lia)) as H. replace (v - L + L) with v in H by lia. rewrite DL in H. lia.
  Qed.
  Hypothesis FIT : needed vs 2 + 2 * len * (L - 1) <= size.
  Lemma ref_upper_one r pre post : refs = pre ++ r :: post -> 0 <= zsum (map (fun i => miss n L refs s (t + Z.of_nat i) pre r) (seq 0 (Z.to_nat L))) <= 1.
  Proof.
    intros E. destruct (entering r) as (i & IL & M & U). apply zsum_at_most_one; [apply seq_NoDup|intros k _; apply miss_bounds|].
    assert (G : forall k, In k (seq 0 (Z.to_nat L)) -> miss n L refs s (t + Z.of_nat k) pre r <> 0 -> k = i).
    { intros k I N. apply in_seq in I. apply U; [lia|]. destruct (Z.eq_dec ((snd r + (t + Z.of_nat k)) mod L) 0) as [Q|Q]; [assumption|]. exfalso. apply N. unfold miss.
      replace (positions s (t + Z.of_nat k)) with (positions s (t + Z.of_nat k - 1) ++ [t + Z.of_nat k - 1]); [now rewrite (neighbour_hit n L refs pre r post)|].
      rewrite <- positions_snoc by lia. f_equal. lia. }
    intros a b Ia Ib Na Nb. rewrite (G a Ia Na), (G b Ib Nb). reflexivity.
  Qed.
  Hypothesis WARM : forall v, In (Some v) vs -> s <= t - v.
  Lemma distance_in r pre post : refs = pre ++ r :: post -> In (distance refs pre r) vs.
  Proof.
    intros E. unfold distances. assert (G : forall a b, In (distance refs (a ++ b) r) (distances_from refs a (b ++ r :: post))).
    { intros a b. revert a. induction b as [|q b IH]; intros a; cbn [app distances_from]; [left; now rewrite app_nil_r|]. right. specialize (IH (a ++ [q])). now rewrite <- app_assoc in IH. }
    specialize (G [] pre). rewrite <- E in G. exact G.
  Qed.
  Lemma ref_upper_zero r pre post : refs = pre ++ r :: post -> lost (size - len * (2 * L - 1)) (distance refs pre r) = false -> zsum (map (fun i => miss n L refs s (t + Z.of_nat i) pre r) (seq 0 (Z.to_nat L))) = 0.
  Proof.
    intros E LO. apply zsum_zero. intros i I. apply in_seq in I. unfold miss. assert (DI := distance_in r pre post E). destruct (distance refs pre r) as [v|] eqn:D; [|discriminate]. cbn [lost] in LO. apply Z.ltb_ge in LO.
    assert (VN := distance_nonneg _ _ _ _ D). rewrite (access_hit n L refs pre r post _ _ v); try assumption; [reflexivity| |].
    - intros VP. specialize (WARM v DI). exists (positions s (t + Z.of_nat i - v)), (positions (t + Z.of_nat i - v + 1) (t + Z.of_nat i)). split.
      + rewrite (positions_app s (t + Z.of_nat i - v) (t + Z.of_nat i)) by lia. f_equal. rewrite (positions_app (t + Z.of_nat i - v) (t + Z.of_nat i - v + 1)) by lia. rewrite positions_snoc by lia.
        replace (positions (t + Z.of_nat i - v) (t + Z.of_nat i - v)) with (@nil Z); [reflexivity|]. unfold positions. now rewrite Z.sub_diag.
      + apply Forall_forall. intros p J. apply positions_in in J. lia.
    - pose proof (needed_lipschitz vs v 1 ltac:(lia)) as H. assert (DL : length vs = length refs) by apply distances_length. rewrite DL in H. lia.
  Qed.
  Lemma refs_bounds : forall l pre, refs = pre ++ l ->
    Z.of_nat (length (filter (lost (size + len * L)) (distances_from refs pre l))) <= ref_misses n L refs s t (Z.to_nat L) pre l
    /\ ref_misses n L refs s t (Z.to_nat L) pre l <= Z.of_nat (length (filter (lost (size - len * (2 * L - 1))) (distances_from refs pre l))).
  Proof.
    induction l as [|r l IH]; intros pre E; [cbn; lia|]. cbn [distances_from filter ref_misses]. destruct (IH (pre ++ [r])) as [I1 I2]; [now rewrite <- app_assoc|]. pose proof (ref_upper_one r pre l E) as U. split.
    - destruct (lost (size + len * L) (distance refs pre r)) eqn:LO; [apply (ref_lower r pre l E) in LO; cbn [length]|]; lia.
    - destruct (lost (size - len * (2 * L - 1)) (distance refs pre r)) eqn:LO; [cbn [length]; lia|]. rewrite (ref_upper_zero r pre l E LO). lia.
  Qed.
  Lemma misses_bounds : missing vs (size + len * L) <= misses_after n (trace L refs (positions s t)) (trace L refs (positions t (t + L))) <= missing vs (size - len * (2 * L - 1)).
  Proof.
    replace (t + L) with (t + Z.of_nat (Z.to_nat L)) by lia. rewrite block_misses by lia. rewrite row_ref. destruct (refs_bounds refs [] eq_refl) as [H1 H2]. split; [exact H1|exact H2].
  Qed.
End Block.
