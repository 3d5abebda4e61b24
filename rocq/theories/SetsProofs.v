(** Proofs for C138. *)
From Verif Require Import PyBase PyBaseFacts LCSpec LruSpec LruProofs SetsSpec.
Local Open Scope list_scope.
Local Open Scope Z_scope.

(** ** Numbers in a set *)
Lemma filter_map {X Y} (f : Y -> bool) (g : X -> Y) l : filter f (map g l) = map g (filter (fun x => f (g x)) l).
Proof. induction l as [|x l IH]; [reflexivity|]. cbn [map filter]. destruct (f (g x)); cbn [map]; now rewrite IH. Qed.
Lemma in_set_upper sets b k lo m : 0 < sets -> 0 <= m -> sets * Z.of_nat (length (filter (fun y => (b + y) mod sets =? k) (zrange lo m))) <= m + sets - 1.
Proof.
  intros SP M. set (f := filter _ _). set (q0 := - ((k - b - lo) / sets)). set (q1 := (b + lo + m - 1 - k) / sets).
  assert (I : incl f (map (fun q => sets * q + k - b) (zrange q0 (q1 - q0 + 1)))).
  { intros y J. apply filter_In in J as [J E]. apply zrange_in in J. apply Z.eqb_eq in E. apply in_map_iff. exists ((b + y) / sets). pose proof (Z.div_mod (b + y) sets ltac:(lia)) as D. split; [lia|].
    apply zrange_in. unfold q0, q1. assert (A1 : (b + y - k) / sets = (b + y) / sets) by (symmetry; apply (Z.div_unique_exact (b + y - k) sets); lia).
    assert (A2 : (b + y - k) / sets <= (b + lo + m - 1 - k) / sets) by (apply Z.div_le_mono; lia).
    assert (A3 : (k - b - lo) / sets >= - ((b + y) / sets)). { apply Z.le_ge. apply Z.div_le_lower_bound; lia. } lia. }
  apply NoDup_incl_length in I; [|unfold f; apply NoDup_filter, zrange_nodup]. rewrite map_length, zrange_length in I.
  pose proof (Z.mul_div_le (k - b - lo) sets SP). pose proof (Z.mul_div_le (b + lo + m - 1 - k) sets SP). fold q1 in H0. assert (sets * q0 >= b + lo - k) by (unfold q0; lia).
  destruct (Z.le_gt_cases (q1 - q0 + 1) 0) as [C|C]; [replace (Z.to_nat (q1 - q0 + 1)) with 0%nat in I by lia; assert (length f = 0%nat) by lia; rewrite H2; lia|].
  assert (Z.of_nat (length f) <= q1 - q0 + 1) by lia. nia.
Qed.
Lemma in_set_lower L sets b k lo c : 0 < L -> 0 < sets -> 0 <= k < sets ->
  c - L * (sets - 1) <= sets * Z.of_nat (length (filter (fun y => (b + y / L) mod sets =? k) (zrange lo c))).
Proof.
  intros LP SP K. set (f := filter _ _). set (d := c - L * (sets - 1)).
  assert (I : incl (zrange lo d) (flat_map (fun y => map (fun j => y - L * j) (zrange 0 sets)) f)).
  { intros y J. apply zrange_in in J. set (j := (k - (b + y / L)) mod sets). pose proof (Z.mod_pos_bound (k - (b + y / L)) sets SP) as JB. fold j in JB.
    apply in_flat_map. exists (y + L * j). split; [|apply in_map_iff; exists j; split; [lia|apply zrange_in; lia]]. apply filter_In. split; [apply zrange_in; nia|]. apply Z.eqb_eq.
    replace ((y + L * j) / L) with (y / L + j) by (rewrite (Z.mul_comm L j), Z.div_add by lia; reflexivity). unfold j. replace (b + (y / L + (k - (b + y / L)) mod sets)) with (b + y / L + (k - (b + y / L)) mod sets) by lia.
    rewrite Zplus_mod_idemp_r. replace (b + y / L + (k - (b + y / L))) with k by lia. apply Z.mod_small. lia. }
  apply NoDup_incl_length in I; [|apply zrange_nodup]. rewrite zrange_length in I.
  assert (FL : forall f : list Z, length (flat_map (fun y => map (fun j => y - L * j) (zrange 0 sets)) f) = (length f * Z.to_nat sets)%nat).
  { clear. induction f as [|y f IH]; [reflexivity|]. cbn [flat_map length]. rewrite app_length, IH, map_length, zrange_length. lia. }
  rewrite FL in I. nia.
Qed.

Section Sets.
  Context (sets : Z) (ways : nat) (base : nat -> Z).
  Hypothesis SP : 0 < sets.
  Notation place := (in_memory base).
  Notation hs := (hit_in_set sets ways place).
  Notation same l := (fun x : line => place x mod sets =? place l mod sets).
  Lemma same_refl l : same l l = true.
  Proof. apply Z.eqb_refl. Qed.
  (** ** Lines of a window in one set *)
  Lemma piece_in_set L (refs : list ref) before r x w k : 0 < L -> 0 <= w ->
    L * sets * Z.of_nat (length (filter (fun y => place y mod sets =? k) (piece_lines L refs before r x w))) <= clip (distance refs before r) w + 2 * (L - 1) + L * (sets - 1).
  Proof.
    intros LP W. pose proof (piece_lines_length L refs before r x w LP W) as PL. unfold piece_lines in *. set (m := clip (distance refs before r) w) in *.
    assert (0 <= m) by (subst m; destruct (distance refs before r) as [v|] eqn:E; cbn [clip]; [apply distance_nonneg in E; lia|assumption]).
    destruct (Z.ltb_spec 0 m) as [M|M]; [|cbn [filter length]; nia].
    rewrite filter_map, map_length. rewrite map_length, zrange_length in PL. set (c := (snd r + x + m - 1) / L - (snd r + x) / L + 1) in *.
    assert (0 <= c) by (unfold c; assert ((snd r + x) / L <= (snd r + x + m - 1) / L) by (apply Z.div_le_mono; lia); lia). rewrite Z2Nat.id in PL by assumption.
    pose proof (in_set_upper sets (base (fst r)) k ((snd r + x) / L) c SP ltac:(assumption)) as U. cbn [in_memory fst snd]. unfold in_memory. cbn [fst snd].
    set (N := Z.of_nat (length (filter (fun y => (base (fst r) + y) mod sets =? k) (zrange ((snd r + x) / L) c)))) in *. nia.
  Qed.
  Lemma cover_in_set L (refs : list ref) x w k : 0 < L -> 0 <= w -> forall l before,
    L * sets * Z.of_nat (length (filter (fun y => place y mod sets =? k) (cover_lines L refs before l x w)))
    <= zsum (map (fun v => clip v w) (distances_from refs before l)) + Z.of_nat (length l) * (2 * (L - 1) + L * (sets - 1)).
  Proof.
    intros LP W. induction l as [|r l IH]; intros before; [cbn; lia|]. cbn [cover_lines distances_from map]. rewrite filter_app, app_length, Nat2Z.inj_add. specialize (IH (before ++ [r])). pose proof (piece_in_set L refs before r x w k LP W).
    change (zsum (clip (distance refs before r) w :: map (fun v => clip v w) (distances_from refs (before ++ [r]) l))) with (clip (distance refs before r) w + zsum (map (fun v => clip v w) (distances_from refs (before ++ [r]) l))).
    cbn [length]. rewrite Nat2Z.inj_succ. nia.
  Qed.
  Lemma sets_window L (refs : list ref) x w p1 l p2 : 0 < L -> 0 <= w -> in_window L refs x w l -> Forall (in_window L refs x w) p2 ->
    needed (distances refs) w + Z.of_nat (length refs) * (2 * (L - 1) + L * (sets - 1)) <= sets * Z.of_nat ways * L -> hs (p1 ++ l :: p2) l = true.
  Proof.
    intros LP W IL IP H. unfold hit_in_set. rewrite filter_app. cbn [filter]. rewrite same_refl. set (c := filter (same l) (cover_lines L refs [] refs x w)). apply (hit_within ways _ l _ c).
    - intros y J. apply filter_In in J as [J E]. apply filter_In. split; [|exact E]. apply window_covered; [assumption|]. exact (proj1 (Forall_forall _ _) IP y J).
    - assert (LE : (length (nodup line_dec (l :: c)) <= length c)%nat).
      { apply NoDup_incl_length; [apply NoDup_nodup|]. intros y J. apply nodup_In in J as [<-|J]; [|assumption]. apply filter_In. split; [now apply window_covered|apply same_refl]. }
      pose proof (cover_in_set L refs x w (place l mod sets) LP W refs []) as CL. fold (distances refs) in CL. rewrite <- needed_clip in CL. fold c in CL.
      assert (LC : Z.of_nat (length c) <= Z.of_nat ways) by (apply (Z.mul_le_mono_pos_l _ _ (L * sets)); [nia|]; replace (L * sets * Z.of_nat ways) with (sets * Z.of_nat ways * L) by ring; lia). lia.
  Qed.
  Definition lines_in_set (L : Z) (refs : list ref) (x w k : Z) : list line :=
    nodup line_dec (map (fun e => (fst e, snd e / L)) (filter (fun e => (base (fst e) + snd e / L) mod sets =? k) (cover refs [] refs x w))).
  Lemma elements_in_set L (refs : list ref) x w k : 0 < L -> 0 <= w -> 0 <= k < sets -> forall l before,
    zsum (map (fun v => clip v w) (distances_from refs before l)) - Z.of_nat (length l) * (L * (sets - 1))
    <= sets * Z.of_nat (length (filter (fun e => (base (fst e) + snd e / L) mod sets =? k) (cover refs before l x w))).
  Proof.
    intros LP W K. induction l as [|r l IH]; intros before; [cbn; lia|]. cbn [cover distances_from map]. rewrite filter_app, app_length, Nat2Z.inj_add. specialize (IH (before ++ [r])). unfold piece at 1. rewrite filter_map, map_length. cbn [fst snd].
    pose proof (in_set_lower L sets (base (fst r)) k (snd r + x) (clip (distance refs before r) w) LP SP K).
    change (zsum (clip (distance refs before r) w :: map (fun v => clip v w) (distances_from refs (before ++ [r]) l))) with (clip (distance refs before r) w + zsum (map (fun v => clip v w) (distances_from refs (before ++ [r]) l))).
    cbn [length]. rewrite Nat2Z.inj_succ. nia.
  Qed.
  Lemma lines_in_set_length L (refs : list ref) x w k : 0 < L -> 0 <= w -> 0 <= k < sets ->
    needed (distances refs) w - Z.of_nat (length refs) * (L * (sets - 1)) <= sets * L * Z.of_nat (length (lines_in_set L refs x w k)).
  Proof.
    intros LP W K. rewrite needed_clip. pose proof (elements_in_set L refs x w k LP W K refs []) as EL. fold (distances refs) in EL. set (c := lines_in_set L refs x w k). set (f := filter _ _) in *.
    assert (LE : (length f <= length (flat_map (fun l => map (fun y => (fst l, y)) (zrange (L * snd l) L)) c))%nat).
    { apply NoDup_incl_length; [apply NoDup_filter, cover_nodup, incl_refl|]. intros e I. apply in_flat_map. exists (fst e, snd e / L). split; [apply nodup_In, in_map_iff; exists e; auto|]. apply in_map_iff. exists (snd e). split; [now destruct e|].
      apply zrange_in. cbn [fst snd]. pose proof (Z.div_mod (snd e) L ltac:(lia)). pose proof (Z.mod_pos_bound (snd e) L LP). lia. }
    assert (FL : forall c : list line, length (flat_map (fun l => map (fun y => (fst l, y)) (zrange (L * snd l) L)) c) = (length c * Z.to_nat L)%nat).
    { clear. induction c as [|l c IH]; [reflexivity|]. cbn [flat_map length]. rewrite app_length, IH, map_length, zrange_length. lia. }
    rewrite FL in LE. assert (Z.of_nat (length f) <= Z.of_nat (length c) * L) by nia. nia.
  Qed.
  Lemma lines_in_set_in L (refs : list ref) x w k e : In e (lines_in_set L refs x w k) -> in_window L refs x w e /\ place e mod sets = k.
  Proof.
    intros I. apply nodup_In, in_map_iff in I as (y & <- & I). apply filter_In in I as [I E]. apply Z.eqb_eq in E. split; [|exact E]. apply cover_in in I as (r & IR & F & H). exists r, (snd y - snd r). split; [assumption|]. split; [lia|].
    unfold line_of. rewrite F. f_equal. f_equal. lia.
  Qed.
  (** ** Accesses of a stream *)
Lemma sets_never past l : ~ In l past -> hs past l = false.
Proof. intros N. apply hit_never. intros I. apply filter_In in I as [I _]. contradiction. Qed.
Lemma sets_hit L (refs : list ref) pre r post ts t v : 0 < L -> refs = pre ++ r :: post -> distance refs pre r = Some v -> (0 < v -> exists ts1 ts2, ts = ts1 ++ (t - v) :: ts2 /\ Forall (fun p => t - v <= p < t) ts2) ->
  needed (distances refs) (v + 1) + Z.of_nat (length refs) * (2 * (L - 1) + L * (sets - 1)) <= sets * Z.of_nat ways * L -> hs (before_access L refs ts t pre) (line_of L t r) = true.
Proof.
  intros LP E D TS H. assert (VN := distance_nonneg _ _ _ _ D). assert (IR : In r refs) by (rewrite E; apply in_or_app; right; now left).
  assert (IPRE : incl pre refs) by (intros q I; rewrite E; apply in_or_app; now left).
  assert (WR : in_window L refs (t - v) (v + 1) (line_of L t r)) by (exists r, t; split; [assumption|]; split; [lia|reflexivity]).
  assert (WP : forall l, incl l refs -> Forall (in_window L refs (t - v) (v + 1)) (map (line_of L t) l)).
  { intros l IL. apply Forall_forall. intros y I. apply in_map_iff in I as (q & <- & I). exists q, t. split; [now apply IL|]. split; [lia|reflexivity]. }
  destruct (distance_cases refs pre r) as [(I & D')|[(_ & D' & _)|(_ & w & q & D' & LV & IQ & FQ & SQ & _)]]; rewrite D' in D; [|discriminate|]; injection D as <-.
  - apply in_split in I as (a & b & EP). unfold before_access. rewrite EP, map_app. cbn [map]. rewrite app_assoc. apply (sets_window L refs (t - 0) (0 + 1)); [assumption|lia|assumption| |assumption].
    apply WP. intros y I. apply IPRE. rewrite EP. apply in_or_app. right. now right.
  - destruct (TS LV) as (ts1 & ts2 & -> & FT). apply in_split in IQ as (a & b & EQ). unfold before_access. rewrite trace_app. cbn [trace flat_map]. unfold iteration at 1.
    assert (EL : line_of L (t - w) q = line_of L t r) by (unfold line_of; rewrite FQ, SQ; f_equal; f_equal; lia).
    assert (EM : map (line_of L (t - w)) refs = map (line_of L (t - w)) a ++ line_of L t r :: map (line_of L (t - w)) b) by (rewrite <- EL; rewrite EQ at 1; now rewrite map_app).
    rewrite EM. rewrite <- !app_assoc, app_assoc. rewrite <- app_comm_cons.
    apply (sets_window L refs (t - w) (w + 1)); [assumption|lia|assumption| |assumption].
    apply Forall_app. split; [|apply Forall_app; split; [|now apply WP]].
    + apply Forall_forall. intros y I. apply in_map_iff in I as (z & <- & I). exists z, (t - w). split; [rewrite EQ; apply in_or_app; right; now right|]. split; [lia|reflexivity].
    + apply Forall_forall. intros y I. apply trace_in in I as (p & z & IP & IZ & ->). exists z, p. split; [assumption|]. split; [|reflexivity]. rewrite Forall_forall in FT. specialize (FT p IP). lia.
Qed.
Lemma sets_neighbour L (refs : list ref) pre r post ts t : 0 < L -> refs = pre ++ r :: post -> (snd r + t) mod L <> 0 ->
  needed (distances refs) 2 + Z.of_nat (length refs) * (2 * (L - 1) + L * (sets - 1)) <= sets * Z.of_nat ways * L -> hs (before_access L refs (ts ++ [t - 1]) t pre) (line_of L t r) = true.
Proof.
  intros LP E M H. assert (IR : In r refs) by (rewrite E; apply in_or_app; right; now left). unfold before_access. rewrite trace_app. cbn [trace flat_map]. rewrite app_nil_r. unfold iteration.
  assert (EL : line_of L (t - 1) r = line_of L t r).
  { unfold line_of. f_equal. replace (snd r + (t - 1)) with (snd r + t - 1) by lia. set (y := snd r + t) in *. pose proof (Z.div_mod y L ltac:(lia)). pose proof (Z.mod_pos_bound y L LP). symmetry; apply (Z.div_unique_pos (y - 1) L (y / L) (y mod L - 1)); lia. }
  assert (EM : map (line_of L (t - 1)) refs = map (line_of L (t - 1)) pre ++ line_of L t r :: map (line_of L (t - 1)) post) by (rewrite <- EL; rewrite E at 1; now rewrite map_app).
  rewrite EM. rewrite <- !app_assoc, app_assoc. rewrite <- app_comm_cons. apply (sets_window L refs (t - 1) 2); [assumption|lia| | |assumption].
  - exists r, t. split; [assumption|]. split; [lia|reflexivity].
  - apply Forall_app. split; apply Forall_forall; intros y I; apply in_map_iff in I as (z & <- & I).
    + exists z, (t - 1). split; [rewrite E; apply in_or_app; right; now right|]. split; [lia|reflexivity].
    + exists z, t. split; [rewrite E; apply in_or_app; now left|]. split; [lia|reflexivity].
Qed.
Lemma sets_miss_in L (refs some : list ref) pre r post s t : 0 < L -> incl some refs -> refs = pre ++ r :: post -> s <= t -> (snd r + t) mod L = 0 ->
  match distance refs pre r with Some v => L <= v /\ sets * Z.of_nat ways * L + Z.of_nat (length some) * (L * (sets - 1)) <= needed (distances some) (v - L) | None => True end ->
  hs (before_access L refs (positions s t) t pre) (line_of L t r) = false.
Proof.
  intros LP SUB E ST M C. assert (IR : In r refs) by (rewrite E; apply in_or_app; right; now left). assert (IPRE : incl pre refs) by (intros q I; rewrite E; apply in_or_app; now left).
  set (y := snd r + t) in *. assert (EY : y = L * (y / L)) by (pose proof (Z.div_mod y L ltac:(lia)); lia).
  (* accesses to the same line *)
  assert (SAME : forall q p, line_of L p q = line_of L t r -> fst q = fst r /\ y <= snd q + p < y + L).
  { intros q p EQ. unfold line_of in EQ. injection EQ as F1 F2. fold y in F2. split; [assumption|]. pose proof (Z.div_mod (snd q + p) L ltac:(lia)). pose proof (Z.mod_pos_bound (snd q + p) L LP). lia. }
  assert (PRE : forall q, In q pre -> line_of L t q = line_of L t r -> match distance refs pre r with Some v => v < L | None => False end).
  { intros q I EQ. destruct (SAME q t EQ) as [F K]. destruct (distance_cases refs pre r) as [(_ & ->)|[(N & -> & A)|(N & v & q' & -> & LV & _ & _ & _ & A)]]; [assumption| |].
    - specialize (A q (IPRE q I) F). apply N. replace r with q; [assumption|]. destruct q, r. cbn in *. f_equal; [assumption|]. lia.
    - destruct (Z.eq_dec (snd q) (snd r)) as [EO|NO]; [destruct N; replace r with q; [assumption|]; destruct q, r; cbn in *; congruence|]. specialize (A q (IPRE q I) F ltac:(lia)). lia. }
  assert (OLD : forall q p, In q refs -> p < t -> line_of L p q = line_of L t r -> match distance refs pre r with Some v => v < L \/ p < t - v + L | None => False end).
  { intros q p I LT EQ. destruct (SAME q p EQ) as [F K]. destruct (distance_cases refs pre r) as [(_ & ->)|[(N & -> & A)|(N & v & q' & -> & LV & _ & _ & _ & A)]]; [now left| |].
    - specialize (A q I F). lia.
    - right. specialize (A q I F ltac:(lia)). lia. }
  destruct (distance refs pre r) as [v|].
  - destruct C as [LV C]. set (u := t - v + L). destruct (Z.lt_ge_cases u s) as [US|US].
    + apply sets_never. intros I. apply in_app_or in I as [I|I].
      * apply trace_in in I as (p & q & IP & IQ & EQ). apply positions_in in IP. destruct (OLD q p IQ ltac:(lia) (eq_sym EQ)); lia.
      * apply in_map_iff in I as (q & EQ & I). specialize (PRE q I EQ). lia.
    + set (l := line_of L t r) in *. pose proof (Z.mod_pos_bound (place l) sets SP) as K. set (k := place l mod sets) in *.
      unfold hit_in_set. fold k. apply (miss_beyond ways _ _ (lines_in_set L some u (v - L) k)); [apply NoDup_nodup| |].
        -- pose proof (lines_in_set_length L some u (v - L) k LP ltac:(lia) K) as LL.
           assert (Z.of_nat ways <= Z.of_nat (length (lines_in_set L some u (v - L) k))); [|lia]. apply (Z.mul_le_mono_pos_l _ _ (sets * L)); [nia|]. replace (sets * L * Z.of_nat ways) with (sets * Z.of_nat ways * L) by ring. refine (Z.le_trans _ _ _ _ LL). apply Z.le_add_le_sub_r. exact C.
        -- intros p1 p2 EP N. unfold before_access in EP. rewrite (positions_app s u t) in EP by lia. rewrite trace_app, <- app_assoc in EP. set (B := trace L refs (positions u t) ++ map (line_of L t) pre) in *. rewrite filter_app in EP.
           assert (NB : ~ In l (filter (fun x => place x mod sets =? k) B)).
           { intros I. apply filter_In in I as [I _]. apply in_app_or in I as [I|I].
             - apply trace_in in I as (p & q & IP & IQ & EQ). apply positions_in in IP. destruct (OLD q p IQ ltac:(lia) (eq_sym EQ)); lia.
             - apply in_map_iff in I as (q & EQ & I). specialize (PRE q I EQ). lia. }
           assert (SUF : incl (filter (fun x => place x mod sets =? k) B) p2).
           { clear - EP NB. revert p1 EP. induction (filter (fun x => place x mod sets =? k) (trace L refs (positions s u))) as [|a A IH]; intros p1 EP.
             - cbn [app] in EP. exfalso. apply NB. rewrite EP. apply in_or_app. right. now left.
             - destruct p1 as [|b p1]; cbn in EP; injection EP as E1 E2; [rewrite <- E2; intros z I; apply in_or_app; now right|]. now apply (IH p1). }
           intros e I. apply lines_in_set_in in I as ((q & p & IQ & H & ->) & PL). apply SUF, filter_In. split; [|now apply Z.eqb_eq]. apply in_or_app. left. apply trace_in. exists p, q. split; [apply positions_in; lia|split; [now apply SUB|reflexivity]].
  - apply sets_never. intros I. apply in_app_or in I as [I|I].
    + apply trace_in in I as (p & q & IP & IQ & EQ). apply positions_in in IP. exact (OLD q p IQ ltac:(lia) (eq_sym EQ)).
    + apply in_map_iff in I as (q & EQ & I). exact (PRE q I EQ).
Qed.
Lemma sets_miss L (refs : list ref) pre r post s t : 0 < L -> refs = pre ++ r :: post -> s <= t -> (snd r + t) mod L = 0 ->
  match distance refs pre r with Some v => L <= v /\ sets * Z.of_nat ways * L + Z.of_nat (length refs) * (L * (sets - 1)) <= needed (distances refs) (v - L) | None => True end ->
  hs (before_access L refs (positions s t) t pre) (line_of L t r) = false.
Proof. intros LP. exact (sets_miss_in L refs refs pre r post s t LP (incl_refl _)). Qed.

Lemma sets_app past a b : misses_in_sets sets ways base past (a ++ b) = misses_in_sets sets ways base past a + misses_in_sets sets ways base (past ++ a) b.
Proof.
  revert past. induction a as [|l a IH]; intros past; cbn [app misses_in_sets]; [now rewrite app_nil_r|]. rewrite IH, <- app_assoc. cbn [app]. lia.
Qed.
Definition smiss (L : Z) (refs : list ref) (s t : Z) (pre : list ref) (r : ref) : Z := if hs (before_access L refs (positions s t) t pre) (line_of L t r) then 0 else 1.
Fixpoint sets_row (L : Z) (refs : list ref) (s t : Z) (pre l : list ref) : Z :=
  match l with [] => 0 | r :: l' => smiss L refs s t pre r + sets_row L refs s t (pre ++ [r]) l' end.
Lemma sets_row_after L (refs : list ref) s t : forall l pre, misses_in_sets sets ways base (before_access L refs (positions s t) t pre) (map (line_of L t) l) = sets_row L refs s t pre l.
Proof.
  induction l as [|r l IH]; intros pre; [reflexivity|]. cbn [map misses_in_sets sets_row]. f_equal. rewrite <- IH. f_equal. unfold before_access. now rewrite <- app_assoc, map_app.
Qed.
Lemma sets_block L (refs : list ref) s t : s <= t -> forall j, misses_in_sets sets ways base (trace L refs (positions s t)) (trace L refs (positions t (t + Z.of_nat j)))
  = zsum (map (fun i => sets_row L refs s (t + Z.of_nat i) [] refs) (seq 0 j)).
Proof.
  intros ST. induction j as [|j IH].
  - replace (positions t (t + Z.of_nat 0)) with (@nil Z); [reflexivity|]. unfold positions. replace (Z.to_nat (t + Z.of_nat 0 - t)) with 0%nat by lia. reflexivity.
  - replace (t + Z.of_nat (S j)) with (t + Z.of_nat j + 1) by lia. rewrite positions_snoc, trace_app, sets_app, IH by lia. rewrite seq_S, map_app, zsum_app. cbn [map plus]. f_equal.
    rewrite <- trace_app, <- positions_app by lia. cbn [trace flat_map]. rewrite app_nil_r. unfold iteration. rewrite <- sets_row_after. unfold before_access. cbn [map]. rewrite app_nil_r. cbn. lia.
Qed.
Fixpoint sets_ref (L : Z) (refs : list ref) (s t : Z) (j : nat) (pre l : list ref) : Z :=
  match l with [] => 0 | r :: l' => zsum (map (fun i => smiss L refs s (t + Z.of_nat i) pre r) (seq 0 j)) + sets_ref L refs s t j (pre ++ [r]) l' end.
Lemma sets_row_ref L (refs : list ref) s t j : forall l pre, zsum (map (fun i => sets_row L refs s (t + Z.of_nat i) pre l) (seq 0 j)) = sets_ref L refs s t j pre l.
Proof.
  induction l as [|r l IH]; intros pre; cbn [sets_row sets_ref].
  - induction (seq 0 j) as [|i is IHi]; [reflexivity|]. exact IHi.
  - rewrite zsum_plus, IH. reflexivity.
Qed.
  Lemma smiss_bounds L (refs : list ref) s t pre r : 0 <= smiss L refs s t pre r <= 1.
  Proof. unfold smiss. destruct (hs _ _); lia. Qed.
  Section Block.
  Context (L : Z) (refs : list ref) (s t : Z).
  Hypothesis LP : 0 < L.
  Hypothesis ST : s < t.
  Notation vs := (distances refs).
  Notation len := (Z.of_nat (length refs)).
  Notation size := (sets * Z.of_nat ways * L).
  Lemma sets_lower r pre post : refs = pre ++ r :: post -> lost refs (size + len * (L * sets)) (distance refs pre r) = true -> 1 <= zsum (map (fun i => smiss L refs s (t + Z.of_nat i) pre r) (seq 0 (Z.to_nat L))).
  Proof.
    intros E LO. destruct (entering L t LP r) as (i & IL & M & _). etransitivity; [|apply (zsum_at_least (fun i => smiss L refs s (t + Z.of_nat i) pre r) _ i); [apply in_seq; lia|intros k _; apply smiss_bounds]].
    unfold smiss. rewrite (sets_miss L refs pre r post s (t + Z.of_nat i)); [lia|assumption|assumption|lia|assumption|]. destruct (distance refs pre r) as [v|] eqn:D; [|exact Logic.I]. cbn [lost] in LO. apply Z.ltb_lt in LO.
    assert (DL : length vs = length refs) by apply distances_length. assert (VN := distance_nonneg _ _ _ _ D).
    assert (LV : L <= v). { destruct (Z.lt_ge_cases v L) as [H|H]; [|assumption]. exfalso. pose proof (needed_upper vs v VN) as NU. rewrite DL in NU.
      assert (A1 : len * v <= len * L) by nia. assert (A2 : len * L <= len * (L * sets)) by nia. assert (A3 : 0 <= size) by nia. set (a := len * (L * sets)) in *. set (b := size) in *. lia. }
    split; [assumption|]. pose proof (needed_lipschitz vs (v - L) L ltac:(lia)) as H. replace (v - L + L) with v in H by lia. rewrite DL in H. replace (len * (L * sets)) with (len * L + len * (L * (sets - 1))) in LO by ring. set (a := len * (L * (sets - 1))) in *. set (b := size) in *. lia.
  Qed.
  Hypothesis FIT : needed vs 2 + len * (2 * (L - 1) + L * (sets - 1)) <= size.
  Lemma sets_upper_one r pre post : refs = pre ++ r :: post -> 0 <= zsum (map (fun i => smiss L refs s (t + Z.of_nat i) pre r) (seq 0 (Z.to_nat L))) <= 1.
  Proof.
    intros E. destruct (entering L t LP r) as (i & IL & M & U). apply zsum_at_most_one; [apply seq_NoDup|intros k _; apply smiss_bounds|].
    assert (G : forall k, In k (seq 0 (Z.to_nat L)) -> smiss L refs s (t + Z.of_nat k) pre r <> 0 -> k = i).
    { intros k I N. apply in_seq in I. apply U; [lia|]. destruct (Z.eq_dec ((snd r + (t + Z.of_nat k)) mod L) 0) as [Q|Q]; [assumption|]. exfalso. apply N. unfold smiss.
      replace (positions s (t + Z.of_nat k)) with (positions s (t + Z.of_nat k - 1) ++ [t + Z.of_nat k - 1]); [now rewrite (sets_neighbour L refs pre r post)|].
      rewrite <- positions_snoc by lia. f_equal. lia. }
    intros a b Ia Ib Na Nb. rewrite (G a Ia Na), (G b Ib Nb). reflexivity.
  Qed.
  Hypothesis WARM : forall v, In (Some v) vs -> s <= t - v.
  Lemma sets_upper_zero r pre post : refs = pre ++ r :: post -> lost refs (size - len * (L * sets + L - 1)) (distance refs pre r) = false -> zsum (map (fun i => smiss L refs s (t + Z.of_nat i) pre r) (seq 0 (Z.to_nat L))) = 0.
  Proof.
    intros E LO. apply zsum_zero. intros i I. apply in_seq in I. unfold smiss. assert (DI := distance_in refs r pre post E). destruct (distance refs pre r) as [v|] eqn:D; [|discriminate]. cbn [lost] in LO. apply Z.ltb_ge in LO.
    assert (VN := distance_nonneg _ _ _ _ D). rewrite (sets_hit L refs pre r post _ _ v); try assumption; [reflexivity| |].
    - intros VP. specialize (WARM v DI). exists (positions s (t + Z.of_nat i - v)), (positions (t + Z.of_nat i - v + 1) (t + Z.of_nat i)). split.
      + rewrite (positions_app s (t + Z.of_nat i - v) (t + Z.of_nat i)) by lia. f_equal. rewrite (positions_app (t + Z.of_nat i - v) (t + Z.of_nat i - v + 1)) by lia. rewrite positions_snoc by lia.
        replace (positions (t + Z.of_nat i - v) (t + Z.of_nat i - v)) with (@nil Z); [reflexivity|]. unfold positions. now rewrite Z.sub_diag.
      + apply Forall_forall. intros p J. apply positions_in in J. lia.
    - pose proof (needed_lipschitz vs v 1 ltac:(lia)) as H. assert (DL : length vs = length refs) by apply distances_length. rewrite DL in H. replace (len * (L * sets + L - 1)) with (len * 1 + len * (2 * (L - 1) + L * (sets - 1))) in LO by ring. set (a := len * (2 * (L - 1) + L * (sets - 1))) in *. set (b := size) in *. lia.
  Qed.
  Lemma sets_bounds : forall l pre, refs = pre ++ l ->
    Z.of_nat (length (filter (lost refs (size + len * (L * sets))) (distances_from refs pre l))) <= sets_ref L refs s t (Z.to_nat L) pre l
    /\ sets_ref L refs s t (Z.to_nat L) pre l <= Z.of_nat (length (filter (lost refs (size - len * (L * sets + L - 1))) (distances_from refs pre l))).
  Proof.
    induction l as [|r l IH]; intros pre E; [cbn; lia|]. cbn [distances_from filter sets_ref]. destruct (IH (pre ++ [r])) as [I1 I2]; [now rewrite <- app_assoc|]. pose proof (sets_upper_one r pre l E) as U. split.
    - destruct (lost refs (size + len * (L * sets)) (distance refs pre r)) eqn:LO; [apply (sets_lower r pre l E) in LO; cbn [length]|]; lia.
    - destruct (lost refs (size - len * (L * sets + L - 1)) (distance refs pre r)) eqn:LO; [cbn [length]; lia|]. rewrite (sets_upper_zero r pre l E LO). lia.
  Qed.
  Lemma sets_misses_bounds : missing vs (size + len * (L * sets)) <= misses_in_sets sets ways base (trace L refs (positions s t)) (trace L refs (positions t (t + L))) <= missing vs (size - len * (L * sets + L - 1)).
  Proof.
    replace (t + L) with (t + Z.of_nat (Z.to_nat L)) by lia. rewrite sets_block by lia. rewrite sets_row_ref. destruct (sets_bounds refs [] eq_refl) as [H1 H2]. split; [exact H1|exact H2].
  Qed.
  End Block.
End Sets.
