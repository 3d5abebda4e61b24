(** Proofs for C136. *)
From Verif Require Import PyBase PyBaseFacts LCSpec LCProofs LruSpec LruProofs EvictSpec EvictProofs HierSpec.
Local Open Scope list_scope.
Local Open Scope Z_scope.

(** ** What arrives at the next level *)
Lemma missed_app n a : forall past b, missed n past (a ++ b) = missed n past a ++ missed n (past ++ a) b.
Proof.
  induction a as [|l a IH]; intros past b; cbn [app missed]; [now rewrite app_nil_r|]. rewrite IH, <- !app_assoc. reflexivity.
Qed.
Lemma missed_incl n f : forall past, incl (missed n past f) f.
Proof.
  induction f as [|l f IH]; intros past y I; [exact I|]. cbn [missed] in I. apply in_app_or in I as [I|I].
  - destruct (hit n past l); [contradiction|]. destruct I as [->|[]]. now left.
  - right. exact (IH _ _ I).
Qed.
Lemma missed_snoc n past l : missed n [] (past ++ [l]) = missed n [] past ++ (if hit n past l then [] else [l]).
Proof. rewrite missed_app. cbn [app missed]. now rewrite app_nil_r. Qed.
Lemma hit_in n past l : hit n past l = true -> In l past.
Proof. intros H. destruct (in_dec line_dec l past) as [I|I]; [assumption|]. rewrite hit_never in H by assumption. discriminate. Qed.
Lemma hit_cache n past l : hit n past l = true <-> In l (cache_after n past).
Proof.
  unfold hit. rewrite existsb_exists. split.
  - intros (y & I & E). destruct (line_eqb_spec l y); [now subst|discriminate].
  - intros I. exists l. split; [assumption|]. destruct (line_eqb_spec l l); congruence.
Qed.
Lemma hit_more n m past l : (n <= m)%nat -> hit n past l = true -> hit m past l = true.
Proof.
  intros LE H. destruct (last_access l past (hit_in _ _ _ H)) as (p1 & p2 & -> & NI). destruct (hit_split n p1 l p2 NI) as (a & E & A & AN). destruct (hit_split m p1 l p2 NI) as (b & F & B & BN).
  rewrite E in H. apply Nat.ltb_lt in H. rewrite F. apply Nat.ltb_lt. enough (length b <= length a)%nat by lia. apply NoDup_incl_length; [assumption|]. intros y I. now apply A, B.
Qed.
Lemma cache_stays n u p y : In y (cache_after n (p ++ u)) -> ~ In y u -> In y (cache_after n p).
Proof.
  induction u as [|x u IH] using rev_ind; intros I N; [now rewrite app_nil_r in I|]. rewrite app_assoc, cache_snoc in I. apply IH; [|intros J; apply N, in_or_app; now left].
  unfold touch in I. assert (J : In y (x :: filter (fun z => negb (line_eqb z x)) (cache_after n (p ++ u)))) by (rewrite <- (firstn_skipn n); apply in_or_app; now left).
  destruct J as [->|J]; [exfalso; apply N, in_or_app; right; now left|]. apply filter_In in J. exact (proj1 J).
Qed.
Lemma cache_length n past : (length (cache_after n past) <= n)%nat.
Proof. rewrite cache_recency. apply firstn_le_length. Qed.
(** What hits in the second of two caches would hit in one cache of the lines of both. *)
Lemma two_caches n1 n2 past l : hit n2 (missed n1 [] past) l = true -> hit (n1 + n2) past l = true.
Proof.
  intros H. assert (IM := hit_in _ _ _ H). assert (IP : In l past) by exact (missed_incl _ _ _ _ IM). destruct (last_access l past IP) as (q1 & q2 & -> & NQ).
  replace (q1 ++ l :: q2) with ((q1 ++ [l]) ++ q2) in H by now rewrite <- app_assoc. rewrite missed_app in H. cbn [app] in H. set (S0 := missed n1 [] (q1 ++ [l])) in H. set (R := missed n1 (q1 ++ [l]) q2) in H.
  assert (RI : incl R q2) by apply missed_incl.
  assert (IS : In l S0).
  { apply hit_in in H. apply in_app_or in H as [I|I]; [exact I|]. exfalso. exact (NQ (RI _ I)). }
  destruct (last_access l S0 IS) as (s1 & s2 & ES & NS). rewrite ES, <- app_assoc in H. cbn [app] in H.
  destruct (hit_split n2 s1 l (s2 ++ R)) as (a & E & A & AN). { intros I. apply in_app_or in I as [I|I]; [now apply NS|exact (NQ (RI _ I))]. }
  destruct (hit_split (n1 + n2) q1 l q2 NQ) as (b & F & B & BN). rewrite E in H. apply Nat.ltb_lt in H. rewrite F. apply Nat.ltb_lt.
  enough (length b <= length (a ++ cache_after n1 (q1 ++ [l])))%nat by (rewrite app_length in *; pose proof (cache_length n1 (q1 ++ [l])); lia).
  apply NoDup_incl_length; [assumption|]. intros y I. apply B in I. destruct (first_access y q2 I) as (u & v & EQ & NU). apply in_or_app. destruct (hit n1 ((q1 ++ [l]) ++ u) y) eqn:HY.
  - right. apply hit_cache in HY. exact (cache_stays _ _ _ _ HY NU).
  - left. apply A, in_or_app. right. unfold R. rewrite EQ, missed_app. cbn [missed]. rewrite HY. apply in_or_app. right. now left.
Qed.
Lemma second_level n1 n2 : forall future past, misses_after (n1 + n2) past future <= misses_after n2 (missed n1 [] past) (missed n1 past future).
Proof.
  induction future as [|l future IH]; intros past; cbn [missed misses_after]; [lia|]. specialize (IH (past ++ [l])). rewrite missed_snoc in IH. destruct (hit n1 past l) eqn:H1; cbn [app misses_after].
  - rewrite (hit_more n1 (n1 + n2) past l ltac:(lia) H1). rewrite app_nil_r in IH. lia.
  - destruct (hit n2 (missed n1 [] past) l) eqn:H2; [rewrite (two_caches _ _ _ _ H2); lia|]. destruct (hit (n1 + n2) past l); lia.
Qed.
Lemma hierarchy_lower n : forall above past future, misses_after (together above + n) past future <= level_misses above n past future.
Proof.
  induction above as [|m above IH]; intros past future; cbn [together fold_right level_misses]; [reflexivity|]. fold (together above).
  etransitivity; [|apply IH]. rewrite <- Nat.add_assoc. apply second_level.
Qed.

(** ** Misses of single accesses *)
Fixpoint sum_after (f : list line -> line -> Z) (past future : list line) : Z := match future with [] => 0 | l :: future' => f past l + sum_after f (past ++ [l]) future' end.
Fixpoint deep_miss (above : list nat) (n : nat) (past : list line) (l : line) : Z :=
  match above with [] => if hit n past l then 0 else 1 | m :: above' => if hit m past l then 0 else deep_miss above' n (missed m [] past) l end.
Lemma sum_after_missed f m : forall future past, sum_after f (missed m [] past) (missed m past future) = sum_after (fun p l => if hit m p l then 0 else f (missed m [] p) l) past future.
Proof.
  induction future as [|l future IH]; intros past; cbn [missed sum_after]; [reflexivity|]. rewrite <- IH, missed_snoc. destruct (hit m past l); cbn [app sum_after]; [now rewrite app_nil_r|reflexivity].
Qed.
Lemma sum_after_app f a : forall past b, sum_after f past (a ++ b) = sum_after f past a + sum_after f (past ++ a) b.
Proof. induction a as [|l a IH]; intros past b; cbn [app sum_after]; [now rewrite app_nil_r|]. rewrite IH, <- app_assoc. cbn [app]. lia. Qed.
Lemma level_sum n : forall above past future, level_misses above n past future = sum_after (deep_miss above n) past future.
Proof.
  induction above as [|m above IH]; intros past future; cbn [level_misses deep_miss].
  - revert past. induction future as [|l future IH]; intros past; cbn [misses_after sum_after]; [reflexivity|]. now rewrite IH.
  - rewrite IH, sum_after_missed. reflexivity.
Qed.
Lemma deep_bounds n l : forall above past, 0 <= deep_miss above n past l <= 1.
Proof. induction above as [|m above IH]; intros past; cbn [deep_miss]; [destruct (hit n past l); lia|]. destruct (hit m past l); [lia|apply IH]. Qed.
(** The first access to a line reaches all levels. *)
Lemma deep_hit n l c : (length (nodup line_dec (l :: c)) <= n)%nat -> forall above a b, ~ In l a -> incl b c -> deep_miss above n (a ++ l :: b) l = 0.
Proof.
  intros LN. induction above as [|m above IH]; intros a b N I; cbn [deep_miss]; [now rewrite (hit_within n a l b c)|]. destruct (hit m (a ++ l :: b) l); [reflexivity|].
  rewrite missed_app. cbn [app missed]. rewrite (hit_never m a l N). cbn [app]. apply IH.
  - intros J. apply N. exact (missed_incl _ _ _ _ J).
  - intros y J. apply I. exact (missed_incl _ _ _ _ J).
Qed.

(** ** Streams *)
Definition dmiss (above : list nat) (n : nat) (L : Z) (refs : list ref) (s t : Z) (pre : list ref) (r : ref) : Z := deep_miss above n (before_access L refs (positions s t) t pre) (line_of L t r).
Lemma row_deep above n L refs s t : forall l pre, sum_after (deep_miss above n) (before_access L refs (positions s t) t pre) (map (line_of L t) l) = sum_from (dmiss above n L refs s t) pre l.
Proof.
  induction l as [|r l IH]; intros pre; [reflexivity|]. cbn [map sum_after sum_from]. rewrite <- IH. unfold dmiss. f_equal. f_equal. unfold before_access. now rewrite <- app_assoc, map_app.
Qed.
Lemma block_deep above n L refs s t : s <= t -> forall j, sum_after (deep_miss above n) (trace L refs (positions s t)) (trace L refs (positions t (t + Z.of_nat j)))
  = zsum (map (fun i => sum_from (dmiss above n L refs s (t + Z.of_nat i)) [] refs) (seq 0 j)).
Proof.
  intros ST. induction j as [|j IH].
  - replace (positions t (t + Z.of_nat 0)) with (@nil Z); [reflexivity|]. unfold positions. replace (Z.to_nat (t + Z.of_nat 0 - t)) with 0%nat by lia. reflexivity.
  - replace (t + Z.of_nat (S j)) with (t + Z.of_nat j + 1) by lia. rewrite positions_snoc, trace_app, sum_after_app, IH by lia. rewrite seq_S, map_app, zsum_app. cbn [map plus]. f_equal.
    rewrite <- trace_app, <- positions_app by lia. cbn [trace flat_map]. rewrite app_nil_r. unfold iteration. rewrite <- row_deep. unfold before_access. cbn [map]. rewrite app_nil_r.
    match goal with |- ?x = zsum [?y] => change (zsum [y]) with (y + 0) end. now rewrite Z.add_0_r.
Qed.
Lemma maximum_some l m : maximum l = Some m -> In m l /\ forall x, In x l -> x <= m.
Proof.
  destruct l as [|x l]; [discriminate|]. intros [= <-]. induction l as [|y l IH]; cbn [fold_right].
  - split; [now left|]. intros z [->|[]]. lia.
  - destruct IH as [I M]. split.
    + destruct (Z.max_spec y (fold_right Z.max x l)) as [[_ ->]|[_ ->]]; [destruct I as [I|I]; [now left|right; now right]|right; now left].
    + intros z [->|[->|J]]; [specialize (M z (or_introl eq_refl)); lia|lia|specialize (M z (or_intror J)); lia].
Qed.
Lemma maximum_none l : maximum l = None -> l = []. Proof. destruct l; [reflexivity|discriminate]. Qed.
Definition new (P : ref -> bool) (pre : list ref) (r : ref) : Z := if (P r && negb (existsb (ref_eqb r) pre))%bool then 1 else 0.
Lemma new_distinct P l : sum_from (new P) [] l = distinct (filter P l).
Proof.
  induction l as [|r l IH] using rev_ind; [reflexivity|]. rewrite sum_from_app, IH. cbn [sum_from app]. rewrite filter_app. cbn [filter]. unfold new. destruct (P r) eqn:PR; cbn [andb]; [|rewrite app_nil_r; lia].
  rewrite distinct_snoc. replace (existsb (ref_eqb r) (filter P l)) with (existsb (ref_eqb r) l); [destruct (existsb (ref_eqb r) l); cbn [negb]; lia|].
  apply Bool.eq_iff_eq_true. rewrite !before_in, filter_In. intuition.
Qed.
Section Streams.
  Context (n1 : nat) (above : list nat) (n : nat) (L : Z) (refs : list ref) (s t : Z).
  Hypothesis LP : 0 < L.
  Hypothesis ST : s < t.
  Notation len := (Z.of_nat (length refs)).
  (** A reference which is held finds its line, however often it was used in the levels above. *)
  Lemma held_hit r pre post u : refs = pre ++ r :: post -> held n L refs r = true -> t <= u -> (forall v, farthest refs r = Some v -> s <= t - v - L) -> dmiss (n1 :: above) n L refs s u pre r = 0.
  Proof.
    intros E H TU WA. unfold held in H. destruct (farthest refs r) as [v|] eqn:F; [|discriminate]. apply Z.leb_le in H. specialize (WA v eq_refl). unfold farthest in F. apply maximum_some in F as [IV MV].
    apply larger_in in IV as (q & IQ & FQ & LQ & EV). unfold dmiss, before_access. set (x := u - v - (L - 1)). rewrite (positions_app s x u) by lia. rewrite trace_app, <- app_assoc.
    set (W := trace L refs (positions x u) ++ map (line_of L u) pre). set (l := line_of L u r). assert (IR : In r refs) by (rewrite E; apply in_or_app; right; now left).
    assert (IW : In l W).
    { apply in_or_app. left. apply trace_in. exists (u - v), q. split; [apply positions_in; lia|]. split; [assumption|]. unfold l, line_of. rewrite FQ. do 2 f_equal. lia. }
    assert (NT : ~ In l (trace L refs (positions s x))).
    { intros I. apply trace_in in I as (p & z & IP & IZ & EZ). apply positions_in in IP. unfold l, line_of in EZ. injection EZ as E1 E2.
      assert (SZ : snd z <= snd q). { destruct (Z.lt_ge_cases (snd r) (snd z)) as [C|C]; [|lia]. assert (M := MV (snd z - snd r) ltac:(apply larger_in; exists z; auto)). lia. }
      pose proof (Z.div_mod (snd r + u) L ltac:(lia)). pose proof (Z.mod_pos_bound (snd r + u) L LP). pose proof (Z.div_mod (snd z + p) L ltac:(lia)). pose proof (Z.mod_pos_bound (snd z + p) L LP). unfold x in *. nia. }
    assert (WW : Forall (in_window L refs x (v + L)) W).
    { apply Forall_forall. intros y I. apply in_app_or in I as [I|I].
      - apply trace_in in I as (p & z & IP & IZ & ->). apply positions_in in IP. exists z, p. split; [assumption|]. split; [unfold x in *; lia|reflexivity].
      - apply in_map_iff in I as (z & <- & I). exists z, u. split; [rewrite E; apply in_or_app; now left|]. split; [unfold x; lia|reflexivity]. }
    destruct (first_access l W IW) as (w1 & w2 & EW & NW). rewrite EW, app_assoc. apply (deep_hit n l (cover_lines L refs [] refs x (v + L))).
    - assert (LE : (length (nodup line_dec (l :: cover_lines L refs [] refs x (v + L))) <= length (cover_lines L refs [] refs x (v + L)))%nat).
      { apply NoDup_incl_length; [apply NoDup_nodup|]. intros y J. apply nodup_In in J as [<-|J]; [|assumption]. apply window_covered; [assumption|]. rewrite Forall_forall in WW. now apply WW. }
      pose proof (cover_lines_length L refs x (v + L) LP ltac:(lia) refs []) as CL. fold (distances refs) in CL. rewrite <- needed_clip in CL. nia.
    - intros I. apply in_app_or in I as [I|I]; [now apply NT|now apply NW].
    - intros y J. apply window_covered; [assumption|]. rewrite Forall_forall in WW. apply WW. rewrite EW. apply in_or_app. right. now right.
  Qed.
  Hypothesis FIT : needed (distances refs) 2 + 2 * len * (L - 1) <= Z.of_nat n1 * L.
  Lemma deep_again r pre post u : refs = pre ++ r :: post -> In r pre -> dmiss (n1 :: above) n L refs s u pre r = 0.
  Proof.
    intros E I. unfold dmiss. cbn [deep_miss]. rewrite (access_hit n1 L refs pre r post (positions s u) u 0); try assumption; [reflexivity| | |].
    - unfold distance. apply before_in in I. now rewrite I.
    - intros C. lia.
    - pose proof (needed_mono (distances refs) (0 + 1) 2 ltac:(lia)). lia.
  Qed.
  Lemma deep_neighbour r pre post u : refs = pre ++ r :: post -> t <= u -> (snd r + u) mod L <> 0 -> dmiss (n1 :: above) n L refs s u pre r = 0.
  Proof.
    intros E TU M. unfold dmiss. cbn [deep_miss]. replace (positions s u) with (positions s (u - 1) ++ [u - 1]); [now rewrite (neighbour_hit n1 L refs pre r post)|].
    rewrite <- positions_snoc by lia. f_equal. lia.
  Qed.
  Lemma ref_deep r pre post : refs = pre ++ r :: post -> 0 <= zsum (map (fun i => dmiss (n1 :: above) n L refs s (t + Z.of_nat i) pre r) (seq 0 (Z.to_nat L))) <= 1.
  Proof.
    intros E. destruct (entering L t LP r) as (i & IL & M & U). apply zsum_at_most_one; [apply seq_NoDup|intros k _; apply deep_bounds|].
    assert (G : forall k, In k (seq 0 (Z.to_nat L)) -> dmiss (n1 :: above) n L refs s (t + Z.of_nat k) pre r <> 0 -> k = i).
    { intros k I N0. apply in_seq in I. apply U; [lia|]. destruct (Z.eq_dec ((snd r + (t + Z.of_nat k)) mod L) 0) as [Q|Q]; [assumption|]. exfalso. apply N0. apply (deep_neighbour r pre post); [assumption|lia|assumption]. }
    intros a b Ia Ib Na Nb. rewrite (G a Ia Na), (G b Ib Nb). reflexivity.
  Qed.
  Hypothesis WARM : forall r v, In r refs -> farthest refs r = Some v -> s <= t - v - L.
  Lemma hierarchy_upper : level_misses (n1 :: above) n (trace L refs (positions s t)) (trace L refs (positions t (t + L))) <= distinct (filter (fun r => negb (held n L refs r)) refs).
  Proof.
    rewrite level_sum. replace (t + L) with (t + Z.of_nat (Z.to_nat L)) by lia. rewrite block_deep, sum_from_zsum, <- new_distinct by lia. apply sum_from_le. intros pre r post E. cbn [app]. unfold new.
    destruct (held n L refs r) eqn:H; cbn [negb andb].
    - rewrite zsum_zero; [lia|]. intros i I. apply (held_hit r pre post); [assumption|assumption|lia|]. intros v F. apply (WARM r v); [rewrite E; apply in_or_app; right; now left|assumption].
    - destruct (existsb (ref_eqb r) pre) eqn:B; cbn [negb]; [|apply (ref_deep r pre post E)]. rewrite zsum_zero; [lia|]. intros i I. apply (deep_again r pre post); [assumption|now apply before_in].
  Qed.
  Lemma warm_near v : In (Some v) (distances refs) -> s <= t - v.
  Proof.
    intros I. assert (G : forall l b, refs = b ++ l -> In (Some v) (distances_from refs b l) -> s <= t - v).
    { induction l as [|r l IH]; intros b E J; [contradiction|]. cbn [distances_from] in J. destruct J as [J|J]; [|apply (IH (b ++ [r])); [now rewrite <- app_assoc|assumption]].
      assert (IR : In r refs) by (rewrite E; apply in_or_app; right; now left). unfold distance in J. destruct (existsb (ref_eqb r) b); [injection J as <-; lia|]. apply minimum_some in J as [J _].
      destruct (farthest refs r) as [m|] eqn:F; [|unfold farthest in F; apply maximum_none in F; rewrite F in J; contradiction]. specialize (WARM r m IR F). unfold farthest in F. apply maximum_some in F as [_ M]. specialize (M v J). lia. }
    exact (G refs [] eq_refl I).
  Qed.
  Lemma hierarchy_missing : missing (distances refs) (Z.of_nat (together (n1 :: above) + n) * L + len * L) <= level_misses (n1 :: above) n (trace L refs (positions s t)) (trace L refs (positions t (t + L))).
  Proof.
    etransitivity; [|apply hierarchy_lower]. apply (misses_bounds (together (n1 :: above) + n) L refs s t LP ST); [|exact warm_near]. etransitivity; [exact FIT|]. apply Z.mul_le_mono_nonneg_r; [lia|]. cbn [together fold_right]. lia.
  Qed.
End Streams.
(** References without a distance are the first ones of their array. *)
Lemma none_first refs size : distinct (filter (first_of_array refs) refs) <= missing (distances refs) size.
Proof.
  rewrite <- new_distinct. unfold missing. assert (G : forall l b, refs = b ++ l -> sum_from (new (first_of_array refs)) b l
    <= Z.of_nat (length (filter (fun v => match v with Some x => size <? needed (distances refs) x | None => true end) (distances_from refs b l)))).
  { induction l as [|r l IH]; intros b E; [cbn; lia|]. cbn [sum_from distances_from filter]. specialize (IH (b ++ [r])). rewrite <- app_assoc in IH. specialize (IH E). unfold new at 1.
    destruct (first_of_array refs r && negb (existsb (ref_eqb r) b))%bool eqn:C; [|destruct (distance refs b r) as [x|]; [destruct (size <? needed (distances refs) x)|]; cbn [length]; lia].
    apply andb_prop in C as [C1 C2]. unfold distance. destruct (existsb (ref_eqb r) b); [discriminate|]. unfold first_of_array, farthest in C1. destruct (maximum (larger refs r)) eqn:M; [discriminate|]. apply maximum_none in M. rewrite M. cbn [minimum length]. lia. }
  exact (G refs [] eq_refl).
Qed.
Lemma all_held n L refs r : (forall q, In q refs -> held n L refs q = true \/ first_of_array refs q = true) -> In r refs -> negb (held n L refs r) = first_of_array refs r.
Proof.
  intros A I. destruct (A r I) as [H|H]; [rewrite H|rewrite H]; unfold held, first_of_array in *; destruct (farthest refs r); try discriminate; try reflexivity.
Qed.
(** Predicted misses if everything is held *)
Lemma missing_held n L refs size : 0 < L -> (forall q, In q refs -> held n L refs q = true \/ first_of_array refs q = true) -> 0 <= size ->
  Z.of_nat n * L - 2 * Z.of_nat (length refs) * (L - 1) <= size -> missing (distances refs) size = distinct (filter (first_of_array refs) refs).
Proof.
  intros LP A S0 SZ. rewrite <- new_distinct. unfold missing. assert (G : forall l b, refs = b ++ l -> sum_from (new (first_of_array refs)) b l
    = Z.of_nat (length (filter (fun v => match v with Some x => size <? needed (distances refs) x | None => true end) (distances_from refs b l)))).
  { induction l as [|r l IH]; intros b E; [reflexivity|]. cbn [sum_from distances_from filter]. specialize (IH (b ++ [r])). rewrite <- app_assoc in IH. specialize (IH E). rewrite IH. unfold new.
    assert (IR : In r refs) by (rewrite E; apply in_or_app; right; now left). unfold distance.
    destruct (existsb (ref_eqb r) b) eqn:B; cbn [negb].
    - rewrite andb_false_r. pose proof (needed_upper (distances refs) 0 ltac:(lia)). replace (size <? needed (distances refs) 0) with false by (symmetry; apply Z.ltb_ge; lia). lia.
    - rewrite andb_true_r. unfold first_of_array. destruct (A r IR) as [H|H].
      + unfold held in H. destruct (farthest refs r) as [m|] eqn:F; [|discriminate]. apply Z.leb_le in H. unfold farthest in F. apply maximum_some in F as [IM M].
        destruct (minimum (larger refs r)) as [v|] eqn:V; [|apply minimum_none in V; rewrite V in IM; contradiction]. apply minimum_some in V as [IV _]. specialize (M v IV).
        pose proof (needed_mono (distances refs) v (m + L) ltac:(lia)). replace (size <? needed (distances refs) v) with false by (symmetry; apply Z.ltb_ge; lia). lia.
      + unfold first_of_array in H. destruct (farthest refs r) as [m|] eqn:F; [discriminate|]. unfold farthest in F. apply maximum_none in F. rewrite F. cbn [minimum length]. lia. }
  symmetry. exact (G refs [] eq_refl).
Qed.
Lemma hierarchy_exact n1 above n L refs s t : 0 < L -> s < t -> needed (distances refs) 2 + 2 * Z.of_nat (length refs) * (L - 1) <= Z.of_nat n1 * L ->
  (forall r v, In r refs -> farthest refs r = Some v -> s <= t - v - L) -> (forall q, In q refs -> held n L refs q = true \/ first_of_array refs q = true) ->
  level_misses (n1 :: above) n (trace L refs (positions s t)) (trace L refs (positions t (t + L))) = distinct (filter (first_of_array refs) refs).
Proof.
  intros LP ST FIT WA A. pose proof (hierarchy_upper n1 above n L refs s t LP ST FIT WA) as U. pose proof (hierarchy_missing n1 above n L refs s t LP ST FIT WA) as M.
  pose proof (none_first refs (Z.of_nat (together (n1 :: above) + n) * L + Z.of_nat (length refs) * L)) as F.
  rewrite (filter_ext_in (fun r => negb (held n L refs r)) (first_of_array refs)) in U; [lia|]. intros r I. now apply all_held.
Qed.
