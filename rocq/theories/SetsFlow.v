(** Proofs for C138: executed code and caches with sets, after the proofs for C118. *)
From Coq Require Import String Permutation Sorted Lia.
From Verif Require Import PyBase PyBaseFacts LoopModel LoopSpec LoopProofs AstModel AstSpec AstProofs LCModel LCSpec LCProofs LruSpec LruProofs LruLink FlowProofs SetsSpec SetsProofs.
Local Open Scope list_scope.
Local Open Scope Z_scope.

Section Window.
  Context (sets : Z) (ways : nat) (base : nat -> Z) (L : Z) (xs refs : list ref).
  Hypothesis SP : 0 < sets.
  Hypothesis LP : 0 < L.
  Hypothesis SAME : same_in xs refs.
  Notation vs := (distances refs).
  Notation len := (Z.of_nat (length refs)).
  Notation size := (sets * Z.of_nat ways * L).
  Notation hs := (hit_in_set sets ways (in_memory base)).
  Lemma in_xs r : In r xs -> In r refs. Proof. apply SAME. Qed.
  Lemma row_window x w t l : x <= t < x + w -> incl l xs -> Forall (in_window L refs x w) (map (line_of L t) l).
  Proof. intros H I. apply Forall_forall. intros y J. apply in_map_iff in J as (q & <- & J). exists q, t. split; [now apply in_xs, I|]. split; [lia|reflexivity]. Qed.
  Lemma again_hit ts t pre r post : xs = pre ++ r :: post -> In r pre -> needed vs 1 + len * (2 * (L - 1) + L * (sets - 1)) <= size -> hs (trace L xs ts ++ map (line_of L t) pre) (line_of L t r) = true.
  Proof.
    intros E I H. apply in_split in I as (a & b & EP). rewrite EP, map_app. cbn [map]. rewrite app_assoc.
    assert (IB : incl b xs) by (intros y J; rewrite E, EP; apply in_or_app; left; apply in_or_app; right; now right). assert (IR : In r xs) by (rewrite E; apply in_or_app; right; now left).
    apply (sets_window sets ways base SP L refs t 1); [assumption|lia| |apply row_window; [lia|assumption]|assumption]. exists r, t. split; [now apply in_xs|]. split; [lia|reflexivity].
  Qed.
  Lemma trace_window x w ts : Forall (fun p => x <= p < x + w) ts -> Forall (in_window L refs x w) (trace L xs ts).
  Proof.
    intros F. apply Forall_forall. intros y J. apply trace_in in J as (p & z & IP & IZ & ->). rewrite Forall_forall in F. specialize (F p IP). exists z, p. split; [now apply in_xs|]. split; [lia|reflexivity].
  Qed.
  Lemma reuse_hit ts1 ts2 t pre r post v : xs = pre ++ r :: post -> reuse refs r = Some v -> Forall (fun p => t - v <= p < t) ts2 -> needed vs (v + 1) + len * (2 * (L - 1) + L * (sets - 1)) <= size ->
    hs (trace L xs (ts1 ++ (t - v) :: ts2) ++ map (line_of L t) pre) (line_of L t r) = true.
  Proof.
    intros E D F H. unfold reuse in D. apply minimum_some in D as [I _]. apply larger_in in I as (q & IQ & FQ & LT & EV).
    assert (IR : In r xs) by (rewrite E; apply in_or_app; right; now left). apply SAME in IQ. apply in_split in IQ as (a & b & EQ).
    rewrite trace_app. cbn [trace flat_map]. unfold iteration at 1.
    assert (EL : line_of L (t - v) q = line_of L t r) by (unfold line_of; rewrite FQ; f_equal; f_equal; lia).
    assert (EM : map (line_of L (t - v)) xs = map (line_of L (t - v)) a ++ line_of L t r :: map (line_of L (t - v)) b) by (rewrite <- EL; rewrite EQ at 1; now rewrite map_app).
    rewrite EM. rewrite <- !app_assoc, app_assoc. rewrite <- app_comm_cons. apply (sets_window sets ways base SP L refs (t - v) (v + 1)); [assumption|lia| | |assumption].
    - exists r, t. split; [now apply in_xs|]. split; [lia|reflexivity].
    - apply Forall_app. split; [apply row_window; [lia|]; intros y J; rewrite EQ; apply in_or_app; right; now right|]. apply Forall_app. split.
      + apply trace_window. eapply Forall_impl; [|exact F]. cbn. intros; lia.
      + apply row_window; [lia|]. intros y J. rewrite E. apply in_or_app. now left.
  Qed.
  Lemma near_hit ts t pre r post : xs = pre ++ r :: post -> (snd r + t) mod L <> 0 -> needed vs 2 + len * (2 * (L - 1) + L * (sets - 1)) <= size ->
    hs (trace L xs (ts ++ [t - 1]) ++ map (line_of L t) pre) (line_of L t r) = true.
  Proof.
    intros E M H. assert (IR : In r xs) by (rewrite E; apply in_or_app; right; now left). rewrite trace_app. cbn [trace flat_map]. rewrite app_nil_r. unfold iteration.
    assert (EL : line_of L (t - 1) r = line_of L t r).
    { unfold line_of. f_equal. replace (snd r + (t - 1)) with (snd r + t - 1) by lia. set (y := snd r + t) in *. pose proof (Z.div_mod y L ltac:(lia)). pose proof (Z.mod_pos_bound y L LP). symmetry; apply (Z.div_unique_pos (y - 1) L (y / L) (y mod L - 1)); lia. }
    assert (EM : map (line_of L (t - 1)) xs = map (line_of L (t - 1)) pre ++ line_of L t r :: map (line_of L (t - 1)) post) by (rewrite <- EL; rewrite E at 1; now rewrite map_app).
    rewrite EM. rewrite <- !app_assoc, app_assoc. rewrite <- app_comm_cons. apply (sets_window sets ways base SP L refs (t - 1) 2); [assumption|lia| | |assumption].
    - exists r, t. split; [now apply in_xs|]. split; [lia|reflexivity].
    - apply Forall_app. split; apply row_window; try lia; intros y J; rewrite E; apply in_or_app; [right; now right|now left].
  Qed.
  (** Sums of misses *)
  Definition missed (ts : list Z) (t : Z) (pre : list ref) (r : ref) : Z := if hs (trace L xs ts ++ map (line_of L t) pre) (line_of L t r) then 0 else 1.
  Fixpoint row (ts : list Z) (t : Z) (pre l : list ref) : Z := match l with [] => 0 | r :: l' => missed ts t pre r + row ts t (pre ++ [r]) l' end.
  Lemma row_is ts t : forall l pre, misses_in_sets sets ways base (trace L xs ts ++ map (line_of L t) pre) (map (line_of L t) l) = row ts t pre l.
  Proof. induction l as [|r l IH]; intros pre; [reflexivity|]. cbn [map misses_in_sets row]. f_equal. rewrite <- IH. f_equal. now rewrite <- app_assoc, map_app. Qed.
  Lemma block_is ts t : forall j, misses_in_sets sets ways base (trace L xs ts) (trace L xs (positions t (t + Z.of_nat j)))
    = zsum (map (fun i => row (ts ++ positions t (t + Z.of_nat i)) (t + Z.of_nat i) [] xs) (seq 0 j)).
  Proof.
    induction j as [|j IH].
    - replace (positions t (t + Z.of_nat 0)) with (@nil Z); [reflexivity|]. unfold positions. replace (Z.to_nat (t + Z.of_nat 0 - t)) with 0%nat by lia. reflexivity.
    - replace (t + Z.of_nat (S j)) with (t + Z.of_nat j + 1) by lia. rewrite positions_snoc, trace_app, sets_app, IH by lia. rewrite seq_S, map_app, zsum_app. cbn [map plus]. f_equal.
      rewrite <- trace_app. cbn [trace flat_map]. rewrite app_nil_r. unfold iteration. rewrite <- row_is. cbn [map]. rewrite app_nil_r. cbn. lia.
  Qed.
  Fixpoint column (f : nat -> list ref -> ref -> Z) (j : nat) (pre l : list ref) : Z :=
    match l with [] => 0 | r :: l' => zsum (map (fun i => f i pre r) (seq 0 j)) + column f j (pre ++ [r]) l' end.
  Lemma columns ts t j : forall l pre, zsum (map (fun i => row (ts ++ positions t (t + Z.of_nat i)) (t + Z.of_nat i) pre l) (seq 0 j))
    = column (fun i pre r => missed (ts ++ positions t (t + Z.of_nat i)) (t + Z.of_nat i) pre r) j pre l.
  Proof.
    induction l as [|r l IH]; intros pre; cbn [row column]; [|rewrite zsum_plus, IH; reflexivity].
    induction (seq 0 j) as [|i is IHi]; [reflexivity|]. exact IHi.
  Qed.
  Lemma missed_bounds ts t pre r : 0 <= missed ts t pre r <= 1. Proof. unfold missed. destruct (hs _ _); lia. Qed.
  Hypothesis FIT : needed vs 2 + len * (2 * (L - 1) + L * (sets - 1)) <= size.
  Lemma fit_one : needed vs 1 + len * (2 * (L - 1) + L * (sets - 1)) <= size.
  Proof.
    assert (needed vs 1 <= needed vs 2); [|lia]. rewrite !needed_clip. clear FIT. generalize (distances refs) as l. induction l as [|v l IH]; [cbn; lia|]. cbn [map].
    change (zsum (clip v 1 :: map (fun v => clip v 1) l)) with (clip v 1 + zsum (map (fun v => clip v 1) l)). change (zsum (clip v 2 :: map (fun v => clip v 2) l)) with (clip v 2 + zsum (map (fun v => clip v 2) l)).
    assert (clip v 1 <= clip v 2) by (destruct v; cbn; lia). lia.
  Qed.
  Context (ts : list Z) (t : Z).
  Hypothesis LAST : exists ts0, ts = ts0 ++ [t - 1].
  Notation here i := (ts ++ positions t (t + Z.of_nat i)).
  Lemma just_before i : exists ts0, here i = ts0 ++ [t + Z.of_nat i - 1].
  Proof.
    destruct i as [|i]; [destruct LAST as (ts0 & ->); exists ts0; replace (positions t (t + Z.of_nat 0)) with (@nil Z); [rewrite app_nil_r; f_equal; f_equal; lia|]; unfold positions; replace (Z.to_nat (t + Z.of_nat 0 - t)) with 0%nat by lia; reflexivity|].
    exists (ts ++ positions t (t + Z.of_nat i)). rewrite <- app_assoc. f_equal. replace (t + Z.of_nat (S i)) with (t + Z.of_nat i + 1) by lia. rewrite positions_snoc by lia. f_equal. f_equal. lia.
  Qed.
  Lemma one_miss pre r post : xs = pre ++ r :: post -> 0 <= zsum (map (fun i => missed (here i) (t + Z.of_nat i) pre r) (seq 0 (Z.to_nat L))) <= 1.
  Proof.
    intros E. destruct (entering L t LP r) as (i & IL & M & U). apply zsum_at_most_one; [apply seq_NoDup|intros k _; apply missed_bounds|].
    assert (G : forall k, In k (seq 0 (Z.to_nat L)) -> missed (here k) (t + Z.of_nat k) pre r <> 0 -> k = i).
    { intros k I N. apply in_seq in I. apply U; [lia|]. destruct (Z.eq_dec ((snd r + (t + Z.of_nat k)) mod L) 0) as [Q|Q]; [assumption|]. exfalso. apply N. unfold missed.
      destruct (just_before k) as (ts0 & ->). now rewrite (near_hit ts0 (t + Z.of_nat k) pre r post E Q FIT). }
    intros a b Ia Ib Na Nb. rewrite (G a Ia Na), (G b Ib Nb). reflexivity.
  Qed.
  Definition lost_in (bound : Z) (v : option Z) : bool := match v with Some x => bound <? needed vs x | None => true end.
  Hypothesis SORTED : StronglySorted Z.lt (ts ++ positions t (t + L)).
  Hypothesis WARM : forall r v i, In r refs -> reuse refs r = Some v -> 0 <= i < L -> In (t + i - v) (ts ++ positions t (t + L)).
  Lemma no_miss pre r post : xs = pre ++ r :: post -> In r pre \/ lost_in (size - len * (L * sets + L - 1)) (reuse refs r) = false ->
    zsum (map (fun i => missed (here i) (t + Z.of_nat i) pre r) (seq 0 (Z.to_nat L))) = 0.
  Proof.
    intros E C. apply zsum_zero. intros i I. apply in_seq in I. unfold missed. assert (IR : In r refs) by (apply in_xs; rewrite E; apply in_or_app; right; now left).
    destruct C as [C|C]; [now rewrite (again_hit (here i) (t + Z.of_nat i) pre r post E C fit_one)|]. destruct (reuse refs r) as [v|] eqn:D; [|discriminate]. cbn [lost_in] in C. apply Z.ltb_ge in C.
    assert (VP : 0 < v) by (unfold reuse in D; apply minimum_some in D as [J _]; apply larger_in in J as (q & _ & _ & LT & ->); lia).
    pose proof (WARM r v (Z.of_nat i) IR D ltac:(lia)) as W.
    assert (EQ : ts ++ positions t (t + L) = here i ++ positions (t + Z.of_nat i) (t + L)) by (rewrite (positions_app t (t + Z.of_nat i) (t + L)) by lia; apply app_assoc).
    rewrite EQ in W. assert (IH' : In (t + Z.of_nat i - v) (here i)) by (apply in_app_or in W as [W|W]; [exact W|apply positions_in in W; lia]). apply in_split in IH' as (ts1 & ts2 & EH).
    rewrite EH. rewrite (reuse_hit ts1 ts2 (t + Z.of_nat i) pre r post v E D); [reflexivity| |].
    - pose proof SORTED as S1. rewrite EQ, EH in S1. apply sorted_split in S1 as (S1 & S2 & _). apply sorted_split in S1 as (_ & _ & S3). apply StronglySorted_inv in S3 as [_ S3]. rewrite Forall_forall in S3.
      apply Forall_forall. intros p J. specialize (S3 p J). assert (p < t + Z.of_nat i); [|lia]. apply S2; [apply in_or_app; right; now right|]. apply positions_in. lia.
    - pose proof (needed_lipschitz vs v 1 ltac:(lia)) as H. assert (DL : length vs = length refs) by apply distances_length. rewrite DL in H. lia.
  Qed.
  Lemma column_upper : forall l pre, xs = pre ++ l -> column (fun i pre r => missed (here i) (t + Z.of_nat i) pre r) (Z.to_nat L) pre l
    <= Z.of_nat (length (filter (fun r => lost_in (size - len * (L * sets + L - 1)) (reuse refs r)) (fresh pre l))).
  Proof.
    induction l as [|r l IH]; intros pre E; cbn [column fresh]; [cbn; lia|]. specialize (IH (pre ++ [r])). rewrite <- app_assoc in IH. specialize (IH E). pose proof (one_miss pre r l E) as O.
    destruct (existsb (ref_eqb r) pre) eqn:B; [apply before_in in B; rewrite (no_miss pre r l E (or_introl B)); lia|]. cbn [filter].
    destruct (lost_in (size - len * (L * sets + L - 1)) (reuse refs r)) eqn:LO; [cbn [length]; lia|]. rewrite (no_miss pre r l E (or_intror LO)). lia.
  Qed.
  Lemma window_upper : misses_in_sets sets ways base (trace L xs ts) (trace L xs (positions t (t + L))) <= missing vs (size - len * (L * sets + L - 1)).
  Proof.
    replace (positions t (t + L)) with (positions t (t + Z.of_nat (Z.to_nat L))) by (f_equal; lia). rewrite block_is, columns. pose proof (column_upper xs [] eq_refl) as H.
    rewrite (filter_length_perm _ _ _ (fresh_perm _ _ SAME)) in H. destruct (missing_fresh refs (lost_in (size - len * (L * sets + L - 1))) refs []) as [M _]. unfold missing. fold (distances refs) in M.
    change (fun v : option Z => match v with Some x => size - len * (L * sets + L - 1) <? needed vs x | None => true end) with (lost_in (size - len * (L * sets + L - 1))). lia.
  Qed.
End Window.
Section Lower.
  Context (sets : Z) (ways : nat) (base : nat -> Z) (L : Z) (xs refs : list ref) (s t : Z).
  Hypothesis SP : 0 < sets.
  Hypothesis LP : 0 < L.
  Hypothesis SAME : same_in xs refs.
  Hypothesis ST : s <= t.
  Notation vs := (distances refs).
  Notation len := (Z.of_nat (length refs)).
  Notation size := (sets * Z.of_nat ways * L).
  Notation hs := (hit_in_set sets ways (in_memory base)).
  Notation here i := (positions s t ++ positions t (t + Z.of_nat i)).
  Lemma some_miss pre r post : xs = pre ++ r :: post -> ~ In r pre -> lost_in refs (size + len * (L * sets)) (reuse refs r) = true ->
    1 <= zsum (map (fun i => missed sets ways base L xs (here i) (t + Z.of_nat i) pre r) (seq 0 (Z.to_nat L))).
  Proof.
    intros E N LO. destruct (entering L t LP r) as (i & IL & M & _). etransitivity; [|apply (zsum_at_least (fun i => missed sets ways base L xs (here i) (t + Z.of_nat i) pre r) _ i); [apply in_seq; lia|intros k _; apply missed_bounds]].
    unfold missed. rewrite <- positions_app by lia. fold (before_access L xs (positions s (t + Z.of_nat i)) (t + Z.of_nat i) pre).
    rewrite (sets_miss_in sets ways base SP L xs refs pre r post s (t + Z.of_nat i)); [lia|assumption|intros y; apply SAME|assumption|lia|assumption|]. rewrite (distance_reuse xs pre r N), (reuse_same _ _ r SAME). destruct (reuse refs r) as [v|] eqn:D; [|exact Logic.I]. cbn [lost_in] in LO. apply Z.ltb_lt in LO.
    assert (DL : length vs = length refs) by apply distances_length.
    assert (VN : 0 <= v) by (unfold reuse in D; apply minimum_some in D as [J _]; apply larger_in in J as (q & _ & _ & LT & ->); lia).
    assert (LV : L <= v). { destruct (Z.lt_ge_cases v L) as [H|H]; [|assumption]. exfalso. pose proof (needed_upper vs v VN). rewrite DL in *. assert (len * v <= len * (L * sets)) by (apply Z.mul_le_mono_nonneg_l; nia). assert (0 <= size) by nia. lia. }
    split; [assumption|]. pose proof (needed_lipschitz vs (v - L) L ltac:(lia)) as H. replace (v - L + L) with v in H by lia. rewrite DL in H. lia.
  Qed.
  Lemma column_lower : forall l pre, xs = pre ++ l -> Z.of_nat (length (filter (fun r => lost_in refs (size + len * (L * sets)) (reuse refs r)) (fresh pre l)))
    <= column (fun i pre r => missed sets ways base L xs (here i) (t + Z.of_nat i) pre r) (Z.to_nat L) pre l.
  Proof.
    induction l as [|r l IH]; intros pre E; cbn [column fresh]; [cbn; lia|]. specialize (IH (pre ++ [r])). rewrite <- app_assoc in IH. specialize (IH E).
    assert (NN : 0 <= zsum (map (fun i => missed sets ways base L xs (here i) (t + Z.of_nat i) pre r) (seq 0 (Z.to_nat L)))).
    { generalize (seq 0 (Z.to_nat L)) as q. induction q as [|i q IHq]; [cbn; lia|]. cbn [map]. match goal with |- 0 <= zsum (?a :: ?b) => change (zsum (a :: b)) with (a + zsum b); pose proof (missed_bounds sets ways base L xs (here i) (t + Z.of_nat i) pre r) end. lia. }
    destruct (existsb (ref_eqb r) pre) eqn:B; [lia|]. cbn [filter]. destruct (lost_in refs (size + len * (L * sets)) (reuse refs r)) eqn:LO; [|lia]. cbn [length].
    assert (N : ~ In r pre) by (rewrite <- before_in; congruence). pose proof (some_miss pre r l E N LO). lia.
  Qed.
  Lemma window_lower : missing vs (size + len * (L * sets)) <= misses_in_sets sets ways base (trace L xs (positions s t)) (trace L xs (positions t (t + L))).
  Proof.
    replace (positions t (t + L)) with (positions t (t + Z.of_nat (Z.to_nat L))) by (f_equal; lia). rewrite block_is, columns. pose proof (column_lower xs [] eq_refl) as H.
    rewrite (filter_length_perm _ _ _ (fresh_perm _ _ SAME)) in H. destruct (missing_fresh refs (lost_in refs (size + len * (L * sets))) refs []) as [_ M]. unfold missing. fold (distances refs) in M.
    change (fun v : option Z => match v with Some x => size + len * (L * sets) <? needed vs x | None => true end) with (lost_in refs (size + len * (L * sets))). rewrite <- M; [exact H|].
    cbn [lost_in]. apply Z.ltb_ge. pose proof (needed_upper vs 0 ltac:(lia)). nia.
  Qed.
End Lower.
