(** Proofs for C135. *)
From Coq Require Import String Permutation.
From Verif Require Import PyBase PyBaseFacts AstModel LCModel LCSpec LCProofs FrontModel FrontSpec LruSpec LruProofs EvictSpec.
Local Open Scope list_scope.
Local Open Scope Z_scope.

(** ** Lines of the cache *)
Lemma map_filter_line a c : map fst (filter (fun x => negb (same_line a x)) c) = filter (fun x => negb (line_eqb x (fst a))) (map fst c).
Proof. induction c as [|x c IH]; [reflexivity|]. cbn [filter map]. unfold same_line at 1. destruct (line_eqb (fst x) (fst a)); cbn [negb map]; now rewrite IH. Qed.
Lemma wb_snoc n past a : wb_after n (past ++ [a]) = wb_touch n (wb_after n past) a.
Proof. unfold wb_after. now rewrite fold_left_app. Qed.
Lemma wb_lines n past : map fst (wb_after n past) = cache_after n (map fst past).
Proof.
  induction past as [|a past IH] using rev_ind; [reflexivity|]. rewrite wb_snoc, map_app. cbn [map]. rewrite cache_snoc, <- IH. unfold wb_touch, touch, entered. rewrite <- firstn_map. cbn [map fst]. now rewrite map_filter_line.
Qed.
Lemma firstn_nodup {X} n (l : list X) : NoDup l -> NoDup (firstn n l).
Proof.
  intros H. revert n. induction H as [|x l N H IH]; intros [|n]; cbn [firstn]; try constructor; [|apply IH]. intros I. apply N. rewrite <- (firstn_skipn n l). apply in_or_app. now left.
Qed.
Lemma wb_nodup n past : NoDup (map fst (wb_after n past)).
Proof. rewrite wb_lines, cache_recency. apply firstn_nodup, recency_nodup. Qed.
Lemma wb_hit n past l : hit n (map fst past) l = true <-> In l (map fst (wb_after n past)).
Proof.
  unfold hit. rewrite <- wb_lines. rewrite existsb_exists. split; [intros (x & I & E)|intros I; exists l; split; [assumption|now destruct (line_eqb_spec l l)]]. now destruct (line_eqb_spec l x) as [->|].
Qed.
Lemma firstn_in {X} n (l : list X) x : In x (firstn n l) -> In x l.
Proof. intros H. rewrite <- (firstn_skipn n l). apply in_or_app. now left. Qed.

(** ** Modified lines *)
Definition dirty (n : nat) (past : list event) (l : line) : bool := existsb (fun x => line_eqb (fst x) l && snd x)%bool (wb_after n past).
Definition dirt (n : nat) (past : list event) : Z := Z.of_nat (List.length (filter snd (wb_after n past))).
Definition dirties (n : nat) (past : list event) (a : event) : Z := if (snd a && negb (dirty n past (fst a)))%bool then 1 else 0.
Fixpoint dirtied_after (n : nat) (past future : list event) : Z :=
  match future with [] => 0 | a :: f => dirties n past a + dirtied_after n (past ++ [a]) f end.
Lemma dirty_in n past l : dirty n past l = true <-> In (l, true) (wb_after n past).
Proof.
  unfold dirty. rewrite existsb_exists. split.
  - intros ([l' b] & I & E). cbn [fst snd] in E. destruct (line_eqb_spec l' l) as [->|]; [|discriminate]. cbn in E. now subst b.
  - intros I. exists (l, true). split; [assumption|]. cbn. now destruct (line_eqb_spec l l).
Qed.
Lemma filter_line (a : event) c : NoDup (map fst c) ->
  Z.of_nat (List.length (filter snd c)) = Z.of_nat (List.length (filter snd (filter (fun x => negb (same_line a x)) c))) + (if existsb (fun x => same_line a x && snd x)%bool c then 1 else 0).
Proof.
  induction c as [|x c IH]; intros ND; [reflexivity|]. cbn [map] in ND. inversion ND as [|? ? N1 N2]; subst. specialize (IH N2). cbn [filter existsb].
  assert (E : reflect (fst x = fst a) (same_line a x)) by apply line_eqb_spec. destruct E as [E|E]; cbn [negb andb].
  - assert (F : existsb (fun y => same_line a y && snd y)%bool c = false).
    { apply not_true_is_false. intros X. apply existsb_exists in X as (y & I & Y). unfold same_line in Y. destruct (line_eqb_spec (fst y) (fst a)) as [E'|]; [|discriminate]. apply N1. rewrite E, <- E'. now apply in_map. }
    rewrite F in IH |- *. rewrite orb_false_r. destruct (snd x); cbn [List.length]; lia.
  - cbn [orb filter]. destruct (snd x); cbn [List.length]; lia.
Qed.
Lemma conserved n past a : dirt n (past ++ [a]) + written_back n (wb_after n past) a = dirt n past + dirties n past a.
Proof.
  unfold dirt, written_back, dirties. rewrite wb_snoc. unfold wb_touch. rewrite <- Nat2Z.inj_add, <- app_length, <- filter_app, firstn_skipn.
  rewrite (filter_line a (wb_after n past) (wb_nodup n past)). unfold entered, dirty, same_line. cbn [filter snd fst].
  set (e := existsb _ _). destruct (snd a), e; cbn [orb andb negb List.length]; lia.
Qed.
Lemma conservation n : forall future past, evictions_after n past future + dirt n (past ++ future) = dirt n past + dirtied_after n past future.
Proof.
  induction future as [|a f IH]; intros past; cbn [evictions_after dirtied_after]; [rewrite app_nil_r; lia|].
  specialize (IH (past ++ [a])). rewrite <- app_assoc in IH. cbn [app] in IH. pose proof (conserved n past a). lia.
Qed.
Lemma dirt_bounds n past : 0 <= dirt n past <= Z.of_nat n.
Proof.
  unfold dirt. split; [lia|]. apply inj_le. transitivity (List.length (wb_after n past)).
  - induction (wb_after n past) as [|x c IH]; [reflexivity|]. cbn [filter]. destruct (snd x); cbn [List.length]; lia.
  - rewrite <- (map_length fst), wb_lines, cache_recency. apply firstn_le_length.
Qed.
Lemma between n past future : - Z.of_nat n <= evictions_after n past future - dirtied_after n past future <= Z.of_nat n.
Proof. pose proof (conservation n future past). pose proof (dirt_bounds n past). pose proof (dirt_bounds n (past ++ future)). lia. Qed.

Lemma written_hit n past l : hit n (map fst (past ++ [(l, true)])) l = true -> dirty n (past ++ [(l, true)]) l = true.
Proof.
  intros H. apply wb_hit in H. apply dirty_in. rewrite wb_snoc in H |- *. unfold wb_touch, entered in H |- *. cbn [fst snd orb] in H |- *. destruct n as [|n]; [easy|]. cbn [firstn]. now left.
Qed.
Lemma stays_dirty n past a l : dirty n past l = true -> hit n (map fst (past ++ [a])) l = true -> dirty n (past ++ [a]) l = true.
Proof.
  intros D H. apply wb_hit in H. apply dirty_in. rewrite wb_snoc in H |- *. unfold wb_touch in H |- *. apply in_map_iff in H as ([l' b] & E & I). cbn [fst] in E. subst l'.
  enough (b = true) by now subst b. apply firstn_in in I. unfold entered in I. destruct I as [E|I].
  - injection E as E1 E2. subst b l. unfold dirty in D. unfold same_line. rewrite D. apply orb_true_r.
  - apply filter_In in I as [I _]. apply dirty_in in D. assert (ND := wb_nodup n past). revert D I ND. clear. generalize (wb_after n past). intros c D I ND.
    induction c as [|x c IH]; [easy|]. cbn [map] in ND. inversion ND as [|? ? N1 N2]; subst. destruct D as [->|D], I as [E|I].
    + congruence.
    + exfalso. apply N1. cbn. apply in_map_iff. now exists (l, b).
    + subst x. exfalso. apply N1. cbn. apply in_map_iff. now exists (l, true).
    + now apply IH.
Qed.
Lemma dirty_while n p1 l p2 : (forall q1 q2, p2 = q1 ++ q2 -> hit n (map fst (p1 ++ (l, true) :: q1)) l = true) -> dirty n (p1 ++ (l, true) :: p2) l = true.
Proof.
  induction p2 as [|a p2 IH] using rev_ind; intros H.
  - apply written_hit. apply (H [] []). reflexivity.
  - rewrite app_comm_cons, app_assoc. apply stays_dirty.
    + apply IH. intros q1 q2 E. apply (H q1 (q2 ++ [a])). now rewrite E, app_assoc.
    + rewrite <- app_assoc, <- app_comm_cons. apply (H (p2 ++ [a]) []). now rewrite app_nil_r.
Qed.
Lemma never_written n past l : ~ In (l, true) past -> dirty n past l = false.
Proof.
  intros N. apply not_true_is_false. intros D. apply N. apply dirty_in in D. clear N. revert l D. induction past as [|a past IH] using rev_ind; intros l D; [destruct D|].
  rewrite wb_snoc in D. apply firstn_in in D. apply in_or_app. destruct D as [E|D].
  - injection E as E1 E2. apply orb_prop in E2 as [E2|E2]; [right; left; destruct a; cbn in *; congruence|]. left. apply existsb_exists in E2 as ([l' b] & I & E). unfold same_line in E. cbn [fst snd] in E.
    destruct (line_eqb_spec l' (fst a)) as [->|]; [|discriminate]. cbn in E. subst b. apply IH. now rewrite <- E1.
  - apply filter_In in D as [D _]. left. now apply IH.
Qed.
Lemma absent_clean n past q l : hit n (map fst past) l = false -> ~ In (l, true) q -> dirty n (past ++ q) l = false.
Proof.
  intros H N. apply not_true_is_false. intros D. apply N. apply dirty_in in D. clear N. revert D. induction q as [|a q IH] using rev_ind; intros D.
  - rewrite app_nil_r in D. exfalso. apply not_true_iff_false in H. apply H, wb_hit. apply in_map_iff. now exists (l, true).
  - rewrite app_assoc, wb_snoc in D. apply firstn_in in D. apply in_or_app. destruct D as [E|D].
    + injection E as E1 E2. apply orb_prop in E2 as [E2|E2]; [right; left; destruct a; cbn in *; congruence|]. left. apply existsb_exists in E2 as ([l' b] & I & E). unfold same_line in E. cbn [fst snd] in E.
      destruct (line_eqb_spec l' (fst a)) as [->|]; [|discriminate]. cbn in E. subst b. apply IH. now rewrite <- E1.
    + apply filter_In in D as [D _]. left. now apply IH.
Qed.
Lemma dirty_window n L (refs : list ref) x w p1 l p2 : 0 < L -> 0 <= w -> in_window L refs x w l -> (forall a, In a p2 -> in_window L refs x w (fst a)) ->
  needed (distances refs) w + 2 * Z.of_nat (List.length refs) * (L - 1) <= Z.of_nat n * L -> dirty n (p1 ++ (l, true) :: p2) l = true.
Proof.
  intros LP W IL IP H. apply dirty_while. intros q1 q2 ->. rewrite map_app. cbn [map fst]. apply (hit_window n L refs x w); try assumption.
  apply Forall_forall. intros y I. apply in_map_iff in I as (a & <- & I). apply IP. apply in_or_app. now left.
Qed.

(** ** Sums over the references of an iteration *)
Fixpoint sum_from {X} (f : list X -> X -> Z) (pre l : list X) : Z := match l with [] => 0 | r :: l' => f pre r + sum_from f (pre ++ [r]) l' end.
Lemma sum_from_app {X} (f : list X -> X -> Z) a b : forall pre, sum_from f pre (a ++ b) = sum_from f pre a + sum_from f (pre ++ a) b.
Proof. induction a as [|r a IH]; intros pre; cbn [app sum_from]; [now rewrite app_nil_r|]. rewrite IH, <- app_assoc. cbn [app]. lia. Qed.
Lemma sum_from_le {X} (f g : list X -> X -> Z) l : forall pre, (forall a r b, l = a ++ r :: b -> f (pre ++ a) r <= g (pre ++ a) r) -> sum_from f pre l <= sum_from g pre l.
Proof.
  induction l as [|r l IH]; intros pre H; cbn [sum_from]; [lia|]. pose proof (H [] r l eq_refl) as H0. rewrite app_nil_r in H0. specialize (IH (pre ++ [r])). cut (sum_from f (pre ++ [r]) l <= sum_from g (pre ++ [r]) l); [lia|]. apply IH.
  intros a q b E. rewrite <- app_assoc. apply (H (r :: a) q b). now rewrite E.
Qed.
Lemma sum_from_zsum {X} (f : nat -> list X -> X -> Z) is l : forall pre, zsum (map (fun i => sum_from (f i) pre l) is) = sum_from (fun pre r => zsum (map (fun i => f i pre r) is)) pre l.
Proof.
  induction l as [|r l IH]; intros pre; cbn [sum_from].
  - now apply zsum_zero.
  - rewrite zsum_plus, IH. reflexivity.
Qed.
Lemma distinct_snoc l x : distinct (l ++ [x]) = distinct l + (if existsb (ref_eqb x) l then 0 else 1).
Proof.
  induction l as [|r l IH]; [cbn; lia|]. cbn [app distinct existsb]. rewrite IH, existsb_app. cbn [existsb]. rewrite orb_false_r.
  destruct (ref_eqb_spec r x) as [->|N].
  - destruct (ref_eqb_spec x x); [|congruence]. rewrite orb_true_r. cbn [orb]. destruct (existsb (ref_eqb x) l); lia.
  - destruct (ref_eqb_spec x r); [congruence|]. rewrite orb_false_r. cbn [orb]. lia.
Qed.
Definition written_before (pre : list wref) (r : wref) : bool := existsb (fun q => ref_eqb (fst q) (fst r) && snd q)%bool pre.
Definition fresh (P : ref -> bool) (pre : list wref) (r : wref) : Z := if (snd r && P (fst r) && negb (written_before pre r))%bool then 1 else 0.
Lemma fresh_distinct P l : sum_from (fresh P) [] l = distinct (filter P (written l)).
Proof.
  induction l as [|r l IH] using rev_ind; [reflexivity|]. rewrite sum_from_app, IH. cbn [sum_from app]. unfold written. rewrite filter_app, map_app, filter_app. cbn [filter].
  unfold fresh. destruct (snd r) eqn:S; cbn [andb map filter]; [|rewrite app_nil_r; lia]. destruct (P (fst r)) eqn:PR; cbn [andb]; [|rewrite app_nil_r; lia].
  rewrite distinct_snoc. f_equal. replace (written_before l r) with (existsb (ref_eqb (fst r)) (filter P (map fst (filter snd l)))).
  - destruct (existsb _ _); reflexivity.
  - apply Bool.eq_true_iff_eq. unfold written_before. rewrite !existsb_exists. split.
    + intros (q & I & E). destruct (ref_eqb_spec (fst r) q) as [<-|]; [|discriminate]. apply filter_In in I as [I _]. apply in_map_iff in I as (q & F & I). apply filter_In in I as [I SQ]. exists q. split; [assumption|]. rewrite F, SQ. now destruct (ref_eqb_spec (fst r) (fst r)).
    + intros (q & I & E). destruct (ref_eqb_spec (fst q) (fst r)) as [F|]; [|discriminate]. exists (fst q). rewrite F. split; [|now destruct (ref_eqb_spec (fst r) (fst r))]. apply filter_In. split; [|assumption]. rewrite <- F. apply in_map, filter_In. now split.
Qed.

(** ** Lines modified while a line of each stream is used *)
Lemma dirtied_app n past a b : dirtied_after n past (a ++ b) = dirtied_after n past a + dirtied_after n (past ++ a) b.
Proof. revert past. induction a as [|l a IH]; intros past; cbn [app dirtied_after]; [now rewrite app_nil_r|]. rewrite IH, <- app_assoc. cbn [app]. lia. Qed.
Lemma wtrace_app L refs a b : wtrace L refs (a ++ b) = wtrace L refs a ++ wtrace L refs b.
Proof. apply flat_map_app. Qed.
Lemma wtrace_in L refs ts e : In e (wtrace L refs ts) <-> exists t r, In t ts /\ In r refs /\ e = waccess L t r.
Proof.
  unfold wtrace. rewrite in_flat_map. split; [intros (t & I & J); apply in_map_iff in J as (r & <- & J); eauto|]. intros (t & r & I & J & ->). exists t. split; [assumption|]. now apply in_map.
Qed.
Definition wbefore (L : Z) (refs : list wref) (s t : Z) (pre : list wref) : list event := wtrace L refs (positions s t) ++ map (waccess L t) pre.
Definition rdirt (n : nat) (L : Z) (refs : list wref) (s t : Z) (pre : list wref) (r : wref) : Z := dirties n (wbefore L refs s t pre) (waccess L t r).
Lemma row_dirtied n L refs s t : forall l pre, dirtied_after n (wbefore L refs s t pre) (map (waccess L t) l) = sum_from (rdirt n L refs s t) pre l.
Proof.
  induction l as [|r l IH]; intros pre; [reflexivity|]. cbn [map dirtied_after sum_from]. rewrite <- IH. unfold rdirt. f_equal. f_equal. unfold wbefore. now rewrite <- app_assoc, map_app.
Qed.
Lemma block_dirtied n L refs s t : s <= t -> forall j, dirtied_after n (wtrace L refs (positions s t)) (wtrace L refs (positions t (t + Z.of_nat j)))
  = zsum (map (fun i => sum_from (rdirt n L refs s (t + Z.of_nat i)) [] refs) (seq 0 j)).
Proof.
  intros ST. induction j as [|j IH].
  - replace (positions t (t + Z.of_nat 0)) with (@nil Z); [reflexivity|]. unfold positions. replace (Z.to_nat (t + Z.of_nat 0 - t)) with 0%nat by lia. reflexivity.
  - replace (t + Z.of_nat (S j)) with (t + Z.of_nat j + 1) by lia. rewrite positions_snoc, wtrace_app, dirtied_app, IH by lia. rewrite seq_S, map_app, zsum_app. cbn [map plus]. f_equal.
    rewrite <- wtrace_app, <- positions_app by lia. unfold wtrace at 2. cbn [flat_map]. rewrite app_nil_r. rewrite <- row_dirtied. unfold wbefore. cbn [map]. rewrite app_nil_r.
    match goal with |- ?x = zsum [?y] => change (zsum [y]) with (y + 0) end. now rewrite Z.add_0_r.
Qed.
Lemma written_in (refs : list wref) r : In r (written refs) <-> In (r, true) refs.
Proof.
  unfold written. rewrite in_map_iff. split; [intros ([q b] & <- & I); apply filter_In in I as [I S]; cbn in S; now subst b|]. intros I. exists (r, true). split; [reflexivity|]. now apply filter_In.
Qed.
Section Window.
  Context (n : nat) (L : Z) (refs : list wref) (s t : Z) (pre : list wref) (r : wref) (post : list wref).
  Context (LP : 0 < L) (ST : s < t) (E : refs = pre ++ r :: post) (FIT : streams_fit n L refs).
  Lemma window_pre x w : x <= t < x + w -> forall a, In a (map (waccess L t) pre) -> in_window L (map fst refs) x w (fst a).
  Proof. intros H a I. apply in_map_iff in I as (q & <- & I). exists (fst q), t. split; [apply in_map; rewrite E; apply in_or_app; now left|]. split; [assumption|reflexivity]. Qed.
  Lemma window_self x w : x <= t < x + w -> in_window L (map fst refs) x w (line_of L t (fst r)).
  Proof. intros H. exists (fst r), t. split; [apply in_map; rewrite E; apply in_or_app; right; now left|]. split; [assumption|reflexivity]. Qed.
  (** Written before in the same iteration *)
  Lemma again_dirty : written_before pre r = true -> dirty n (wbefore L refs s t pre) (line_of L t (fst r)) = true.
  Proof.
    intros H. apply existsb_exists in H as ([q b] & I & H). cbn [fst snd] in H. destruct (ref_eqb_spec q (fst r)) as [->|]; [|discriminate]. cbn in H. subst b. apply in_split in I as (a & b & EP).
    unfold wbefore. assert (P := window_pre t 2 ltac:(lia)). rewrite EP in P |- *. rewrite map_app in P |- *. cbn [map] in P |- *. rewrite app_assoc. unfold waccess at 2. cbn [fst snd].
    apply (dirty_window n L (map fst refs) t 2); [assumption|lia|now apply window_self; lia| |unfold streams_fit in FIT; now rewrite map_length].
    intros y I. apply P. apply in_or_app. right. now right.
  Qed.
  (** Written by reference q at position p *)
  Lemma earlier_dirty q p : In (q, true) refs -> s <= p < t -> line_of L p q = line_of L t (fst r) ->
    needed (distances (map fst refs)) (t - p + 1) + 2 * Z.of_nat (List.length refs) * (L - 1) <= Z.of_nat n * L -> dirty n (wbefore L refs s t pre) (line_of L t (fst r)) = true.
  Proof.
    intros I P EL H. apply in_split in I as (a & b & EQ). unfold wbefore. rewrite (positions_app s p t), (positions_app p (p + 1) t), !wtrace_app by lia.
    replace (positions p (p + 1)) with [p] by (rewrite positions_snoc by lia; unfold positions; replace (Z.to_nat (p - p)) with 0%nat by lia; reflexivity).
    assert (EM : wtrace L refs [p] = map (waccess L p) a ++ (line_of L t (fst r), true) :: map (waccess L p) b).
    { unfold wtrace. cbn [flat_map]. rewrite app_nil_r, EQ at 1. rewrite map_app. cbn [map]. unfold waccess at 2. cbn [fst snd]. now rewrite EL. }
    rewrite EM. rewrite <- !app_assoc, app_assoc. rewrite <- app_comm_cons. apply (dirty_window n L (map fst refs) p (t - p + 1)); [assumption|lia|apply window_self; lia| |now rewrite map_length].
    intros y J. apply in_app_iff in J as [J|J]; [|apply in_app_iff in J as [J|J]].
    - apply in_map_iff in J as (z & <- & J). exists (fst z), p. split; [apply in_map; rewrite EQ; apply in_or_app; right; now right|]. split; [lia|reflexivity].
    - apply wtrace_in in J as (u & z & J1 & J2 & ->). apply positions_in in J1. exists (fst z), u. split; [now apply in_map|]. split; [lia|reflexivity].
    - apply (window_pre p (t - p + 1)); [lia|assumption].
  Qed.
  Lemma inside_dirty : snd r = true -> (snd (fst r) + t) mod L <> 0 -> dirty n (wbefore L refs s t pre) (line_of L t (fst r)) = true.
  Proof.
    intros S M. apply (earlier_dirty (fst r) (t - 1)); [rewrite E; apply in_or_app; right; left; destruct r; cbn in *; now subst|lia| |unfold streams_fit in FIT; now replace (t - (t - 1) + 1) with 2 by lia].
    unfold line_of. f_equal. replace (snd (fst r) + (t - 1)) with (snd (fst r) + t - 1) by lia. set (y := snd (fst r) + t) in *. pose proof (Z.div_mod y L ltac:(lia)). pose proof (Z.mod_pos_bound y L LP). symmetry; apply (Z.div_unique_pos (y - 1) L (y / L) (y mod L - 1)); lia.
  Qed.
  Lemma kept_dirty : kept n L refs (fst r) = true -> (forall q q', In q (written refs) -> In q' (written refs) -> fst q = fst q' -> s <= t - (snd q - snd q')) -> snd r = true -> dirty n (wbefore L refs s t pre) (line_of L t (fst r)) = true.
  Proof.
    intros K WA S. apply existsb_exists in K as (q & I & K). apply andb_prop in K as [A H]. unfold ahead in A. apply andb_prop in A as [A1 A2]. apply Nat.eqb_eq in A1. apply Z.ltb_lt in A2. apply Z.leb_le in H.
    assert (IR : In (fst r) (written refs)) by (apply written_in; rewrite E; apply in_or_app; right; left; destruct r; cbn in *; now subst).
    specialize (WA q (fst r) I IR A1). apply (earlier_dirty q (t - (snd q - snd (fst r)))); [now apply written_in|lia| |now replace (t - (t - (snd q - snd (fst r))) + 1) with (snd q - snd (fst r) + 1) by lia].
    unfold line_of. rewrite A1. f_equal. f_equal. lia.
  Qed.
  Lemma new_line : leading refs (fst r) = true -> written_before pre r = false -> (snd (fst r) + t) mod L = 0 -> dirty n (wbefore L refs s t pre) (line_of L t (fst r)) = false.
  Proof.
    intros LD NB M. apply never_written. intros I. unfold wbefore in I. unfold leading in LD. apply negb_true_iff in LD.
    assert (G : forall q, In (q, true) refs -> fst q = fst (fst r) -> snd q <= snd (fst r)).
    { intros q J F. destruct (Z.le_gt_cases (snd q) (snd (fst r))) as [|X]; [assumption|]. exfalso. apply not_true_iff_false in LD. apply LD. apply existsb_exists. exists q. split; [now apply written_in|]. unfold ahead. rewrite F, Nat.eqb_refl. now apply Z.ltb_lt. }
    assert (LT : forall y, y < snd (fst r) + t -> y / L <> (snd (fst r) + t) / L).
    { intros y Y X. pose proof (Z.div_mod (snd (fst r) + t) L ltac:(lia)). pose proof (Z.mul_div_le y L LP). pose proof (Z.mul_succ_div_gt y L LP). rewrite X in *. lia. }
    apply in_app_iff in I as [I|I].
    - apply wtrace_in in I as (p & [q b] & IP & IQ & X). unfold waccess in X. cbn [fst snd] in X. injection X as X1 X2 X3. subst b. apply positions_in in IP. specialize (G q IQ (eq_sym X1)). apply (LT (snd q + p)); [lia|]. now symmetry.
    - apply in_map_iff in I as ([q b] & X & IQ). unfold waccess in X. cbn [fst snd] in X. injection X as X1 X2 X3. subst b.
      assert (IR : In (q, true) refs) by (rewrite E; apply in_or_app; now left). specialize (G q IR X1).
      destruct (Z.eq_dec (snd q) (snd (fst r))) as [Y|Y]; [|apply (LT (snd q + t)); [lia|assumption]].
      apply not_true_iff_false in NB. apply NB. apply existsb_exists. exists (q, true). split; [assumption|]. cbn [fst snd]. destruct (ref_eqb_spec q (fst r)) as [|Z]; [reflexivity|]. exfalso. apply Z. destruct q, (fst r). cbn in *. congruence.
  Qed.
  Lemma lines_trace ts : map fst (wtrace L refs ts) = trace L (map fst refs) ts.
  Proof. induction ts as [|u ts IH]; [reflexivity|]. cbn [wtrace trace flat_map]. rewrite (map_app fst). refine (f_equal2 (@app _) _ IH). unfold iteration. rewrite !map_map. apply map_ext. reflexivity. Qed.
  Lemma replaced_line : replaced n L refs (fst r) = true -> written_before pre r = false -> (snd (fst r) + t) mod L = 0 -> dirty n (wbefore L refs s t pre) (line_of L t (fst r)) = false.
  Proof.
    intros RP NB M. assert (IR : In (fst r) (map fst refs)) by (apply in_map; rewrite E; apply in_or_app; right; now left).
    destruct (first_access (fst r) (map fst refs) IR) as (a & b & EA & NA). unfold replaced in RP.
    assert (H : hit n (map fst (wtrace L refs (positions s t) ++ map (waccess L t) (firstn (List.length a) refs))) (line_of L t (fst r)) = false).
    { rewrite map_app, lines_trace, map_map. assert (EF : map (fun x => fst (waccess L t x)) (firstn (List.length a) refs) = map (line_of L t) a).
      { transitivity (map (line_of L t) (map fst (firstn (List.length a) refs))); [now rewrite map_map|]. f_equal. rewrite <- firstn_map, EA. rewrite firstn_app, Nat.sub_diag, firstn_all. cbn [firstn]. apply app_nil_r. }
      rewrite EF. apply (access_miss n L (map fst refs) a (fst r) b s t LP EA); [lia|assumption|]. unfold distance. replace (existsb (ref_eqb (fst r)) a) with false.
      - destruct (minimum _); [|easy]. apply andb_prop in RP as [R1 R2]. apply Z.leb_le in R1, R2. now split.
      - symmetry. apply not_true_is_false. intros X. apply before_in in X. contradiction. }
    assert (LE : (List.length a <= List.length pre)%nat).
    { destruct (Nat.le_gt_cases (List.length a) (List.length pre)) as [|G]; [assumption|]. exfalso. apply NA. rewrite E, map_app in EA. cbn [map] in EA.
      assert (X : nth_error (a ++ fst r :: b) (List.length pre) = Some (fst r)) by (rewrite <- EA, nth_error_app2; rewrite map_length; [now rewrite Nat.sub_diag|reflexivity]). rewrite nth_error_app1 in X by assumption. now apply nth_error_In in X. }
    assert (EP : pre = firstn (List.length a) refs ++ skipn (List.length a) pre) by (rewrite E, firstn_app; replace (List.length a - List.length pre)%nat with 0%nat by lia; cbn [firstn]; now rewrite app_nil_r, firstn_skipn).
    unfold wbefore. rewrite EP, map_app, app_assoc. apply absent_clean; [assumption|]. intros I. apply in_map_iff in I as ([q c] & X & I). unfold waccess in X. cbn [fst snd] in X. injection X as X1 X2 X3. subst c.
    assert (IP : In (q, true) pre) by (rewrite EP; apply in_or_app; now right). assert (IQ : In q (map fst refs)) by (apply in_map_iff; exists (q, true); split; [reflexivity|]; rewrite E; apply in_or_app; now left).
    pose proof (Z.div_mod (snd (fst r) + t) L ltac:(lia)). pose proof (Z.mul_div_le (snd q + t) L LP). pose proof (Z.mul_succ_div_gt (snd q + t) L LP). rewrite X2 in *.
    destruct (Z.lt_trichotomy (snd q) (snd (fst r))) as [Y|[Y|Y]]; [lia| |].
    - apply not_true_iff_false in NB. apply NB. apply existsb_exists. exists (q, true). split; [assumption|]. cbn [fst snd]. destruct (ref_eqb_spec q (fst r)) as [|Z]; [reflexivity|]. exfalso. apply Z. destruct q, (fst r). cbn in *. congruence.
    - assert (LI : In (snd q - snd (fst r)) (larger (map fst refs) (fst r))) by (apply larger_in; now exists q). destruct (minimum _) as [v|] eqn:MI; [|apply minimum_none in MI; now rewrite MI in LI]. apply minimum_some in MI as [_ MI]. specialize (MI _ LI). apply andb_prop in RP as [R1 _]. apply Z.leb_le in R1. lia.
  Qed.
End Window.
Lemma entering_unique (L x : Z) (i k : nat) : (x + Z.of_nat i) mod L = 0 -> (x + Z.of_nat k) mod L = 0 -> 0 < L -> Z.of_nat i < L -> Z.of_nat k < L -> i = k.
Proof.
  intros A B LP I K. apply Z.mod_divide in A; [|lia]. apply Z.mod_divide in B; [|lia]. destruct A as [a A], B as [b B]. assert ((a - b) * L = Z.of_nat i - Z.of_nat k) by lia. assert (a - b = 0) by nia. nia.
Qed.
Lemma entering_exists (L x : Z) : 0 < L -> exists i : nat, Z.of_nat i < L /\ (x + Z.of_nat i) mod L = 0.
Proof.
  intros LP. exists (Z.to_nat ((- x) mod L)). pose proof (Z.mod_pos_bound (- x) L LP). rewrite Z2Nat.id by lia. split; [lia|]. rewrite Zplus_mod_idemp_r. replace (x + - x) with 0 by lia. reflexivity.
Qed.
Lemma rdirt_bounds n L refs s t pre r : 0 <= rdirt n L refs s t pre r <= 1.
Proof. unfold rdirt, dirties. destruct (_ && _)%bool; lia. Qed.
Lemma dirtied_window n L refs s t : 0 < L -> s < t -> streams_fit n L refs -> (forall q r, In q (written refs) -> In r (written refs) -> fst q = fst r -> s <= t - (snd q - snd r)) ->
  distinct (filter (fun r => leading refs r || replaced n L refs r)%bool (written refs)) <= dirtied_after n (wtrace L refs (positions s t)) (wtrace L refs (positions t (t + L))) <= distinct (filter (fun r => negb (kept n L refs r)) (written refs)).
Proof.
  intros LP ST FIT WA. rewrite <- !fresh_distinct. replace (t + L) with (t + Z.of_nat (Z.to_nat L)) by lia. rewrite block_dirtied, sum_from_zsum by lia. split; apply sum_from_le; intros pre r post E; cbn [app].
  - unfold fresh. destruct (snd r && (leading refs (fst r) || replaced n L refs (fst r)) && negb (written_before pre r))%bool eqn:C.
    + apply andb_prop in C as [C C3]. apply andb_prop in C as [C1 C2]. apply negb_true_iff in C3. destruct (entering_exists L (snd (fst r) + t) LP) as (i & I & M).
      etransitivity; [|apply (zsum_at_least _ _ i)]; [|apply in_seq; lia|intros k _; apply rdirt_bounds]. unfold rdirt, dirties. unfold waccess at 1 2. cbn [fst snd]. rewrite C1.
      rewrite <- Z.add_assoc in M. assert (D : dirty n (wbefore L refs s (t + Z.of_nat i) pre) (line_of L (t + Z.of_nat i) (fst r)) = false).
      { apply orb_prop in C2 as [C2|C2]; [apply (new_line n L refs s (t + Z.of_nat i) pre r post)|apply (replaced_line n L refs s (t + Z.of_nat i) pre r post)]; try assumption; lia. }
      now rewrite D.
    + transitivity (zsum (map (fun _ : nat => 0) (seq 0 (Z.to_nat L)))); [rewrite zsum_zero; [reflexivity|easy]|]. clear. induction (seq 0 (Z.to_nat L)) as [|i l IH]; [reflexivity|]. cbn [map].
      match goal with |- zsum (?a :: ?x) <= zsum (?b :: ?y) => change (zsum (a :: x)) with (a + zsum x); change (zsum (b :: y)) with (b + zsum y) end. pose proof (rdirt_bounds n L refs s (t + Z.of_nat i) pre r). lia.
  - assert (FU : forall i, In i (seq 0 (Z.to_nat L)) -> rdirt n L refs s (t + Z.of_nat i) pre r <> 0 -> snd r = true /\ dirty n (wbefore L refs s (t + Z.of_nat i) pre) (line_of L (t + Z.of_nat i) (fst r)) = false).
    { intros i I N. unfold rdirt, dirties in N. unfold waccess at 1 2 in N. cbn [fst snd] in N. destruct (snd r); [|contradiction]. cbn [andb] in N. destruct (dirty _ _ _); [contradiction|]. now split. }
    unfold fresh. destruct (snd r && negb (kept n L refs (fst r)) && negb (written_before pre r))%bool eqn:C.
    + apply (zsum_at_most_one (fun i => rdirt n L refs s (t + Z.of_nat i) pre r)); [apply seq_NoDup|intros i _; apply rdirt_bounds|]. intros i k I K Ni Nk.
      assert (EN : forall i, In i (seq 0 (Z.to_nat L)) -> rdirt n L refs s (t + Z.of_nat i) pre r <> 0 -> (snd (fst r) + t + Z.of_nat i) mod L = 0).
      { intros j J Nj. destruct (FU j J Nj) as [SR D]. destruct (Z.eq_dec ((snd (fst r) + t + Z.of_nat j) mod L) 0) as [|M]; [assumption|]. exfalso. rewrite <- Z.add_assoc in M.
        rewrite (inside_dirty n L refs s (t + Z.of_nat j) pre r post LP ltac:(lia) E FIT SR M) in D. discriminate. }
      apply (entering_unique L (snd (fst r) + t)); auto; apply in_seq in I; apply in_seq in K; lia.
    + rewrite zsum_zero; [reflexivity|]. intros i I. destruct (Z.eq_dec (rdirt n L refs s (t + Z.of_nat i) pre r) 0) as [|N]; [assumption|]. exfalso. destruct (FU i I N) as [SR D]. rewrite SR in C. cbn [andb] in C. apply andb_false_iff in C as [C|C]; apply negb_false_iff in C.
      * rewrite (kept_dirty n L refs s (t + Z.of_nat i) pre r post LP E FIT C) in D; [discriminate| |assumption]. intros q q' A B F. specialize (WA q q' A B F). lia.
      * rewrite (again_dirty n L refs s (t + Z.of_nat i) pre r post LP E FIT C) in D. discriminate.
Qed.
Lemma dirtied_windows n L refs s t (m : nat) : 0 < L -> s < t -> streams_fit n L refs -> (forall q r, In q (written refs) -> In r (written refs) -> fst q = fst r -> s <= t - (snd q - snd r)) ->
  Z.of_nat m * distinct (filter (fun r => leading refs r || replaced n L refs r)%bool (written refs)) <= dirtied_after n (wtrace L refs (positions s t)) (wtrace L refs (positions t (t + Z.of_nat m * L))) <= Z.of_nat m * distinct (filter (fun r => negb (kept n L refs r)) (written refs)).
Proof.
  intros LP ST FIT WA. induction m as [|m IH].
  - replace (positions t (t + Z.of_nat 0 * L)) with (@nil Z); [cbn; lia|]. unfold positions. replace (Z.to_nat (t + Z.of_nat 0 * L - t)) with 0%nat by lia. reflexivity.
  - rewrite (positions_app t (t + Z.of_nat m * L) (t + Z.of_nat (S m) * L)) by nia. rewrite wtrace_app, dirtied_app, <- wtrace_app, <- positions_app by nia.
    replace (t + Z.of_nat (S m) * L) with (t + Z.of_nat m * L + L) by lia.
    destruct (dirtied_window n L refs s (t + Z.of_nat m * L) LP ltac:(nia) FIT) as [W1 W2]; [intros q r A B F; specialize (WA q r A B F); nia|]. lia.
Qed.
Lemma evictions_windows n L refs s t m : 0 < L -> s < t -> 0 <= m -> streams_fit n L refs -> (forall q r, In q (written refs) -> In r (written refs) -> fst q = fst r -> s <= t - (snd q - snd r)) ->
  m * distinct (filter (fun r => leading refs r || replaced n L refs r)%bool (written refs)) - Z.of_nat n <= evictions_after n (wtrace L refs (positions s t)) (wtrace L refs (positions t (t + m * L)))
  <= m * distinct (filter (fun r => negb (kept n L refs r)) (written refs)) + Z.of_nat n.
Proof.
  intros LP ST M FIT WA. pose proof (dirtied_windows n L refs s t (Z.to_nat m) LP ST FIT WA) as H. rewrite Z2Nat.id in H by assumption.
  pose proof (between n (wtrace L refs (positions s t)) (wtrace L refs (positions t (t + m * L)))). lia.
Qed.

(** ** No lines are written back while all lines fit. *)
Lemma fits_nothing n past future lines : incl (map fst (past ++ future)) lines -> (List.length lines <= n)%nat -> evictions_after n past future = 0.
Proof.
  intros I N. revert past I. induction future as [|a f IH]; intros past I; [reflexivity|]. cbn [evictions_after]. rewrite IH by (rewrite <- app_assoc; exact I). rewrite Z.add_0_r.
  unfold written_back. replace (skipn n (entered (wb_after n past) a)) with (@nil event); [reflexivity|]. symmetry. apply skipn_all2. etransitivity; [|exact N].
  rewrite <- (map_length fst). apply NoDup_incl_length.
  - unfold entered. cbn [map fst]. rewrite map_filter_line. constructor; [|apply NoDup_filter, wb_nodup]. intros J. apply filter_In in J as [_ J]. now destruct (line_eqb_spec (fst a) (fst a)).
  - intros x J. apply I. rewrite map_app. apply in_or_app. unfold entered in J. cbn [map fst] in J. destruct J as [<-|J]; [right; now left|]. left. rewrite map_filter_line in J. apply filter_In in J as [J _]. rewrite wb_lines, cache_recency in J. apply firstn_in in J. now apply recency_in.
Qed.

(** ** Numbers of references *)
Lemma existsb_ref r l : existsb (ref_eqb r) l = true <-> In r l.
Proof. apply before_in. Qed.
Lemma distinct_nodup l : distinct l = Z.of_nat (List.length (nodup line_dec l)).
Proof.
  induction l as [|r l IH]; [reflexivity|]. cbn [distinct nodup]. rewrite IH. destruct (in_dec line_dec r l) as [I|I].
  - apply existsb_ref in I. rewrite I. lia.
  - replace (existsb (ref_eqb r) l) with false; [cbn [List.length]; lia|]. symmetry. apply not_true_is_false. now rewrite existsb_ref.
Qed.
Lemma distinct_incl l l' : incl l l' -> distinct l <= distinct l'.
Proof. intros I. rewrite !distinct_nodup. apply inj_le, NoDup_incl_length; [apply NoDup_nodup|]. intros x J. rewrite nodup_In in *. now apply I. Qed.
Lemma distinct_same l l' : (forall r, In r l <-> In r l') -> distinct l = distinct l'.
Proof. intros H. apply Z.le_antisymm; apply distinct_incl; intros x I; now apply H. Qed.
Lemma distinct_length l : NoDup l -> distinct l = Z.of_nat (List.length l).
Proof. intros H. rewrite distinct_nodup. now rewrite nodup_fixed_point. Qed.
Lemma filter_true {X} (f : X -> bool) l : (forall x, In x l -> f x = true) -> filter f l = l.
Proof. induction l as [|x l IH]; intros H; [reflexivity|]. cbn [filter]. rewrite (H x (or_introl eq_refl)), IH; [reflexivity|]. intros y I. apply H. now right. Qed.
Lemma single_leading refs : (forall q r, In q (written refs) -> In r (written refs) -> fst q = fst r -> q = r) -> forall r, In r (written refs) -> leading refs r = true.
Proof.
  intros H r I. unfold leading. apply negb_true_iff, not_true_is_false. intros X. apply existsb_exists in X as (q & J & A). unfold ahead in A. apply andb_prop in A as [A B]. apply Nat.eqb_eq in A. apply Z.ltb_lt in B. rewrite (H q r J I A) in B. lia.
Qed.
Lemma single_evictions n L refs s t m : 0 < L -> s < t -> 0 <= m -> streams_fit n L refs -> (forall q r, In q (written refs) -> In r (written refs) -> fst q = fst r -> q = r) ->
  m * distinct (written refs) - Z.of_nat n <= evictions_after n (wtrace L refs (positions s t)) (wtrace L refs (positions t (t + m * L))) <= m * distinct (written refs) + Z.of_nat n.
Proof.
  intros LP ST M FIT H. destruct (evictions_windows n L refs s t m LP ST M FIT) as [A B]; [intros q r I J F; rewrite (H q r I J F); lia|].
  rewrite filter_true in A by (intros r I; now rewrite single_leading). split; [assumption|]. etransitivity; [exact B|]. apply Z.add_le_mono_r, Z.mul_le_mono_nonneg_l; [assumption|]. apply distinct_incl. intros x I. now apply filter_In in I as [I _].
Qed.

(** ** Kernels *)
Lemma writes_used k n : entries (destinations k) n = [] \/ (exists idx, entries (destinations k) n = [Some idx]) -> array_references k n = [] -> entries (destinations k) n = [].
Proof.
  intros [|[idx E]] A; [assumption|]. unfold array_references, subscripts in A. rewrite flat_map_app, E in A. apply app_eq_nil in A as [_ A]. discriminate.
Qed.
Lemma counted_writes number env k inner vars a b : counted k inner vars a b -> (forall n, array_references k n <> [] -> uses inner (array_references k n)) ->
  (forall n dims, In (n, Some dims) vars -> entries (destinations k) n = [] \/ exists idx, entries (destinations k) n = [Some idx]) -> b = Z.of_nat (List.length (kernel_writes number env k vars)).
Proof.
  intros C AU. induction C as [|n vars a b C IH|n dims vars a b U C IH|n dims vars a b U C IH]; intros OW; [reflexivity| | |]; unfold kernel_writes; cbn [flat_map]; fold (kernel_writes number env k vars).
  - cbn [app]. apply IH. intros n' d I. apply (OW n' d). now right.
  - rewrite (writes_used k n (OW n dims (or_introl eq_refl))); [|destruct (array_references k n) eqn:E; [reflexivity|exfalso; apply U; rewrite <- E; apply AU; now rewrite E]]. cbn [subscripts flat_map map app]. apply IH. intros n' d I. apply (OW n' d). now right.
  - rewrite app_length, map_length, Nat2Z.inj_add. f_equal; [|apply IH; intros n' d I; apply (OW n' d); now right]. destruct (OW n dims (or_introl eq_refl)) as [E|[idx E]]; now rewrite E.
Qed.
Lemma writes_in number env k vars r : In r (kernel_writes number env k vars) <-> exists n dims idx, In (n, Some dims) vars /\ In (Some idx) (entries (destinations k) n) /\ r = (number n, place env dims idx).
Proof.
  unfold kernel_writes. rewrite in_flat_map. split.
  - intros ([n [dims|]] & I & J); [|easy]. apply in_map_iff in J as (idx & <- & J). apply in_flat_map in J as ([i|] & J1 & J2); [|easy]. destruct J2 as [<-|[]]. now exists n, dims, i.
  - intros (n & dims & idx & I & J & ->). exists (n, Some dims). split; [assumption|]. apply in_map_iff. exists idx. split; [reflexivity|]. apply in_flat_map. exists (Some idx). split; [assumption|]. now left.
Qed.
Lemma writes_arrays number env k vars : NoDup (map fst vars) -> (forall n m, In n (map fst vars) -> In m (map fst vars) -> number n = number m -> n = m) ->
  (forall n dims, In (n, Some dims) vars -> entries (destinations k) n = [] \/ exists idx, entries (destinations k) n = [Some idx]) -> NoDup (map fst (kernel_writes number env k vars)).
Proof.
  intros ND INJ OW. induction vars as [|[n [dims|]] vars IH]; [constructor| |].
  - cbn [map fst] in ND, INJ. inversion ND as [|? ? N1 N2]; subst. assert (IH' : NoDup (map fst (kernel_writes number env k vars))) by (apply IH; [assumption|intros x y I J; apply INJ; now right|intros x d I; apply (OW x d); now right]).
    unfold kernel_writes. cbn [flat_map]. fold (kernel_writes number env k vars). destruct (OW n dims (or_introl eq_refl)) as [E|[idx E]]; rewrite E; [exact IH'|]. cbn [subscripts flat_map map app fst]. constructor; [|exact IH'].
    intros I. apply in_map_iff in I as (r & F & I). apply writes_in in I as (m & d & i & I & _ & ->). cbn [fst] in F. assert (IM : In m (map fst vars)) by (apply in_map_iff; now exists (m, Some d)). apply INJ in F; [|now right|now left]. subst m. contradiction.
  - cbn [map fst] in ND, INJ. inversion ND as [|? ? N1 N2]; subst. apply IH; [assumption|intros x y I J; apply INJ; now right|intros x d I; apply (OW x d); now right].
Qed.
Lemma nodup_fst {X Y} (l : list (X * Y)) : NoDup (map fst l) -> NoDup l /\ forall a b, In a l -> In b l -> fst a = fst b -> a = b.
Proof.
  induction l as [|x l IH]; intros H; [split; [constructor|easy]|]. cbn [map] in H. inversion H as [|? ? N1 N2]; subst. destruct (IH N2) as [A B]. split.
  - constructor; [|assumption]. intros I. apply N1. now apply in_map.
  - intros a b [<-|I] [<-|J] E; [reflexivity| | |now apply B]; exfalso; apply N1; [rewrite E|rewrite <- E]; now apply in_map.
Qed.

(** ** Predicted evictions *)
Lemma tail_evicts decide l w size tails c : In c (tail_choices decide l w size tails) -> evicts c = w.
Proof.
  induction tails as [|[k [|p]] tails IH]; cbn [tail_choices]; [easy|exact IH|]. destruct (is_true _); intros [<-|I]; try reflexivity; [easy|now apply IH].
Qed.
Lemma level_evicts decide ds es w tails total rho size cs c : sound decide -> (forall s, 0 < rho s) -> build_level decide ds es w tails total size = Ok cs -> desymbolize rho cs = Ok c ->
  evicts c = if eval rho total <? size then 0 else w.
Proof.
  intros S P B D. destruct (build_level_inv _ _ _ _ _ _ _ _ B) as (l & ts & _ & _ & _ & ->). unfold desymbolize, level_choices in D.
  set (full := mkChoice _ _ 0 0 _) in D. set (tl := tail_choices _ _ _ _ _) in D. set (fb := mkChoice (Decided true) _ _ _ _) in D.
  assert (F : cond_holds rho (condition full) = (eval rho total <? size)). { unfold full. cbn [condition]. rewrite relational_holds by assumption. cbn [holds]. now rewrite eval_const. }
  destruct (eval rho total <? size) eqn:T.
  - assert (X : exists rest, (if is_true (condition (last (full :: tl) full)) then full :: tl else (full :: tl) ++ [fb]) = full :: rest) by (destruct (is_true _); cbn [app]; eauto).
    destruct X as (rest & X). rewrite X in D. cbn [find] in D. rewrite F in D. now injection D as <-.
  - assert (X : exists rest, (if is_true (condition (last (full :: tl) full)) then full :: tl else (full :: tl) ++ [fb]) = full :: rest /\ forall x, In x rest -> evicts x = w).
    { destruct (is_true _); cbn [app]; eexists; (split; [reflexivity|]); intros x I; [now apply tail_evicts in I|]. apply in_app_iff in I as [I|[<-|[]]]; [now apply tail_evicts in I|reflexivity]. }
    destruct X as (rest & X & H). rewrite X in D. cbn [find] in D. rewrite F in D. destruct (find _ rest) as [c'|] eqn:G; [|discriminate]. injection D as <-. apply find_some in G as [G _]. now apply H.
Qed.
