From Coq Require Import String Sorted Permutation Lqa.
From Verif Require Import PyNum PyNumFacts PyStr BwModel BwSpec.
Local Open Scope Z_scope.

(** ** Closest kernel *)
Definition isnum (a : num) : Prop := match a with NaN => False | _ => True end.
Lemma nltb_trans a b c : nltb a b = true -> nltb b c = true -> nltb a c = true.
Proof.
  destruct a as [x| | |], b as [y| | |], c as [z| | |]; cbn; auto; try discriminate.
  destruct (Qltb_spec x y), (Qltb_spec y z), (Qltb_spec x z); auto; lra.
Qed.
Lemma nltb_weak a b c : isnum b -> nltb a b = true -> nltb c b = false -> isnum c -> nltb a c = true.
Proof.
  destruct a as [x| | |], b as [y| | |], c as [z| | |]; cbn; auto; try discriminate; try contradiction.
  destruct (Qltb_spec x y), (Qltb_spec z y), (Qltb_spec x z); auto; try discriminate. lra.
Qed.
Lemma nltb_refl_false a : nltb a a = false.
Proof. destruct a as [x| | |]; cbn; auto. destruct (Qltb_spec x x); [lra|reflexivity]. Qed.
Lemma nltb_asym a b : nltb a b = true -> nltb b a = false.
Proof.
  intros H. destruct (nltb b a) eqn:E; [|reflexivity]. pose proof (nltb_trans _ _ _ H E). now rewrite nltb_refl_false in H0.
Qed.

Definition D (t : num) (r : num) : num := nabs (nsub r t).
Definition DK (t : num) (k : string * kernel_info) : num := D t (kernel_ratio (snd k)).

Lemma ratio_form a b : ratio a b = if Qeq_bool b 0 then PInf else Fin (a / b).
Proof. unfold ratio. cbn. now destruct (Qeq_bool b 0). Qed.
Lemma kernel_ratio_form i : kernel_ratio i = if writes i =? 0 then PInf else Fin (mix i).
Proof.
  unfold kernel_ratio. rewrite ratio_form. unfold mix. destruct (Z.eqb_spec (writes i) 0) as [->|N]; [reflexivity|].
  destruct (Qeq_bool_spec (inject_Z (writes i)) 0) as [E|_]; [|reflexivity]. exfalso. apply N.
  unfold Qeq in E. cbn in E. lia.
Qed.
Lemma D_num t k : isnum (DK (Fin t) k).
Proof. unfold DK. rewrite kernel_ratio_form. destruct (writes (snd k) =? 0); exact I. Qed.

Lemma fold_closest t l : forall st, isnum (D t (snd st)) -> (forall k, isnum (DK t k)) ->
  (snd st = kernel_ratio (snd (fst st)) \/ snd st = PInf) ->
  (fst (fold_left (closer t) l st) = fst st /\ forall k, In k l -> nltb (DK t k) (D t (snd st)) = false)
  \/ exists l1 k l2, l = l1 ++ k :: l2 /\ fst (fold_left (closer t) l st) = k
       /\ nltb (DK t k) (D t (snd st)) = true
       /\ (forall x, In x l1 -> nltb (DK t k) (DK t x) = true)
       /\ (forall x, In x l2 -> nltb (DK t x) (DK t k) = false).
Proof.
  induction l as [|x l IH]; intros st N NK R; cbn [fold_left].
  - left. split; [reflexivity|intros k []].
  - unfold closer at 2 4. fold (D t (kernel_ratio (snd x))) (D t (snd st)). fold (DK t x).
    destruct (nltb (DK t x) (D t (snd st))) eqn:L.
    + right. destruct (IH (x, kernel_ratio (snd x)) (NK x) NK (or_introl eq_refl)) as [[E A]|(l1 & k & l2 & -> & E & Lk & A1 & A2)].
      * exists [], x, l. split; [reflexivity|]. split; [exact E|]. split; [exact L|]. split; [intros y []|exact A].
      * exists (x :: l1), k, l2. split; [reflexivity|]. split; [exact E|]. cbn [snd] in Lk.
        split; [now apply (nltb_trans _ (DK t x))|]. split; [|exact A2]. intros y [<-|Hy]; [exact Lk|now apply A1].
    + destruct (IH st N NK R) as [[E A]|(l1 & k & l2 & -> & E & Lk & A1 & A2)].
      * left. split; [exact E|]. intros y [<-|Hy]; [exact L|now apply A].
      * right. exists (x :: l1), k, l2. split; [reflexivity|]. split; [exact E|]. split; [exact Lk|].
        split; [|exact A2]. intros y [<-|Hy]; [|now apply A1]. now apply (nltb_weak _ (D t (snd st))).
Qed.

Lemma fold_inf l : forall st, fold_left (closer PInf) l st = st.
Proof.
  induction l as [|x l IH]; intros st; [reflexivity|]. cbn [fold_left]. rewrite <- (IH st) at 2. f_equal.
  unfold closer. replace (nltb _ _) with false; [reflexivity|].
  destruct (kernel_ratio (snd x)), (snd st); reflexivity.
Qed.

Lemma name_total a b : name_leb a b = true \/ name_leb b a = true.
Proof. unfold name_leb. apply String.leb_total. Qed.
Lemma name_trans a b c : name_leb a b = true -> name_leb b c = true -> name_leb a c = true.
Proof. unfold name_leb. apply str_leb_trans. Qed.
Lemma name_sorted l : StronglySorted (fun a b => name_leb a b = true) (sort_with name_leb l).
Proof. apply sort_with_sorted; [apply name_total|apply name_trans]. Qed.
Lemma sorted_in l (x : string * kernel_info) : In x l <-> In x (sort_with name_leb l).
Proof.
  split; apply Permutation_in; [apply sort_with_perm'|symmetry; apply sort_with_perm'].
Qed.
Lemma sorted_after (l1 l2 : list (string * kernel_info)) x y :
  StronglySorted (fun a b => name_leb a b = true) (l1 ++ x :: l2) -> In y l2 -> name_leb x y = true.
Proof.
  induction l1 as [|z l1 IH]; cbn [app]; intros S Hy; inversion_clear S.
  - rewrite Forall_forall in H0. now apply H0.
  - now apply IH.
Qed.

Lemma DK_write t k : writes (snd k) <> 0 -> DK (Fin t) k = Fin (Qabs (mix (snd k) + - t)).
Proof.
  intros H. unfold DK, D. rewrite kernel_ratio_form. destruct (Z.eqb_spec (writes (snd k)) 0); [contradiction|]. reflexivity.
Qed.
Lemma DK_nowrite t k : writes (snd k) = 0 -> DK (Fin t) k = PInf.
Proof. intros H. unfold DK, D. rewrite kernel_ratio_form, H. reflexivity. Qed.

Lemma closest_spec ks r w k : ~ (w == 0)%Q -> closest ks (ratio r w) = Ok k ->
  (exists x, In x ks /\ writes (snd x) <> 0) ->
  In k ks /\ writes (snd k) <> 0
  /\ forall x, In x ks -> writes (snd x) <> 0 ->
     (distance (snd k) r w <= distance (snd x) r w)%Q
     /\ (String.leb (fst k) (fst x) = false -> (distance (snd k) r w < distance (snd x) r w)%Q).
Proof.
  intros W. unfold closest. destruct (get "load" ks) as [load|]; cbn [bind]; [|discriminate]. intros [= <-] (x0 & I0 & W0).
  rewrite ratio_form. destruct (Qeq_bool_spec w 0); [contradiction|].
  set (t := (r / w)%Q). set (l := sort_with name_leb ks).
  destruct (fold_closest (Fin t) l ("load"%string, load, PInf) I (D_num t) (or_intror eq_refl))
    as [[_ A]|(l1 & k & l2 & E & Ek & Lk & A1 & A2)].
  - exfalso. specialize (A x0 (proj1 (sorted_in ks x0) I0)). rewrite (DK_write _ _ W0) in A. cbn in A. discriminate A.
  - unfold l in *. change (fst (fold_left (closer (Fin t)) (sort_with name_leb ks) ("load"%string, load, PInf)) = k) in Ek.
    rewrite Ek. split; [apply sorted_in; rewrite E; apply in_app_iff; right; now left|].
    assert (Wk : writes (snd k) <> 0).
    { intros Z0. rewrite (DK_nowrite _ _ Z0) in Lk. cbn in Lk. discriminate Lk. }
    split; [exact Wk|]. intros x Hx Wx.
    assert (Hl : In x l1 \/ x = k \/ In x l2).
    { apply sorted_in in Hx. rewrite E in Hx. apply in_app_iff in Hx as [Hx|[Hx|Hx]]; auto. }
    unfold distance. change (r / w)%Q with t. unfold Qminus.
    destruct Hl as [Hl|[->|Hl]].
    + specialize (A1 x Hl). rewrite (DK_write _ _ Wk), (DK_write _ _ Wx) in A1.
      change (Qltb (Qabs (mix (snd k) + - t)) (Qabs (mix (snd x) + - t)) = true) in A1.
      destruct (Qltb_spec (Qabs (mix (snd k) + - t)) (Qabs (mix (snd x) + - t))) as [q|q]; [|discriminate].
      split; [lra|intros _; exact q].
    + split; [lra|]. intros C. rewrite str_leb_refl in C. discriminate.
    + specialize (A2 x Hl). rewrite (DK_write _ _ Wk), (DK_write _ _ Wx) in A2.
      change (Qltb (Qabs (mix (snd x) + - t)) (Qabs (mix (snd k) + - t)) = false) in A2.
      destruct (Qltb_spec (Qabs (mix (snd x) + - t)) (Qabs (mix (snd k) + - t))) as [q|q]; [discriminate|].
      split; [lra|]. intros C. pose proof (name_sorted ks) as S. rewrite E in S.
      pose proof (sorted_after l1 l2 k x S Hl) as Z0. unfold name_leb in Z0. congruence.
Qed.

Lemma closest_no_writes ks r w k : closest ks (ratio r w) = Ok k ->
  (w == 0)%Q \/ (forall x, In x ks -> writes (snd x) = 0) -> get "load" ks = Ok (snd k) /\ fst k = "load"%string.
Proof.
  unfold closest. destruct (get "load" ks) as [load|]; cbn [bind]; [|discriminate]. intros [= <-] H.
  rewrite ratio_form. destruct (Qeq_bool_spec w 0) as [_|N].
  - rewrite fold_inf. auto.
  - destruct H as [H|H]; [contradiction|].
    destruct (fold_closest (Fin (r / w)) (sort_with name_leb ks) ("load"%string, load, PInf) I (D_num _) (or_intror eq_refl))
      as [[E _]|(l1 & k & l2 & E & Ek & Lk & _)].
    + change (fst (fold_left (closer (Fin (r / w))) (sort_with name_leb ks) ("load"%string, load, PInf)) = ("load"%string, load)) in E.
      rewrite E. auto.
    + exfalso. rewrite DK_nowrite in Lk; [cbn in Lk; discriminate Lk|]. apply H, sorted_in. rewrite E. apply in_app_iff. right. now left.
Qed.

Lemma closest_keyerror ks t : (exists e, closest ks t = Err e) <-> get "load" ks = Err KeyError.
Proof.
  unfold closest. assert (G : forall e, get "load" ks = Err e -> e = KeyError).
  { induction ks as [|[n i] ks IH]; cbn [get]; [congruence|]. intros e. destruct (String.eqb "load" n); [discriminate|apply IH]. }
  destruct (get "load" ks) as [i|e]; cbn [bind].
  - split; [intros (e & H); discriminate|discriminate].
  - split; [intros _; f_equal; now apply G|eauto].
Qed.

(** ** Bandwidth *)
Lemma qmax_fold l : forall x, In (fold_left (fun a b => if Qltb a b then b else a) l x) (x :: l)
  /\ forall y, In y (x :: l) -> (y <= fold_left (fun a b => if Qltb a b then b else a) l x)%Q.
Proof.
  induction l as [|z l IH]; intros x; cbn [fold_left].
  - split; [now left|]. intros y [<-|[]]. lra.
  - destruct (IH (if Qltb x z then z else x)) as [I1 I2]. split.
    + destruct (Qltb x z); destruct I1 as [I1|I1]; [right; left; exact I1|right; right; exact I1|left; exact I1|right; right; exact I1].
    + assert (L : (x <= (if Qltb x z then z else x))%Q /\ (z <= (if Qltb x z then z else x))%Q).
      { destruct (Qltb_spec x z); lra. }
      intros y [<-|[<-|Hy]].
      * specialize (I2 _ (or_introl eq_refl)). lra.
      * specialize (I2 _ (or_introl eq_refl)). lra.
      * apply I2. now right.
Qed.
Lemma qmax_spec l m : qmax l = Ok m -> In m l /\ forall y, In y l -> (y <= m)%Q.
Proof. destruct l as [|x l]; cbn [qmax]; [discriminate|]. intros [= <-]. apply qmax_fold. Qed.

Lemma bandwidth_inv m lv r w tpc cores bw n : get_bandwidth m lv r w tpc cores = Ok (bw, n) ->
  exists i c b rs v f, closest (kernels m) (ratio r w) = Ok (n, i) /\ nth_error (hierarchy m) lv = Some c
    /\ measurements m (level c) tpc = Ok b /\ tpc = m_threads b
    /\ get n (m_results b) = Ok rs /\ factor lv i = Ok f /\ bw = (v * f)%Q
    /\ match cores with
       | Some k => exists j, index k (m_cores b) = Ok j /\ nth_error rs j = Some v
       | None => qmax (firstn (Z.to_nat (Z.min (cores_per_group c) (cores_per_numa m))) rs) = Ok v
       end.
Proof.
  unfold get_bandwidth. destruct (closest _ _) as [[n' i]|]; cbn [bind]; [|discriminate].
  unfold nth_res. destruct (nth_error (hierarchy m) lv) as [c|]; cbn [bind]; [|discriminate].
  destruct (measurements m (level c) tpc) as [b|] eqn:M; cbn [bind]; [|discriminate].
  destruct (Z.eqb_spec tpc (m_threads b)) as [E|]; cbn [negb]; [|discriminate]. cbn [fst snd].
  destruct cores as [k|].
  - destruct (index k (m_cores b)) as [j|] eqn:J; cbn [bind]; [|discriminate].
    destruct (get n' (m_results b)) as [rs|] eqn:G; cbn [bind]; [|discriminate].
    destruct (nth_error rs j) as [v|] eqn:Nv; cbn [bind]; [|discriminate].
    destruct (factor lv i) as [f|] eqn:F; cbn [bind]; [|discriminate]. intros [= <- <-].
    exists i, c, b, rs, v, f. do 7 (split; [assumption || reflexivity|]). exists j. auto.
  - destruct (get n' (m_results b)) as [rs|] eqn:G; cbn [bind]; [|discriminate].
    destruct (qmax _) as [v|] eqn:Q; cbn [bind]; [|discriminate].
    destruct (factor lv i) as [f|] eqn:F; cbn [bind]; [|discriminate]. intros [= <- <-].
    exists i, c, b, rs, v, f. do 7 (split; [assumption || reflexivity|]). assumption.
Qed.

Lemma factor_spec lv i f v : factor lv i = Ok f -> corrected lv i v (v * f).
Proof.
  unfold factor, corrected, moved, counted. destruct lv; [intros [= <-]; ring|].
  destruct (Qeq_bool_spec (read_bytes i + write_bytes i) 0) as [|N]; [discriminate|]. intros [= <-]. field. exact N.
Qed.
Lemma index_spec x l j : index x l = Ok j -> nth_error l j = Some x /\ forall i, (i < j)%nat -> nth_error l i <> Some x.
Proof.
  revert j. induction l as [|y l IH]; cbn [index]; intros j; [discriminate|].
  destruct (Z.eqb_spec y x) as [->|N].
  - intros [= <-]. split; [reflexivity|intros i Hi; lia].
  - destruct (index x l) as [n|]; cbn [bind]; [|discriminate]. intros [= <-]. destruct (IH n eq_refl) as [H1 H2].
    split; [exact H1|]. intros [|i] Hi; cbn; [congruence|]. apply H2. lia.
Qed.
Lemma bandwidth_cores m lv r w tpc k bw n : get_bandwidth m lv r w tpc (Some k) = Ok (bw, n) ->
  exists i c b rs v, closest (kernels m) (ratio r w) = Ok (n, i) /\ nth_error (hierarchy m) lv = Some c
    /\ measurements m (level c) tpc = Ok b /\ tpc = m_threads b /\ get n (m_results b) = Ok rs
    /\ corrected lv i v bw /\ exists j, nth_error (m_cores b) j = Some k /\ nth_error rs j = Some v.
Proof.
  intros H. destruct (bandwidth_inv _ _ _ _ _ _ _ _ H) as (i & c & b & rs & v & f & H1 & H2 & H3 & H4 & H5 & H6 & -> & j & H8 & H9).
  exists i, c, b, rs, v. do 5 (split; [assumption|]). split; [now apply factor_spec|]. exists j. split; [now apply index_spec|assumption].
Qed.

Lemma bandwidth_max m lv r w tpc bw n : get_bandwidth m lv r w tpc None = Ok (bw, n) ->
  exists i c b rs v, closest (kernels m) (ratio r w) = Ok (n, i) /\ nth_error (hierarchy m) lv = Some c
    /\ measurements m (level c) tpc = Ok b /\ get n (m_results b) = Ok rs /\ corrected lv i v bw
    /\ (exists j, Z.of_nat j < Z.min (cores_per_group c) (cores_per_numa m) /\ nth_error rs j = Some v)
    /\ forall j y, Z.of_nat j < Z.min (cores_per_group c) (cores_per_numa m) -> nth_error rs j = Some y -> (y <= v)%Q.
Proof.
  intros H. destruct (bandwidth_inv _ _ _ _ _ _ _ _ H) as (i & c & b & rs & v & f & H1 & H2 & H3 & H4 & H5 & H6 & -> & H8).
  exists i, c, b, rs, v. do 4 (split; [assumption|]). split; [now apply factor_spec|]. destruct (qmax_spec _ _ H8) as [I M]. set (k := Z.min _ _) in *.
  assert (FN : forall (l : list Q) n j, (j < n)%nat -> nth_error (firstn n l) j = nth_error l j).
  { clear. induction l as [|x l IH]; intros [|n] [|j] Hj; cbn; try reflexivity; try lia. apply IH. lia. }
  split.
  - apply In_nth_error in I as (j & Hj). exists j.
    assert (L : (j < length (firstn (Z.to_nat k) rs))%nat) by (apply nth_error_Some; congruence).
    rewrite firstn_length in L. split; [lia|]. rewrite FN in Hj; [assumption|lia].
  - intros j y Hj Hy. apply M. apply (nth_error_In _ j). rewrite FN; [assumption|lia].
Qed.

(** ** Cache simulator *)
Lemma build_sim_spec m cores s : build_sim m cores = Ok s -> sim_levels s = divided m cores /\ sim_used s = false.
Proof.
  unfold build_sim, divided. set (f := fun c => if 1 <? cores_per_group c then _ else _).
  destruct (mapM f (hierarchy m)) as [l|] eqn:E; cbn [bind]; [|discriminate]. intros [= <-]. split; [|reflexivity]. cbn [sim_levels].
  revert l E. induction (hierarchy m) as [|c h IH]; cbn [mapM map]; intros l E; [congruence|].
  destruct (f c) as [x|] eqn:Fc; cbn [bind] in E; [|discriminate].
  destruct (mapM f h) as [l'|]; cbn [bind] in E; [|discriminate]. injection E as <-. rewrite (IH l' eq_refl). f_equal.
  unfold f in Fc. destruct (1 <? cores_per_group c); [|congruence].
  destruct (Z.min cores (cores_per_numa m) =? 0); [discriminate|]. congruence.
Qed.

Lemma step_levels m cores kept e :
  (forall s, kept = Some s -> sim_levels s = divided m cores) -> (forall c, e = Get c -> c = cores) ->
  forall s, step m kept e = Some s -> sim_levels s = divided m cores.
Proof.
  intros K E s. destruct e as [c|]; cbn [step].
  - rewrite (E c eq_refl). unfold get_cachesim. destruct kept as [s0|].
    + intros [= <-]. cbn. now apply K.
    + destruct (build_sim m cores) as [s1|] eqn:B; cbn [bind]; [|discriminate]. intros [= <-]. now apply build_sim_spec in B.
  - destruct kept as [s0|]; [|discriminate]. intros [= <-]. cbn. now apply K.
Qed.
Lemma history_levels m cores l : (forall c, In (Get c) l -> c = cores) ->
  forall s, history m l = Some s -> sim_levels s = divided m cores.
Proof.
  unfold history. assert (G : forall l kept, (forall s, kept = Some s -> sim_levels s = divided m cores) ->
    (forall c, In (Get c) l -> c = cores) -> forall s, fold_left (step m) l kept = Some s -> sim_levels s = divided m cores).
  { clear l. induction l as [|e l IH]; cbn [fold_left]; intros kept K H; [exact K|].
    apply IH; [|intros c Hc; apply H; now right].
    apply step_levels; [exact K|]. intros c ->. apply H. now left. }
  intros H. apply G; [discriminate|exact H].
Qed.
Lemma get_same_cores m cores l s kept : (forall c, In (Get c) l -> c = cores) ->
  get_cachesim m (history m l) cores = Ok (s, kept) -> sim_levels s = divided m cores /\ sim_used s = false.
Proof.
  intros H. unfold get_cachesim. destruct (history m l) as [s0|] eqn:E.
  - intros [= <- _]. cbn. split; [|reflexivity]. now apply (history_levels m cores l H).
  - destruct (build_sim m cores) as [s1|] eqn:B; cbn [bind]; [|discriminate]. intros [= <- _]. now apply build_sim_spec in B.
Qed.
Lemma get_fresh m cores l s kept : get_cachesim m (history m l) cores = Ok (s, kept) -> sim_used s = false.
Proof.
  unfold get_cachesim. destruct (history m l) as [s0|].
  - now intros [= <- _].
  - destruct (build_sim m cores) as [s1|] eqn:B; cbn [bind]; [|discriminate]. intros [= <- _]. now apply build_sim_spec in B.
Qed.
(** The first request decides. *)
Lemma get_later m c1 c2 s1 kept l : get_cachesim m None c1 = Ok (s1, kept) ->
  exists s2 kept2, get_cachesim m (fold_left (step m) l kept) c2 = Ok (s2, kept2) /\ sim_levels s2 = sim_levels s1.
Proof.
  intros H. cbn [get_cachesim] in H. destruct (build_sim m c1) as [s|]; cbn [bind] in H; [|discriminate].
  injection H as <- <-.
  assert (G : forall l0 s0, exists s2, fold_left (step m) l0 (Some s0) = Some s2 /\ sim_levels s2 = sim_levels s0).
  { intros l0. induction l0 as [|ev l0 IH]; intros s0; [exists s0; split; reflexivity|]. cbn [fold_left].
    destruct ev; cbn [step get_cachesim]; [destruct (IH (mkSim (sim_levels s0) false)) as (s2 & -> & E)|
      destruct (IH (mkSim (sim_levels s0) true)) as (s2 & -> & E)]; exists s2; (split; [reflexivity|exact E]). }
  destruct (G l s) as (s2 & -> & E). cbn [get_cachesim]. eexists _, _. split; [reflexivity|exact E].
Qed.

Lemma small_group : rmap (fun x => sim_levels (fst x))
  (get_cachesim (mkMachine [mkCache "L2" 2 1024] 8 [] (fun _ _ => Err KeyError)) None 8) = Ok [("L2"%string, 1024 / 8)].
Proof. vm_compute. reflexivity. Qed.
