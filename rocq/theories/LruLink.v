(** Proofs for C111: distances of references and those of the layer conditions. *)
From Coq Require Import String Permutation Sorted.
From Verif Require Import PyBase PyStr PyBaseFacts LoopModel AstModel AstSpec LCModel LCSpec LCProofs FrontModel FrontSpec FrontPoly FrontProofs FrontDistance LruSpec LruProofs.
Local Open Scope list_scope.
Local Open Scope Z_scope.

(** ** Order of references *)
Definition same_in {X} (a b : list X) : Prop := forall x, In x a <-> In x b.
Lemma existsb_same (a b : list ref) r : same_in a b -> existsb (ref_eqb r) a = existsb (ref_eqb r) b.
Proof. intros H. apply Bool.eq_true_iff_eq. rewrite !before_in. apply H. Qed.
Lemma minimum_same a b : same_in a b -> minimum a = minimum b.
Proof.
  intros H. destruct (minimum a) as [x|] eqn:A, (minimum b) as [y|] eqn:B; try reflexivity.
  - apply minimum_some in A as [A1 A2]. apply minimum_some in B as [B1 B2]. f_equal. specialize (A2 y (proj2 (H y) B1)). specialize (B2 x (proj1 (H x) A1)). lia.
  - apply minimum_some in A as [A1 _]. apply minimum_none in B. subst b. destruct (proj1 (H x) A1).
  - apply minimum_some in B as [B1 _]. apply minimum_none in A. subst a. destruct (proj2 (H y) B1).
Qed.
Lemma distance_same refs refs' b b' r : (forall q, fst q = fst r -> (In q refs <-> In q refs')) -> (In r b <-> In r b') -> distance refs b r = distance refs' b' r.
Proof.
  intros HR HB. unfold distance. replace (existsb (ref_eqb r) b) with (existsb (ref_eqb r) b') by (apply Bool.eq_true_iff_eq; rewrite !before_in; symmetry; exact HB).
  destruct (existsb (ref_eqb r) b'); [reflexivity|]. apply minimum_same. intros x. rewrite !larger_in. split; intros (q & I & E & R); exists q; (split; [now apply (HR q E)|now split]).
Qed.
Lemma distances_same refs refs' : forall l b b', (forall r q, In r l -> fst q = fst r -> (In q refs <-> In q refs')) -> (forall r, In r l -> (In r b <-> In r b')) -> distances_from refs b l = distances_from refs' b' l.
Proof.
  induction l as [|r l IH]; intros b b' HR HB; [reflexivity|]. cbn [distances_from]. f_equal.
  - apply distance_same; [intros q E; apply (HR r q); [now left|assumption]|apply HB; now left].
  - apply IH; [intros r' q I; apply HR; now right|]. intros r' I. rewrite !in_app_iff. specialize (HB r' (or_intror I)). tauto.
Qed.
Lemma distances_app refs : forall a b l, distances_from refs b (a ++ l) = distances_from refs b a ++ distances_from refs (b ++ a) l.
Proof. induction a as [|r a IH]; intros b l; cbn [app distances_from]; [now rewrite app_nil_r|]. rewrite IH, <- app_assoc. reflexivity. Qed.
Lemma distances_from_perm refs l l' : Permutation l l' -> forall b, Permutation (distances_from refs b l) (distances_from refs b l').
Proof.
  induction 1 as [|r l l' P IH|x y l|l1 l2 l3 P IH Q IH']; intros b; cbn [distances_from].
  - constructor.
  - constructor. apply IH.
  - destruct (ref_eqb_spec x y) as [->|N]; [reflexivity|].
    rewrite (distances_same refs refs l ((b ++ [y]) ++ [x]) ((b ++ [x]) ++ [y])); [|reflexivity|intros r _; rewrite !in_app_iff; cbn; tauto].
    replace (distance refs (b ++ [y]) x) with (distance refs b x); [replace (distance refs (b ++ [x]) y) with (distance refs b y); [apply perm_swap|]|]; apply distance_same; try reflexivity; rewrite in_app_iff; cbn; intuition congruence.
  - etransitivity; [apply IH|apply IH'].
Qed.
Lemma distances_perm refs refs' : Permutation refs refs' -> Permutation (distances refs) (distances refs').
Proof.
  intros P. unfold distances. etransitivity; [apply (distances_from_perm refs refs refs' P)|]. match goal with |- Permutation ?a ?b => assert (E : a = b); [|rewrite E; reflexivity] end. apply distances_same; [|reflexivity].
  intros r q _ _. split; apply Permutation_in; [exact P|now apply Permutation_sym].
Qed.
(** References to different arrays *)
Lemma distances_disjoint a b : (forall r q, In r a -> In q b -> fst r <> fst q) -> distances (a ++ b) = distances a ++ distances b.
Proof.
  intros D. unfold distances. rewrite distances_app. cbn [app]. f_equal; apply distances_same.
  - intros r q I E. rewrite in_app_iff. split; [|now left]. intros [J|J]; [assumption|]. now destruct (D r q I J).
  - reflexivity.
  - intros r q I E. rewrite in_app_iff. split; [|now right]. intros [J|J]; [|assumption]. now destruct (D q r J I).
  - intros r I. split; [|easy]. intros J. now destruct (D r r J I).
Qed.
(** References to one array *)
Lemma sorted_app (l1 l2 : list Z) : StronglySorted Z.ge (l1 ++ l2) -> forall u v, In u l1 -> In v l2 -> v <= u.
Proof.
  induction l1 as [|y l1 IH]; intros SS u v Iu Iv; [easy|]. cbn [app] in SS. apply StronglySorted_inv in SS as [S1 S2]. destruct Iu as [<-|Iu]; [|now apply IH].
  rewrite Forall_forall in S2. apply Z.ge_le, S2, in_or_app. now right.
Qed.
Lemma sorted_distances a : forall rest b p, StronglySorted Z.ge (b ++ p :: rest) ->
  distances_from (map (pair a) (b ++ p :: rest)) (map (pair a) (b ++ [p])) (map (pair a) rest) = map Some (gaps (p :: rest)).
Proof.
  induction rest as [|r rest IH]; intros b p S; [reflexivity|]. cbn [map distances_from]. change (gaps (p :: r :: rest)) with ((p - r) :: gaps (r :: rest)). cbn [map]. f_equal.
  - assert (GE : forall x, In x (b ++ [p]) -> p <= x /\ r <= x).
    { intros x I. apply in_app_or in I as [I|[<-|[]]].
      - split; apply (sorted_app b (p :: r :: rest) S); cbn; auto.
      - split; [lia|]. replace (b ++ p :: r :: rest) with ((b ++ [p]) ++ r :: rest) in S by now rewrite <- app_assoc. apply (sorted_app _ _ S); [apply in_or_app; right; now left|now left]. }
    assert (LE : forall x, In x (r :: rest) -> x <= r).
    { intros x I. assert (S' : StronglySorted Z.ge (r :: rest)) by (clear - S; induction b as [|y b IH]; cbn in S; apply StronglySorted_inv in S as [S _]; [assumption|now apply IH]).
      apply StronglySorted_inv in S' as [_ F]. rewrite Forall_forall in F. destruct I as [<-|I]; [lia|]. apply Z.ge_le, F, I. }
    destruct (distance_cases (map (pair a) (b ++ p :: r :: rest)) (map (pair a) (b ++ [p])) (a, r)) as [(I & ->)|[(NI & -> & M)|(NI & v & q & -> & VP & Iq & Eq & Sq & M)]].
    + f_equal. apply in_map_iff in I as (x & [= ->] & I). destruct (GE r I). assert (r <= p) by (apply (GE p), in_or_app; right; now left). lia.
    + exfalso. assert (X : p <= r) by (apply (M (a, p)); [apply in_map, in_or_app; right; now left|reflexivity]). assert (r <= p) by (apply (GE p), in_or_app; right; now left). apply NI. apply in_map_iff. exists p. split; [f_equal; lia|apply in_or_app; right; now left].
    + f_equal. assert (RP : r < p). { assert (r <= p) by (apply (GE p), in_or_app; right; now left). destruct (Z.eq_dec r p) as [->|]; [|lia]. destruct NI. apply in_map, in_or_app. right. now left. }
      assert (r + v <= p) by (apply (M (a, p)); [apply in_map, in_or_app; right; now left|reflexivity|exact RP]). apply in_map_iff in Iq as (x & <- & Ix). cbn [snd] in Sq.
      replace (b ++ p :: r :: rest) with ((b ++ [p]) ++ r :: rest) in Ix by now rewrite <- app_assoc. apply in_app_or in Ix as [Ix|Ix]; [destruct (GE x Ix); lia|apply LE in Ix; lia].
  - specialize (IH (b ++ [p]) r). rewrite <- !app_assoc in IH. cbn [app] in IH. rewrite <- (IH S). f_equal. rewrite !map_app. cbn [map]. now rewrite <- app_assoc.
Qed.
Lemma array_distances_lru a os p rest : Permutation os (p :: rest) -> StronglySorted Z.ge (p :: rest) -> Permutation (distances (map (pair a) os)) (map Some (gaps (p :: rest)) ++ [None]).
Proof.
  intros P S. rewrite (distances_perm _ _ (Permutation_map (pair a) P)). unfold distances. cbn [map distances_from app].
  replace (distance ((a, p) :: map (pair a) rest) [] (a, p)) with (@None Z).
  - rewrite <- Permutation_cons_append. constructor. pose proof (sorted_distances a rest [] p S) as H. cbn [app map] in H. match goal with |- Permutation ?x ?y => assert (E : x = y) by exact H; rewrite E; reflexivity end.
  - destruct (distance_cases ((a, p) :: map (pair a) rest) [] (a, p)) as [([] & _)|[(_ & -> & _)|(_ & v & q & -> & VP & Iq & _ & Sq & _)]]; [reflexivity|]. exfalso.
    apply StronglySorted_inv in S as [_ F]. rewrite Forall_forall in F. destruct Iq as [<-|Iq]; [cbn in Sq; lia|]. apply in_map_iff in Iq as (x & <- & Ix). apply F in Ix. cbn in Sq. lia.
Qed.
Lemma gaps_sorted l : Forall (fun g => 0 <= g) (gaps l) -> StronglySorted Z.ge l.
Proof.
  intros F. apply Sorted_StronglySorted; [intros x y z; lia|]. induction l as [|a [|b l] IH]; [constructor|repeat constructor|]. change (gaps (a :: b :: l)) with ((a - b) :: gaps (b :: l)) in F. inversion F; subst. constructor; [now apply IH|]. constructor. lia.
Qed.

(** ** References of a kernel *)
Lemma array_lru less k inner n sizes ds w a rho : usual k -> lookup (variables k) n = Some (Some (map SVar sizes)) -> uniform (array_references k n) -> less_sound less ->
  uses inner (array_references k n) -> array_distances less k inner n (map SVar sizes) = Ok (ds, w) -> Forall (not_negative rho) ds ->
  Permutation (map (dist_value rho) ds) (distances (map (fun idx => (a, place rho (map SVar sizes) idx)) (array_references k n))).
Proof.
  intros U L UN LS US A F. destruct (array_result _ _ _ _ _ _ _ U L UN LS US A) as (order & P & _ & V & _). specialize (V rho).
  rewrite <- (map_map (place rho (map SVar sizes)) (pair a)). apply (Permutation_map (place rho (map SVar sizes))) in P.
  assert (G : Forall (fun g => 0 <= g) (gaps (map (place rho (map SVar sizes)) order))).
  { apply Forall_forall. intros g I. assert (J : In (Some g) (map (dist_value rho) ds)) by (rewrite V; apply in_or_app; left; now apply in_map). apply in_map_iff in J as (d & E & J). rewrite Forall_forall in F. specialize (F d J). unfold not_negative in F. now rewrite E in F. }
  apply gaps_sorted in G. rewrite V. destruct (map (place rho (map SVar sizes)) order) as [|p rest].
  - pose proof (uses_nonempty _ _ US). apply Permutation_sym, Permutation_nil, map_eq_nil in P. congruence.
  - symmetry. now apply array_distances_lru.
Qed.
Lemma all_lru less k inner rho number vars ds w : usual k -> NoDup (map fst (variables k)) -> (forall v, In v vars -> In v (variables k)) -> (forall n, uniform (array_references k n)) -> less_sound less ->
  (forall n, array_references k n <> [] -> uses inner (array_references k n)) -> NoDup (map fst vars) -> (forall n m, In n (map fst vars) -> In m (map fst vars) -> number n = number m -> n = m) ->
  all_distances less k inner vars = Ok (ds, w) -> Forall (not_negative rho) ds -> Permutation (map (dist_value rho) ds) (distances (kernel_refs number rho k vars)).
Proof.
  intros U ND SUB UN LS AU NV INJ. revert ds w. induction vars as [|[n [dims|]] vars IH]; intros ds w H F; cbn [all_distances] in H; cbn [kernel_refs flat_map].
  - injection H as <- <-. reflexivity.
  - destruct (array_distances less k inner n dims) as [[d1 w1]|] eqn:A; [|discriminate]. cbn [bind] in H. destruct (all_distances less k inner vars) as [[d2 w2]|] eqn:B; [|discriminate]. cbn [bind fst snd] in H. injection H as <- <-.
    apply Forall_app in F as [F1 F2]. cbn [map] in NV, INJ. inversion NV as [|? ? N1 N2]; subst.
    assert (IH' : Permutation (map (dist_value rho) d2) (distances (kernel_refs number rho k vars))) by (apply (IH (fun v I => SUB v (or_intror I)) N2) with (w := w2); try assumption; [|reflexivity]; intros m m' I I'; apply INJ; now right).
    rewrite distances_disjoint.
    + rewrite map_app. apply Permutation_app; [|exact IH']. destruct (array_references k n) as [|i r] eqn:E.
      * rewrite array_no_references in A by assumption. injection A as <- <-. reflexivity.
      * destruct (array_dims k n dims U ND (SUB _ (or_introl eq_refl))) as (sizes & -> & L); [congruence|]. rewrite <- E. apply (array_lru less k inner n sizes d1 w1); auto. apply AU. congruence.
    + intros r q I J. apply in_map_iff in I as (idx & <- & I). cbn [fst]. unfold kernel_refs in J. apply in_flat_map in J as ([m [d|]] & J1 & J2); [|easy]. apply in_map_iff in J2 as (i2 & <- & J2). cbn [fst].
      intros X. assert (IM : In m (map fst vars)) by (apply in_map_iff; now exists (m, Some d)). apply INJ in X; [|now left|now right]. subst m. contradiction.
  - cbn [map] in NV, INJ. inversion NV; subst. apply (IH (fun v I => SUB v (or_intror I))) with (w := w); auto. intros m m' I I'. apply INJ; now right.
Qed.
Lemma kernel_lru less k inner incr rest rho number refs ds w : usual k -> NoDup (map fst (variables k)) -> (forall n, uniform (array_references k n)) -> less_sound less -> rev (loops k) = (inner, incr) :: rest ->
  (forall n, array_references k n <> [] -> uses inner (array_references k n)) -> (forall n m, In n (map fst (variables k)) -> In m (map fst (variables k)) -> number n = number m -> n = m) ->
  reuse_distances less k = Ok (ds, w) -> Forall (not_negative rho) ds -> Permutation refs (kernel_refs number rho k (variables k)) -> Permutation (map (dist_value rho) ds) (distances refs).
Proof.
  intros U ND UN LS R AU INJ H F PR. unfold reuse_distances in H. rewrite R in H. destruct (checks k) as [[]|]; [|discriminate]. cbn [bind] in H.
  set (vars := sort_with _ _) in H. assert (P : Permutation (variables k) vars) by (apply sort_with_perm'). rewrite (distances_perm _ _ PR).
  assert (PK : Permutation (kernel_refs number rho k (variables k)) (kernel_refs number rho k vars)) by (unfold kernel_refs; now apply Permutation_flat_map). rewrite (distances_perm _ _ PK).
  assert (PN := Permutation_map fst P). apply (all_lru less k inner rho number vars ds w); try assumption.
  - intros v I. now apply (Permutation_in _ (Permutation_sym P)).
  - now apply (Permutation_NoDup PN).
  - intros n m I J. apply INJ; apply (Permutation_in _ (Permutation_sym PN)); assumption.
Qed.

(** ** Predictions *)
Lemma zsum_perm a b : Permutation a b -> zsum a = zsum b.
Proof. induction 1 as [|x a b P IH|x y a|a b c P IH Q IH']; [reflexivity| | |congruence].
  - change (zsum (x :: a)) with (x + zsum a). change (zsum (x :: b)) with (x + zsum b). lia.
  - change (zsum (y :: x :: a)) with (y + (x + zsum a)). change (zsum (x :: y :: a)) with (x + (y + zsum a)). lia. Qed.
Lemma needed_perm vs vs' t : Permutation vs vs' -> needed vs t = needed vs' t.
Proof. intros P. unfold needed. apply zsum_perm. now apply Permutation_map. Qed.
Lemma filter_perm {X} (f : X -> bool) a b : Permutation a b -> Permutation (filter f a) (filter f b).
Proof. induction 1 as [|x a b P IH|x y a|a b c P IH Q IH']; cbn [filter]; [constructor|destruct (f x); [now constructor|assumption]|destruct (f x), (f y); try reflexivity; constructor|etransitivity; eassumption]. Qed.
Lemma missing_perm vs vs' size : Permutation vs vs' -> missing vs size = missing vs' size.
Proof.
  intros P. unfold missing. f_equal. rewrite (Permutation_length (filter_perm _ _ _ P)). f_equal. apply filter_ext. intros [x|]; [|reflexivity]. now rewrite (needed_perm vs vs' x P).
Qed.
Lemma needed_scale es vs t : 0 < es -> needed (map (option_map (Z.mul es)) vs) (es * t) = es * needed vs t.
Proof.
  intros E. unfold needed. rewrite map_map. induction vs as [|v vs IH]; [cbn; lia|]. cbn [map].
  match goal with |- zsum (?a :: ?l) = _ => change (zsum (a :: l)) with (a + zsum l) end. match goal with |- _ = es * zsum (?a :: ?l) => change (zsum (a :: l)) with (a + zsum l) end. rewrite IH.
  destruct v as [x|]; cbn [option_map]; [rewrite Z.mul_min_distr_nonneg_l by lia|]; ring.
Qed.
Lemma missing_scale es vs size : 0 < es -> missing (map (option_map (Z.mul es)) vs) (es * size) = missing vs size.
Proof.
  intros E. unfold missing. f_equal. set (W := map (option_map (Z.mul es)) vs).
  assert (N : forall x, needed W (es * x) = es * needed vs x) by (intros x; now apply needed_scale).
  assert (G : forall l, length (filter (fun v => match v with Some x => es * size <? needed W x | None => true end) (map (option_map (Z.mul es)) l)) = length (filter (fun v => match v with Some x => size <? needed vs x | None => true end) l)).
  { induction l as [|v l IH]; [reflexivity|]. cbn [map filter]. destruct v as [x|]; cbn [option_map]; [|cbn [length]; now rewrite IH]. rewrite N.
    replace (es * size <? es * needed vs x) with (size <? needed vs x); [destruct (size <? needed vs x); cbn [length]; now rewrite IH|]. apply Bool.eq_true_iff_eq. rewrite !Z.ltb_lt. split; nia. }
  apply G.
Qed.
Lemma filter_partition {X} (f g : X -> bool) l : (forall x, In x l -> f x = negb (g x)) -> (length l = length (filter f l) + length (filter g l))%nat.
Proof. induction l as [|x l IH]; intros H; [reflexivity|]. cbn [filter length]. rewrite (H x (or_introl eq_refl)), (IH (fun y I => H y (or_intror I))). destruct (g x); cbn [negb length]; lia. Qed.
Lemma classified_missing vs total size h : classified vs total size h -> Z.of_nat (length vs) - h <= missing vs size /\ (size <= total -> Z.of_nat (length vs) - h = missing vs size).
Proof.
  intros [T|t T I N M|T M].
  - split; [unfold missing; lia|lia].
  - assert (E : Z.of_nat (length vs) - reused vs t = missing vs size); [|rewrite E; split; [reflexivity|auto]]. unfold reused, missing.
    rewrite (filter_partition (fun v => match v with Some x => size <? needed vs x | None => true end) (fun v => match v with Some x => x <=? t | None => false end) vs); [lia|].
    intros [x|] J; [|reflexivity]. destruct (Z.leb_spec x t) as [X|X]; cbn [negb].
    + apply Z.ltb_ge. pose proof (needed_mono vs x t X). lia.
    + apply Z.ltb_lt. destruct (Z.lt_ge_cases size (needed vs x)) as [Y|Y]; [assumption|]. specialize (M x J Y). lia.
  - assert (E : Z.of_nat (length vs) - 0 = missing vs size); [|rewrite E; split; [reflexivity|auto]]. unfold missing. rewrite Z.sub_0_r. f_equal. f_equal.
    symmetry. assert (G : forall l, incl l vs -> filter (fun v => match v with Some x => size <? needed vs x | None => true end) l = l).
    { induction l as [|v l IH]; intros S; [reflexivity|]. cbn [filter]. rewrite IH by (intros x J; apply S; now right). destruct v as [x|]; [|reflexivity]. replace (size <? needed vs x) with true; [reflexivity|]. symmetry. apply Z.ltb_lt, M, S. now left. }
    apply G, incl_refl.
Qed.
(** Misses of one level *)
Lemma level_missing decide ds es destinations tails total rho size cs c : sound decide -> (forall s, 0 < rho s) -> 0 < es ->
  (forall d, In d tails <-> In d (map (scale_dist es) ds)) -> consistent rho (map (scale_dist es) ds) ->
  build_level decide ds es destinations tails total (es * size) = Ok cs -> desymbolize rho cs = Ok c ->
  misses c <= missing (map (dist_value rho) ds) size /\ (es * size <= eval rho total -> misses c = missing (map (dist_value rho) ds) size).
Proof.
  intros S P E T C B D. destruct (level_meaning' decide ds es destinations tails total rho (es * size) cs S P T C B) as (c1 & D1 & CL). rewrite D in D1. injection D1 as <-.
  destruct (level_counts decide ds es destinations tails total (es * size) cs rho B) as (c2 & D2 & _ & _ & HM & _). rewrite D in D2. injection D2 as <-.
  apply classified_missing in CL. rewrite map_length in CL.
  assert (Q : map (fun d => option_map (Z.mul es) (dist_value rho d)) ds = map (option_map (Z.mul es)) (map (dist_value rho) ds)) by now rewrite map_map. rewrite Q, missing_scale in CL by assumption.
  destruct CL as [C1 C2]. split; [lia|]. intros X. specialize (C2 X). lia.
Qed.

(** ** Iterations *)
Lemma shape_value env s x : shape s = Some x -> seval env s = match fst x with Some v => env v | None => 0 end + snd x.
Proof. intros H. rewrite <- eval_expand. apply (rep_eval env (expand s) s x); [apply same_refl|exact H]. Qed.
Lemma place_cons env dims s idx : place env dims (s :: idx) = zprod (map (seval env) (tl dims)) * seval env s + place env (tl dims) idx.
Proof. unfold place. cbn [map]. now rewrite access_cons, map_tl. Qed.
Lemma place_advances env x v t : forall idx dims, length idx = length dims -> idx <> [] -> (forall d, In d dims -> independent_of x d) ->
  (forall p s, nth_error idx p = Some s -> exists y c, shape s = Some (y, c) /\ (y = Some x <-> S p = length idx)) ->
  place (set env x (v + t)) dims idx = place (set env x v) dims idx + t.
Proof.
  induction idx as [|s idx IH]; intros dims LN NE IND H; [congruence|]. rewrite !place_cons. destruct dims as [|d dims]; [discriminate|]. cbn [tl].
  assert (ZP : forall w, zprod (map (seval (set env x w)) dims) = zprod (map (seval env) dims)) by (intros w; f_equal; apply map_ext_in; intros d' I; apply IND; now right).
  rewrite !ZP. destruct (H 0%nat s eq_refl) as (y & c & SH & Y). destruct idx as [|s2 idx].
  - destruct dims; [|discriminate]. cbn [map]. change (zprod []) with 1. change (place (set env x (v + t)) [] []) with 0. change (place (set env x v) [] []) with 0. rewrite !(shape_value _ _ _ SH). rewrite (proj2 Y eq_refl). cbn [fst snd].
    unfold set. rewrite String.eqb_refl. ring.
  - rewrite (IH dims); [|now injection LN|discriminate|intros d' I; apply IND; now right|].
    + rewrite !(shape_value _ _ _ SH). cbn [fst snd]. destruct y as [y|]; [|ring]. assert (y <> x) by (intros ->; destruct Y as [Y _]; specialize (Y eq_refl); cbn in Y; lia).
      unfold set. destruct (String.eqb_spec y x); [contradiction|]. ring.
    + intros p s' N. destruct (H (S p) s' N) as (y' & c' & SH' & Y'). exists y', c'. split; [exact SH'|]. rewrite Y'. cbn [length]. lia.
Qed.
Lemma kernel_advances k inner incr rest n sizes idx env v t : usual k -> checks k = Ok tt -> rev (loops k) = (inner, incr) :: rest -> lookup (variables k) n = Some (Some (map SVar sizes)) ->
  uniform (array_references k n) -> uses inner (array_references k n) -> In idx (array_references k n) ->
  place (set env inner (v + t)) (map SVar sizes) idx = place (set env inner v) (map SVar sizes) idx + t.
Proof.
  intros U C R L UN US I. destruct (usual_references k n sizes idx U L I) as (NE & LN & SZ & SH).
  assert (O : forall i, In i (array_references k n) -> ordered (map fst (loops k)) i).
  { intros i J. destruct (proj1 (usual_accepted k U) C) as (_ & _ & O). apply in_subscripts, in_entries in J as (arefs & J1 & J2). now apply (O n arefs). }
  assert (IN : In inner (map fst (loops k))) by (rewrite <- (rev_involutive (loops k)), R; cbn [rev]; rewrite map_app; apply in_or_app; right; now left).
  assert (RL : nth_error (rev (map fst (loops k))) 0 = Some inner) by (rewrite <- map_rev, R; reflexivity).
  assert (ND : NoDup (rev (map fst (loops k)))) by (apply NoDup_rev, U).
  assert (LAST : forall i p s c, In i (array_references k n) -> nth_error i p = Some s -> shape s = Some (Some inner, c) -> S p = length i).
  { intros i p s c J N SS. pose proof (proj1 (ordered_positions _ _) (O i J) p s inner c N SS) as Q. assert (PL : (p < length i)%nat) by (apply nth_error_Some; congruence).
    assert (X : (length i - S p = 0)%nat); [|lia]. rewrite NoDup_nth_error in ND. apply ND; [apply nth_error_Some; congruence|congruence]. }
  apply place_advances; [now rewrite map_length|assumption| |].
  - intros d J. apply in_map_iff in J as (s & <- & J). intros e w. cbn [seval]. unfold set. destruct (String.eqb_spec s inner) as [->|]; [|reflexivity]. now destruct (SZ inner J).
  - intros p s N. destruct (SH s (nth_error_In _ _ N)) as (y & c & SS & _). exists y, c. split; [exact SS|]. split; [intros ->; now apply (LAST idx p s c)|].
    intros P. destruct US as (i2 & s2 & c2 & J & K & S2). destruct (usual_references k n sizes i2 U L J) as (_ & LN2 & _). apply In_nth_error in K as (p2 & K). pose proof (LAST i2 p2 s2 c2 J K S2) as P2.
    assert (p2 = p) by lia. subst p2. now rewrite (UN idx i2 p s s2 y (Some inner) c c2).
Qed.
