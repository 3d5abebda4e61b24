From Coq Require Import String Sorted Permutation.
From Verif Require Import PyBase PyBaseFacts PyStr LCModel LCSpec.
Local Open Scope Z_scope.

(** ** Order of keys *)
Lemma pair_eqb_spec a b : reflect (a = b) (pair_eqb a b).
Proof.
  destruct a as [a1 a2], b as [b1 b2]. unfold pair_eqb. cbn.
  destruct (Nat.eqb_spec a1 b1), (Z.eqb_spec a2 b2); cbn; constructor; congruence.
Qed.
Lemma pair_ltb_spec a b :
  pair_ltb a b = true <-> (fst a < fst b)%nat \/ (fst a = fst b /\ snd a < snd b).
Proof.
  unfold pair_ltb. rewrite orb_true_iff, andb_true_iff, Nat.ltb_lt, Nat.eqb_eq, Z.ltb_lt. tauto.
Qed.
Lemma list_leb_total a b : list_leb a b = true \/ list_leb b a = true.
Proof.
  revert b. induction a as [|x a IH]; intros [|y b]; cbn; auto.
  destruct (pair_eqb_spec x y) as [->|N].
  - destruct (pair_eqb_spec y y); [apply IH|congruence].
  - destruct (pair_eqb_spec y x) as [E|_]; [congruence|]. rewrite !pair_ltb_spec.
    destruct x as [x1 x2], y as [y1 y2]. cbn.
    assert (x1 <> y1 \/ x2 <> y2).
    { destruct (Nat.eq_dec x1 y1); [|tauto]. destruct (Z.eq_dec x2 y2); [|tauto]. subst. congruence. }
    lia.
Qed.
Lemma list_leb_trans a b c : list_leb a b = true -> list_leb b c = true -> list_leb a c = true.
Proof.
  revert b c. induction a as [|x a IH]; intros [|y b] [|z c]; cbn; auto; try discriminate.
  destruct (pair_eqb_spec x y) as [->|N1], (pair_eqb_spec y z) as [->|N2]; intros H1 H2.
  - now apply (IH b c).
  - assumption.
  - destruct (pair_eqb_spec x z); [congruence|assumption].
  - rewrite pair_ltb_spec in H1, H2. destruct (pair_eqb_spec x z) as [->|N3].
    + exfalso. lia.
    + apply pair_ltb_spec. lia.
Qed.
Lemma list_leb_antisym a b : list_leb a b = true -> list_leb b a = true -> a = b.
Proof.
  revert b. induction a as [|x a IH]; intros [|y b]; cbn; try reflexivity; try discriminate.
  destruct (pair_eqb_spec x y) as [->|N].
  - destruct (pair_eqb_spec y y); [|congruence]. intros H1 H2. f_equal. now apply IH.
  - destruct (pair_eqb_spec y x); [congruence|]. rewrite !pair_ltb_spec. lia.
Qed.
Lemma key_leb_total a b : key_leb a b = true \/ key_leb b a = true.
Proof. destruct a, b; cbn; auto. apply list_leb_total. Qed.
Lemma key_leb_trans a b c : key_leb a b = true -> key_leb b c = true -> key_leb a c = true.
Proof. destruct a, b, c; cbn; auto; try discriminate. apply list_leb_trans. Qed.
Lemma key_leb_antisym a b : key_leb a b = true -> key_leb b a = true -> a = b.
Proof. destruct a, b; cbn; try discriminate; auto. intros. f_equal. now apply list_leb_antisym. Qed.

(** ** Polynomials in one variable *)
Definition pv (c : nat -> Z) (e : nat) (n : Z) : Z := zsum (map (fun i => c i * n ^ Z.of_nat i) (down e)).

Lemma pv_S c e n : pv c (S e) n = c (S e) * n ^ Z.of_nat (S e) + pv c e n.
Proof. reflexivity. Qed.
Lemma pv_0 c n : pv c O n = c O.
Proof. unfold pv. cbn. lia. Qed.
Lemma pv_add c d e n : pv (fun i => c i + d i) e n = pv c e n + pv d e n.
Proof. induction e; [rewrite !pv_0; reflexivity|]. rewrite !pv_S, IHe. ring. Qed.
Lemma pv_sub c d e n : pv (fun i => c i - d i) e n = pv c e n - pv d e n.
Proof. induction e; [rewrite !pv_0; reflexivity|]. rewrite !pv_S, IHe. ring. Qed.
Lemma pv_ext c d e n : (forall i, (i <= e)%nat -> c i = d i) -> pv c e n = pv d e n.
Proof.
  induction e; intros H; [rewrite !pv_0; now apply H|]. rewrite !pv_S, H by lia. rewrite IHe; [reflexivity|].
  intros i Hi. apply H. lia.
Qed.
Lemma pv_trim c e m n : (e <= m)%nat -> (forall i, (e < i)%nat -> c i = 0) -> pv c m n = pv c e n.
Proof.
  intros H Z0. induction H as [|m H IH]; [reflexivity|]. rewrite pv_S, IH, Z0 by lia. ring.
Qed.

Lemma pv_bound c e : exists B, 0 <= B /\ forall n, 1 <= n -> Z.abs (pv c e n) <= B * n ^ Z.of_nat e.
Proof.
  induction e as [|e (B & HB & IH)].
  - exists (Z.abs (c O)). split; [lia|]. intros n Hn. rewrite pv_0. cbn. lia.
  - exists (Z.abs (c (S e)) + B). split; [lia|]. intros n Hn. rewrite pv_S.
    specialize (IH n Hn). rewrite Nat2Z.inj_succ, Z.pow_succ_r by lia.
    assert (P : 0 < n ^ Z.of_nat e) by (apply Z.pow_pos_nonneg; lia).
    assert (A : Z.abs (c (S e) * (n * n ^ Z.of_nat e)) = Z.abs (c (S e)) * (n * n ^ Z.of_nat e)).
    { rewrite Z.abs_mul. f_equal. lia. }
    nia.
Qed.

Lemma pv_positive c e : 0 < c e -> exists n0, 1 <= n0 /\ forall n, n0 <= n -> 0 < pv c e n.
Proof.
  intros H. destruct e as [|e].
  - exists 1. split; [lia|]. intros n _. now rewrite pv_0.
  - destruct (pv_bound c e) as (B & HB & Hb). exists (B + 1). split; [lia|]. intros n Hn.
    specialize (Hb n ltac:(lia)). rewrite pv_S, Nat2Z.inj_succ, Z.pow_succ_r by lia.
    assert (P : 0 < n ^ Z.of_nat e) by (apply Z.pow_pos_nonneg; lia).
    set (x := n ^ Z.of_nat e) in *. assert (B * x < n * x) by nia.
    assert (n * x <= c (S e) * (n * x)) by nia. lia.
Qed.

(** ** Collecting powers *)
Lemma coeff_cons m p e : coeff (m :: p) e = (if Nat.eqb (length (fst m)) e then snd m else 0) + coeff p e.
Proof. unfold coeff. cbn. destruct (Nat.eqb (length (fst m)) e); reflexivity. Qed.
Lemma max_power_cons m p : max_power (m :: p) = Nat.max (length (fst m)) (max_power p).
Proof. reflexivity. Qed.
Lemma coeff_above p e : (max_power p < e)%nat -> coeff p e = 0.
Proof.
  induction p as [|m p IH]; intros H; [reflexivity|]. rewrite coeff_cons. rewrite max_power_cons in H.
  rewrite IH by lia. destruct (Nat.eqb_spec (length (fst m)) e); lia.
Qed.
Lemma zprod_same (l : list string) n : zprod (map (fun _ => n) l) = n ^ Z.of_nat (length l).
Proof.
  induction l as [|x l IH]; [reflexivity|]. cbn [map zprod fold_right length].
  fold (zprod (map (fun _ : string => n) l)). rewrite IH. rewrite Nat2Z.inj_succ, Z.pow_succ_r by lia. reflexivity.
Qed.
Lemma pv_single k z e n : (k <= e)%nat ->
  pv (fun i => if Nat.eqb k i then z else 0) e n = z * n ^ Z.of_nat k.
Proof.
  intros H. induction H as [|e H IH].
  - destruct k; [rewrite pv_0; cbn; lia|]. rewrite pv_S, Nat.eqb_refl.
    rewrite (pv_ext _ (fun _ => 0)); [|intros i Hi; destruct (Nat.eqb_spec (S k) i); lia].
    assert (E : forall m, pv (fun _ => 0) m n = 0) by (induction m; [apply pv_0|rewrite pv_S; lia]).
    rewrite E. ring.
  - rewrite pv_S, IH. destruct (Nat.eqb_spec k (S e)); [lia|]. ring.
Qed.
Lemma eval_uniform p m n : (max_power p <= m)%nat -> eval (fun _ => n) p = pv (coeff p) m n.
Proof.
  induction p as [|x p IH]; intros H.
  - cbn. symmetry. assert (E : forall m, pv (coeff []) m n = 0) by (induction m0; [apply pv_0|rewrite pv_S, IHm0; unfold coeff; cbn; lia]).
    apply E.
  - rewrite max_power_cons in H. unfold eval in *. cbn [map zsum fold_right]. fold (zsum (map (monomial (fun _ => n)) p)).
    rewrite IH by lia. rewrite (pv_ext (coeff (x :: p)) (fun i => (if Nat.eqb (length (fst x)) i then snd x else 0) + coeff p i))
      by (intros; apply coeff_cons).
    rewrite pv_add, pv_single by lia. unfold monomial. now rewrite zprod_same.
Qed.
Lemma eval_degree p e n : (forall i, (e < i)%nat -> coeff p i = 0) -> eval (fun _ => n) p = pv (coeff p) e n.
Proof.
  intros H. rewrite (eval_uniform p (Nat.max (max_power p) e)) by lia. apply pv_trim; [lia|assumption].
Qed.

Lemma down_le e i : In i (down e) <-> (i <= e)%nat.
Proof.
  induction e as [|e IH]; cbn [down In]; [lia|]. rewrite IH. lia.
Qed.

Definition nz (t : nat * Z) : bool := negb (snd t =? 0).
Definition at_ (c : nat -> Z) (e : nat) : nat * Z := (e, c e).

Lemma terms_S c m : filter nz (map (at_ c) (down (S m)))
  = if c (S m) =? 0 then filter nz (map (at_ c) (down m)) else (S m, c (S m)) :: filter nz (map (at_ c) (down m)).
Proof. cbn [down map filter]. unfold nz at 1, at_ at 1. cbn [snd]. now destruct (c (S m) =? 0). Qed.
Lemma terms_0 c : filter nz (map (at_ c) (down 0)) = if c O =? 0 then [] else [(O, c O)].
Proof. cbn. unfold nz, at_. cbn. now destruct (c O =? 0). Qed.

Lemma terms_lead c m e z l :
  filter nz (map (at_ c) (down m)) = (e, z) :: l ->
  (e <= m)%nat /\ c e = z /\ z <> 0 /\ (forall i, (e < i <= m)%nat -> c i = 0)
  /\ filter nz (map (at_ c) (down m)) = filter nz (map (at_ c) (down e)).
Proof.
  induction m as [|m IH]; [rewrite terms_0|rewrite terms_S].
  - destruct (Z.eqb_spec (c O) 0) as [E|N]; [discriminate|]. intros [= <- <- <-].
    split; [lia|]. split; [reflexivity|]. split; [assumption|]. split; [intros; lia|].
    rewrite terms_0. destruct (Z.eqb_spec (c O) 0); [lia|reflexivity].
  - destruct (Z.eqb_spec (c (S m)) 0) as [E|N].
    + intros H. destruct (IH H) as (H1 & H2 & H3 & H4 & H5).
      split; [lia|]. split; [assumption|]. split; [assumption|]. split; [|assumption].
      intros i Hi. destruct (Nat.eq_dec i (S m)) as [->|]; [assumption|]. apply H4. lia.
    + intros [= <- <- <-].
      split; [lia|]. split; [reflexivity|]. split; [assumption|]. split; [intros; lia|].
      rewrite terms_S. destruct (Z.eqb_spec (c (S m)) 0); [lia|]. reflexivity.
Qed.

Lemma fill_dense c e : fill e (filter nz (map (at_ c) (down e))) = map (at_ c) (down e).
Proof.
  induction e as [|e IH]; [rewrite terms_0|rewrite terms_S].
  - destruct (Z.eqb_spec (c O) 0) as [E|N]; cbn; unfold at_; [now rewrite E|reflexivity].
  - destruct (Z.eqb_spec (c (S e)) 0) as [E|N]; cbn [down map fill].
    + replace (at_ c (S e)) with (S e, 0) by (unfold at_; now rewrite E).
      destruct (filter nz (map (at_ c) (down e))) as [|[i z] l] eqn:F.
      * f_equal. exact IH.
      * assert (In (i, z) (filter nz (map (at_ c) (down e)))) as I by (rewrite F; now left).
        apply filter_In in I as [I _]. apply in_map_iff in I as (j & [= <- _] & I). apply down_le in I.
        cbn [fst]. destruct (Nat.eqb_spec j (S e)); [lia|]. f_equal. exact IH.
    + cbn [fst]. rewrite Nat.eqb_refl. f_equal. exact IH.
Qed.

(** Keys of growing distances *)
Lemma integer_coeff p e : is_integer p = true -> (0 < e)%nat -> coeff p e = 0.
Proof.
  unfold is_integer. rewrite forallb_forall. intros H He. unfold coeff.
  replace (filter _ p) with (@nil (list string * Z)); [reflexivity|]. symmetry.
  induction p as [|[m z] p IH]; [reflexivity|]. cbn.
  assert (m = []) as -> by (specialize (H (m, z) (or_introl eq_refl)); destruct m; [reflexivity|discriminate]).
  destruct e; [lia|]. cbn. apply IH. intros x Hx. apply H. now right.
Qed.

Lemma key_form p k : distance_key (Poly p) = Ok k -> grows (Poly p) ->
  exists e, k = KFin (map (at_ (coeff p)) (down e)) /\ (forall i, (e < i)%nat -> coeff p i = 0)
    /\ ((0 < e)%nat -> 0 < coeff p e).
Proof.
  cbn [distance_key grows]. destruct (is_integer p) eqn:I.
  - intros [= <-] H. exists O. cbn. unfold at_. rewrite Z.abs_eq by assumption. split; [reflexivity|].
    split; [|lia]. intros i Hi. now apply integer_coeff.
  - destruct (terms p) as [|[[|e] z] l] eqn:T; try discriminate. intros Hk (e' & Hp & Ha).
    assert (k = KFin (fill (S e) ((S e, z) :: l))) as -> by congruence. clear Hk.
    unfold terms in T. change (filter nz (map (at_ (coeff p)) (down (max_power p))) = (S e, z) :: l) in T.
    destruct (terms_lead _ _ _ _ _ T) as (H1 & H2 & H3 & H4 & H5). rewrite <- T, H5.
    exists (S e). rewrite fill_dense. split; [reflexivity|].
    assert (A : forall i, (S e < i)%nat -> coeff p i = 0).
    { intros i Hi. destruct (Nat.le_gt_cases i (max_power p)) as [L|L]; [apply H4; lia|now apply coeff_above]. }
    split; [assumption|]. intros _.
    assert (e' = S e); [|now subst].
    destruct (Nat.lt_trichotomy e' (S e)) as [L|[L|L]]; [|assumption|].
    + rewrite (Ha (S e) L) in H2. congruence.
    + rewrite (A e' L) in Hp. lia.
Qed.

Lemma dense_leb c d e :
  list_leb (map (at_ c) (down e)) (map (at_ d) (down e)) = true ->
  (forall i, (i <= e)%nat -> c i = d i)
  \/ exists i, (i <= e)%nat /\ c i < d i /\ forall j, (i < j <= e)%nat -> c j = d j.
Proof.
  induction e as [|e IH]; cbn [down map list_leb].
  - destruct (pair_eqb_spec (at_ c O) (at_ d O)) as [E|N].
    + injection E as E. intros _. left. intros i Hi. now replace i with O by lia.
    + rewrite pair_ltb_spec. cbn. intros H. right. exists O. repeat split; lia.
  - destruct (pair_eqb_spec (at_ c (S e)) (at_ d (S e))) as [E|N].
    + injection E as E. intros H. destruct (IH H) as [A|(i & Hi & L & A)].
      * left. intros i Hi. destruct (Nat.eq_dec i (S e)) as [->|]; [assumption|]. apply A. lia.
      * right. exists i. repeat split; [lia|assumption|]. intros j Hj.
        destruct (Nat.eq_dec j (S e)) as [->|]; [assumption|]. apply A. lia.
    + rewrite pair_ltb_spec. cbn. intros H. right. exists (S e). repeat split; [lia|lia|]. intros j Hj. lia.
Qed.

Lemma down_head e : exists l, down e = e :: l.
Proof. destruct e; cbn; eauto. Qed.

Lemma keys_agree p q kp kq :
  distance_key (Poly p) = Ok kp -> distance_key (Poly q) = Ok kq -> grows (Poly p) -> grows (Poly q) ->
  key_leb kp kq = true ->
  (kp = kq /\ forall n, eval (fun _ => n) p = eval (fun _ => n) q)
  \/ exists n0, 1 <= n0 /\ forall n, n0 <= n -> eval (fun _ => n) p < eval (fun _ => n) q.
Proof.
  intros Hp Hq Gp Gq. destruct (key_form p kp Hp Gp) as (ep & -> & Ap & Pp).
  destruct (key_form q kq Hq Gq) as (eq_ & -> & Aq & Pq). cbn [key_leb]. intros H.
  set (e := Nat.max ep eq_).
  assert (Ep : forall n, eval (fun _ => n) p = pv (coeff p) e n) by (intros; apply eval_degree; intros; apply Ap; lia).
  assert (Eq : forall n, eval (fun _ => n) q = pv (coeff q) e n) by (intros; apply eval_degree; intros; apply Aq; lia).
  assert (D : (forall i, coeff p i = coeff q i) /\ ep = eq_
              \/ exists i, coeff p i < coeff q i /\ forall j, (i < j)%nat -> coeff p j = coeff q j).
  { destruct (Nat.lt_trichotomy ep eq_) as [L|[L|L]].
    - right. exists eq_. split; [rewrite (Ap eq_ L); apply Pq; lia|]. intros j Hj. rewrite Ap, Aq by lia. reflexivity.
    - subst ep. destruct (dense_leb _ _ _ H) as [A|(i & Hi & Lt & A)].
      + left. split; [|reflexivity]. intros i. destruct (Nat.le_gt_cases i eq_); [now apply A|]. now rewrite Ap, Aq.
      + right. exists i. split; [assumption|]. intros j Hj.
        destruct (Nat.le_gt_cases j eq_); [apply A; lia|]. now rewrite Ap, Aq.
    - exfalso. destruct (down_head ep) as (l1 & E1), (down_head eq_) as (l2 & E2). rewrite E1, E2 in H. cbn in H.
      destruct (pair_eqb_spec (at_ (coeff p) ep) (at_ (coeff q) eq_)) as [E|N]; [injection E; lia|].
      rewrite pair_ltb_spec in H. cbn in H. lia. }
  destruct D as [[D E]|(i & Lt & A)].
  - left. split.
    + subst eq_. f_equal. apply map_ext. intros i. unfold at_. now rewrite D.
    + intros n. rewrite Ep, Eq. apply pv_ext. intros. apply D.
  - right. destruct (pv_positive (fun j => coeff q j - coeff p j) i) as (n0 & H0 & H1); [lia|].
    exists n0. split; [assumption|]. intros n Hn. specialize (H1 n Hn).
    assert (Hm : pv (fun j => coeff q j - coeff p j) (Nat.max e i) n = pv (fun j => coeff q j - coeff p j) i n).
    { apply pv_trim; [lia|]. intros j Hj. rewrite A by assumption. ring. }
    rewrite pv_sub in Hm.
    rewrite (pv_trim (coeff q) e) in Hm by (try lia; intros; apply Aq; lia).
    rewrite (pv_trim (coeff p) e) in Hm by (try lia; intros; apply Ap; lia).
    rewrite Ep, Eq. lia.
Qed.

Lemma keys_decide a b ka kb :
  distance_key a = Ok ka -> distance_key b = Ok kb -> grows a -> grows b ->
  exists n0, 1 <= n0 /\ forall n, n0 <= n ->
    (key_leb ka kb = true <-> value_le (dist_value (fun _ => n) a) (dist_value (fun _ => n) b)).
Proof.
  intros Ha Hb Ga Gb. destruct a as [|p], b as [|q].
  - injection Ha as <-. injection Hb as <-. exists 1. split; [lia|]. now intros.
  - injection Ha as <-. destruct (key_form q kb Hb Gb) as (e & -> & _). exists 1. split; [lia|]. cbn. now intros.
  - injection Hb as <-. exists 1. split; [lia|]. intros n Hn. destruct ka; cbn; tauto.
  - destruct (key_leb ka kb) eqn:L.
    + destruct (keys_agree p q ka kb Ha Hb Ga Gb L) as [[_ E]|(n0 & H0 & H1)].
      * exists 1. split; [lia|]. intros n _. cbn. rewrite E. split; [intros; lia|reflexivity].
      * exists n0. split; [assumption|]. intros n Hn. cbn. specialize (H1 n Hn). split; [intros; lia|reflexivity].
    + destruct (key_leb_total ka kb) as [T|T]; [congruence|].
      destruct (keys_agree q p kb ka Hb Ha Gb Ga T) as [[E _]|(n0 & H0 & H1)].
      * subst. congruence.
      * exists n0. split; [assumption|]. intros n Hn. cbn. specialize (H1 n Hn). split; [discriminate|lia].
Qed.

Lemma keys_strict a b ka kb :
  distance_key a = Ok ka -> distance_key b = Ok kb -> grows a -> grows b -> key_leb kb ka = false ->
  exists n0, 1 <= n0 /\ forall n, n0 <= n ->
    ~ value_le (dist_value (fun _ => n) b) (dist_value (fun _ => n) a).
Proof.
  intros Ha Hb Ga Gb H. destruct (keys_decide b a kb ka Hb Ha Gb Ga) as (n0 & H0 & H1).
  exists n0. split; [assumption|]. intros n Hn L. apply H1 in L; [congruence|assumption].
Qed.

(** ** Consistency for large problems *)
Definition eventually (P : Z -> Prop) : Prop := exists n0, 1 <= n0 /\ forall n, n0 <= n -> P n.
Lemma eventually_and P Q : eventually P -> eventually Q -> eventually (fun n => P n /\ Q n).
Proof.
  intros (a & Ha & HP) (b & Hb & HQ). exists (Z.max a b). split; [lia|]. intros n Hn. split; [apply HP|apply HQ]; lia.
Qed.
Lemma eventually_all {A} (l : list A) (P : A -> Z -> Prop) :
  (forall x, In x l -> eventually (P x)) -> eventually (fun n => forall x, In x l -> P x n).
Proof.
  induction l as [|x l IH]; intros H.
  - exists 1. split; [lia|]. now intros.
  - destruct (eventually_and (P x) (fun n => forall y, In y l -> P y n)) as (n0 & H0 & H1).
    + apply H. now left.
    + apply IH. intros y Hy. apply H. now right.
    + exists n0. split; [assumption|]. intros n Hn y [<-|Hy]; [exact (proj1 (H1 n Hn))|exact (proj2 (H1 n Hn) y Hy)].
Qed.
Lemma eventually_consistent ds : (forall d, In d ds -> grows d) -> eventually (fun n => consistent (fun _ => n) ds).
Proof.
  intros G.
  assert (H : eventually (fun n => forall a, In a ds -> forall b, In b ds -> forall ka kb,
    distance_key a = Ok ka -> distance_key b = Ok kb ->
    (key_leb ka kb = true <-> value_le (dist_value (fun _ => n) a) (dist_value (fun _ => n) b)))).
  { apply eventually_all. intros a Ia. apply eventually_all. intros b Ib.
    destruct (distance_key a) as [ka|] eqn:Ka; [|exists 1; split; [lia|]; intros; congruence].
    destruct (distance_key b) as [kb|] eqn:Kb; [|exists 1; split; [lia|]; intros; congruence].
    destruct (keys_decide a b ka kb Ka Kb (G a Ia) (G b Ib)) as (n0 & H0 & H1).
    exists n0. split; [assumption|]. intros n Hn ka' kb' [= <-] [= <-]. now apply H1. }
  destruct H as (n0 & H0 & H1). exists n0. split; [assumption|]. intros n Hn a b ka kb Ia Ib Ka Kb.
  now apply (H1 n Hn a Ia b Ib).
Qed.

(** ** Choices of a level *)
Lemma relational_holds decide rho r : sound decide -> (forall s, 0 < rho s) ->
  cond_holds rho (relational decide r) = holds rho r.
Proof.
  intros S P. unfold relational. destruct (decide r) eqn:E; [|reflexivity]. cbn. symmetry. now apply (S r b E rho P).
Qed.

Section LevelProofs.
  Variables (decide : rel -> option bool) (l : keyed) (destinations : Z).

  Definition mk (size : Z) (k : key) (t : poly) : choice :=
    mkChoice (relational decide (Rel false (requirement l k t) (const size)))
      (count (fun k' => key_leb k' k) l) (count (fun k' => negb (key_leb k' k)) l) destinations (Poly t).
  Definition fits (rho : string -> Z) (size : Z) (x : key * dist) : bool :=
    match snd x with Inf => false | Poly t => eval rho (requirement l (fst x) t) <=? size end.
  Definition mk' (size : Z) (x : key * dist) : choice := mk size (fst x) (body (snd x)).

  Lemma eval_const rho z : eval rho (const z) = z.
  Proof. unfold eval, const, monomial. cbn. lia. Qed.

  Lemma find_tails rho size tails : sound decide -> (forall s, 0 < rho s) ->
    find (fun c => cond_holds rho (condition c)) (tail_choices decide l destinations size tails)
    = option_map (mk' size) (find (fits rho size) tails).
  Proof.
    intros S P. induction tails as [|[k [|t]] tails IH]; [reflexivity|exact IH|].
    cbn [tail_choices find]. fold (mk size k t).
    assert (C : cond_holds rho (condition (mk size k t)) = fits rho size (k, Poly t)).
    { cbn [condition mk]. rewrite relational_holds by assumption. unfold fits. cbn [holds fst snd].
      now rewrite eval_const. }
    destruct (is_true (condition (mk size k t))) eqn:T.
    - assert (F : fits rho size (k, Poly t) = true).
      { rewrite <- C. destruct (condition (mk size k t)); [exact T|discriminate]. }
      cbn [find]. rewrite C, F. reflexivity.
    - cbn [find]. rewrite C, IH. destruct (fits rho size (k, Poly t)); reflexivity.
  Qed.

  Definition fallback : choice := mkChoice (Decided true) 0 (Z.of_nat (length l)) destinations (Poly []).
  Definition full (size : Z) (total : poly) : choice :=
    mkChoice (relational decide (Rel true total (const size))) (Z.of_nat (length l)) 0 0 Inf.

  Lemma find_app {A} (f : A -> bool) a b :
    find f (a ++ b) = match find f a with Some x => Some x | None => find f b end.
  Proof. induction a as [|x a IH]; [reflexivity|]. cbn. destruct (f x); auto. Qed.
  Lemma find_last {A} (f : A -> bool) a d x : In x (d :: a) -> f (last (d :: a) x) = true -> exists y, find f (d :: a) = Some y.
  Proof.
    intros _ H. destruct (find f (d :: a)) eqn:F; [eauto|]. exfalso.
    assert (In (last (d :: a) x) (d :: a)).
    { clear. revert d. induction a as [|y a IH]; intros d; [now left|]. right. apply IH. }
    pose proof (find_none f _ F _ H0). congruence.
  Qed.

  Lemma desymbolize_level rho size tails total : sound decide -> (forall s, 0 < rho s) ->
    desymbolize rho (level_choices decide l destinations size tails total)
    = Ok (if eval rho total <? size then full size total
          else match find (fits rho size) tails with Some x => mk' size x | None => fallback end).
  Proof.
    intros S P. unfold desymbolize, level_choices. fold (full size total). fold fallback.
    set (opts := full size total :: tail_choices decide l destinations size tails).
    assert (F : find (fun c => cond_holds rho (condition c)) opts =
      if eval rho total <? size then Some (full size total)
      else option_map (mk' size) (find (fits rho size) tails)).
    { unfold opts. cbn [find full condition]. rewrite relational_holds by assumption. cbn [holds].
      rewrite eval_const. destruct (eval rho total <? size); [reflexivity|]. now apply find_tails. }
    destruct (is_true (condition (last opts (full size total)))) eqn:T.
    - destruct (find_last (fun c => cond_holds rho (condition c)) (tail_choices decide l destinations size tails)
                  (full size total) (full size total)) as (y & Hy); [now left| |].
      { fold opts. destruct (condition (last opts (full size total))); [exact T|discriminate]. }
      fold opts in Hy. rewrite Hy in F. rewrite Hy. destruct (eval rho total <? size); [congruence|].
      destruct (find (fits rho size) tails); [|discriminate]. cbn in F. congruence.
    - rewrite find_app, F. destruct (eval rho total <? size); [reflexivity|].
      destruct (find (fits rho size) tails); reflexivity.
  Qed.

  (** Without any assumption on sympy there is always a true choice. *)
  Lemma always_resolves rho size tails total :
    exists c, desymbolize rho (level_choices decide l destinations size tails total) = Ok c
      /\ In c (level_choices decide l destinations size tails total).
  Proof.
    unfold desymbolize.
    destruct (find _ (level_choices decide l destinations size tails total)) as [c|] eqn:F.
    - exists c. split; [reflexivity|]. now apply find_some in F as [F _].
    - exfalso. unfold level_choices in F. fold (full size total) in F. fold fallback in F.
      set (opts := full size total :: tail_choices decide l destinations size tails) in F.
      destruct (is_true (condition (last opts (full size total)))) eqn:T.
      + destruct (find_last (fun c => cond_holds rho (condition c)) (tail_choices decide l destinations size tails)
                  (full size total) (full size total)) as (y & Hy); [now left| |].
        { fold opts. destruct (condition (last opts (full size total))); [exact T|discriminate]. }
        fold opts in Hy. congruence.
      + rewrite find_app in F. destruct (find _ opts); [discriminate|]. cbn in F. discriminate.
  Qed.

  Lemma count_nonneg f : 0 <= count f l.
  Proof. unfold count. lia. Qed.
  Lemma count_split f : count f l + count (fun k => negb (f k)) l = Z.of_nat (length l).
  Proof.
    unfold count. induction l as [|x l' IH]; [reflexivity|]. cbn [filter]. destruct (f (fst x)); cbn [negb length]; lia.
  Qed.
  Lemma tail_choices_counts size tails c : In c (tail_choices decide l destinations size tails) ->
    hits c + misses c = Z.of_nat (length l) /\ 0 <= hits c /\ 0 <= misses c.
  Proof.
    induction tails as [|[k [|t]] tails IH]; cbn [tail_choices]; [intros []|exact IH|].
    fold (mk size k t).
    assert (M : hits (mk size k t) + misses (mk size k t) = Z.of_nat (length l)
                /\ 0 <= hits (mk size k t) /\ 0 <= misses (mk size k t)).
    { cbn [mk hits misses]. split; [apply count_split|]. split; apply count_nonneg. }
    destruct (is_true (condition (mk size k t))); [intros [<-|[]]; exact M|intros [<-|H]; [exact M|now apply IH]].
  Qed.
  Lemma choices_counts size tails total c : In c (level_choices decide l destinations size tails total) ->
    hits c + misses c = Z.of_nat (length l) /\ 0 <= hits c /\ 0 <= misses c.
  Proof.
    unfold level_choices. fold (full size total). fold fallback. intros H.
    assert (G : c = full size total \/ In c (tail_choices decide l destinations size tails) \/ c = fallback).
    { destruct (is_true _) in H; [destruct H as [<-|H]; auto|].
      destruct H as [<-|H]; auto. apply in_app_iff in H as [H|[<-|[]]]; auto. }
    destruct G as [->|[G| ->]]; [cbn; lia|now apply (tail_choices_counts size tails)|cbn; lia].
  Qed.
End LevelProofs.

(** ** Bigger caches *)
Lemma count_mono l k1 k2 : key_leb k1 k2 = true ->
  count (fun k => key_leb k k1) l <= count (fun k => key_leb k k2) l
  /\ count (fun k => negb (key_leb k k2)) l <= count (fun k => negb (key_leb k k1)) l.
Proof.
  intros H. unfold count. induction l as [|x l IH]; [cbn; lia|]. cbn [filter].
  destruct (key_leb (fst x) k1) eqn:E1.
  - rewrite (key_leb_trans _ _ _ E1 H). cbn [negb length]. lia.
  - destruct (key_leb (fst x) k2); cbn [negb length]; lia.
Qed.

Lemma find_first {A} (R : A -> A -> Prop) (f g : A -> bool) l x :
  StronglySorted R l -> (forall y, f y = true -> g y = true) -> find f l = Some x ->
  exists y, find g l = Some y /\ (y = x \/ R y x).
Proof.
  intros S H. induction S as [|a l S IH Ha]; cbn; [discriminate|].
  destruct (f a) eqn:Fa.
  - intros [= ->]. rewrite (H x Fa). eauto.
  - intros F. destruct (g a) eqn:Ga; [|now apply IH].
    exists a. split; [reflexivity|]. right. rewrite Forall_forall in Ha. apply Ha. now apply find_some in F.
Qed.

Lemma find_sorted {A} (R : A -> A -> Prop) (f : A -> bool) l x y :
  StronglySorted R l -> find f l = Some y -> In x l -> f x = true -> y = x \/ R y x.
Proof.
  intros S. induction S as [|a l S IH Ha]; cbn; [discriminate|]. intros F [->|I] Fx.
  - rewrite Fx in F. left. congruence.
  - destruct (f a); [|now apply IH]. injection F as <-. right. rewrite Forall_forall in Ha. now apply Ha.
Qed.

Lemma by_key_total a b : by_key_reverse a b = true \/ by_key_reverse b a = true.
Proof. unfold by_key_reverse. destruct (key_leb_total (fst b) (fst a)); auto. Qed.
Lemma by_key_trans a b c : by_key_reverse a b = true -> by_key_reverse b c = true -> by_key_reverse a c = true.
Proof. unfold by_key_reverse. intros H1 H2. now apply (key_leb_trans _ (fst b)). Qed.
Lemma by_key_sorted l : StronglySorted (fun a b => by_key_reverse a b = true) (sort_with by_key_reverse l).
Proof. apply sort_with_sorted; [apply by_key_total|apply by_key_trans]. Qed.

Lemma level_monotone decide l destinations tails total rho s1 s2 c1 c2 :
  sound decide -> (forall s, 0 < rho s) -> 0 <= destinations -> s1 <= s2 ->
  desymbolize rho (level_choices decide l destinations s1 (sort_with by_key_reverse tails) total) = Ok c1 ->
  desymbolize rho (level_choices decide l destinations s2 (sort_with by_key_reverse tails) total) = Ok c2 ->
  hits c1 <= hits c2 /\ misses c2 <= misses c1 /\ evicts c2 <= evicts c1.
Proof.
  intros S P D L. rewrite !desymbolize_level by assumption.
  destruct (Z.ltb_spec (eval rho total) s2) as [F2|F2].
  - intros H1 [= <-]. cbn [full hits misses evicts].
    assert (N : hits c1 + misses c1 = Z.of_nat (length l) /\ 0 <= hits c1 /\ 0 <= misses c1 /\ 0 <= evicts c1).
    { destruct (eval rho total <? s1) in H1; [injection H1 as <-; cbn; lia|].
      destruct (find _ _) in H1; injection H1 as <-; cbn [mk' mk hits misses evicts fallback]; [|lia].
      split; [apply count_split|]. split; [apply count_nonneg|]. split; [apply count_nonneg|assumption]. }
    lia.
  - destruct (Z.ltb_spec (eval rho total) s1); [lia|]. intros H1 [= <-].
    destruct (find (fits l rho s1) (sort_with by_key_reverse tails)) as [x|] eqn:F1.
    + injection H1 as <-.
      destruct (find_first (fun a b => by_key_reverse a b = true) (fits l rho s1) (fits l rho s2) _ x
                  (by_key_sorted tails)) as (y & Fy & Hy); [|assumption|].
      { intros [k [|t]]; cbn; [discriminate|]. rewrite !Z.leb_le. lia. }
      rewrite Fy. cbn [mk' mk hits misses evicts].
      assert (K : key_leb (fst x) (fst y) = true).
      { destruct Hy as [->|Hy]; [destruct (key_leb_total (fst x) (fst x)); assumption|exact Hy]. }
      destruct (count_mono l _ _ K). lia.
    + injection H1 as <-. cbn [fallback hits misses evicts].
      assert (N : forall c, c = match find (fits l rho s2) (sort_with by_key_reverse tails) with
                  | Some x => mk' decide l destinations s2 x | None => fallback l destinations end ->
                  hits c + misses c = Z.of_nat (length l) /\ 0 <= hits c /\ 0 <= misses c /\ evicts c = destinations).
      { intros c ->. destruct (find (fits l rho s2) (sort_with by_key_reverse tails)); cbn [mk' mk hits misses evicts fallback]; [|lia].
        split; [apply count_split|]. split; [apply count_nonneg|]. split; [apply count_nonneg|reflexivity]. }
      specialize (N _ eq_refl). lia.
Qed.

(** ** Meaning of the classification *)
Lemma with_key_inv d x : with_key d = Ok x -> snd x = d /\ distance_key d = Ok (fst x).
Proof. unfold with_key. destruct (distance_key d); cbn; [|discriminate]. intros [= <-]. auto. Qed.
Lemma mapM_with_key ds l : mapM with_key ds = Ok l ->
  map snd l = ds /\ forall x, In x l -> distance_key (snd x) = Ok (fst x).
Proof.
  revert l. induction ds as [|d ds IH]; intros l; cbn [mapM].
  - intros [= <-]. split; [reflexivity|intros x []].
  - destruct (with_key d) as [x|] eqn:E; cbn [bind]; [|discriminate].
    destruct (mapM with_key ds) as [l'|]; cbn [bind]; [|discriminate]. intros [= <-].
    destruct (with_key_inv _ _ E) as [E1 E2]. destruct (IH l' eq_refl) as [H1 H2].
    split; [cbn; congruence|]. intros y [<-|Hy]; [congruence|now apply H2].
Qed.

Lemma eval_app rho a b : eval rho (a ++ b) = eval rho a + eval rho b.
Proof. unfold eval. now rewrite map_app, zsum_app. Qed.
Lemma eval_scale rho k p : eval rho (scale k p) = k * eval rho p.
Proof.
  unfold eval, scale. induction p as [|m p IH]; cbn; [lia|].
  change (monomial rho (fst m, k * snd m) + zsum (map (monomial rho) (map (fun m0 => (fst m0, k * snd m0)) p))
          = k * (monomial rho m + zsum (map (monomial rho) p))).
  rewrite IH. unfold monomial. cbn [fst snd]. ring.
Qed.

Section Meaning.
  Variables (rho : string -> Z) (l : keyed).
  Hypothesis Hk : forall x, In x l -> distance_key (snd x) = Ok (fst x).
  Hypothesis Hc : consistent rho (map snd l).
  Definition values : list (option Z) := map (fun x => dist_value rho (snd x)) l.

  Lemma leb_value k t x : In x l -> In (k, Poly t) l ->
    key_leb (fst x) k = match dist_value rho (snd x) with Some v => v <=? eval rho t | None => false end.
  Proof.
    intros Hx Ht. pose proof (Hk x Hx) as Kx. pose proof (Hk _ Ht) as Kt. cbn [fst snd] in Kt.
    assert (I : key_leb (fst x) k = true <-> value_le (dist_value rho (snd x)) (dist_value rho (Poly t))).
    { apply (Hc (snd x) (Poly t)); try assumption; [now apply in_map|]. now apply (in_map snd l (k, Poly t)). }
    cbn [dist_value] in I. destruct (dist_value rho (snd x)) as [v|]; cbn [value_le] in I.
    - destruct (Z.leb_spec v (eval rho t)) as [L|L]; [now apply I|].
      destruct (key_leb (fst x) k); [|reflexivity]. exfalso. assert (v <= eval rho t) by now apply I. lia.
    - destruct (key_leb (fst x) k); [|reflexivity]. exfalso. now apply I.
  Qed.

  Lemma requirement_needed k t : In (k, Poly t) l -> eval rho (requirement l k t) = needed values (eval rho t).
  Proof.
    intros Ht. unfold requirement. rewrite eval_app, eval_scale. unfold values, needed, count.
    assert (G : forall l', incl l' l ->
      eval rho (flat_map (fun x => body (snd x)) (filter (fun x => key_leb (fst x) k) l'))
      + Z.of_nat (length (filter (fun x => negb (key_leb (fst x) k)) l')) * eval rho t
      = zsum (map (fun v => match v with Some x => Z.min x (eval rho t) | None => eval rho t end)
                (map (fun x => dist_value rho (snd x)) l'))); [|apply G, incl_refl].
    intros l'. induction l' as [|x l' IH]; intros Hin; [reflexivity|].
    assert (Hx : In x l) by (apply Hin; now left).
    assert (Hi : incl l' l) by (intros y Hy; apply Hin; now right).
    specialize (IH Hi). cbn [filter map zsum fold_right]. 
    fold (zsum (map (fun v => match v with Some x => Z.min x (eval rho t) | None => eval rho t end)
                (map (fun x => dist_value rho (snd x)) l'))).
    rewrite (leb_value k t x Hx Ht). destruct (snd x) as [|p] eqn:Ex; cbn [dist_value].
    - cbn [negb length]. rewrite <- IH. lia.
    - destruct (Z.leb_spec (eval rho p) (eval rho t)); cbn [negb flat_map length].
      + rewrite eval_app, Ex. cbn [body]. rewrite <- IH. lia.
      + rewrite <- IH. lia.
  Qed.

  Lemma hits_reused k t : In (k, Poly t) l -> count (fun k' => key_leb k' k) l = reused values (eval rho t).
  Proof.
    intros Ht. unfold count, reused, values. f_equal.
    assert (G : forall l', incl l' l -> length (filter (fun x => key_leb (fst x) k) l')
      = length (filter (fun v => match v with Some x => x <=? eval rho t | None => false end)
                  (map (fun x => dist_value rho (snd x)) l'))); [|apply G, incl_refl].
    intros l'. induction l' as [|x l' IH]; intros Hin; [reflexivity|].
    assert (Hx : In x l) by (apply Hin; now left).
    assert (Hi : incl l' l) by (intros y Hy; apply Hin; now right).
    cbn [filter map]. rewrite (leb_value k t x Hx Ht). specialize (IH Hi).
    destruct (dist_value rho (snd x)) as [v|]; [|exact IH]. destruct (v <=? eval rho t); cbn [length]; lia.
  Qed.
End Meaning.

Lemma find_none_all {A} (f : A -> bool) l : find f l = None -> forall x, In x l -> f x = false.
Proof. intros H. now apply find_none. Qed.

Lemma level_meaning decide ds es destinations tails total rho size cs :
  sound decide -> (forall s, 0 < rho s) ->
  (forall d, In d tails <-> In d (map (scale_dist es) ds)) ->
  consistent rho (map (scale_dist es) ds) ->
  build_level decide ds es destinations tails total size = Ok cs ->
  exists c, desymbolize rho cs = Ok c
    /\ classified (map (dist_value rho) (map (scale_dist es) ds)) (eval rho total) size (hits c).
Proof.
  intros S P T C. unfold build_level.
  destruct (mapM with_key (map (scale_dist es) ds)) as [l|] eqn:El; cbn [bind]; [|discriminate].
  destruct (mapM with_key tails) as [ts|] eqn:Et; cbn [bind]; [|discriminate]. intros [= <-].
  destruct (mapM_with_key _ _ El) as [L1 L2]. destruct (mapM_with_key _ _ Et) as [T1 T2].
  rewrite desymbolize_level by assumption. eexists. split; [reflexivity|].
  rewrite <- L1. rewrite <- L1 in C. rewrite map_map. fold (values rho l).
  assert (Hts : forall x, In x ts -> In x l).
  { intros x Hx. assert (I : In (snd x) (map snd l)).
    { rewrite L1. apply T. rewrite <- T1. now apply in_map. }
    apply in_map_iff in I as (y & E & Iy). replace x with y; [assumption|].
    pose proof (T2 x Hx) as K1. pose proof (L2 y Iy) as K2. rewrite E in K2.
    destruct x, y. cbn in *. congruence. }
  assert (Hall : forall v, In (Some v) (values rho l) -> exists k t, In (k, Poly t) ts /\ eval rho t = v).
  { intros v Hv. apply in_map_iff in Hv as ([k d] & Ed & Id). cbn in Ed. destruct d as [|p]; [discriminate|].
    injection Ed as Ed. assert (I : In (Poly p) tails) by (apply T; rewrite <- L1; now apply (in_map snd l (k, Poly p))).
    rewrite <- T1 in I. apply in_map_iff in I as ([k' d'] & E & I). cbn in E. subst d'. eauto. }
  destruct (Z.ltb_spec (eval rho total) size) as [F|F].
  - cbn [full hits]. replace (length l) with (length (values rho l)) by (unfold values; apply map_length).
    now constructor.
  - destruct (find (fits l rho size) (sort_with by_key_reverse ts)) as [[k [|t]]|] eqn:Fd.
    + apply find_some in Fd as [_ Fd]. discriminate.
    + pose proof (find_some _ _ Fd) as [I Ft].
      assert (I' : In (k, Poly t) ts) by (eapply Permutation_in; [symmetry; apply sort_with_perm'|exact I]).
      assert (Il : In (k, Poly t) l) by now apply Hts.
      cbn [mk' mk hits fst snd body]. rewrite (hits_reused rho l L2 C k t Il).
      unfold fits in Ft. cbn [fst snd] in Ft. rewrite (requirement_needed rho l L2 C k t Il) in Ft.
      apply Z.leb_le in Ft. apply cl_tail; try assumption.
      * apply in_map_iff. exists (k, Poly t). now split.
      * intros t' Ht' Hn. destruct (Hall t' Ht') as (k2 & p2 & I2 & <-).
        assert (I2' : In (k2, Poly p2) (sort_with by_key_reverse ts)) by (eapply Permutation_in; [apply sort_with_perm'|exact I2]).
        assert (F2 : fits l rho size (k2, Poly p2) = true).
        { unfold fits. cbn [fst snd]. rewrite (requirement_needed rho l L2 C k2 p2 (Hts _ I2)). now apply Z.leb_le. }
        destruct (find_sorted _ _ _ _ _ (by_key_sorted ts) Fd I2' F2) as [Hy|Hy]; [injection Hy as -> ->; lia|].
        unfold by_key_reverse in Hy. cbn [fst] in Hy.
        pose proof (leb_value rho l L2 C k t (k2, Poly p2) (Hts _ I2) Il) as LV. cbn [fst snd dist_value] in LV.
        rewrite Hy in LV. symmetry in LV. now apply Z.leb_le in LV.
    + cbn [fallback hits]. apply cl_none; [assumption|]. intros t' Ht'.
      destruct (Hall t' Ht') as (k2 & p2 & I2 & <-).
      assert (I2' : In (k2, Poly p2) (sort_with by_key_reverse ts)) by (eapply Permutation_in; [apply sort_with_perm'|exact I2]).
      pose proof (find_none_all _ _ Fd _ I2') as N. unfold fits in N. cbn [fst snd] in N.
      rewrite (requirement_needed rho l L2 C k2 p2 (Hts _ I2)) in N. apply Z.leb_gt in N. assumption.
Qed.

(** ** Order of the choices *)
Lemma tail_choices_in decide l destinations size tails c :
  In c (tail_choices decide l destinations size tails) ->
  exists x, In x tails /\ hits c = count (fun k => key_leb k (fst x)) l.
Proof.
  induction tails as [|[k [|t]] tails IH]; cbn [tail_choices]; [intros []| |].
  - intros H. destruct (IH H) as (x & Hx & E). exists x. split; [now right|assumption].
  - destruct (is_true _).
    + intros [<-|[]]. exists (k, Poly t). split; [now left|reflexivity].
    + intros [<-|H]; [exists (k, Poly t); split; [now left|reflexivity]|].
      destruct (IH H) as (x & Hx & E). exists x. split; [now right|assumption].
Qed.
Lemma tail_choices_sorted decide l destinations size tails :
  StronglySorted (fun a b => by_key_reverse a b = true) tails ->
  StronglySorted (fun a b => hits b <= hits a) (tail_choices decide l destinations size tails).
Proof.
  intros S. induction S as [|[k [|t]] tails S IH Ha]; cbn [tail_choices]; [constructor|exact IH|].
  destruct (is_true _); [repeat constructor|]. constructor; [exact IH|]. apply Forall_forall. intros c Hc.
  destruct (tail_choices_in _ _ _ _ _ _ Hc) as (x & Hx & ->). cbn [hits].
  rewrite Forall_forall in Ha. specialize (Ha x Hx). unfold by_key_reverse in Ha. cbn [fst] in Ha.
  now apply count_mono.
Qed.
Lemma sorted_snoc {A} (R : A -> A -> Prop) l x :
  StronglySorted R l -> (forall y, In y l -> R y x) -> StronglySorted R (l ++ [x]).
Proof.
  intros S. induction S as [|a l S IH Ha]; cbn [app]; intros H.
  - repeat constructor.
  - constructor; [apply IH; intros; apply H; now right|]. apply Forall_app. split; [assumption|].
    repeat constructor. apply H. now left.
Qed.
Lemma level_choices_sorted decide l destinations size tails total :
  StronglySorted (fun a b => by_key_reverse a b = true) tails ->
  StronglySorted (fun a b => hits b <= hits a) (level_choices decide l destinations size tails total).
Proof.
  intros S. unfold level_choices. fold (full decide l size total).
  assert (H : StronglySorted (fun a b => hits b <= hits a)
                (full decide l size total :: tail_choices decide l destinations size tails)).
  { constructor; [now apply tail_choices_sorted|]. apply Forall_forall. intros c Hc.
    apply tail_choices_counts in Hc. cbn [full hits]. lia. }
  destruct (is_true _); [exact H|]. apply sorted_snoc; [exact H|]. intros c [<-|Hc]; cbn [hits full].
  - lia.
  - apply tail_choices_counts in Hc. lia.
Qed.

Lemma build_level_inv decide ds es destinations tails total size cs :
  build_level decide ds es destinations tails total size = Ok cs ->
  exists l ts, length l = length ds /\ mapM with_key (map (scale_dist es) ds) = Ok l /\ mapM with_key tails = Ok ts
    /\ cs = level_choices decide l destinations size (sort_with by_key_reverse ts) total.
Proof.
  unfold build_level.
  destruct (mapM with_key (map (scale_dist es) ds)) as [l|] eqn:El; cbn [bind]; [|discriminate].
  destruct (mapM with_key tails) as [ts|] eqn:Et; cbn [bind]; [|discriminate]. intros [= <-].
  exists l, ts. split; [|auto]. destruct (mapM_with_key _ _ El) as [H _].
  apply (f_equal (@length _)) in H. now rewrite !map_length in H.
Qed.

Lemma level_counts decide ds es destinations tails total size cs rho :
  build_level decide ds es destinations tails total size = Ok cs ->
  exists c, desymbolize rho cs = Ok c /\ In c cs /\ cond_holds rho (condition c) = true
    /\ hits c + misses c = Z.of_nat (length ds) /\ 0 <= hits c /\ 0 <= misses c.
Proof.
  intros H. destruct (build_level_inv _ _ _ _ _ _ _ _ H) as (l & ts & L & _ & _ & ->). rewrite <- L.
  destruct (always_resolves decide l destinations rho size (sort_with by_key_reverse ts) total) as (c & D & I).
  exists c. split; [assumption|]. split; [assumption|]. split.
  - unfold desymbolize in D. destruct (find _ _) eqn:F in D; [|discriminate]. injection D as ->. now apply find_some in F.
  - now apply choices_counts in I.
Qed.

Lemma level_strongest decide ds es destinations tails total size cs rho c :
  build_level decide ds es destinations tails total size = Ok cs ->
  desymbolize rho cs = Ok c ->
  forall c', In c' cs -> cond_holds rho (condition c') = true -> hits c' <= hits c.
Proof.
  intros H D c' I C. destruct (build_level_inv _ _ _ _ _ _ _ _ H) as (l & ts & _ & _ & _ & ->).
  unfold desymbolize in D. destruct (find _ _) as [c0|] eqn:F in D; [|discriminate]. injection D as ->.
  destruct (find_sorted _ _ _ c' c (level_choices_sorted decide l destinations size _ total (by_key_sorted ts)) F I C) as [->|L].
  - lia.
  - exact L.
Qed.

Lemma build_level_monotone decide ds es destinations tails total rho s1 s2 cs1 cs2 c1 c2 :
  sound decide -> (forall s, 0 < rho s) -> 0 <= destinations -> s1 <= s2 ->
  build_level decide ds es destinations tails total s1 = Ok cs1 ->
  build_level decide ds es destinations tails total s2 = Ok cs2 ->
  desymbolize rho cs1 = Ok c1 -> desymbolize rho cs2 = Ok c2 ->
  hits c1 <= hits c2 /\ misses c2 <= misses c1 /\ evicts c2 <= evicts c1.
Proof.
  intros S P D L H1 H2. destruct (build_level_inv _ _ _ _ _ _ _ _ H1) as (l & ts & _ & E1 & E2 & ->).
  destruct (build_level_inv _ _ _ _ _ _ _ _ H2) as (l' & ts' & _ & E1' & E2' & ->).
  assert (l' = l) as -> by congruence. assert (ts' = ts) as -> by congruence. now apply level_monotone.
Qed.

Lemma needed_mono vs t t' : t <= t' -> needed vs t <= needed vs t'.
Proof.
  intros H. unfold needed. induction vs as [|[v|] vs IH]; cbn [map zsum fold_right]; [lia| |].
  - unfold zsum in IH. lia.
  - unfold zsum in IH. lia.
Qed.

(** ** Growing distances *)
Lemma coeff_scale k p e : coeff (scale k p) e = k * coeff p e.
Proof.
  induction p as [|m p IH]; [unfold coeff; cbn; lia|].
  change (scale k (m :: p)) with ((fst m, k * snd m) :: scale k p). rewrite !coeff_cons, IH. cbn [fst snd].
  destruct (Nat.eqb (length (fst m)) e); ring.
Qed.
Lemma is_integer_scale k p : is_integer (scale k p) = is_integer p.
Proof.
  unfold is_integer, scale. induction p as [|m p IH]; [reflexivity|]. cbn [map forallb fst]. now rewrite IH.
Qed.
Lemma grows_scale k d : 0 < k -> grows d -> grows (scale_dist k d).
Proof.
  intros K. destruct d as [|p]; [trivial|]. cbn [scale_dist grows]. rewrite is_integer_scale.
  destruct (is_integer p).
  - rewrite coeff_scale. nia.
  - intros (e & H1 & H2). exists e. rewrite coeff_scale. split; [nia|]. intros e' He. rewrite coeff_scale, H2 by assumption. lia.
Qed.

Lemma level_large decide ds es destinations tails total size cs :
  sound decide -> 0 < es -> (forall d, In d ds -> grows d) ->
  (forall d, In d tails <-> In d (map (scale_dist es) ds)) ->
  build_level decide ds es destinations tails total size = Ok cs ->
  exists n0, 1 <= n0 /\ forall n, n0 <= n -> exists c, desymbolize (fun _ => n) cs = Ok c
    /\ classified (map (dist_value (fun _ => n)) (map (scale_dist es) ds)) (eval (fun _ => n) total) size (hits c).
Proof.
  intros S E G T B. destruct (eventually_consistent (map (scale_dist es) ds)) as (n0 & H0 & H1).
  { intros d Hd. apply in_map_iff in Hd as (d' & <- & Hd). now apply grows_scale, G. }
  exists n0. split; [assumption|]. intros n Hn.
  apply (level_meaning decide ds es destinations tails total (fun _ => n) size cs); auto.
  intros _. lia.
Qed.

(** ** Results of all levels *)
Lemma loads_are_misses cs i c : nth_error cs i = Some c ->
  nth_error (get_loads cs) (S i) = Some (Some (misses c)) /\ nth_error (get_misses cs) i = Some (misses c).
Proof.
  intros H. unfold get_loads, get_misses. cbn [nth_error]. rewrite (map_nth_error _ _ _ H). split; [reflexivity|].
  rewrite nth_error_app1; [now apply map_nth_error|]. rewrite map_length. apply nth_error_Some. congruence.
Qed.
Lemma stores_are_evicts cs i c : nth_error cs i = Some c ->
  nth_error (get_stores cs) (S i) = Some (Some (evicts c)) /\ nth_error (get_evicts cs) i = Some (evicts c).
Proof.
  intros H. unfold get_stores, get_evicts. cbn [nth_error]. rewrite (map_nth_error _ _ _ H). split; [reflexivity|].
  rewrite nth_error_app1; [now apply map_nth_error|]. rewrite map_length. apply nth_error_Some. congruence.
Qed.
Lemma memory_hits cs c : get_hits (cs ++ [c]) = Ok (map hits (cs ++ [c]) ++ [misses c]).
Proof. unfold get_hits. rewrite rev_app_distr. reflexivity. Qed.

(** ** A sound oracle for the examples: it decides relations of numbers. *)
Definition decide_numbers (r : rel) : option bool :=
  match r with Rel _ a b => if (is_integer a && is_integer b)%bool then Some (holds (fun _ => 1) r) else None end.
Lemma integer_eval p rho sigma : is_integer p = true -> eval rho p = eval sigma p.
Proof.
  unfold is_integer, eval. induction p as [|[m z] p IH]; [reflexivity|]. cbn [forallb fst map zsum fold_right].
  rewrite andb_true_iff. intros [H1 H2]. specialize (IH H2). unfold zsum in IH. rewrite IH.
  destruct m; [reflexivity|discriminate].
Qed.
Lemma decide_numbers_sound : sound decide_numbers.
Proof.
  intros [s a b] v H rho _. cbn [decide_numbers] in H. destruct (is_integer a && is_integer b)%bool eqn:E; [|discriminate].
  apply andb_true_iff in E as [Ea Eb]. injection H as <-. cbn [holds].
  now rewrite (integer_eval a rho (fun _ => 1) Ea), (integer_eval b rho (fun _ => 1) Eb).
Qed.

(** ** Wrong orders *)
Local Open Scope string_scope.
Local Open Scope list_scope.
Lemma key_separate_symbols : forall n0, 1 <= n0 ->
  exists ka kb rho, distance_key (Poly [(["N"], 1)]) = Ok ka /\ distance_key (Poly [(["M"], 2)]) = Ok kb
    /\ key_leb kb ka = false /\ (forall s, n0 <= rho s) /\ eval rho [(["M"], 2)] < eval rho [(["N"], 1)].
Proof.
  intros n0 H. do 3 eexists. split; [vm_compute; reflexivity|]. split; [vm_compute; reflexivity|].
  split; [vm_compute; reflexivity|].
  instantiate (1 := fun s => if String.eqb s "N" then 3 * n0 else n0). split.
  - intros s. destruct (String.eqb s "N"); lia.
  - change (2 * (n0 * 1) + 0 < 1 * (3 * n0 * 1) + 0). lia.
Qed.
Lemma key_negative : exists ka kb,
  distance_key (Poly [([], 5)]) = Ok ka /\ distance_key (Poly [(["N"], -1)]) = Ok kb /\ key_leb kb ka = false
  /\ forall n, 1 <= n -> eval (fun _ => n) [(["N"], -1)] < eval (fun _ => n) [([], 5)].
Proof.
  do 2 eexists. split; [vm_compute; reflexivity|]. split; [vm_compute; reflexivity|]. split; [vm_compute; reflexivity|].
  intros n H. unfold eval, monomial. cbn [map zsum fold_right fst snd zprod]. lia.
Qed.
Lemma key_cancel : exists p, (exists rho, eval rho p <> eval (fun _ => 1) p)
  /\ distance_key (Poly p) = Err AssertionError.
Proof.
  exists [(["N"], 1); (["M"], -1)]. split; [|vm_compute; reflexivity].
  exists (fun s => if String.eqb s "N" then 2 else 1). vm_compute. discriminate.
Qed.
Lemma level_cancel decide es destinations tails total size : es <> 0 ->
  build_level decide [Poly [(["N"], 1); (["M"], -1)]] es destinations tails total size = Err AssertionError.
Proof.
  intros H. unfold build_level. cbn [map scale_dist scale mapM fst snd]. unfold with_key. cbn [distance_key is_integer forallb fst andb].
  assert (T : terms [(["N"], es * 1); (["M"], es * -1)] = []).
  { unfold terms, max_power, coeff, zsum. cbn [fold_right fst snd length Nat.max down map filter Nat.eqb].
    replace (es * 1 + (es * -1 + 0)) with 0 by ring. reflexivity. }
  rewrite T. reflexivity.
Qed.

(** ** Values in bytes *)
Lemma value_scale rho es ds :
  map (dist_value rho) (map (scale_dist es) ds) = map (fun d => option_map (Z.mul es) (dist_value rho d)) ds.
Proof.
  rewrite map_map. apply map_ext. intros [|p]; [reflexivity|]. cbn [scale_dist dist_value option_map]. now rewrite eval_scale.
Qed.
Lemma level_meaning' decide ds es destinations tails total rho size cs :
  sound decide -> (forall s, 0 < rho s) ->
  (forall d, In d tails <-> In d (map (scale_dist es) ds)) ->
  consistent rho (map (scale_dist es) ds) ->
  build_level decide ds es destinations tails total size = Ok cs ->
  exists c, desymbolize rho cs = Ok c
    /\ classified (map (fun d => option_map (Z.mul es) (dist_value rho d)) ds) (eval rho total) size (hits c).
Proof. rewrite <- value_scale. apply level_meaning. Qed.
Lemma level_large' decide ds es destinations tails total size cs :
  sound decide -> 0 < es -> (forall d, In d ds -> grows d) ->
  (forall d, In d tails <-> In d (map (scale_dist es) ds)) ->
  build_level decide ds es destinations tails total size = Ok cs ->
  exists n0, 1 <= n0 /\ forall n, n0 <= n -> exists c, desymbolize (fun _ => n) cs = Ok c
    /\ classified (map (fun d => option_map (Z.mul es) (dist_value (fun _ => n) d)) ds) (eval (fun _ => n) total) size (hits c).
Proof.
  intros H1 H2 H3 H4 H5. destruct (level_large decide ds es destinations tails total size cs H1 H2 H3 H4 H5) as (n0 & H0 & H).
  exists n0. split; [assumption|]. intros n Hn. rewrite <- value_scale. now apply H.
Qed.
