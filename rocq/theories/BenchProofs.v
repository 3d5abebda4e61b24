From Coq Require Import Lia Lqa Qfield Qround.
From Verif Require Import PyBase PyBaseFacts PyNumFacts PyText BenchModel BenchSpec.
Local Open Scope Z_scope.
Local Open Scope list_scope.

(** ** Environment *)
Lemma existsb_N c (l : text) : existsb (fun x => x =? c)%N l = true <-> In c l.
Proof.
  rewrite existsb_exists. split; [intros (x & I & E); apply N.eqb_eq in E; now subst|intros I; exists c; split; [easy|apply N.eqb_refl]].
Qed.
Lemma putenv_ok e n v : name_ok n -> value_ok v -> putenv e n v = Ok (env_set e n (Some v)).
Proof.
  intros (N1 & N2 & N3) V. unfold putenv.
  assert (E1 : existsb (fun c => (c =? 61) || (c =? 0))%N n = false).
  { destruct (existsb _ n) eqn:E; [|easy]. apply existsb_exists in E as (x & I & O). apply orb_true_iff in O as [O|O]; apply N.eqb_eq in O; subst; contradiction. }
  assert (E2 : existsb (fun c => c =? 0)%N v = false).
  { destruct (existsb _ v) eqn:E; [|easy]. apply existsb_N in E. contradiction. }
  rewrite E1, E2. destruct n; [contradiction|reflexivity].
Qed.
Lemma putenv_inv e n v e' : putenv e n v = Ok e' -> e' = env_set e n (Some v).
Proof. unfold putenv. destruct (_ || _ : bool); [easy|]. congruence. Qed.
Lemma env_set_same e n v : env_set e n v n = v.
Proof. unfold env_set. destruct (text_eqb_spec n n); [easy|contradiction]. Qed.
Lemma env_set_other e n v m : m <> n -> env_set e n v m = e m.
Proof. unfold env_set. destruct (text_eqb_spec m n); [contradiction|easy]. Qed.

Lemma fix_restored {A} name value (body : env -> env * res A) e :
  env_ok e -> fst (fix_env_variable name value body e) name = e name.
Proof.
  intros W. unfold fix_env_variable. destruct (match value with Some v => putenv e name v | None => _ end) as [e1|x] eqn:E1; [|easy].
  destruct (body e1) as [e2 r]. destruct (e name) as [o|] eqn:O.
  - destruct (W _ _ O) as [N V]. rewrite (putenv_ok _ _ _ N V). cbn [fst]. now rewrite env_set_same.
  - cbn [fst]. destruct (e2 name) eqn:E2; [now rewrite env_set_same|easy].
Qed.

Lemma fix_inside {A} name value (body : env -> env * res A) e :
  env_ok e -> (forall v, value = Some v -> name_ok name /\ value_ok v) ->
  exists e1, e1 name = value /\ (forall m, m <> name -> e1 m = e m) /\
    snd (fix_env_variable name value body e) = snd (body e1) /\
    (forall m, m <> name -> fst (fix_env_variable name value body e) m = fst (body e1) m).
Proof.
  intros W V. unfold fix_env_variable.
  assert (X : exists e1, match value with Some v => putenv e name v | None => Ok (match e name with Some _ => env_set e name None | None => e end) end = Ok e1
      /\ e1 name = value /\ (forall m, m <> name -> e1 m = e m)).
  { destruct value as [v|].
    - destruct (V v eq_refl) as [N1 V1]. exists (env_set e name (Some v)). rewrite putenv_ok by easy. split; [easy|].
      split; [apply env_set_same|]. intros m M. now apply env_set_other.
    - eexists. split; [reflexivity|]. destruct (e name) eqn:E.
      + split; [apply env_set_same|]. intros m M. now apply env_set_other.
      + split; [easy|]. easy. }
  destruct X as (e1 & -> & P1 & P2). exists e1. split; [easy|]. split; [easy|].
  destruct (body e1) as [e2 r] eqn:B. cbn [fst snd]. destruct (e name) as [o|] eqn:O.
  - destruct (W _ _ O) as [N1 V1]. rewrite (putenv_ok _ _ _ N1 V1). cbn [fst snd]. split; [easy|]. intros m M. now apply env_set_other.
  - cbn [fst snd]. split; [easy|]. intros m M. destruct (e2 name); [now apply env_set_other|easy].
Qed.

Lemma fix_changes {A} name value (body : env -> env * res A) e names :
  changes_only (name :: names) body -> forall m, ~ In m names -> m <> name -> fst (fix_env_variable name value body e) m = e m.
Proof.
  intros C m M M2. unfold fix_env_variable.
  destruct (match value with Some v => putenv e name v | None => _ end) as [e1|x] eqn:E1; [|easy].
  assert (P : e1 m = e m).
  { destruct value as [v|]; [apply putenv_inv in E1; subst; now apply env_set_other|]. injection E1 as <-. destruct (e name); [now apply env_set_other|easy]. }
  assert (Q := C e1 m). destruct (body e1) as [e2 r]. cbn [fst] in Q. rewrite P in Q.
  assert (Q' : e2 m = e m) by (apply Q; cbn; intros [->|I]; contradiction). clear Q.
  destruct (e name) as [o|]; cbn [fst].
  - destruct (putenv e2 name o) as [e3|x] eqn:E3; cbn [fst]; [|easy]. apply putenv_inv in E3. subst. now rewrite env_set_other.
  - destruct (e2 name); [now rewrite env_set_other|easy].
Qed.
Lemma fix_same {A} name value (body : env -> env * res A) e :
  env_ok e -> changes_only [name] body -> same_env (fst (fix_env_variable name value body e)) e.
Proof.
  intros W C m. destruct (text_dec m name) as [->|M]; [now apply fix_restored|].
  now apply (fix_changes name value body e []).
Qed.
Lemma fix_nested {A} n1 v1 n2 v2 (body : env -> env * res A) e :
  env_ok e -> changes_only [n1; n2] body ->
  (forall v, v1 = Some v -> name_ok n1 /\ value_ok v) ->
  same_env (fst (fix_env_variable n1 v1 (fix_env_variable n2 v2 body) e)) e.
Proof.
  intros W C V1 m. destruct (text_dec m n1) as [->|M1]; [now apply fix_restored|].
  destruct (fix_inside n1 v1 (fix_env_variable n2 v2 body) e W V1) as (e1 & P1 & P2 & _ & P3).
  rewrite P3 by easy. rewrite <- (P2 m M1).
  assert (W1 : env_ok e1).
  { intros n v E. destruct (text_dec n n1) as [->|N]; [apply V1; congruence|]. rewrite P2 in E by easy. eauto. }
  destruct (text_dec m n2) as [->|M2]; [now apply fix_restored|].
  apply (fix_changes n2 v2 body e1 [n1]); [|cbn; intuition congruence|easy].
  intros x n N. apply C. cbn in N |- *. tauto.
Qed.

(** ** Repetitions *)
Local Open Scope Q_scope.
Lemma inject_pos r : (0 < r)%Z -> 0 < inject_Z r.
Proof. intros H. change 0 with (inject_Z 0). now apply inject_Z_lt. Qed.
Lemma floor_ge q z : inject_Z z <= q -> (z <= Qfloor q)%Z.
Proof. intros H. rewrite <- (Qfloor_Z z). now apply Qfloor_resp_le. Qed.

(** The next number of repetitions is larger, and leads to at most two seconds at the same speed. *)
Lemma next_grows T r : (3 <= r)%Z -> 0 <= T -> T < 3 # 2 ->
  (r < next_repetitions (T / inject_Z r) r)%Z.
Proof.
  intros R T0 T1. unfold next_repetitions. assert (P := inject_pos r ltac:(lia)).
  destruct (Qeq_bool_spec (T / inject_Z r) 0) as [E|N]; [lia|].
  assert (TP : 0 < T).
  { destruct (Qlt_le_dec 0 T) as [L|L]; [easy|]. exfalso. apply N. assert (T == 0) by lra. rewrite H. field. lra. }
  enough (r + 1 <= Qfloor (2 / (T / inject_Z r)))%Z by lia. apply floor_ge.
  setoid_replace (2 / (T / inject_Z r)) with (2 * inject_Z r / T) by (field; split; lra).
  apply Qle_shift_div_l; [easy|]. rewrite inject_Z_plus. change (inject_Z 1) with 1.
  assert (3 <= inject_Z r) by (change 3 with (inject_Z 3); now apply inject_Z_le). nra.
Qed.
Lemma next_time t r : 0 < t -> t <= 1 # 2 -> let n := next_repetitions t r in 3 # 2 < t * inject_Z n <= 2.
Proof.
  intros T0 T1. cbv zeta. unfold next_repetitions. destruct (Qeq_bool_spec t 0) as [E|N]; [lra|].
  pose proof (Qfloor_le (2 / t)) as H1. pose proof (Qlt_floor (2 / t)) as H2. rewrite inject_Z_plus in H2. change (inject_Z 1) with 1 in H2.
  assert (E : t * (2 / t) == 2) by (field; lra). split.
  - assert (t * (2 / t) < t * (inject_Z (Qfloor (2 / t)) + 1)) by (apply Qmult_lt_l; easy). lra.
  - assert (t * inject_Z (Qfloor (2 / t)) <= t * (2 / t)) by (apply Qmult_le_l; easy). lra.
Qed.
Global Instance next_proper : Proper (Qeq ==> eq ==> eq) next_repetitions.
Proof.
  intros x y E r r' <-. unfold next_repetitions.
  destruct (Qeq_bool_spec x 0) as [E1|N1], (Qeq_bool_spec y 0) as [E2|N2]; try easy.
  - exfalso. apply N2. now rewrite <- E.
  - exfalso. apply N1. now rewrite E.
  - apply Qfloor_comp. now rewrite E.
Qed.

Section Adapt.
  Variable runtime : nat -> Z -> Q.
  Hypothesis nonneg : forall i r, 0 <= runtime i r.

  Lemma adapt_ok fuel i r :
    (3 <= r)%Z ->
    match adapt runtime fuel (S i) (runtime i r) (runtime i r / inject_Z r) r with
    | Ok (r', tpr, k) => (r <= r')%Z /\ (S i <= k)%nat /\ 3 # 2 <= runtime (pred k) r' /\ tpr = runtime (pred k) r' / inject_Z r' /\
                         (r = r' \/ r < r')%Z
    | Err x => x = OutOfFuel
    end.
  Proof.
    revert i r. induction fuel as [|fuel IH]; intros i r R; cbn [adapt].
    - destruct (Qle_bool_spec (3 # 2) (runtime i r)) as [L|L]; [|easy]. cbn. repeat split; try lia; auto.
    - destruct (Qle_bool_spec (3 # 2) (runtime i r)) as [L|L]; [cbn; repeat split; try lia; auto|].
      assert (G := next_grows (runtime i r) r R (nonneg i r) ltac:(lra)).
      set (n := next_repetitions _ _) in *. destruct (Z.eqb_spec n 0) as [E|N]; [lia|].
      specialize (IH (S i) n ltac:(lia)). destruct (adapt _ _ _ _ _ _) as [[[r' tpr] k]|x]; [|easy].
      destruct IH as (I1 & I2 & I3 & I4 & I5). repeat split; try lia; auto.
  Qed.
  Lemma adapt_ends R i r :
    (3 <= r)%Z -> (forall j n, (R <= n)%Z -> 3 # 2 <= runtime j n) ->
    forall fuel, (Z.to_nat (R - r) <= fuel)%nat ->
    exists x, adapt runtime fuel (S i) (runtime i r) (runtime i r / inject_Z r) r = Ok x.
  Proof.
    intros R3 H fuel. revert i r R3. induction fuel as [|fuel IH]; intros i r R3 F; cbn [adapt].
    - rewrite (reflect_iff _ _ (Qle_bool_spec (3 # 2) (runtime i r))) in * || idtac.
      destruct (Qle_bool_spec (3 # 2) (runtime i r)) as [L|L]; [eauto|]. exfalso. apply L, H. lia.
    - destruct (Qle_bool_spec (3 # 2) (runtime i r)) as [L|L]; [eauto|].
      assert (G := next_grows (runtime i r) r R3 (nonneg i r) ltac:(lra)).
      set (n := next_repetitions _ _) in *. destruct (Z.eqb_spec n 0) as [E|N]; [lia|].
      apply IH; lia.
  Qed.
End Adapt.

Lemma repetitions_ok runtime fuel first :
  (forall i r, 0 <= runtime i r) -> (3 <= first)%Z ->
  match repetitions runtime fuel first with
  | Ok (r, tpr, k) => (first <= r)%Z /\ (1 <= k)%nat /\ 3 # 2 <= runtime (pred k) r /\ tpr = runtime (pred k) r / inject_Z r
  | Err x => x = OutOfFuel
  end.
Proof.
  intros N F. unfold repetitions. generalize (adapt_ok runtime N fuel O first F).
  destruct (adapt _ _ _ _ _ _) as [[[r tpr] k]|x]; [|easy]. tauto.
Qed.
Lemma repetitions_end runtime first R :
  (forall i r, 0 <= runtime i r) -> (3 <= first)%Z -> (forall i n, (R <= n)%Z -> 3 # 2 <= runtime i n) ->
  exists x, repetitions runtime (Z.to_nat (R - first)) first = Ok x.
Proof. intros N F H. unfold repetitions. now apply (adapt_ends runtime N R). Qed.
Lemma repetitions_linear runtime first t :
  0 < t -> (3 <= first)%Z -> (forall i n, runtime i n == t * inject_Z n) ->
  exists r tpr k, repetitions runtime 1 first = Ok (r, tpr, k) /\ tpr == t /\ (k <= 2)%nat /\
    (r = first /\ k = 1%nat \/ 3 # 2 <= t * inject_Z r <= 2).
Proof.
  intros T F L. unfold repetitions. cbn [adapt]. assert (P := inject_pos first ltac:(lia)).
  destruct (Qle_bool_spec (3 # 2) (runtime O first)) as [E|E].
  - exists first. eexists. exists 1%nat. split; [reflexivity|]. rewrite L. split; [field; lra|]. split; [lia|]. now left.
  - assert (TT : t <= 1 # 2).
    { rewrite L in E. assert (3 <= inject_Z first) by (change 3 with (inject_Z 3); now apply inject_Z_le). nra. }
    assert (Q : runtime O first / inject_Z first == t) by (rewrite L; field; lra).
    assert (G := next_grows (runtime O first) first F). rewrite Q in G at 1.
    assert (G' : (first < next_repetitions t first)%Z).
    { rewrite <- Q. apply next_grows; [easy| |lra]. rewrite L. nra. }
    clear G. assert (B := next_time t first T TT). cbv zeta in B.
    rewrite (next_proper _ _ Q _ _ eq_refl). set (n := next_repetitions t first) in *.
    destruct (Z.eqb_spec n 0) as [Z0|Z0]; [lia|].
    assert (PN := inject_pos n ltac:(lia)).
    destruct (Qle_bool_spec (3 # 2) (runtime 1%nat n)) as [E2|E2].
    + exists n. eexists. exists 2%nat. split; [reflexivity|]. split; [rewrite L; field; lra|]. split; [lia|]. right. lra.
    + exfalso. rewrite L in E2. lra.
Qed.
Lemma repetitions_forever runtime first :
  (forall i r, 0 <= runtime i r < 3 # 2) -> (3 <= first)%Z -> forall fuel, repetitions runtime fuel first = Err OutOfFuel.
Proof.
  intros N F fuel. generalize (repetitions_ok runtime fuel first (fun i r => proj1 (N i r)) F).
  destruct (repetitions runtime fuel first) as [[[r tpr] k]|x]; [|congruence]. intros (_ & _ & H & _).
  specialize (N (pred k) r). lra.
Qed.

(** ** Variables *)
Lemma ceiling_ge2 t : 0 < t -> t < 3 # 2 -> (2 <= Qceiling (2 / t))%Z.
Proof.
  intros T0 T1. pose proof (Qle_ceiling (2 / t)) as H.
  assert (1 < 2 / t) by (apply Qlt_shift_div_l; lra).
  assert (inject_Z 1 < inject_Z (Qceiling (2 / t))) by (change (inject_Z 1) with 1; lra). apply (proj1 (inject_Z_lt _ _)) in H1. lia.
Qed.
Lemma qmin_spec a b : qmin a b <= a /\ qmin a b <= b /\ (qmin a b = a \/ qmin a b = b).
Proof. unfold qmin. destruct (Qltb_spec b a); repeat split; auto; lra. Qed.
Lemma qmax_spec' a b : a <= qmax a b /\ b <= qmax a b /\ (qmax a b = a \/ qmax a b = b).
Proof. unfold qmax. destruct (Qltb_spec a b); repeat split; auto; lra. Qed.

Definition fields (v w : var) : Prop :=
  v_adjustable w = v_adjustable v /\ v_regions w = v_regions v /\ v_scale w = v_scale v /\ v_stop w = v_stop v.

(** How many adjustments remain: number of doublings of the smaller end to reach the larger. *)
Definition ratio (v : var) : Q := match v_scale v with Lin => v_stop v / v_value v | Log => v_value v / v_stop v end.
Definition steps (v : var) : nat := Z.to_nat (Z.log2_up (Qceiling (ratio v))).

Lemma halves q p : 1 < q -> p <= q * (1 # 2) \/ p <= 1 -> (Z.to_nat (Z.log2_up (Qceiling p)) < Z.to_nat (Z.log2_up (Qceiling q)))%nat.
Proof.
  intros Q H. assert (C1 := Qle_ceiling q).
  assert (Q2 : (2 <= Qceiling q)%Z).
  { assert (inject_Z 1 < inject_Z (Qceiling q)) by (change (inject_Z 1) with 1; lra). apply (proj1 (inject_Z_lt _ _)) in H0. lia. }
  assert (L1 : (0 < Z.log2_up (Qceiling q))%Z) by (apply Z.log2_up_pos; lia).
  assert (P : (Qceiling p <= 1 \/ 2 * (Qceiling p - 1) < Qceiling q)%Z).
  { destruct H as [H|H].
    - right. assert (D := Qceiling_lt p). apply inject_Z_lt. rewrite inject_Z_mult. change (inject_Z 2) with 2. lra.
    - left. assert (Qceiling p <= Qceiling 1)%Z by now apply Qceiling_resp_le. exact H0. }
  assert (L2 : (Z.log2_up (Qceiling p) < Z.log2_up (Qceiling q))%Z).
  { destruct (Z_le_gt_dec (Qceiling p) 1) as [E|E]; [rewrite (Z.log2_up_eqn0 _ E); lia|].
    destruct P as [P|P]; [lia|].
    set (c := Qceiling p) in *. set (d := Qceiling q) in *.
    assert (X : (2 * c <= 2 ^ Z.log2_up d)%Z).
    { assert (Y := Z.log2_up_spec d ltac:(lia)). assert (W : (2 ^ Z.log2_up d = 2 * 2 ^ (Z.log2_up d - 1))%Z).
      { rewrite <- Z.pow_succ_r by lia. f_equal. lia. }
      lia. }
    assert (W : (2 ^ Z.log2_up d = 2 * 2 ^ (Z.log2_up d - 1))%Z).
    { rewrite <- Z.pow_succ_r by lia. f_equal. lia. }
    assert (c <= 2 ^ (Z.log2_up d - 1))%Z by lia.
    apply Z.log2_up_le_pow2 in H0; lia. }
  lia.
Qed.

Lemma ratio_pos v : positive v -> has_room v -> 1 < ratio v.
Proof. intros [P1 P2] H. unfold has_room, ratio in *. destruct (v_scale v); apply Qlt_shift_div_l; lra. Qed.
Lemma adjusted_spec t v v' :
  adjusted t v = Some v' -> 0 < t -> t < 3 # 2 -> positive v ->
  has_room v /\ fields v v' /\ positive v' /\ (steps v' < steps v)%nat /\
  match v_scale v with Lin => v_value v < v_value v' <= v_stop v | Log => v_stop v <= v_value v' < v_value v end.
Proof.
  intros A T0 T1 [P1 P2]. assert (F := ceiling_ge2 t T0 T1). unfold adjusted in A. set (f := Qceiling (2 / t)) in *.
  assert (FQ : 2 <= inject_Z f) by (change 2 with (inject_Z 2); now apply inject_Z_le).
  destruct (v_scale v) eqn:S.
  - destruct (Qltb_spec (v_value v) (v_stop v)) as [L|L]; [|easy]. injection A as <-.
    assert (M := qmin_spec (v_value v * inject_Z f) (v_stop v)). set (x := qmin _ _) in *.
    assert (X : v_value v < x <= v_stop v) by (destruct M as (M1 & M2 & [->| ->]); split; nra).
    assert (HR : has_room v) by (unfold has_room; now rewrite S).
    repeat split; cbn; try easy; try lra. unfold steps. apply halves; [apply ratio_pos; easy|].
    unfold ratio. cbn. rewrite S. destruct M as (M1 & M2 & [->| ->]).
    + left. apply Qle_shift_div_r; [nra|].
      assert (E : v_stop v == (v_stop v / v_value v) * v_value v) by (field; lra).
      assert (0 < v_stop v / v_value v) by (apply Qlt_shift_div_l; lra). nra.
    + right. apply Qle_shift_div_r; lra.
  - destruct (Qltb_spec (v_stop v) (v_value v)) as [L|L]; [|easy]. injection A as <-.
    assert (TEN : 2 <= inject_Z (10 ^ f)).
    { change 2 with (inject_Z 2). apply inject_Z_le. transitivity (10 ^ 1)%Z; [lia|]. apply Z.pow_le_mono_r; lia. }
    set (y := inject_Z (10 ^ f)) in *.
    assert (E1 : v_value v * (1 / y) == v_value v / y) by (field; lra).
    assert (E2 : v_value v / y <= v_value v * (1 # 2)).
    { apply Qle_shift_div_r; [lra|]. nra. }
    assert (E3 : 0 < v_value v / y) by (apply Qlt_shift_div_l; lra).
    assert (M := qmax_spec' (v_value v * (1 / y)) (v_stop v)). set (x := qmax _ _) in *.
    assert (X : v_stop v <= x < v_value v) by (destruct M as (M1 & M2 & [->| ->]); split; lra).
    assert (HR : has_room v) by (unfold has_room; now rewrite S).
    repeat split; cbn; try easy; try lra. unfold steps. apply halves; [apply ratio_pos; easy|].
    unfold ratio. cbn. rewrite S. destruct M as (M1 & M2 & [->| ->]).
    + left. rewrite E1. apply Qle_shift_div_r; [lra|].
      assert (E : v_value v * (1 # 2) == v_value v / v_stop v * (1 # 2) * v_stop v) by (field; lra). lra.
    + right. apply Qle_shift_div_r; lra.
Qed.
Lemma adjusted_none t v : adjusted t v = None -> ~ has_room v.
Proof.
  unfold adjusted, has_room. destruct (v_scale v).
  - destruct (Qltb_spec (v_value v) (v_stop v)); easy.
  - destruct (Qltb_spec (v_stop v) (v_value v)); easy.
Qed.
Lemma moved_refl v : moved v v.
Proof. repeat split; auto. Qed.
Lemma moved_trans u v w : positive v -> moved u v -> moved v w -> moved u w.
Proof.
  intros P (A1 & A2 & A3 & A4 & A5) (B1 & B2 & B3 & B4 & B5). unfold moved. rewrite B1, B2, B3, B4, A1, A2, A3, A4. repeat split; auto.
  rewrite A1, A3, A4 in B5. destruct B5 as [B5|[B5 B6]]; [rewrite B5; exact A5|]. destruct A5 as [A5|[A5 A6]]; [rewrite A5 in B6; auto|].
  right. split; [easy|]. destruct (v_scale u); lra.
Qed.
Lemma moved_all_refl vs : Forall2 moved vs vs.
Proof. induction vs; constructor; auto using moved_refl. Qed.
Lemma moved_all_trans us vs ws : Forall positive vs -> Forall2 moved us vs -> Forall2 moved vs ws -> Forall2 moved us ws.
Proof.
  intros P H. revert ws P. induction H as [|u v us vs M H IH]; intros ws P K; inversion K as [|? w ? ws' M2 K2]; subst; [constructor|].
  inversion P; subst. constructor; [eapply moved_trans; eauto|auto].
Qed.
Definition all_steps (vs : list var) : nat := list_sum (map steps vs).

Lemma region_spec r t vs :
  0 < t -> t < 3 # 2 -> Forall positive vs ->
  exists vs' b, adjust_region r t vs = Ok (vs', b) /\ Forall positive vs' /\ Forall2 moved vs vs' /\
    (if b : bool then (all_steps vs' < all_steps vs)%nat
     else vs' = vs /\ forall v, In v vs -> v_adjustable v = true -> In r (v_regions v) -> ~ has_room v).
Proof.
  intros T0 T1 P. induction P as [|v vs P PP IH]; cbn [adjust_region].
  - exists [], false. repeat split; auto.
  - destruct (v_adjustable v && existsb (text_eqb r) (v_regions v))%bool eqn:C.
    + destruct (Qeq_bool_spec t 0) as [Z0|Z0]; [lra|]. apply andb_true_iff in C as [C1 C2].
      destruct (adjusted t v) as [v'|] eqn:A.
      * destruct (adjusted_spec t v v' A T0 T1 P) as (S1 & (S2a & S2b & S2c & S2d) & S3 & S4 & S5).
        exists (v' :: vs), true. split; [easy|]. split; [auto|]. split.
        -- constructor; [|apply moved_all_refl]. unfold moved. repeat split; auto. right. split; [easy|]. destruct (v_scale v); lra.
        -- unfold all_steps. cbn [map list_sum fold_right]. change (fold_right Nat.add 0%nat) with list_sum. lia.
      * destruct IH as (vs' & b & -> & I1 & I2 & I3). cbn [bind]. exists (v :: vs'), b. split; [easy|]. split; [auto|].
        split; [constructor; auto using moved_refl|]. destruct b.
        -- unfold all_steps in *. cbn [map list_sum fold_right]. change (fold_right Nat.add 0%nat) with list_sum. lia.
        -- destruct I3 as [-> I3]. split; [easy|]. intros w [<-|I] W1 W2; [eapply adjusted_none; eauto|eauto].
    + destruct IH as (vs' & b & -> & I1 & I2 & I3). cbn [bind]. exists (v :: vs'), b. split; [easy|]. split; [auto|].
      split; [constructor; auto using moved_refl|]. destruct b.
      * unfold all_steps in *. cbn [map list_sum fold_right]. change (fold_right Nat.add 0%nat) with list_sum. lia.
      * destruct I3 as [-> I3]. split; [easy|]. intros w [<-|I] W1 W2; [|eauto]. exfalso.
        rewrite W1 in C. cbn [andb] in C. enough (existsb (text_eqb r) (v_regions v) = true) by congruence.
        apply existsb_exists. exists r. split; [easy|]. destruct (text_eqb_spec r r); [easy|contradiction].
Qed.
Lemma variables_spec rts vs :
  Forall (fun rt => 0 < snd rt) rts -> Forall positive vs ->
  exists vs' b, adjust_variables rts vs = Ok (vs', b) /\ Forall positive vs' /\ Forall2 moved vs vs' /\
    (if b : bool then (all_steps vs' < all_steps vs)%nat
     else vs' = vs /\ forall r t v, In (r, t) rts -> t < 3 # 2 -> In v vs -> v_adjustable v = true -> In r (v_regions v) -> ~ has_room v).
Proof.
  intros R. revert vs. induction R as [|[r t] rts R RR IH]; intros vs P; cbn [adjust_variables].
  - exists vs, false. repeat split; auto using moved_all_refl.
  - cbn in R. destruct (Qltb_spec t (3 # 2)) as [L|L].
    + destruct (region_spec r t vs R L P) as (vs1 & b1 & -> & I1 & I2 & I3). cbn [bind].
      destruct (IH vs1 I1) as (vs2 & b2 & -> & J1 & J2 & J3). cbn [bind]. exists vs2, (b1 || b2)%bool. split; [easy|]. split; [easy|].
      split; [apply (moved_all_trans vs vs1); assumption|]. destruct b1; cbn [orb].
      * destruct b2; [cbv iota in I3, J3; eapply Nat.lt_trans; eassumption|]. destruct J3 as [-> _]. easy.
      * destruct I3 as [-> I3]. destruct b2; [easy|]. destruct J3 as [-> J3]. split; [easy|].
        intros r' t' v [E|I] T V A Rg; [injection E as <- <-; eauto|eauto].
    + destruct (IH vs P) as (vs2 & b2 & -> & J1 & J2 & J3). exists vs2, b2. split; [easy|]. split; [easy|]. split; [easy|].
      destruct b2; [easy|]. destruct J3 as [-> J3]. split; [easy|].
      intros r' t' v [E|I] T V A Rg; [injection E as <- <-; contradiction|eauto].
Qed.
Lemma min_runtime_spec l m : min_runtime l = Ok m -> In m (map snd l) /\ forall r t, In (r, t) l -> m <= t.
Proof.
  revert m. induction l as [|[r t] l IH]; [easy|]. intros m. destruct l as [|p l'].
  - cbn. intros [= <-]. split; [auto|]. intros r' t' [[= <- <-]|[]]. lra.
  - change (min_runtime ((r, t) :: p :: l')) with (do m <- min_runtime (p :: l'); Ok (qmin t m)).
    destruct (min_runtime (p :: l')) as [k|] eqn:E; [|easy]. cbn [bind]. intros [= <-]. destruct (IH k eq_refl) as [I1 I2].
    destruct (qmin_spec t k) as (M1 & M2 & M3). split.
    + destruct M3 as [M3|M3]; rewrite M3; [now left|now right].
    + intros r' t' [E'|I]; [injection E' as <- <-; lra|]. specialize (I2 _ _ I). lra.
Qed.
Lemma min_runtime_some l : l <> [] -> exists m, min_runtime l = Ok m.
Proof.
  induction l as [|[r t] l IH]; [easy|]. intros _. destruct l as [|p l']; [cbn; eauto|].
  destruct IH as [m E]; [easy|]. exists (qmin t m). change (min_runtime ((r, t) :: p :: l')) with (do m <- min_runtime (p :: l'); Ok (qmin t m)).
  now rewrite E.
Qed.

Section Loop.
  Variable run : list var -> nat -> list (text * Q).
  Hypothesis some : forall vs i, run vs i <> [].
  Hypothesis timed : forall vs i, Forall (fun rt => 0 < snd rt) (run vs i).

  Lemma loop_spec fuel i rts vs :
    (all_steps vs < fuel)%nat -> rts <> [] -> Forall (fun rt => 0 < snd rt) rts -> Forall positive vs ->
    (exists j, rts = run vs j) ->
    exists vs' b, measure_loop run fuel i rts vs = Ok (vs', b) /\ Forall2 moved vs vs' /\ exists j,
      if b : bool then forall r t, In (r, t) (run vs' j) -> 3 # 2 <= t
      else (exists r t, In (r, t) (run vs' j) /\ t < 3 # 2) /\
           forall r t v, In (r, t) (run vs' j) -> t < 3 # 2 -> In v vs' -> v_adjustable v = true -> In r (v_regions v) -> ~ has_room v.
  Proof.
    revert i rts vs. induction fuel as [|fuel IH]; intros i rts vs F NE T P [j0 J]; [lia|]. cbn [measure_loop].
    destruct (min_runtime_some rts NE) as [m M]. rewrite M. cbn [bind]. destruct (min_runtime_spec rts m M) as [M1 M2].
    destruct (Qle_bool_spec (3 # 2) m) as [L|L].
    - exists vs, true. split; [easy|]. split; [apply moved_all_refl|]. exists j0. rewrite <- J. intros r t I. specialize (M2 _ _ I). lra.
    - assert (MP : 0 < m).
      { apply in_map_iff in M1 as ((r & t) & <- & I). exact (proj1 (Forall_forall _ _) T _ I). }
      destruct (Qeq_bool_spec m 0) as [Z0|Z0]; [lra|].
      destruct (variables_spec rts vs T P) as (vs' & b & -> & I1 & I2 & I3). cbn [bind]. destruct b.
      + destruct (IH (S i) (run vs' i) vs' ltac:(lia) (some _ _) (timed _ _) I1 (ex_intro _ i eq_refl)) as (vs2 & b2 & E & K1 & K2).
        exists vs2, b2. split; [exact E|]. split; [apply (moved_all_trans vs vs'); assumption|exact K2].
      + destruct I3 as [-> I3]. exists vs, false. split; [easy|]. split; [easy|]. exists j0. rewrite <- J. split; [|exact I3].
        apply in_map_iff in M1 as ((r & t) & <- & I). exists r, t. split; [easy|]. cbn in L. lra.
  Qed.
  Lemma adapt_variables_spec fuel vs :
    (S (all_steps vs) < fuel)%nat -> Forall positive vs ->
    exists vs' b, adapt_variables run fuel vs = Ok (vs', b) /\ Forall2 moved vs vs' /\ exists j,
      if b : bool then forall r t, In (r, t) (run vs' j) -> 3 # 2 <= t
      else (exists r t, In (r, t) (run vs' j) /\ t < 3 # 2) /\
           forall r t v, In (r, t) (run vs' j) -> t < 3 # 2 -> In v vs' -> v_adjustable v = true -> In r (v_regions v) -> ~ has_room v.
  Proof.
    intros F P. unfold adapt_variables. destruct fuel as [|fuel]; [lia|]. cbn [measure_loop min_runtime bind].
    change (Qle_bool (3 # 2) 0) with false. change (Qeq_bool 0 0) with true. cbn [bind].
    apply loop_spec; auto; try lia. eauto.
  Qed.
  Lemma adapt_variables_bound vs : Forall positive vs -> exists n, forall fuel, (n < fuel)%nat ->
    exists vs' b, adapt_variables run fuel vs = Ok (vs', b) /\ Forall2 moved vs vs' /\ exists j,
      if b : bool then forall r t, In (r, t) (run vs' j) -> 3 # 2 <= t
      else (exists r t, In (r, t) (run vs' j) /\ t < 3 # 2) /\
           forall r t v, In (r, t) (run vs' j) -> t < 3 # 2 -> In v vs' -> v_adjustable v = true -> In r (v_regions v) -> ~ has_room v.
  Proof. intros P. exists (S (all_steps vs)). intros fuel F. now apply adapt_variables_spec. Qed.
End Loop.
Lemma zero_runtime_forever run vs :
  (forall vs i, run vs i <> []) -> (forall vs i, exists r, In (r, 0) (run vs i)) -> (forall vs i, Forall (fun rt => 0 <= snd rt) (run vs i)) ->
  forall fuel, adapt_variables run fuel vs = Err OutOfFuel.
Proof.
  intros NE Z N fuel. unfold adapt_variables.
  assert (X : forall fuel i rts, rts <> [] -> (exists r, In (r, 0) rts) -> Forall (fun rt => 0 <= snd rt) rts -> measure_loop run fuel i rts vs = Err OutOfFuel).
  { clear fuel. induction fuel as [|fuel IH]; intros i rts R (r & I) P; cbn [measure_loop];
      destruct (min_runtime_some rts R) as [m M]; rewrite M; cbn [bind]; destruct (min_runtime_spec rts m M) as [M1 M2];
      specialize (M2 _ _ I); apply in_map_iff in M1 as ((r' & t') & <- & I'); assert (Q := proj1 (Forall_forall _ _) P _ I'); cbn [snd] in *;
      (destruct (Qle_bool_spec (3 # 2) t'); [lra|]); [easy|].
    destruct (Qeq_bool_spec t' 0) as [|C]; [|exfalso; apply C; lra]. cbn [bind]. apply IH; auto. }
  apply X; [easy|exists []; now left|]. constructor; [cbn; lra|constructor].
Qed.
Lemma zero_value_forever run (r : text) v t :
  (forall vs i, run vs i = [(r, t)]) -> 0 < t -> t < 3 # 2 -> v_adjustable v = true -> In r (v_regions v) -> v_scale v = Lin ->
  v_value v == 0 -> 0 < v_stop v -> forall fuel, adapt_variables run fuel [v] = Err OutOfFuel.
Proof.
  intros R T0 T1 A I S V ST fuel. unfold adapt_variables. destruct fuel as [|fuel]; [reflexivity|].
  cbn [measure_loop min_runtime bind]. change (Qle_bool (3 # 2) 0) with false. change (Qeq_bool 0 0) with true. cbn [bind].
  rewrite R.
  revert v A I S V ST. generalize O. revert fuel.
  induction fuel as [|fuel IH]; intros i v A I S V ST; cbn [measure_loop min_runtime bind];
    (destruct (Qle_bool_spec (3 # 2) t); [lra|]); [easy|].
  destruct (Qeq_bool_spec t 0); [lra|]. cbn [adjust_variables]. destruct (Qltb_spec t (3 # 2)); [|contradiction].
  cbn [adjust_region]. rewrite A. assert (E : existsb (text_eqb r) (v_regions v) = true).
  { apply existsb_exists. exists r. split; [easy|]. destruct (text_eqb_spec r r); [easy|contradiction]. }
  rewrite E. cbn [andb]. destruct (Qeq_bool_spec t 0); [lra|]. unfold adjusted. rewrite S.
  destruct (Qltb_spec (v_value v) (v_stop v)); [|lra]. cbn [bind orb]. rewrite R. apply IH; cbn; auto.
  unfold qmin. destruct (Qltb_spec (v_stop v) (v_value v * inject_Z (Qceiling (2 / t)))) as [L|L]; rewrite V in *; lra.
Qed.

(** ** Repetitions of regions *)
Local Open Scope Z_scope.
Lemma teqb_refl x : text_eqb x x = true.
Proof. destruct (text_eqb_spec x x); [easy|contradiction]. Qed.
Lemma has_spec r config : has r config = true <-> exists p, In (r, p) config.
Proof.
  induction config as [|[x p] c IH]; cbn; [split; [easy|intros [p []]]|]. rewrite orb_true_iff, IH. split.
  - intros [E|[q I]]; [|eauto]. destruct (text_eqb_spec r x) as [<-|]; [eauto|easy].
  - intros [q [E|I]]; [injection E as -> ->; left; apply teqb_refl|eauto].
Qed.
Lemma find_rep_in r config p : find_rep r config = Ok p -> In (r, p) config.
Proof.
  induction config as [|[x q] c IH]; cbn; [easy|]. destruct (text_eqb_spec r x) as [E|N]; [|auto].
  intros E2. left. congruence.
Qed.
Lemma in_find_rep r config p : NoDup (map fst config) -> In (r, p) config -> find_rep r config = Ok p.
Proof.
  induction config as [|[x q] c IH]; cbn; [easy|]. intros ND. inversion ND as [|? ? N1 N2]; subst.
  intros [E|I]; [injection E as -> ->; now rewrite teqb_refl|].
  destruct (text_eqb_spec r x) as [E|N]; [|auto]. subst. exfalso. apply N1, (in_map fst _ _ I).
Qed.
Lemma applies_target config r key p : NoDup (map fst config) -> applies config r key p -> target config r = Ok key /\ find_rep key config = Ok p.
Proof.
  intros ND [I A]. split; [|now apply in_find_rep]. unfold target. destruct A as [->|[-> A]].
  - assert (has r config = true) as -> by (apply has_spec; eauto). easy.
  - destruct (has r config) eqn:H; [apply has_spec in H as [q H]; exfalso; eapply A; eauto|].
    assert (has [] config = true) as -> by (apply has_spec; eauto). easy.
Qed.
Lemma has_set r k n config : has r (set_value k n config) = has r config.
Proof. induction config as [|[x p] c IH]; cbn; [easy|]. destruct (text_eqb k x); cbn; [easy|]. now rewrite IH. Qed.
Lemma target_set r k n config : target (set_value k n config) r = target config r.
Proof. unfold target. now rewrite !has_set. Qed.
Lemma find_set_same k n config p : find_rep k config = Ok p -> find_rep k (set_value k n config) = Ok (mkRep (rep_source p) (Some n)).
Proof.
  induction config as [|[x q] c IH]; cbn; [easy|]. destruct (text_eqb k x) eqn:E; cbn; rewrite E; [|auto]. intros E2. congruence.
Qed.
Lemma find_set_other k r n config : r <> k -> find_rep r (set_value k n config) = find_rep r config.
Proof.
  intros N. induction config as [|[x q] c IH]; cbn; [easy|]. destruct (text_eqb_spec k x) as [E|M]; cbn.
  - subst x. destruct (text_eqb_spec r k); [contradiction|easy].
  - now rewrite IH.
Qed.

Section Regions.
  Variables calls define : text -> Z.
  Lemma update_spec regions : forall config,
    (forall r, In r regions -> exists k p, target config r = Ok k /\ find_rep k config = Ok p) ->
    exists config', update_repetitions calls define regions config = Ok config' /\
      (forall r, target config' r = target config r) /\
      (forall k, (forall r, In r regions -> target config r <> Ok k) -> find_rep k config' = find_rep k config) /\
      (forall r k p, In r regions -> target config r = Ok k -> find_rep k config = Ok p ->
         (forall r', In r' regions -> target config r' = Ok k -> count_of calls define (rep_source p) r' = count_of calls define (rep_source p) r) ->
         find_rep k config' = Ok (mkRep (rep_source p) (Some (count_of calls define (rep_source p) r)))).
  Proof.
    induction regions as [|r0 rs IH]; intros config H; cbn [update_repetitions].
    - exists config. repeat split; auto. easy.
    - destruct (H r0 (or_introl eq_refl)) as (k0 & p0 & T0 & F0). rewrite T0. cbn [bind]. rewrite F0. cbn [bind].
      set (c1 := match rep_source p0 with Marker => _ | Variable_ _ => _ | Fixed _ => _ end).
      assert (C1 : c1 = set_value k0 (count_of calls define (rep_source p0) r0) config) by (unfold c1; now destruct (rep_source p0)).
      clearbody c1. subst c1. set (n0 := count_of calls define (rep_source p0) r0) in *.
      destruct (IH (set_value k0 n0 config)) as (c' & U & U1 & U2 & U3).
      { intros r I. destruct (H r (or_intror I)) as (k & p & T & F). exists k. destruct (text_dec k k0) as [E|N].
        - subst k. eexists. rewrite target_set. split; [easy|]. apply find_set_same. eassumption.
        - exists p. rewrite target_set. split; [easy|]. now rewrite find_set_other. }
      exists c'. split; [easy|]. split; [intros r; rewrite U1; apply target_set|]. split.
      + intros k N. rewrite U2 by (intros r I; rewrite target_set; apply N; now right).
        apply find_set_other. intros E. subst k. now apply (N r0 (or_introl eq_refl)).
      + intros r k p I T F Same.
        destruct (in_dec text_dec r rs) as [J|J].
        * destruct (text_dec k k0) as [E|N].
          -- subst k. replace p with p0 in * by congruence.
             erewrite (U3 r k0); [|easy|now rewrite target_set|apply find_set_same; eassumption|]; [easy|].
             cbn. intros r' I' T'. rewrite target_set in T'. apply Same; [now right|easy].
          -- erewrite (U3 r k); [|easy|now rewrite target_set|rewrite find_set_other by easy; eassumption|]; [easy|].
             cbn. intros r' I' T'. rewrite target_set in T'. apply Same; [now right|easy].
        * destruct I as [E|I]; [|contradiction]. subst r. assert (k = k0) by congruence. subst k. replace p with p0 in * by congruence.
          (* is the object used again by a later region? *)
          assert (D : (exists r', In r' rs /\ target config r' = Ok k0) \/ forall r', In r' rs -> target config r' <> Ok k0).
          { clear - rs. induction rs as [|x xs IHx]; [right; easy|]. destruct IHx as [(r' & I & E)|N]; [left; exists r'; split; [now right|easy]|].
            destruct (target config x) as [y|e] eqn:Tx.
            - destruct (text_dec y k0) as [->|M]; [left; exists x; split; [now left|easy]|].
              right. intros r' [E|I]; [subst; congruence|auto].
            - right. intros r' [E|I]; [subst; congruence|auto]. }
          destruct D as [(r' & I & E)|N].
          -- erewrite (U3 r' k0); [|easy|now rewrite target_set|apply find_set_same; eassumption|].
             ++ cbn. rewrite (Same r' (or_intror I) E). easy.
             ++ cbn. intros r2 I2 T2. rewrite target_set in T2. rewrite (Same r2 (or_intror I2) T2), (Same r' (or_intror I) E). easy.
          -- rewrite U2 by (intros r' I'; rewrite target_set; auto). now apply find_set_same.
  Qed.
  Lemma times_spec regions config runtime :
    NoDup (map fst config) ->
    (forall r, In r regions -> exists k p, applies config r k p /\ count_of calls define (rep_source p) r <> 0) ->
    (forall r r' k p, In r regions -> In r' regions -> applies config r k p -> applies config r' k p ->
       count_of calls define (rep_source p) r = count_of calls define (rep_source p) r') ->
    exists times, times_per_repetition calls define regions config runtime = Ok times /\ map fst times = regions /\
      forall r t k p, In (r, t) times -> applies config r k p -> t = (runtime r / inject_Z (count_of calls define (rep_source p) r))%Q.
  Proof.
    intros ND A Same. unfold times_per_repetition.
    destruct (update_spec regions config) as (c' & U & U1 & U2 & U3).
    { intros r I. destruct (A r I) as (k & p & P & _). apply (applies_target config r k p ND) in P. eauto. }
    rewrite U. cbn [bind].
    assert (X : forall l, (forall r, In r l -> In r regions) ->
      exists times, mapM (fun r => do t <- time_per_repetition c' runtime r; Ok (r, t)) l = Ok times /\ map fst times = l /\
      forall r t k p, In (r, t) times -> applies config r k p -> t = (runtime r / inject_Z (count_of calls define (rep_source p) r))%Q).
    { induction l as [|r l IH]; intros Sub; [exists []; repeat split; easy|].
      destruct IH as (times & E1 & E2 & E3); [intros x I; apply Sub; now right|].
      assert (R := Sub r (or_introl eq_refl)). destruct (A r R) as (k & p & P & NZ).
      destruct (applies_target config r k p ND P) as [T F].
      assert (V : find_rep k c' = Ok (mkRep (rep_source p) (Some (count_of calls define (rep_source p) r)))).
      { apply (U3 r k p R T F). intros r' I' T'. symmetry. apply (Same r r' k p); auto.
        destruct (A r' I') as (k' & p' & P' & _). destruct (applies_target config r' k' p' ND P') as [T2 F2].
        assert (k' = k) by congruence. subst k'. assert (p' = p) by congruence. now subst p'. }
      exists ((r, runtime r / inject_Z (count_of calls define (rep_source p) r))%Q :: times). cbn [mapM].
      unfold time_per_repetition at 1. rewrite U1, T. cbn [bind]. rewrite V. cbn [bind rep_value].
      destruct (Z.eqb_spec (count_of calls define (rep_source p) r) 0); [contradiction|]. cbn [bind]. rewrite E1. cbn [bind].
      split; [easy|]. split; [cbn; now rewrite E2|]. intros r' t' k' p' [E|I] P'; [|eauto].
      injection E as <- <-. destruct (applies_target config r k' p' ND P') as [T2 F2].
      assert (k' = k) by congruence. subst k'. assert (p' = p) by congruence. now subst p'. }
    apply X. auto.
  Qed.
End Regions.
