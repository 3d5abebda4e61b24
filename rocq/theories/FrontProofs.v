From Coq Require Import String Permutation Sorted Lia.
From Verif Require Import PyBase PyBaseFacts PyStr LoopModel LoopSpec LoopProofs AstModel AstSpec LCModel LCSpec LCProofs FrontModel FrontSpec FrontPoly.
Local Open Scope string_scope.
Local Open Scope list_scope.
Local Open Scope Z_scope.

(** ** Values *)
Lemma access_loop_shift d dims n access e : access_loop (d :: dims) (S n) access e = access_loop dims n access e.
Proof. revert n e. induction access as [|a access IH]; cbn; intros n e; [easy|]. apply IH. Qed.
Lemma access_loop_add dims n access e : access_loop dims n access e = e + access_loop dims n access 0.
Proof. revert n e. induction access as [|a access IH]; cbn [access_loop]; intros n e; [lia|]. rewrite IH, (IH _ (0 + _)). lia. Qed.
Lemma access_loop_nil n access e : access_loop [] (S n) access e = access_loop [] n access e.
Proof. revert n e. induction access as [|a access IH]; cbn; intros n e; [easy|]. rewrite IH. now destruct n. Qed.
Lemma access_cons dims a access : access_to_sympy dims (a :: access) = zprod (tl dims) * a + access_to_sympy (tl dims) access.
Proof.
  unfold access_to_sympy. cbn [access_loop]. rewrite access_loop_add. destruct dims as [|d dims].
  - rewrite access_loop_nil. cbn. lia.
  - rewrite access_loop_shift. cbn. lia.
Qed.
Lemma map_tl {A B} (f : A -> B) l : tl (map f l) = map f (tl l).
Proof. now destruct l. Qed.
Lemma eval_linear env dims idx : eval env (linear dims idx) = place env dims idx.
Proof.
  revert dims. unfold place. induction idx as [|a idx IH]; intros dims; [reflexivity|]. cbn [linear map]. rewrite eval_app, eval_pmul, eval_product, eval_expand, IH, access_cons.
  now rewrite !map_tl.
Qed.

(** ** Steps of the innermost loop *)
Lemma all_ok_iff {A} (f : A -> res unit) l : all_ok f l = Ok tt <-> forall x, In x l -> f x = Ok tt.
Proof.
  induction l as [|a l IH]; cbn; [easy|]. destruct (f a) as [[]|e] eqn:E; cbn.
  - rewrite IH. split; [intros H x [<-|I]; auto|auto].
  - split; [discriminate|]. intros H. rewrite (H a) in E by now left. discriminate.
Qed.
Lemma mapM_ok {A B} (f : A -> res B) l r : mapM f l = Ok r <-> Forall2 (fun x y => f x = Ok y) l r.
Proof.
  revert r. induction l as [|a l IH]; cbn; intros r.
  - split; [intros [= <-]; constructor|]. intros H. inversion H. reflexivity.
  - split.
    + destruct (f a) as [y|] eqn:E; [|discriminate]. cbn. destruct (mapM f l) as [ys|]; [|discriminate]. cbn. intros [= <-]. constructor; [easy|]. now apply IH.
    + intros H. inversion H as [|? y ? ys E F]; subst. apply IH in F. rewrite E, F. reflexivity.
Qed.
Lemma F2_in_left {A B} (R : A -> B -> Prop) l l' a : Forall2 R l l' -> In a l -> exists b, In b l' /\ R a b.
Proof. induction 1 as [|x y l l' H F IH]; intros I; [easy|]. destruct I as [->|I]; [exists y; split; [now left|easy]|]. destruct (IH I) as (b & J & K). exists b. split; [now right|easy]. Qed.
Lemma occurs_filter x m : occurs x (filter (fun s => negb (String.eqb x s)) m) = 0%nat.
Proof. unfold occurs. induction m as [|y m IH]; cbn; [easy|]. destruct (String.eqb x y) eqn:E; cbn; [easy|]. now rewrite E. Qed.
Lemma monomial_set env x v m c : monomial (set env x v) (m, c) = c * v ^ Z.of_nat (occurs x m) * zprod (map env (filter (fun s => negb (String.eqb x s)) m)).
Proof.
  unfold monomial, occurs. cbn [fst snd]. induction m as [|y m IH]; [cbn; lia|]. cbn [map filter]. rewrite zprod_cons. unfold set at 1. destruct (String.eqb_spec y x) as [->|N].
  - rewrite String.eqb_refl. cbn [negb length]. rewrite Nat2Z.inj_succ, Z.pow_succ_r by lia. rewrite Z.mul_assoc, (Z.mul_comm c v), <- Z.mul_assoc, IH. ring.
  - destruct (String.eqb_spec x y); [congruence|]. cbn [negb map]. rewrite zprod_cons, Z.mul_assoc, (Z.mul_comm c), <- Z.mul_assoc, IH. ring.
Qed.
Lemma eval_subst rho x v p : eval rho (subst x v p) = eval (set rho x v) p.
Proof.
  induction p as [|[m c] p IH]; [reflexivity|]. change (subst x v ((m, c) :: p)) with ((filter (fun s => negb (String.eqb x s)) m, c * v ^ Z.of_nat (occurs x m)) :: subst x v p).
  rewrite !eval_cons, IH, monomial_set. unfold monomial. cbn [fst snd]. ring.
Qed.
Lemma occurs_in x m : In x m <-> occurs x m <> 0%nat.
Proof.
  unfold occurs. induction m as [|y m IH]; cbn; [split; [easy|lia]|]. destruct (String.eqb_spec x y) as [->|N]; cbn; [split; [lia|now left]|]. rewrite <- IH. split; [intros [E|I]; [congruence|easy]|now right].
Qed.
Lemma filter_none {A} (f : A -> bool) l : length (filter f l) = 0%nat -> forall x, In x l -> f x = false.
Proof. induction l as [|a l IH]; cbn; [easy|]. destruct (f a) eqn:E; cbn; [discriminate|]. intros L x [<-|I]; auto. Qed.
Lemma filter_all {A} (f : A -> bool) l : (forall x, In x l -> f x = true) -> filter f l = l.
Proof. induction l as [|a l IH]; cbn; intros H; [easy|]. rewrite (H a) by now left. f_equal. auto. Qed.
Lemma filter_nothing {A} (f : A -> bool) l : (forall x, In x l -> f x = false) -> filter f l = [].
Proof. induction l as [|a l IH]; cbn; intros H; [easy|]. rewrite (H a) by now left. auto. Qed.
(** Accepted terms with the innermost index are its powers. *)
Definition is_loop (loops : list (string * Z)) (s : string) : bool := existsb (fun l => String.eqb s (fst l)) loops.
Lemma is_loop_in loops s : is_loop loops s = true <-> In s (map fst loops).
Proof.
  unfold is_loop. rewrite existsb_exists, in_map_iff. split; intros (l & A & B).
  - apply String.eqb_eq in B. now exists l.
  - exists l. split; [easy|]. now apply String.eqb_eq.
Qed.
Lemma inner_term loops inner incr rest m c : rev loops = (inner, incr) :: rest -> NoDup (map fst loops) -> check_term loops (m, c) = Ok tt -> In inner m ->
  c = 1 /\ forall x, In x m -> x = inner.
Proof.
  intros R ND C I. unfold check_term in C. cbn [fst snd] in C. fold (is_loop loops) in C.
  assert (IL : is_loop loops inner = true). { apply is_loop_in. rewrite <- (rev_involutive loops), R. cbn. rewrite map_app, in_app_iff. right. now left. }
  assert (J : In inner (nodup string_dec (filter (is_loop loops) m))) by (apply nodup_In, filter_In; auto).
  unfold is_loop in J. destruct (nodup _ _) as [|i [|]]; [contradiction J| |discriminate]. destruct J as [->|[]].
  rewrite R in C. set (n := length (filter (fun s => negb (String.eqb s inner)) m)) in C.
  assert (N0 : (n + (if Z.eqb c 1 then 0 else 1) = 0)%nat).
  { destruct (n + (if Z.eqb c 1 then 0 else 1))%nat as [|q] eqn:Q; [easy|]. cbn [nth_error] in C. destruct (nth_error rest q) as [l|] eqn:E; [|discriminate].
    destruct (String.eqb_spec (fst l) inner) as [EQ|]; [|discriminate]. exfalso.
    assert (ND' : NoDup (map fst (rev loops))) by (rewrite map_rev; now apply NoDup_rev). rewrite R in ND'. cbn in ND'. inversion ND' as [|? ? NI _]. apply NI. rewrite <- EQ. apply in_map. now apply nth_error_In in E. }
  destruct (Z.eqb_spec c 1) as [->|]; [|lia]. split; [easy|]. intros x X. assert (n = 0%nat) as Z by lia. unfold n in Z.
  pose proof (filter_none _ _ Z x X) as F. cbn in F. destruct (String.eqb_spec x inner); [easy|discriminate].
Qed.
(** Second and first differences of accepted terms *)
Lemma only_repeat (x : string) (m : list string) : (forall y, In y m -> y = x) -> m = repeat x (length m).
Proof. induction m as [|a m IH]; cbn; intros H; [easy|]. rewrite (H a) by now left. f_equal. auto. Qed.
Lemma occurs_repeat x n : occurs x (repeat x n) = n.
Proof. unfold occurs. induction n as [|n IH]; cbn; [easy|]. rewrite String.eqb_refl. cbn. now rewrite IH. Qed.
Lemma zprod_nil_filter env x n : zprod (map env (filter (fun s => negb (String.eqb x s)) (repeat x n))) = 1.
Proof. induction n as [|n IH]; cbn; [easy|]. now rewrite String.eqb_refl. Qed.
Section Step.
  Variables (x : string) (env : string -> Z).
  Definition d2 (t : list string * Z) : Z := monomial (set env x 2) t - 2 * monomial (set env x 1) t + monomial (set env x 0) t.
  Definition power_or_free (t : list string * Z) : Prop := ~ In x (fst t) \/ exists n, t = (repeat x (S n), 1).
  Lemma free_value t v : ~ In x (fst t) -> monomial (set env x v) t = monomial env t.
  Proof.
    intros N. unfold monomial. f_equal. f_equal. apply map_ext_in. intros s I. unfold set. destruct (String.eqb_spec s x) as [->|]; [contradiction|easy].
  Qed.
  Lemma power_value n v : monomial (set env x v) (repeat x n, 1) = v ^ Z.of_nat n.
  Proof. rewrite monomial_set, occurs_repeat, zprod_nil_filter. ring. Qed.
  Lemma d2_nonneg t : power_or_free t -> 0 <= d2 t /\ (d2 t = 0 -> In x (fst t) -> t = ([x], 1)).
  Proof.
    intros [N|(n & ->)]; unfold d2.
    - rewrite !free_value by easy. split; [lia|]. intros _ I. contradiction.
    - rewrite !power_value, Z.pow_0_l, Z.pow_1_l, Nat2Z.inj_succ, Z.pow_succ_r by lia. pose proof (Z.pow_pos_nonneg 2 (Z.of_nat n)) as P. split; [lia|].
      intros E _. destruct n as [|n]; [easy|]. rewrite Nat2Z.inj_succ, Z.pow_succ_r in E by lia. pose proof (Z.pow_pos_nonneg 2 (Z.of_nat n)). lia.
  Qed.
  Lemma zsum_zero l : (forall z, In z l -> 0 <= z) -> zsum l = 0 -> forall z, In z l -> z = 0.
  Proof.
    induction l as [|a l IH]; intros H E z I; [easy|]. cbn in E. fold (zsum l) in E. assert (P : 0 <= zsum l).
    { clear - H. assert (G : forall z, In z l -> 0 <= z) by (intros; apply H; now right). clear H. induction l as [|b l IH]; cbn; [lia|]. specialize (G b (or_introl eq_refl)) as B. fold (zsum l). assert (0 <= zsum l) by (apply IH; intros; apply G; now right). lia. }
    pose proof (H a (or_introl eq_refl)). destruct I as [<-|I]; [lia|]. apply IH; [intros; apply H; now right|lia|easy].
  Qed.
  Lemma eval_step p v : NoDup (map fst p) -> (forall t, In t p -> ~ In x (fst t) \/ t = ([x], 1)) ->
    eval (set env x (v + 1)) p - eval (set env x v) p = if existsb (fun t => names_eqb (fst t) [x]) p then 1 else 0.
  Proof.
    intros ND H. induction p as [|t p IH]; [reflexivity|]. inversion ND as [|? ? NI ND']; subst. rewrite !eval_cons. cbn [existsb].
    specialize (IH ND' (fun t I => H t (or_intror I))). destruct (H t (or_introl eq_refl)) as [F|E].
    - rewrite !free_value by easy. destruct (names_eqb_spec (fst t) [x]) as [E|_]; [contradiction F; rewrite E; now left|]. cbn [orb]. rewrite <- IH. ring.
    - subst t. cbn [fst]. rewrite names_eqb_refl. cbn [orb]. change ([x], 1) with (repeat x 1, 1). rewrite !power_value. cbn [fst repeat] in NI.
      assert (Z : existsb (fun t => names_eqb (fst t) [x]) p = false).
      { apply Bool.not_true_is_false. intros X. apply existsb_exists in X as (t & I & E). destruct (names_eqb_spec (fst t) [x]) as [E'|]; [|discriminate]. apply NI. rewrite <- E'. now apply in_map. }
      rewrite Z in IH. change (Z.of_nat 1) with 1. rewrite !Z.pow_1_r. lia.
  Qed.
End Step.
Lemma affine_linear x dims idx : Forall (affine_in x) idx -> Forall (independent_of x) dims -> forall env, exists a b, forall v, place (set env x v) dims idx = a + b * v.
Proof.
  intros A D env. revert dims D. unfold place. induction A as [|s idx H A IH]; intros dims D; [exists 0, 0; reflexivity|].
  assert (D' : Forall (independent_of x) (tl dims)) by (destruct D; cbn; [constructor|assumption]).
  destruct (IH _ D') as (a & b & E). destruct (H env) as (a' & b' & E').
  assert (P : forall v, map (seval (set env x v)) (tl dims) = map (seval env) (tl dims)). { intros v. apply map_ext_in. intros d I. apply (proj1 (Forall_forall _ _) D' d I). }
  set (q := zprod (map (seval env) (tl dims))). exists (q * a' + a), (q * b' + b). intros v. cbn [map]. rewrite access_cons, map_tl, E, E', P. fold q. ring.
Qed.
Lemma step_of_reference k inner incr rest n arefs idx dims :
  checks k = Ok tt -> rev (loops k) = (inner, incr) :: rest -> NoDup (map fst (loops k)) ->
  In (n, arefs) (sources k ++ destinations k) -> ~ In None arefs -> In (Some idx) arefs -> lookup (variables k) n = Some (Some dims) ->
  Forall (affine_in inner) idx -> Forall (independent_of inner) dims ->
  forall env v, place (set env inner (v + 1)) dims idx - place (set env inner v) dims idx = 0 \/ place (set env inner (v + 1)) dims idx - place (set env inner v) dims idx = 1.
Proof.
  intros C R ND I NN J L A D env v.
  assert (T : forall t, In t (normal (linear dims idx)) -> check_term (loops k) t = Ok tt).
  { unfold checks in C. destruct (existsb _ (loops k)); [discriminate|]. destruct (all_ok (check_array k) (sources k ++ destinations k)) as [[]|] eqn:E; [|discriminate].
    pose proof (proj1 (all_ok_iff _ _) E _ I) as CA. unfold check_array in CA. cbn [fst snd] in CA. destruct arefs as [|[i0|] arefs]; [contradiction J| |contradiction NN; now left].
    cbv beta iota in CA. match type of CA with context [bind ?x _] => destruct x as [es|] eqn:M end; [|discriminate CA]. cbn [bind] in CA. apply mapM_ok in M.
    assert (X : exists e, access_expr k n (Some idx) = Ok e /\ In e es).
    { destruct (F2_in_left _ _ _ _ M J) as (e & Y & X). now exists e. }
    destruct X as (e & X & Y). unfold access_expr in X. rewrite L in X. assert (e = linear dims idx) by (destruct idx; cbn in X |- *; congruence). subst e.
    pose proof (proj1 (all_ok_iff _ _) CA _ Y) as Z. now apply all_ok_iff. }
  assert (P : forall t, In t (normal (linear dims idx)) -> power_or_free inner t).
  { intros [m c] X. unfold power_or_free. cbn [fst]. destruct (in_dec string_dec inner m) as [Y|Y]; [right|now left].
    destruct (inner_term _ _ _ _ _ _ R ND (T _ X) Y) as [-> O]. apply only_repeat in O. destruct m as [|a m]; [contradiction Y|]. exists (length m). f_equal. exact O. }
  destruct (affine_linear inner dims idx A D env) as (a & b & E).
  assert (V : forall w, eval (set env inner w) (normal (linear dims idx)) = a + b * w) by (intros w; rewrite eval_normal, eval_linear; apply E).
  assert (D2 : zsum (map (d2 inner env) (normal (linear dims idx))) = 0).
  { assert (G : forall p, zsum (map (d2 inner env) p) = eval (set env inner 2) p - 2 * eval (set env inner 1) p + eval (set env inner 0) p).
    { clear. induction p as [|t p IH]; [reflexivity|]. rewrite !eval_cons. cbn [map zsum fold_right]. fold (zsum (map (d2 inner env) p)). rewrite IH. unfold d2. ring. }
    rewrite G, !V. ring. }
  assert (F : forall t, In t (normal (linear dims idx)) -> ~ In inner (fst t) \/ t = ([inner], 1)).
  { intros t X. destruct (in_dec string_dec inner (fst t)) as [Y|Y]; [right|now left]. apply (d2_nonneg inner env t (P t X)); [|easy].
    apply (zsum_zero (map (d2 inner env) (normal (linear dims idx)))); [|easy|now apply in_map]. intros z Z. apply in_map_iff in Z as (u & <- & U). now apply d2_nonneg, P. }
  rewrite <- !eval_linear, <- !(eval_normal _ (linear dims idx)), (eval_step inner env _ v (proj1 (normal_keys _)) F). destruct (existsb _ _); auto.
Qed.

(** ** Usual references *)
Definition atom (x : option string * Z) : poly := match fst x with Some v => [([v], 1); ([], snd x)] | None => [([], snd x)] end.
Lemma shape_atom s x : shape s = Some x -> same (expand s) (atom x) = true.
Proof.
  intros H. apply same_cf. intros m. unfold cf. generalize (fun m' => if names_eqb m' m then 1 else 0). intros g.
  destruct s as [v|c|? ?|s t|s t]; cbn in H; try discriminate.
  - injection H as <-. cbn [expand atom fst snd]. rewrite !weigh_cons. cbn [fst snd]. change (weigh g []) with 0. ring.
  - injection H as <-. reflexivity.
  - destruct s; try discriminate; destruct t; try discriminate; injection H as <-; cbn [expand app atom fst snd]; rewrite !weigh_cons; cbn [fst snd]; ring.
  - destruct s; try discriminate; destruct t; try discriminate; injection H as <-. cbn [expand]. rewrite weigh_psub. cbn [expand atom fst snd]. rewrite !weigh_cons. cbn [fst snd]. change (weigh g []) with 0. ring.
Qed.
Fixpoint lin (ds : list string) (l : list (option string * Z)) : poly :=
  match l with [] => [] | x :: l' => map (fun t => (tl ds ++ fst t, snd t)) (atom x) ++ lin (tl ds) l' end.
Lemma product_names F : product (map SVar F) = [(F, 1)].
Proof. induction F as [|n F IH]; [reflexivity|]. change (product (map SVar (n :: F))) with (pmul (expand (SVar n)) (product (map SVar F))). rewrite IH. reflexivity. Qed.
Lemma weigh_prefix g F p : weigh g (map (fun t => (F ++ fst t, snd t)) p) = weigh (fun m => g (sort_names (F ++ m))) p.
Proof. induction p as [|t p IH]; [reflexivity|]. cbn [map]. rewrite !weigh_cons, IH. cbn [fst snd]. now rewrite sort_names_app_r. Qed.
Lemma linear_lin ds idx l : Forall2 (fun s x => shape s = Some x) idx l -> same (linear (map SVar ds) idx) (lin ds l) = true.
Proof.
  intros F. revert ds. induction F as [|s x idx l H F IH]; intros ds; [reflexivity|]. cbn [linear lin]. rewrite map_tl, product_names.
  apply same_app; [|apply IH]. apply same_cf. intros m. unfold cf. rewrite weigh_pmul, weigh_prefix. cbn [map fst snd]. rewrite (weigh_same _ _ _ (shape_atom _ _ H)). unfold zsum. cbn [fold_right]. ring.
Qed.
Lemma same_in p q t : same p q = true -> (In t (normal p) <-> In t (normal q)).
Proof. intros S. destruct t as [m c]. rewrite !normal_in. now rewrite (proj1 (same_cf _ _) S). Qed.
Lemma normal_distinct p m c : NoDup (map (fun t => sort_names (fst t)) p) -> (In (m, c) (normal p) <-> c <> 0 /\ exists t, In t p /\ sort_names (fst t) = m /\ snd t = c).
Proof.
  intros ND. rewrite normal_in.
  assert (A : forall t, In t p -> cf p (sort_names (fst t)) = snd t).
  { unfold cf. induction p as [|u p IH]; [easy|]. cbn [map] in ND. inversion ND as [|? ? NI ND']; subst. intros t I. rewrite weigh_cons.
    assert (Z : forall q m, ~ In m (map (fun t => sort_names (fst t)) q) -> weigh (fun m' => if names_eqb m' m then 1 else 0) q = 0).
    { clear. induction q as [|u q IH]; [easy|]. intros m N. cbn in N. rewrite weigh_cons, IH by tauto. destruct (names_eqb_spec (sort_names (fst u)) m) as [E|]; [tauto|ring]. }
    destruct I as [->|I].
    - rewrite names_eqb_refl, Z by assumption. ring.
    - rewrite IH by assumption. destruct (names_eqb_spec (sort_names (fst u)) (sort_names (fst t))) as [E|]; [|ring]. contradiction NI. rewrite E. now apply (in_map (fun t => sort_names (fst t))). }
  split.
  - intros [E N]. split; [easy|]. destruct (in_dec (list_eq_dec string_dec) m (map (fun t => sort_names (fst t)) p)) as [I|I].
    + apply in_map_iff in I as (t & <- & I). exists t. split; [easy|]. split; [easy|]. rewrite <- E. symmetry. auto.
    + exfalso. apply N. rewrite <- E. clear - I. unfold cf. induction p as [|u q IH]; [easy|]. cbn in I. rewrite weigh_cons, IH by tauto. destruct (names_eqb_spec (sort_names (fst u)) m) as [X|]; [tauto|ring].
  - intros (N & t & I & <- & E). split; [|easy]. rewrite <- E. auto.
Qed.

Lemma NoDup_app_iff' {A} (a b : list A) : NoDup a -> NoDup b -> (forall x, In x a -> ~ In x b) -> NoDup (a ++ b).
Proof.
  induction 1 as [|x a NI ND IH]; intros B H; [easy|]. cbn. constructor.
  - rewrite in_app_iff. intros [I|I]; [easy|]. exact (H x (or_introl eq_refl) I).
  - apply IH; [easy|]. intros y I. apply H. now right.
Qed.
(** Loop part and size part of a term *)
Section Parts.
  Variable isl : string -> bool.
  Definition loop_part (m : list string) : list string := filter isl m.
  Definition size_part (m : list string) : list string := filter (fun s => negb (isl s)) m.
  Lemma loop_part_app a b : loop_part (a ++ b) = loop_part a ++ loop_part b.
  Proof. apply filter_app. Qed.
  Lemma size_part_app a b : size_part (a ++ b) = size_part a ++ size_part b.
  Proof. apply filter_app. Qed.
  Lemma filter_perm (f : string -> bool) a b : Permutation a b -> Permutation (filter f a) (filter f b).
  Proof. induction 1 as [|x a b P IH|x y a|a b c P IH Q IH']; cbn; [constructor|destruct (f x); [now constructor|easy]|destruct (f x), (f y); try constructor; reflexivity|now transitivity (filter f b)]. Qed.
  Definition sizes_ok (ds : list string) : Prop := forall s, In s ds -> isl s = false.
  Definition atoms_ok (l : list (option string * Z)) : Prop := forall x v, In x l -> fst x = Some v -> isl v = true.
  Lemma sizes_tl ds : sizes_ok ds -> sizes_ok (tl ds).
  Proof. intros H s I. apply H. destruct ds; [easy|now right]. Qed.
  Lemma size_part_ok ds : sizes_ok ds -> size_part ds = ds /\ loop_part ds = [].
  Proof. intros H. split; [apply filter_all|apply filter_nothing]; intros s I; rewrite (H s I); reflexivity. Qed.
  Lemma in_lin ds l t : sizes_ok ds -> atoms_ok l -> In t (lin ds l) ->
    exists p x, nth_error l p = Some x /\ ((exists v, fst x = Some v /\ isl v = true /\ t = (skipn (S p) ds ++ [v], 1)) \/ t = (skipn (S p) ds, snd x)).
  Proof.
    revert ds. induction l as [|x l IH]; intros ds SZ A I; [easy|]. cbn [lin] in I. apply in_app_iff in I as [I|I].
    - exists O, x. split; [easy|]. assert (E : skipn 1 ds = tl ds) by (now destruct ds). rewrite E. apply in_map_iff in I as (u & <- & I). unfold atom in I. destruct (fst x) as [v|] eqn:F.
      + destruct I as [<-|[<-|[]]]; cbn [fst snd]; [left; exists v; split; [easy|]; split; [apply (A x v); [now left|easy]|easy]|right; now rewrite app_nil_r].
      + destruct I as [<-|[]]. cbn [fst snd]. right. now rewrite app_nil_r.
    - destruct (IH (tl ds)) as (p & y & N & H); [now apply sizes_tl| |easy|].
      + intros y v J. apply A. now right.
      + exists (S p), y. split; [easy|]. assert (E : skipn (S (S p)) ds = skipn (S p) (tl ds)) by (destruct ds; [now destruct p|easy]). now rewrite E.
  Qed.
  Lemma lin_distinct ds l : length l = length ds -> sizes_ok ds -> atoms_ok l -> NoDup (map (fun t => sort_names (fst t)) (lin ds l)).
  Proof.
    revert ds. induction l as [|x l IH]; intros ds L SZ A; [constructor|]. destruct ds as [|d ds]; [discriminate|]. cbn in L. injection L as L. cbn [lin tl].
    assert (S' : sizes_ok ds) by (apply (sizes_tl (d :: ds)), SZ). assert (A' : atoms_ok l) by (intros y v J; apply A; now right).
    destruct (size_part_ok ds S') as [SP LP].
    rewrite map_app. apply NoDup_app_iff'.
    - unfold atom. destruct (fst x) as [v|]; cbn; [|repeat constructor; easy]. constructor; [|repeat constructor; easy]. intros [E|[]].
      apply (f_equal (@length string)) in E. rewrite !sort_names_length, !app_length in E. cbn in E. lia.
    - now apply IH.
    - intros m I J. apply in_map_iff in I as (t & Et & I). apply in_map_iff in I as (u & <- & I). apply in_map_iff in J as (t' & Et' & J).
      destruct (in_lin _ _ _ S' A' J) as (p & y & N & H).
      assert (P : Permutation (ds ++ fst u) (fst t')) by (rewrite (sort_names_perm (ds ++ fst u)), (sort_names_perm (fst t')); cbn [fst] in Et; rewrite Et, Et'; reflexivity).
      apply (filter_perm (fun s => negb (isl s))), Permutation_length in P. fold (size_part (ds ++ fst u)) in P. fold (size_part (fst t')) in P. rewrite size_part_app, SP in P.
      assert (Q : (length (size_part (fst t')) < length ds)%nat).
      { pose proof (skipn_length (1 + p) ds) as K. assert (p < length l)%nat by (apply nth_error_Some; congruence).
        assert (X : forall q, (length (size_part q) <= length q)%nat). { clear. intros q. unfold size_part. induction q as [|a q IH]; cbn; [lia|]. destruct (negb _); cbn; lia. }
        destruct H as [(v & _ & V & ->)| ->]; cbn [fst].
        - rewrite size_part_app, app_length. specialize (X (skipn (1 + p) ds)). cbn [size_part filter]. rewrite V. cbn in *. lia.
        - specialize (X (skipn (1 + p) ds)). cbn in *. lia. }
      rewrite app_length in P. lia.
  Qed.
End Parts.

(** ** Acceptance of usual kernels *)
Lemma nth_error_rev {A} (l : list A) p : (p < length l)%nat -> nth_error (rev l) p = nth_error l (length l - S p).
Proof.
  intros H. destruct l as [|d l] using rev_ind; [cbn in H; lia|]. clear IHl. destruct (nth_error (rev (l ++ [d])) p) as [x|] eqn:E.
  - apply (nth_error_nth _ _ d) in E. rewrite rev_nth in E by assumption. symmetry. rewrite <- E. apply nth_error_nth'. lia.
  - apply nth_error_None in E. rewrite rev_length in E. lia.
Qed.
Lemma ordered_positions loops idx : ordered loops idx <-> forall p s v c, nth_error idx p = Some s -> shape s = Some (Some v, c) -> nth_error (rev loops) (length idx - S p) = Some v.
Proof.
  split.
  - intros O p s v c N SH. assert (p < length idx)%nat by (apply nth_error_Some; congruence). apply (O _ s v c); [|easy]. rewrite nth_error_rev by lia. replace (length idx - S (length idx - S p))%nat with p by lia. exact N.
  - intros O p s v c N SH. assert (L : (p < length idx)%nat) by (rewrite <- rev_length; apply nth_error_Some; congruence). rewrite nth_error_rev in N by lia. specialize (O _ _ _ _ N SH). replace (length idx - S (length idx - S p))%nat with p in O by lia. exact O.
Qed.
Lemma perm_one {A} (v : A) l : Permutation [v] l -> l = [v].
Proof. intros P. now apply Permutation_length_1_inv in P. Qed.
Lemma check_loop_term loops F v : (forall s, In s F -> is_loop loops s = false) -> is_loop loops v = true ->
  (check_term loops (sort_names (F ++ [v]), 1) = Ok tt <-> nth_error (rev (map fst loops)) (length F) = Some v).
Proof.
  intros HF HV. unfold check_term. cbn [fst snd]. fold (is_loop loops).
  assert (E : filter (is_loop loops) (sort_names (F ++ [v])) = [v]).
  { apply perm_one. rewrite <- (filter_perm (is_loop loops) _ _ (sort_names_perm (F ++ [v]))), filter_app, (filter_nothing _ F) by assumption. cbn. now rewrite HV. }
  change (fun s => existsb (fun l => String.eqb s (fst l)) loops) with (is_loop loops). rewrite E. change (nodup string_dec [v]) with [v]. cbv iota.
  assert (N : length (filter (fun s => negb (String.eqb s v)) (sort_names (F ++ [v]))) = length F).
  { rewrite <- (Permutation_length (filter_perm (fun s => negb (String.eqb s v)) _ _ (sort_names_perm (F ++ [v])))), filter_app, app_length. cbn. rewrite String.eqb_refl. cbn. rewrite filter_all; [lia|].
    intros s I. specialize (HF s I). destruct (String.eqb_spec s v) as [->|]; [congruence|easy]. }
  rewrite N. rewrite Z.eqb_refl, Nat.add_0_r, <- map_rev, nth_error_map. destruct (nth_error (rev loops) (length F)) as [l|]; cbn; [|split; discriminate].
  destruct (String.eqb_spec (fst l) v) as [->|NE]; split; try easy. intros [= H]. contradiction.
Qed.
Lemma check_size_term loops F c : (forall s, In s F -> is_loop loops s = false) -> check_term loops (sort_names F, c) = Ok tt.
Proof.
  intros HF. unfold check_term. cbn [fst snd]. change (fun s => existsb (fun l => String.eqb s (fst l)) loops) with (is_loop loops).
  assert (E : filter (is_loop loops) (sort_names F) = []); [|now rewrite E].
  apply filter_nothing. intros s I. apply HF. now apply (Permutation_in _ (Permutation_sym (sort_names_perm F))).
Qed.
Lemma usual_atoms loops sizes idx : usual_reference (map fst loops) sizes idx ->
  exists l, Forall2 (fun s x => shape s = Some x) idx l /\ length l = length sizes /\ sizes_ok (is_loop loops) sizes /\ atoms_ok (is_loop loops) l.
Proof.
  intros (L & SZ & U). assert (X : exists l, Forall2 (fun s x => shape s = Some x) idx l /\ atoms_ok (is_loop loops) l).
  { clear L. induction idx as [|s idx IH]; [exists []; split; [constructor|easy]|]. destruct IH as (l & F & A); [intros t I; apply U; now right|].
    destruct (U s (or_introl eq_refl)) as (v & c & H & V). exists ((v, c) :: l). split; [now constructor|]. intros x w [<-|I] E; [|now apply (A x w)]. cbn in E. subst v. now apply is_loop_in. }
  destruct X as (l & F & A). exists l. split; [easy|]. split; [rewrite <- L; symmetry; now apply F2_length in F|]. split; [|easy].
  intros s I. apply Bool.not_true_is_false. intros X. apply is_loop_in in X. now apply (SZ s I).
Qed.
Lemma skipn_in {A} n (l : list A) x : In x (skipn n l) -> In x l.
Proof. revert l. induction n as [|n IH]; intros [|a l]; cbn; auto. Qed.
Lemma in_lin_conv ds l p x : nth_error l p = Some x -> In (skipn (S p) ds, snd x) (lin ds l) /\ forall v, fst x = Some v -> In (skipn (S p) ds ++ [v], 1) (lin ds l).
Proof.
  revert ds p. induction l as [|y l IH]; intros ds p H; [now destruct p|]. destruct p as [|p].
  - injection H as ->. assert (E : skipn 1 ds = tl ds) by (now destruct ds). rewrite E. cbn [lin]. unfold atom. destruct (fst x) as [w|]; cbn; rewrite !app_nil_r; split; auto.
    + intros v [= <-]. auto.
    + discriminate.
  - destruct (IH (tl ds) p H) as [A B]. assert (E : skipn (S (S p)) ds = skipn (S p) (tl ds)) by (destruct ds; [now destruct p|easy]). rewrite E. cbn [lin].
    split; [apply in_app_iff; now right|]. intros v V. apply in_app_iff. right. now apply B.
Qed.
Lemma F2_nth {A B} (R : A -> B -> Prop) l l' p a : Forall2 R l l' -> nth_error l p = Some a -> exists b, nth_error l' p = Some b /\ R a b.
Proof. intros F. revert p. induction F as [|x y l l' H F IH]; intros [|p] N; try discriminate; [injection N as ->; now exists y|now apply IH]. Qed.
Lemma F2_nth' {A B} (R : A -> B -> Prop) l l' p b : Forall2 R l l' -> nth_error l' p = Some b -> exists a, nth_error l p = Some a /\ R a b.
Proof. intros F. revert p. induction F as [|x y l l' H F IH]; intros [|p] N; try discriminate; [injection N as ->; now exists x|now apply IH]. Qed.
Lemma terms_checked loops sizes idx : usual_reference (map fst loops) sizes idx ->
  (all_ok (check_term loops) (normal (linear (map SVar sizes) idx)) = Ok tt <-> ordered (map fst loops) idx).
Proof.
  intros U. destruct (usual_atoms _ _ _ U) as (l & F & L & SZ & A). pose proof (F2_length _ _ _ F) as LI.
  assert (SK : forall p s, In s (skipn p sizes) -> is_loop loops s = false) by (intros p s I; apply SZ; now apply skipn_in in I).
  assert (LK : forall p, length (skipn (1 + p) sizes) = (length idx - (1 + p))%nat) by (intros p; rewrite skipn_length; lia).
  rewrite all_ok_iff, ordered_positions. split.
  - intros H p s v c N SH. destruct (F2_nth _ _ _ _ _ F N) as (x & N' & E). assert (x = (Some v, c)) by congruence. subst x.
    destruct (in_lin_conv sizes l p _ N') as [_ B]. specialize (B v eq_refl).
    assert (V : is_loop loops v = true) by (apply (A (Some v, c) v); [now apply nth_error_In in N'|easy]).
    assert (T : check_term loops (sort_names (skipn (1 + p) sizes ++ [v]), 1) = Ok tt).
    { apply H. apply (proj2 (same_in _ _ _ (linear_lin sizes idx l F))). apply normal_distinct; [now apply (lin_distinct (is_loop loops))|]. split; [lia|]. eexists. split; [exact B|]. now cbn. }
    apply check_loop_term in T; [|apply SK|easy]. rewrite <- LK. exact T.
  - intros H [m c] I. apply (proj1 (same_in _ _ _ (linear_lin sizes idx l F))) in I. apply normal_distinct in I; [|now apply (lin_distinct (is_loop loops))].
    destruct I as (_ & t & I & <- & <-). destruct (in_lin _ _ _ _ SZ A I) as (p & x & N & [(v & E & V & ->)| ->]); cbn [fst snd].
    + apply check_loop_term; [apply SK|easy|]. destruct (F2_nth' _ _ _ _ _ F N) as (s & N' & SH). destruct x as [w c]. cbn in E. subst w.
      pose proof (LK p) as LK'. cbn [Nat.add] in LK'. rewrite LK'. now apply (H p s v c).
    + apply check_size_term, SK.
Qed.
Lemma same_const p z : (forall g, weigh g p = g [] * z) -> same p [([], z)] = true.
Proof. intros H. apply same_cf. intros m. unfold cf. rewrite H, weigh_cons. cbn [fst snd]. change (sort_names []) with (@nil string). change (weigh _ []) with 0. ring. Qed.
Lemma usual_index inner s x : shape s = Some x -> check_index inner 1 s = Ok tt.
Proof.
  intros H. unfold check_index.
  assert (G : exists z, (z = 0 \/ z = 1) /\ same (psub (subst inner (1 + 1) (expand s)) (subst inner 1 (expand s))) [([], z)] = true).
  { destruct s as [v|c|? ?|s t|s t]; cbn in H; try discriminate.
    - exists (if String.eqb inner v then 1 else 0). split; [destruct (String.eqb inner v); auto|]. apply same_const. intros g. rewrite weigh_psub. unfold subst, occurs. cbn [expand map fst snd filter]. destruct (String.eqb inner v); cbn [negb length filter]; rewrite !weigh_cons; cbn [fst snd]; cbn; try ring; lia.
    - exists 0. split; [auto|]. apply same_const. intros g. rewrite weigh_psub. unfold subst, occurs. cbn [expand map fst snd filter length]. rewrite !weigh_cons. cbn [fst snd]. change (1 ^ Z.of_nat 0) with 1. change ((1 + 1) ^ Z.of_nat 0) with 1. ring.
    - destruct s as [v|c| | |]; try discriminate; destruct t as [w|d| | |]; try discriminate.
      + exists (if String.eqb inner v then 1 else 0). split; [destruct (String.eqb inner v); auto|]. apply same_const. intros g. rewrite weigh_psub. unfold subst, occurs. cbn [expand app map fst snd filter]. destruct (String.eqb inner v); cbn [negb length filter]; rewrite !weigh_cons; cbn [fst snd]; change (weigh g []) with 0; change (sort_names []) with (@nil string); change (1 ^ Z.of_nat 0) with 1; change ((1 + 1) ^ Z.of_nat 0) with 1; change (1 ^ Z.of_nat 1) with 1; change ((1 + 1) ^ Z.of_nat 1) with 2; ring.
      + exists (if String.eqb inner w then 1 else 0). split; [destruct (String.eqb inner w); auto|]. apply same_const. intros g. rewrite weigh_psub. unfold subst, occurs. cbn [expand app map fst snd filter]. destruct (String.eqb inner w); cbn [negb length filter]; rewrite !weigh_cons; cbn [fst snd]; change (weigh g []) with 0; change (sort_names []) with (@nil string); change (1 ^ Z.of_nat 0) with 1; change ((1 + 1) ^ Z.of_nat 0) with 1; change (1 ^ Z.of_nat 1) with 1; change ((1 + 1) ^ Z.of_nat 1) with 2; ring.
    - destruct s as [v|c| | |]; try discriminate; destruct t as [w|d| | |]; try discriminate.
      exists (if String.eqb inner v then 1 else 0). split; [destruct (String.eqb inner v); auto|]. apply same_const. intros g. rewrite weigh_psub. cbn [expand]. unfold subst, occurs, psub, scale. cbn [app map fst snd filter]. destruct (String.eqb inner v); cbn [negb length filter]; rewrite !weigh_cons; cbn [fst snd]; change (weigh g []) with 0; change (sort_names []) with (@nil string); change (1 ^ Z.of_nat 0) with 1; change ((1 + 1) ^ Z.of_nat 0) with 1; change (1 ^ Z.of_nat 1) with 1; change ((1 + 1) ^ Z.of_nat 1) with 2; ring. }
  destruct G as (z & [->| ->] & G).
  - assert (Z : same (psub (subst inner (1 + 1) (expand s)) (subst inner 1 (expand s))) [] = true) by (apply (same_trans _ _ _ G); reflexivity). now rewrite Z.
  - rewrite G. now rewrite Bool.orb_true_r.
Qed.
Lemma existsb_forall {A} (f : A -> bool) l : existsb f l = false <-> forall x, In x l -> f x = false.
Proof.
  induction l as [|a l IH]; cbn; [easy|]. rewrite Bool.orb_false_iff, IH. split; [intros [X Y] x [<-|I]; auto|intros H; split; auto].
Qed.
Lemma usual_access k n sizes a : lookup (variables k) n = Some (Some (map SVar sizes)) ->
  (exists idx, a = Some idx /\ idx <> [] /\ usual_reference (map fst (loops k)) sizes idx) -> exists idx, a = Some idx /\ usual_reference (map fst (loops k)) sizes idx /\ access_expr k n a = Ok (linear (map SVar sizes) idx).
Proof. intros L (idx & -> & N & U). exists idx. split; [easy|]. split; [easy|]. unfold access_expr. rewrite L. now destruct idx. Qed.
Lemma check_usual_array k n sizes arefs : lookup (variables k) n = Some (Some (map SVar sizes)) ->
  (forall a, In a arefs -> exists idx, a = Some idx /\ idx <> [] /\ usual_reference (map fst (loops k)) sizes idx) ->
  (check_array k (n, arefs) = Ok tt <-> forall idx, In (Some idx) arefs -> ordered (map fst (loops k)) idx).
Proof.
  intros L U. assert (E : exists es, mapM (access_expr k n) arefs = Ok es /\ Forall2 (fun a e => exists idx, a = Some idx /\ usual_reference (map fst (loops k)) sizes idx /\ e = linear (map SVar sizes) idx) arefs es).
  { clear - L U. induction arefs as [|a arefs IH]; [exists []; split; [reflexivity|constructor]|]. destruct IH as (es & M & F); [intros b I; apply U; now right|].
    destruct (usual_access _ _ _ a L (U a (or_introl eq_refl))) as (idx & -> & V & X). exists (linear (map SVar sizes) idx :: es). split; [cbn; rewrite X; cbn; now rewrite M|]. constructor; [now exists idx|easy]. }
  destruct E as (es & M & F). unfold check_array. cbn [fst snd]. destruct arefs as [|a arefs]; [cbn; easy|].
  destruct (U a (or_introl eq_refl)) as (i0 & -> & _ & _). cbv iota. match goal with |- context [bind ?x _] => assert (M' : x = Ok es) by exact M; rewrite M' end. cbn [bind]. rewrite all_ok_iff. clear M M'. split.
  - intros H idx I. destruct (F2_in_left _ _ _ _ F I) as (e & J & i & E & V & ->). injection E as <-. apply (terms_checked _ sizes); [easy|]. now apply H.
  - intros H e I. assert (X : exists a, In a (Some i0 :: arefs) /\ exists idx, a = Some idx /\ usual_reference (map fst (loops k)) sizes idx /\ e = linear (map SVar sizes) idx).
    { clear - F I. induction F as [|a b l l' R F IH]; [easy|]. destruct I as [->|I]; [exists a; split; [now left|easy]|]. destruct (IH I) as (c & J & K). exists c. split; [now right|easy]. }
    destruct X as (a & J & idx & -> & V & ->). apply terms_checked; [easy|]. now apply H.
Qed.
Theorem usual_accepted k : usual k ->
  (checks k = Ok tt <-> loops k <> [] /\ (forall l, In l (loops k) -> snd l = 1)
    /\ forall n arefs idx, In (n, arefs) (sources k ++ destinations k) -> In (Some idx) arefs -> ordered (map fst (loops k)) idx).
Proof.
  intros [ND U]. unfold checks.
  assert (I1 : existsb (fun l => negb (snd l =? 1)) (loops k) = false <-> forall l, In l (loops k) -> snd l = 1).
  { rewrite existsb_forall. split; intros H l I; specialize (H l I); [destruct (Z.eqb_spec (snd l) 1); [easy|discriminate]|now rewrite H]. }
  assert (I2 : all_ok (check_array k) (sources k ++ destinations k) = Ok tt <-> forall n arefs idx, In (n, arefs) (sources k ++ destinations k) -> In (Some idx) arefs -> ordered (map fst (loops k)) idx).
  { rewrite all_ok_iff. split.
    - intros H n arefs idx I J. destruct (U n arefs I) as [->|(sizes & L & V)]; [destruct J as [J|[]]; discriminate|]. exact (proj1 (check_usual_array _ _ _ _ L V) (H _ I) idx J).
    - intros H [n arefs] I. destruct (U n arefs I) as [->|(sizes & L & V)]; [reflexivity|]. apply (check_usual_array _ _ _ _ L V). intros idx J. now apply (H n arefs). }
  destruct (existsb _ (loops k)).
  - split; [discriminate|]. intros (_ & H & _). apply I1 in H. discriminate.
  - assert (ONE : forall l, In l (loops k) -> snd l = 1) by (now apply I1).
    assert (I3 : forall inner incr rest, rev (loops k) = (inner, incr) :: rest -> all_ok (check_reference inner incr) (flat_map snd (sources k) ++ flat_map snd (destinations k)) = Ok tt).
    { intros inner incr rest R. assert (incr = 1) by (apply (ONE (inner, incr)); apply in_rev; rewrite R; now left). subst incr. apply all_ok_iff. intros a I. rewrite <- flat_map_app in I. apply in_flat_map in I as ([n arefs] & I & J).
      cbn [snd] in J. destruct (U n arefs I) as [->|(sizes & L & V)]; [destruct J as [<-|[]]; reflexivity|]. destruct (V a J) as (idx & -> & _ & _ & _ & W). cbn. apply all_ok_iff. intros s K. destruct (W s K) as (v & c & SH & _). now apply (usual_index _ _ (v, c)). }
    destruct (all_ok (check_array k) (sources k ++ destinations k)) as [[]|e] eqn:EA; cbn [bind].
    + destruct (rev (loops k)) as [|[inner incr] rest] eqn:R.
      * split; [discriminate|]. intros (N & _). contradiction N. rewrite <- (rev_involutive (loops k)), R. reflexivity.
      * rewrite (I3 _ _ _ eq_refl). split; [|easy]. intros _. split; [intros E; rewrite E in R; discriminate|]. split; [easy|]. now apply I2.
    + split; [discriminate|]. intros (_ & _ & H). apply I2 in H. congruence.
Qed.

(** ** Splitting *)
Lemma occurs_perm s a b : Permutation a b -> occurs s a = occurs s b.
Proof. intros P. apply Permutation_length, filter_perm, P. Qed.
Lemma occurs_app s a b : occurs s (a ++ b) = (occurs s a + occurs s b)%nat.
Proof. unfold occurs. now rewrite filter_app, app_length. Qed.
Lemma occurs_head x l : occurs x (x :: l) = S (occurs x l).
Proof. unfold occurs. cbn. now rewrite String.eqb_refl. Qed.
Lemma occurs_none s a : ~ In s a -> occurs s a = 0%nat.
Proof. intros N. destruct (occurs s a) eqn:E; [easy|]. contradiction N. apply occurs_in. lia. Qed.
Lemma normal_single F : normal [(F, 1)] = [(sort_names F, 1)].
Proof. reflexivity. Qed.
Lemma zprod_number_args c : zprod (number_args c) = c.
Proof.
  unfold number_args. destruct (Z.eqb_spec c 1); [now subst|]. destruct (Z.eqb_spec c (-1)); [now subst|]. destruct (c <? 0); unfold zprod; cbn [fold_right]; lia.
Qed.
Lemma arg_eqb_refl a : arg_eqb a a = true.
Proof. destruct a; cbn; [apply Z.eqb_refl|now rewrite String.eqb_refl, Nat.eqb_refl]. Qed.
Lemma in_power s n t : In (Power s n) (args t) <-> In s (fst t) /\ n = occurs s (fst t).
Proof.
  unfold args. rewrite in_app_iff, !in_map_iff. split.
  - intros [(x & E & _)|(x & E & I)]; [discriminate|]. injection E as <- <-. now apply nodup_In in I.
  - intros [I ->]. right. exists s. split; [easy|]. now apply nodup_In.
Qed.
Lemma args_one m : args (m, 1) = map (fun s => Power s (occurs s m)) (nodup string_dec m).
Proof. reflexivity. Qed.
Lemma sort_names_nil m : sort_names m = [] -> m = [].
Proof. intros E. apply (f_equal (@length string)) in E. rewrite sort_names_length in E. now destruct m. Qed.
Lemma sort_names_in m x : In x (sort_names m) <-> In x m.
Proof. split; intros I; [apply (Permutation_in _ (Permutation_sym (sort_names_perm m)))|apply (Permutation_in _ (sort_names_perm m))]; exact I. Qed.
Section Split.
  Variable isl : string -> bool.
  (** Loop part of a term: one loop variable with factor 1, or none *)
  Definition loop_term (lp : list string) (c : Z) : Prop := (lp = [] /\ c <> 0) \/ (c = 1 /\ exists v, lp = [v] /\ isl v = true).
  Lemma loop_term_loops lp c x : loop_term lp c -> In x lp -> isl x = true.
  Proof. intros [[-> _]|[_ (v & -> & V)]] I; [easy|]. now destruct I as [<-|[]]. Qed.
  Lemma sort_loop lp c : loop_term lp c -> sort_names lp = lp.
  Proof. now intros [[-> _]|[_ (v & -> & V)]]. Qed.
  Lemma coeff_own F lp c : sizes_ok isl F -> loop_term lp c -> term_coeff (sort_names (F ++ lp), c) [(F, 1)] = Some (lp, c).
  Proof.
    intros S L. unfold term_coeff. rewrite normal_single. cbn [fst snd]. rewrite Z.eqb_refl, Bool.andb_true_r.
    destruct (names_eqb_spec (sort_names (F ++ lp)) []) as [E|N]; cbn [andb].
    { apply sort_names_nil, app_eq_nil in E as [-> ->]. reflexivity. }
    unfold coeff_of. cbn [fst snd]. change (1 =? 0) with false. cbv iota. rewrite Z.eqb_refl, Bool.andb_true_r.
    destruct (names_eqb_spec (sort_names (F ++ lp)) (sort_names F)) as [E|N1]; cbn [andb].
    { apply (f_equal (@length string)) in E. rewrite !sort_names_length, app_length in E. assert (lp = []) by (destruct lp; [easy|cbn in E; lia]). subst lp.
      destruct (Z.eqb_spec c 1) as [->|NC]; [reflexivity|]. destruct (names_eqb_spec (sort_names F) []) as [E'|N2].
      - contradiction N. rewrite app_nil_r. exact E'.
      - replace (forallb _ _) with true; [|symmetry; apply forallb_forall].
        + f_equal. f_equal; [|rewrite filter_all; [apply zprod_number_args|easy]]. apply filter_nothing. intros x I. rewrite app_nil_r in I. apply Bool.negb_false_iff, existsb_exists. exists x. split; [easy|apply String.eqb_refl].
        + intros a I. rewrite args_one in I. apply in_map_iff in I as (s & <- & I). apply nodup_In in I. apply existsb_exists. exists (Power s (occurs s (sort_names F))). split; [|apply arg_eqb_refl]. apply in_power. cbn [fst]. now rewrite app_nil_r. }
    destruct (names_eqb_spec (sort_names F) []) as [E'|N2].
    { apply sort_names_nil in E'. subst F. destruct L as [[-> _]|[-> (v & -> & V)]]; [contradiction N; reflexivity|reflexivity]. }
    replace (forallb _ _) with true; [|symmetry; apply forallb_forall].
    - f_equal. f_equal; [|rewrite filter_all; [apply zprod_number_args|easy]].
      assert (P : Permutation lp (filter (fun s => negb (existsb (String.eqb s) (sort_names F))) (sort_names (F ++ lp)))).
      { rewrite <- (filter_perm _ _ _ (sort_names_perm (F ++ lp))), filter_app, (filter_nothing _ F), filter_all; [reflexivity| |].
        - intros x I. apply Bool.negb_true_iff, existsb_forall. intros y J. apply (proj1 (sort_names_in _ _)) in J. destruct (String.eqb_spec x y) as [->|]; [|easy]. pose proof (S y J). pose proof (loop_term_loops _ _ _ L I). congruence.
        - intros x I. apply Bool.negb_false_iff, existsb_exists. exists x. split; [now apply sort_names_in|apply String.eqb_refl]. }
      destruct L as [[-> _]|[_ (v & -> & _)]]; [now apply Permutation_nil|now apply perm_one].
    - intros a I. rewrite args_one in I. apply in_map_iff in I as (s & <- & I). apply nodup_In in I. apply (proj1 (sort_names_in _ _)) in I. apply existsb_exists. exists (Power s (occurs s (sort_names F))). split; [|apply arg_eqb_refl].
      apply in_power. cbn [fst]. split; [apply sort_names_in, in_app_iff; now left|]. rewrite <- !(occurs_perm s _ _ (sort_names_perm _)), occurs_app, (occurs_none s lp); [lia|].
      intros J. pose proof (S s I). pose proof (loop_term_loops _ _ _ L J). congruence.
  Qed.
  Lemma coeff_other x G F lp c : sizes_ok isl (x :: G ++ F) -> loop_term lp c -> term_coeff (sort_names (F ++ lp), c) [(x :: G ++ F, 1)] = None.
  Proof.
    intros S L. unfold term_coeff. rewrite normal_single. cbn [fst snd]. set (F' := x :: G ++ F) in *.
    destruct (names_eqb_spec (sort_names F') []) as [E|N]; [apply sort_names_nil in E; discriminate|]. rewrite Bool.andb_false_r. cbn [andb].
    unfold coeff_of. cbn [fst snd]. change (1 =? 0) with false. cbv iota. destruct (names_eqb_spec (sort_names F') []) as [E|_]; [contradiction|]. cbn [andb].
    assert (XL : isl x = false) by (apply S; now left). assert (XN : ~ In x lp) by (intros J; pose proof (loop_term_loops _ _ _ L J); congruence).
    destruct (names_eqb_spec (sort_names (F ++ lp)) (sort_names F')) as [E|N1]; cbn [andb].
    { assert (O : occurs x (F ++ lp) = occurs x F') by (rewrite (occurs_perm x _ _ (sort_names_perm (F ++ lp))), E; symmetry; apply occurs_perm, sort_names_perm).
      unfold F' in O. rewrite occurs_head, !occurs_app, (occurs_none x lp XN) in O. lia. }
    replace (forallb _ _) with false; [reflexivity|]. symmetry. apply Bool.not_true_is_false. intros FA. rewrite forallb_forall in FA.
    assert (I : In (Power x (occurs x (sort_names F'))) (args (sort_names F', 1))) by (apply in_power; cbn [fst]; split; [apply sort_names_in; now left|easy]).
    specialize (FA _ I). apply existsb_exists in FA as (a & J & E). destruct a as [z|s n]; [discriminate|]. cbn [arg_eqb] in E. apply andb_prop in E as [E1 E2]. apply String.eqb_eq in E1. apply Nat.eqb_eq in E2. subst s n.
    apply in_power in J as [_ O]. cbn [fst] in O. rewrite <- (occurs_perm x _ _ (sort_names_perm F')), <- (occurs_perm x _ _ (sort_names_perm (F ++ lp))) in O. unfold F' in O. rewrite occurs_head, !occurs_app, (occurs_none x lp XN) in O. lia.
  Qed.
  Fixpoint update (p : nat) (x : list string * Z) (cs : list poly) : list poly :=
    match cs, p with c :: cs', O => (c ++ [x]) :: cs' | c :: cs', S p' => c :: update p' x cs' | [], _ => [] end.
  Lemma assign_own ds p lp c cs : sizes_ok isl ds -> loop_term lp c -> (p < length ds)%nat -> length cs = length ds ->
    assign (sort_names (skipn (S p) ds ++ lp), c) (dimension_factors (map SVar ds)) cs = update p (lp, c) cs.
  Proof.
    revert p cs. induction ds as [|d ds IH]; intros p cs SZ L P LC; [cbn in P; lia|]. destruct cs as [|c0 cs]; [discriminate|]. cbn in LC. injection LC as LC.
    cbn [map dimension_factors assign]. rewrite product_names. assert (S' : sizes_ok isl ds) by (apply (sizes_tl isl (d :: ds)), SZ). destruct p as [|p].
    - cbn [skipn update]. rewrite coeff_own by assumption. reflexivity.
    - cbn [length] in P. assert (E : exists x G, ds = x :: G ++ skipn (S p) ds).
      { destruct ds as [|x ds']; [cbn in P; lia|]. exists x, (firstn p ds'). cbn [skipn]. now rewrite firstn_skipn. }
      destruct E as (x & G & E). change (skipn (S (S p)) (d :: ds)) with (skipn (S p) ds). cbn [update].
      rewrite E at 2. rewrite coeff_other; [|rewrite <- E; assumption|assumption]. f_equal. apply IH; [assumption|assumption|lia|assumption].
  Qed.
  Lemma update_length p x cs : length (update p x cs) = length cs.
  Proof. revert p. induction cs as [|c cs IH]; intros [|p]; cbn; auto. Qed.
  Lemma update_nth p x cs q : nth q (update p x cs) [] = if (Nat.eqb q p && Nat.ltb p (length cs))%bool then nth q cs [] ++ [x] else nth q cs [].
  Proof.
    revert p q. induction cs as [|c cs IH]; intros [|p] [|q]; cbn [update nth length Nat.eqb andb]; try reflexivity; [now rewrite Bool.andb_false_r|].
    rewrite IH. reflexivity.
  Qed.
  (** Terms collected for one dimension *)
  Definition owned (e : nat) (t : list string * Z) : bool := Nat.eqb (length (size_part isl (fst t))) e.
  Definition strip (t : list string * Z) : list string * Z := (loop_part isl (fst t), snd t).
  Definition regular (ds : list string) (t : list string * Z) : Prop := exists p lp, (p < length ds)%nat /\ loop_term lp (snd t) /\ fst t = sort_names (skipn (S p) ds ++ lp).
  Lemma regular_parts ds p lp c : sizes_ok isl ds -> loop_term lp c ->
    loop_part isl (sort_names (skipn (S p) ds ++ lp)) = lp /\ length (size_part isl (sort_names (skipn (S p) ds ++ lp))) = (length ds - S p)%nat.
  Proof.
    intros SZ L. set (F := skipn (S p) ds). assert (SF : sizes_ok isl F) by (intros s I; apply SZ; now apply skipn_in in I). destruct (size_part_ok isl F SF) as [SP LP]. split.
    - assert (P : Permutation lp (loop_part isl (sort_names (F ++ lp)))).
      { unfold loop_part. rewrite <- (filter_perm isl _ _ (sort_names_perm (F ++ lp))), filter_app. fold (loop_part isl F). rewrite LP. cbn [app]. rewrite filter_all; [reflexivity|]. intros x. now apply loop_term_loops with (c := c). }
      destruct L as [[-> _]|[_ (v & -> & _)]]; [now apply Permutation_nil|now apply perm_one].
    - unfold size_part. rewrite <- (Permutation_length (filter_perm _ _ _ (sort_names_perm (F ++ lp)))), filter_app, app_length. fold (size_part isl F). rewrite SP, (filter_nothing _ lp).
      + unfold F. rewrite skipn_length. cbn. lia.
      + intros x I. now rewrite (loop_term_loops _ _ _ L I).
  Qed.
  Lemma assigned ds ts cs : sizes_ok isl ds -> (forall t, In t ts -> regular ds t) -> length cs = length ds ->
    length (fold_left (fun cs t => assign t (dimension_factors (map SVar ds)) cs) ts cs) = length ds
    /\ forall q, (q < length ds)%nat -> nth q (fold_left (fun cs t => assign t (dimension_factors (map SVar ds)) cs) ts cs) [] = nth q cs [] ++ map strip (filter (owned (length ds - S q)) ts).
  Proof.
    intros SZ. revert cs. induction ts as [|t ts IH]; intros cs R L; cbn [fold_left]; [split; [easy|]; intros q Q; cbn; now rewrite app_nil_r|].
    destruct (R t (or_introl eq_refl)) as (p & lp & P & LT & E). destruct t as [m c]. cbn [fst snd] in E, LT. subst m. rewrite (assign_own ds p lp c cs) by assumption.
    destruct (IH (update p (lp, c) cs)) as [A B]; [intros u I; apply R; now right|now rewrite update_length|]. split; [exact A|]. intros q Q. rewrite B, update_nth by assumption. cbn [filter]. unfold owned at 2. cbn [fst].
    destruct (regular_parts ds p lp c SZ LT) as [LP SP]. rewrite SP, L. rewrite (proj2 (Nat.ltb_lt _ _) P), Bool.andb_true_r. destruct (Nat.eqb_spec q p) as [->|NE].
    - rewrite Nat.eqb_refl. cbn [map]. unfold strip at 2. cbn [fst snd]. rewrite LP, <- app_assoc. reflexivity.
    - destruct (Nat.eqb_spec (length ds - S p) (length ds - S q)); [lia|reflexivity].
  Qed.
  Lemma weigh_owned g e p : (forall t, In t p -> sort_names (fst t) = fst t) ->
    weigh g (map strip (filter (owned e) p)) = raw (fun m => if Nat.eqb (length (size_part isl m)) e then g (sort_names (loop_part isl m)) else 0) p.
  Proof.
    intros K. induction p as [|t p IH]; [reflexivity|]. cbn [filter]. rewrite raw_cons. unfold owned at 1. rewrite <- IH by (intros u I; apply K; now right). destruct (Nat.eqb _ e); [|ring]. cbn [map]. rewrite weigh_cons. reflexivity.
  Qed.
  Lemma weigh_lin_owned g ds l q x : length l = length ds -> sizes_ok isl ds -> atoms_ok isl l -> nth_error l q = Some x ->
    weigh (fun m => if Nat.eqb (length (size_part isl m)) (length ds - S q) then g (sort_names (loop_part isl m)) else 0) (lin ds l) = weigh g (atom x).
  Proof.
    revert ds q. induction l as [|y l IH]; intros ds q L SZ A N; [now destruct q|]. destruct ds as [|d ds]; [discriminate|]. cbn in L. injection L as L. cbn [lin tl].
    assert (S' : sizes_ok isl ds) by (apply (sizes_tl isl (d :: ds)), SZ). assert (A' : atoms_ok isl l) by (intros z v J; apply A; now right).
    rewrite weigh_app, weigh_prefix.
    assert (T : forall lp, In lp (map fst (atom y)) -> loop_part isl (sort_names (ds ++ sort_names lp)) = lp /\ length (size_part isl (sort_names (ds ++ sort_names lp))) = length ds).
    { intros lp I. assert (LT : exists c, loop_term lp c).
      { unfold atom in I. destruct (fst y) as [v|] eqn:E; cbn in I.
        - destruct I as [<-|[<-|[]]]; exists 1; [right; split; [easy|]; exists v; split; [easy|]; apply (A y v); [now left|easy]|left; split; [easy|lia]].
        - destruct I as [<-|[]]. exists 1. left. split; [easy|lia]. }
      destruct LT as (c & LT). rewrite (sort_loop _ _ LT). destruct (regular_parts (d :: ds) 0 lp c SZ LT) as [X Y]. cbn [skipn] in X, Y. split; [exact X|]. rewrite Y. cbn. lia. }
    assert (W : forall e, weigh (fun m => if Nat.eqb (length (size_part isl (sort_names (ds ++ m)))) e then g (sort_names (loop_part isl (sort_names (ds ++ m)))) else 0) (atom y) = if Nat.eqb (length ds) e then weigh g (atom y) else 0).
    { intros e. revert T. generalize (atom y). intros a T. induction a as [|u a IHa]; [now destruct (Nat.eqb _ _)|]. rewrite !weigh_cons, IHa by (intros lp I; apply T; now right).
      destruct (T (fst u)) as [X Y]; [now left|]. rewrite X, Y. destruct (Nat.eqb _ e); ring. }
    rewrite W. destruct q as [|q].
    - injection N as ->. replace (length (d :: ds) - 1)%nat with (length ds) by (cbn; lia). rewrite Nat.eqb_refl.
      assert (Z : weigh (fun m => if Nat.eqb (length (size_part isl m)) (length ds) then g (sort_names (loop_part isl m)) else 0) (lin ds l) = 0).
      { clear - L S' A'. unfold weigh. assert (Z : forall t, In t (lin ds l) -> (if Nat.eqb (length (size_part isl (sort_names (fst t)))) (length ds) then g (sort_names (loop_part isl (sort_names (fst t)))) else 0) * snd t = 0).
        { intros t I. destruct (in_lin isl _ _ _ S' A' I) as (p & x & N & H). assert (P : (p < length l)%nat) by (apply nth_error_Some; congruence).
          assert (X : length (size_part isl (sort_names (fst t))) = (length ds - S p)%nat).
          { destruct H as [(v & _ & V & ->)| ->]; cbn [fst].
            - apply (regular_parts ds p [v] 1 S'). right. split; [easy|]. now exists v.
            - rewrite <- (app_nil_r (skipn (S p) ds)). apply (regular_parts ds p [] 1 S'). left. split; [easy|lia]. }
          rewrite X. destruct (Nat.eqb_spec (length ds - S p) (length ds)); [lia|reflexivity]. }
        revert Z. generalize (lin ds l). intros p Z. induction p as [|t p IHp]; [reflexivity|]. cbn [map zsum fold_right]. fold (zsum (map (fun t => (if Nat.eqb (length (size_part isl (sort_names (fst t)))) (length ds) then g (sort_names (loop_part isl (sort_names (fst t)))) else 0) * snd t) p)).
        rewrite (Z t) by now left. rewrite IHp by (intros u I; apply Z; now right). reflexivity. }
      rewrite Z. ring.
    - replace (length (d :: ds) - S (S q))%nat with (length ds - S q)%nat by (cbn; lia). assert (P : (q < length l)%nat) by (apply nth_error_Some; cbn in N; congruence).
      destruct (Nat.eqb_spec (length ds) (length ds - S q)); [lia|]. rewrite (IH ds q L S' A' N). ring.
  Qed.
End Split.
Lemma nth_forall2 {A B} (R : A -> B -> Prop) (d : A) l l' : length l = length l' -> (forall q b, nth_error l' q = Some b -> R (nth q l d) b) -> Forall2 R l l'.
Proof.
  revert l'. induction l as [|a l IH]; intros [|b l'] L H; try discriminate; constructor.
  - apply (H 0%nat). reflexivity.
  - apply IH; [now injection L|]. intros q c N. apply (H (S q)). exact N.
Qed.
Lemma reassemble_same dims idx os : length idx = length dims -> Forall2 (fun o s => same o (expand s) = true) os idx -> same (linear dims idx) (reassemble os (dimension_factors dims)) = true.
Proof.
  intros L F. revert dims L. induction F as [|o s os idx H F IH]; intros [|d dims] L; try discriminate; [reflexivity|]. cbn [linear reassemble dimension_factors tl]. apply same_app; [|apply IH; now injection L].
  apply (same_trans _ (pmul (expand s) (product dims))); [apply pmul_comm|]. apply same_pmul; [now apply same_sym|apply same_refl].
Qed.
Lemma split_usual (loops : list (string * Z)) sizes idx : usual_reference (map fst loops) sizes idx ->
  exists os, split_access (linear (map SVar sizes) idx) (dimension_factors (map SVar sizes)) = Ok os /\ Forall2 (fun o s => same o (expand s) = true) os idx.
Proof.
  intros U. destruct (usual_atoms _ _ _ U) as (l & F & L & SZ & A). pose proof (F2_length _ _ _ F) as LI.
  unfold split_access. set (p := linear (map SVar sizes) idx). set (cs := fold_left _ (normal p) _).
  assert (LF : forall ds, length (map (fun _ => @nil (list string * Z)) (dimension_factors (map SVar ds))) = length ds) by (intros ds; rewrite map_length; induction ds; cbn; auto).
  destruct (assigned (is_loop loops) sizes (normal p) (map (fun _ => []) (dimension_factors (map SVar sizes))) SZ) as [LC NTH]; [|apply LF|].
  { intros [m c] I. apply (proj1 (same_in _ _ _ (linear_lin sizes idx l F))) in I. apply normal_distinct in I; [|now apply (lin_distinct (is_loop loops))].
    destruct I as (NZ & t & I & <- & <-). destruct (in_lin _ _ _ _ SZ A I) as (q & x & N & H). assert (Q : (q < length l)%nat) by (apply nth_error_Some; congruence).
    destruct H as [(v & _ & V & ->)| ->]; cbn [fst snd] in *.
    - exists q, [v]. split; [lia|]. cbn [fst snd]. split; [|easy]. right. split; [easy|]. now exists v.
    - exists q, []. split; [lia|]. cbn [fst snd]. split; [left; now split|]. now rewrite app_nil_r. }
  change (length cs = length sizes) in LC. pose proof (NTH : forall q, (q < length sizes)%nat -> nth q cs [] = _) as NTH'. clear NTH. rename NTH' into NTH.
  assert (FS : Forall2 (fun o s => same o (expand s) = true) cs idx).
  { apply (nth_forall2 _ []); [etransitivity; [exact LC|congruence]|]. intros q s N. assert (Q : (q < length idx)%nat) by (apply nth_error_Some; congruence). rewrite NTH by lia.
    assert (E : nth q (map (fun _ => @nil (list string * Z)) (dimension_factors (map SVar sizes))) [] = []).
    { clear. revert q. induction (dimension_factors (map SVar sizes)); intros [|q]; cbn; auto. }
    match goal with |- same (?a ++ _) _ = true => assert (E' : a = []) by exact E; rewrite E' end. cbn [app]. destruct (F2_nth _ _ _ _ _ F N) as (x & N' & SH). apply same_sym. apply (same_trans _ (atom x)); [now apply shape_atom|].
    apply same_cf. intros m. unfold cf. rewrite (weigh_owned (is_loop loops)) by (intros [m' c'] I; now apply normal_sorted in I).
    rewrite raw_normal. unfold p. rewrite (weigh_same _ _ _ (linear_lin sizes idx l F)). symmetry. exact (weigh_lin_owned (is_loop loops) (fun m' => if names_eqb m' m then 1 else 0) _ _ _ _ L SZ A N'). }
  exists cs. split; [|exact FS]. unfold p. rewrite reassemble_same; [reflexivity| |exact FS]. rewrite map_length. lia.
Qed.
Lemma split_reproduces e factors os env : split_access e factors = Ok os -> eval env (reassemble os factors) = eval env e.
Proof. unfold split_access. destruct (same _ _) eqn:S; [|discriminate]. intros [= <-]. symmetry. now apply eval_same. Qed.
