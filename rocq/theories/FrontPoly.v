(** Polynomials in normal form *)
From Coq Require Import String Permutation Sorted Lia.
From Verif Require Import PyBase PyBaseFacts PyStr PyText AstModel AstSpec LCModel LCProofs FrontModel.
Local Open Scope string_scope.
Local Open Scope list_scope.
Local Open Scope Z_scope.

Lemma names_eqb_spec a b : reflect (a = b) (names_eqb a b).
Proof.
  revert b. induction a as [|x a IH]; intros [|y b]; cbn; try (constructor; easy). destruct (String.eqb_spec x y) as [->|N]; cbn.
  - destruct (IH b) as [->|M]; constructor; congruence.
  - constructor; congruence.
Qed.
Lemma names_eqb_refl a : names_eqb a a = true.
Proof. now destruct (names_eqb_spec a a). Qed.

(** ** Sorted lists of names *)
Lemma sort_names_perm m : Permutation m (sort_names m).
Proof. apply sort_with_perm'. Qed.
Lemma sort_names_sorted m : StronglySorted (fun a b => String.leb a b = true) (sort_names m).
Proof. apply sort_with_sorted; [apply String.leb_total|intros a b c; apply str_leb_trans]. Qed.
Lemma sorted_perm_eq a b : StronglySorted (fun a b => String.leb a b = true) a -> StronglySorted (fun a b => String.leb a b = true) b -> Permutation a b -> a = b.
Proof.
  revert b. induction a as [|x a IH]; intros b SA SB P; [now apply Permutation_nil in P|]. destruct b as [|y b]; [now apply Permutation_sym, Permutation_nil in P|].
  inversion SA as [|? ? SA' FA]; subst. inversion SB as [|? ? SB' FB]; subst. rewrite Forall_forall in FA, FB.
  assert (E : x = y).
  { assert (I : In x (y :: b)) by (eapply Permutation_in; [exact P|now left]). assert (J : In y (x :: a)) by (eapply Permutation_in; [apply Permutation_sym, P|now left]).
    destruct I as [E|I]; [easy|]. destruct J as [E|J]; [easy|]. apply String.leb_antisym; [now apply FA|now apply FB]. }
  subst y. f_equal. apply IH; [easy|easy|]. now apply Permutation_cons_inv in P.
Qed.
Lemma sort_names_canon a b : Permutation a b -> sort_names a = sort_names b.
Proof.
  intros P. apply sorted_perm_eq; try apply sort_names_sorted. rewrite <- (sort_names_perm a), <- (sort_names_perm b). exact P.
Qed.
Lemma sort_names_idem a : sort_names (sort_names a) = sort_names a.
Proof. apply sort_names_canon. symmetry. apply sort_names_perm. Qed.
Lemma sort_names_length a : length (sort_names a) = length a.
Proof. symmetry. apply Permutation_length, sort_names_perm. Qed.
Lemma sort_names_app a b : sort_names (sort_names a ++ b) = sort_names (a ++ b).
Proof. apply sort_names_canon. apply Permutation_app_tail. symmetry. apply sort_names_perm. Qed.
Lemma sort_names_app_r a b : sort_names (a ++ sort_names b) = sort_names (a ++ b).
Proof. apply sort_names_canon. apply Permutation_app_head. symmetry. apply sort_names_perm. Qed.

(** ** Sums over terms *)
Definition weigh (g : list string -> Z) (p : poly) : Z := zsum (map (fun t => g (sort_names (fst t)) * snd t) p).
Definition cf (p : poly) (m : list string) : Z := weigh (fun m' => if names_eqb m' m then 1 else 0) p.
Definition raw (g : list string -> Z) (p : poly) : Z := zsum (map (fun t => g (fst t) * snd t) p).
Lemma weigh_cons g t p : weigh g (t :: p) = g (sort_names (fst t)) * snd t + weigh g p.
Proof. reflexivity. Qed.
Lemma weigh_app g p q : weigh g (p ++ q) = weigh g p + weigh g q.
Proof. unfold weigh. now rewrite map_app, zsum_app. Qed.
Lemma weigh_scale g k p : weigh g (scale k p) = k * weigh g p.
Proof. induction p as [|t p IH]; [cbn; lia|]. change (scale k (t :: p)) with ((fst t, k * snd t) :: scale k p). rewrite !weigh_cons, IH. cbn [fst snd]. ring. Qed.
Lemma weigh_psub g p q : weigh g (psub p q) = weigh g p - weigh g q.
Proof. unfold psub. rewrite weigh_app, weigh_scale. ring. Qed.
Lemma weigh_ext g h p : (forall m, g m = h m) -> weigh g p = weigh h p.
Proof. intros E. unfold weigh. f_equal. apply map_ext. intros t. now rewrite E. Qed.
Lemma raw_cons g t p : raw g (t :: p) = g (fst t) * snd t + raw g p.
Proof. reflexivity. Qed.
Lemma raw_add g m c p : raw g (add_term m c p) = g m * c + raw g p.
Proof.
  induction p as [|[m' c'] p IH]; cbn [add_term]; [reflexivity|]. destruct (names_eqb_spec m m') as [->|N].
  - rewrite !raw_cons. cbn [fst snd]. ring.
  - rewrite !raw_cons, IH. cbn [fst snd]. ring.
Qed.
Lemma raw_collect g p : raw g (collect p) = weigh g p.
Proof. induction p as [|t p IH]; [reflexivity|]. change (collect (t :: p)) with (add_term (sort_names (fst t)) (snd t) (collect p)). rewrite raw_add, IH. reflexivity. Qed.
Lemma raw_filter g p : raw g (filter (fun t => negb (snd t =? 0)) p) = raw g p.
Proof.
  induction p as [|t p IH]; [reflexivity|]. cbn [filter]. destruct (Z.eqb_spec (snd t) 0) as [E|N]; cbn [negb]; rewrite !raw_cons, IH; [rewrite E; ring|reflexivity].
Qed.
Lemma raw_normal g p : raw g (normal p) = weigh g p.
Proof. unfold normal. now rewrite raw_filter, raw_collect. Qed.
(** Keys *)
Lemma add_term_keys m c p : NoDup (map fst p) -> NoDup (map fst (add_term m c p)) /\ forall x, In x (map fst (add_term m c p)) -> x = m \/ In x (map fst p).
Proof.
  induction p as [|[m' c'] p IH]; cbn; intros ND; [split; [repeat constructor; easy|intros x [<-|[]]; now left]|].
  inversion ND as [|? ? NI ND']; subst. destruct (names_eqb_spec m m') as [->|N]; cbn; [split; auto|].
  destruct (IH ND') as [A B]. split; [constructor; [|easy]; intros I; apply B in I as [E|I]; [now apply N|easy]|]. intros x [<-|I]; [right; now left|]. apply B in I as [->|I]; auto.
Qed.
Lemma collect_keys p : NoDup (map fst (collect p)) /\ forall m, In m (map fst (collect p)) -> sort_names m = m.
Proof.
  induction p as [|t p [A B]]; [split; [constructor|easy]|]. change (collect (t :: p)) with (add_term (sort_names (fst t)) (snd t) (collect p)).
  destruct (add_term_keys (sort_names (fst t)) (snd t) (collect p) A) as [C D]. split; [easy|]. intros m I. apply D in I as [->|I]; [apply sort_names_idem|now apply B].
Qed.
Lemma normal_keys p : NoDup (map fst (normal p)) /\ forall m, In m (map fst (normal p)) -> sort_names m = m.
Proof.
  unfold normal. destruct (collect_keys p) as [A B]. split.
  - clear B. induction (collect p) as [|t q IH]; cbn; [constructor|]. inversion A as [|? ? NI A']; subst. destruct (negb _); cbn; [|now apply IH]. constructor; [|now apply IH].
    intros I. apply NI. apply in_map_iff in I as (u & E & I). apply filter_In in I as [I _]. rewrite <- E. now apply in_map.
  - intros m I. apply B. apply in_map_iff in I as (u & E & I). apply filter_In in I as [I _]. rewrite <- E. now apply in_map.
Qed.
Lemma raw_point q m c : NoDup (map fst q) -> In (m, c) q -> raw (fun m' => if names_eqb m' m then 1 else 0) q = c.
Proof.
  induction q as [|[m' c'] q IH]; [easy|]. cbn [map]. intros ND. inversion ND as [|? ? NI ND']; subst. intros [[= -> ->]|I].
  - rewrite raw_cons. cbn [fst snd]. rewrite names_eqb_refl. assert (Z : forall l : poly, ~ In m (map fst l) -> raw (fun m' => if names_eqb m' m then 1 else 0) l = 0).
    { clear. induction l as [|[a b] l IH]; [easy|]. intros N. rewrite raw_cons. cbn [fst snd map In] in *. rewrite IH by tauto. destruct (names_eqb_spec a m) as [->|]; [tauto|ring]. }
    rewrite (Z q NI). ring.
  - rewrite raw_cons. cbn [fst snd]. rewrite IH by easy. destruct (names_eqb_spec m' m) as [->|]; [|ring]. contradiction NI. now apply (in_map fst) in I.
Qed.
Lemma raw_point_in q m : raw (fun m' => if names_eqb m' m then 1 else 0) q <> 0 -> exists c, In (m, c) q.
Proof.
  induction q as [|[m' c'] q IH]; intros N; [now contradiction N|]. rewrite raw_cons in N. cbn [fst snd] in N. destruct (names_eqb_spec m' m) as [->|]; [exists c'; now left|].
  destruct IH as (c & I); [lia|exists c; now right].
Qed.
(** The terms of the normal form *)
Lemma normal_in p m c : In (m, c) (normal p) <-> cf p m = c /\ c <> 0.
Proof.
  destruct (normal_keys p) as [ND _]. unfold cf. rewrite <- raw_normal. split.
  - intros I. split; [now apply raw_point|]. unfold normal in I. apply filter_In in I as [_ H]. cbn in H. destruct (Z.eqb_spec c 0); [discriminate|easy].
  - intros [E N]. rewrite <- E in N. apply raw_point_in in N as (c' & I). rewrite <- E, (raw_point _ _ _ ND I). exact I.
Qed.
Lemma normal_sorted p m c : In (m, c) (normal p) -> sort_names m = m.
Proof. intros I. apply (normal_keys p). now apply (in_map fst) in I. Qed.
Lemma normal_nil p : normal p = [] <-> forall m, cf p m = 0.
Proof.
  split.
  - intros E m. unfold cf. rewrite <- raw_normal, E. reflexivity.
  - intros H. destruct (normal p) as [|[m c] q] eqn:E; [easy|]. assert (I : In (m, c) (normal p)) by (rewrite E; now left). apply normal_in in I as [A B]. rewrite H in A. congruence.
Qed.
Lemma same_cf p q : same p q = true <-> forall m, cf p m = cf q m.
Proof.
  unfold same. pose proof (normal_nil (psub p q)) as N. unfold cf in *. split.
  - intros S m. destruct (normal (psub p q)); [|discriminate]. pose proof (proj1 N eq_refl m) as H. rewrite weigh_psub in H. lia.
  - intros H. destruct (normal (psub p q)) as [|t l] eqn:E; [easy|]. assert (F : t :: l = []); [|discriminate F]. apply (proj2 N). intros m. rewrite weigh_psub, H. lia.
Qed.
(** Everything linear is a function of the normal form. *)
Lemma weigh_same g p q : same p q = true -> weigh g p = weigh g q.
Proof.
  intros S. assert (H : weigh g (psub p q) = 0). { rewrite <- raw_normal. unfold same in S. destruct (normal (psub p q)); [reflexivity|discriminate]. }
  rewrite weigh_psub in H. lia.
Qed.
Lemma weigh_normal g p : weigh g (normal p) = weigh g p.
Proof.
  rewrite <- (raw_normal g p). destruct (normal_keys p) as [_ K]. revert K. induction (normal p) as [|t q IH]; intros K; [reflexivity|]. rewrite weigh_cons, raw_cons.
  rewrite IH by (intros m I; apply K; now right). rewrite (K (fst t)) by now left. reflexivity.
Qed.
Lemma same_normal p : same p (normal p) = true.
Proof. apply same_cf. intros m. unfold cf. now rewrite weigh_normal. Qed.
Lemma same_refl p : same p p = true.
Proof. now apply same_cf. Qed.
Lemma same_sym p q : same p q = true -> same q p = true.
Proof. rewrite !same_cf. intros H m. now rewrite H. Qed.
Lemma same_trans p q r : same p q = true -> same q r = true -> same p r = true.
Proof. rewrite !same_cf. intros H G m. now rewrite H. Qed.
Lemma zprod_perm l l' : Permutation l l' -> zprod l = zprod l'.
Proof. unfold zprod. induction 1; cbn; try lia. Qed.
Lemma eval_weigh rho p : eval rho p = weigh (fun m => zprod (map rho m)) p.
Proof.
  unfold eval, weigh. f_equal. apply map_ext. intros t. unfold monomial. rewrite Z.mul_comm. f_equal. apply zprod_perm, Permutation_map, sort_names_perm.
Qed.
Lemma coeff_weigh p e : coeff p e = weigh (fun m => if Nat.eqb (length m) e then 1 else 0) p.
Proof.
  induction p as [|t p IH]; [reflexivity|]. rewrite coeff_cons, weigh_cons, <- IH, sort_names_length. destruct (Nat.eqb _ e); ring.
Qed.
Lemma eval_same rho p q : same p q = true -> eval rho p = eval rho q.
Proof. intros S. rewrite !eval_weigh. now apply weigh_same. Qed.
Lemma coeff_same p q e : same p q = true -> coeff p e = coeff q e.
Proof. intros S. rewrite !coeff_weigh. now apply weigh_same. Qed.
Lemma eval_normal rho p : eval rho (normal p) = eval rho p.
Proof. symmetry. apply eval_same, same_normal. Qed.
Lemma coeff_normal p e : coeff (normal p) e = coeff p e.
Proof. symmetry. apply coeff_same, same_normal. Qed.

(** ** Arithmetic *)
Lemma eval_psub rho p q : eval rho (psub p q) = eval rho p - eval rho q.
Proof. unfold psub. rewrite eval_app, eval_scale. ring. Qed.
Lemma eval_cons rho t p : eval rho (t :: p) = monomial rho t + eval rho p.
Proof. reflexivity. Qed.
Lemma eval_pmul rho p q : eval rho (pmul p q) = eval rho p * eval rho q.
Proof.
  induction p as [|a p IH]; [reflexivity|]. change (pmul (a :: p) q) with (map (fun b => (fst a ++ fst b, snd a * snd b)) q ++ pmul p q). rewrite eval_app, IH.
  assert (E : eval rho (map (fun b => (fst a ++ fst b, snd a * snd b)) q) = monomial rho a * eval rho q).
  { clear. induction q as [|b q IH]; [cbn; lia|]. cbn [map]. rewrite !eval_cons, IH. unfold monomial. cbn [fst snd]. rewrite map_app, zprod_app. ring. }
  rewrite E, eval_cons. ring.
Qed.
Lemma eval_expand rho s : eval rho (expand s) = seval rho s.
Proof.
  induction s; cbn [expand seval].
  - unfold eval, monomial, zsum, zprod. cbn [map fold_right fst snd]. ring.
  - unfold eval, monomial, zsum, zprod. cbn [map fold_right fst snd]. ring.
  - now rewrite eval_pmul, IHs1, IHs2.
  - now rewrite eval_app, IHs1, IHs2.
  - now rewrite eval_psub, IHs1, IHs2.
Qed.
Lemma eval_product rho dims : eval rho (product dims) = zprod (map (seval rho) dims).
Proof. induction dims as [|d dims IH]; [reflexivity|]. change (product (d :: dims)) with (pmul (expand d) (product dims)). rewrite eval_pmul, eval_expand, IH. reflexivity. Qed.
Lemma weigh_pmul g p q : weigh g (pmul p q) = zsum (map (fun a => snd a * weigh (fun m => g (sort_names (fst a ++ m))) q) p).
Proof.
  induction p as [|a p IH]; [reflexivity|]. change (pmul (a :: p) q) with (map (fun b => (fst a ++ fst b, snd a * snd b)) q ++ pmul p q). rewrite weigh_app, IH. cbn [map zsum fold_right]. f_equal.
  clear. induction q as [|b q IH]; [cbn; lia|]. cbn [map]. rewrite !weigh_cons, IH. cbn [fst snd]. rewrite sort_names_app_r. ring.
Qed.
Lemma weigh_pmul' g p q : weigh g (pmul p q) = weigh (fun m => weigh (fun m' => g (sort_names (m ++ m'))) q) p.
Proof.
  rewrite weigh_pmul. unfold weigh at 2. f_equal. apply map_ext. intros a. rewrite Z.mul_comm. f_equal. apply weigh_ext. intros m. now rewrite sort_names_app.
Qed.
Lemma same_pmul p p' q q' : same p p' = true -> same q q' = true -> same (pmul p q) (pmul p' q') = true.
Proof.
  intros A B. apply same_cf. intros m. unfold cf. rewrite !weigh_pmul', (weigh_same _ _ _ A). apply weigh_ext. intros x. now apply weigh_same.
Qed.
Lemma same_app p p' q q' : same p p' = true -> same q q' = true -> same (p ++ q) (p' ++ q') = true.
Proof. rewrite !same_cf. unfold cf. intros A B m. now rewrite !weigh_app, A, B. Qed.
Lemma same_psub p p' q q' : same p p' = true -> same q q' = true -> same (psub p q) (psub p' q') = true.
Proof. rewrite !same_cf. unfold cf. intros A B m. now rewrite !weigh_psub, A, B. Qed.
Lemma pmul_comm p q : same (pmul p q) (pmul q p) = true.
Proof.
  apply same_cf. intros m. unfold cf. generalize (fun m' => if names_eqb m' m then 1 else 0). intros g.
  assert (E : forall p q, weigh g (pmul p q) = zsum (map (fun a => zsum (map (fun b => snd a * snd b * g (sort_names (fst a ++ fst b))) q)) p)).
  { clear. intros p q. rewrite weigh_pmul. f_equal. apply map_ext. intros a. unfold weigh. induction q as [|b q IH]; cbn; [lia|]. unfold zsum in IH. rewrite Z.mul_add_distr_l, IH, sort_names_app_r. ring. }
  rewrite !E. clear E. induction p as [|a p IH].
  - cbn [map]. induction q as [|b q IH]; [reflexivity|]. unfold zsum in *. cbn [map fold_right] in *. rewrite <- IH. reflexivity.
  - cbn [map zsum fold_right]. unfold zsum in *. rewrite IH. clear IH. induction q as [|b q IH]; cbn [map fold_right]; [reflexivity|].
    rewrite <- IH. cbn. rewrite (sort_names_canon (fst b ++ fst a) (fst a ++ fst b)) by apply Permutation_app_comm. ring.
Qed.
