From Coq Require Import QArith Lia.
From Verif Require Import PyBase PyNum PyText PyDict StoreModel BenchModel AloneModel AloneSpec.
Local Open Scope list_scope.

(** ** Constants *)
Definition values (d : define) : constants := map (fun v => (fst v, v_value (snd v))) d.
Lemma tset_app_other {A} n (x : A) a b : ~ In n (map fst a) -> tset n x (a ++ b) = a ++ tset n x b.
Proof.
  induction a as [|[m y] a IH]; cbn; intros H; [reflexivity|]. rewrite text_eqb_neq by (intros ->; tauto). rewrite IH by tauto. reflexivity.
Qed.
Lemma initial_values : forall d, NoDup (map fst d) -> initial_constants d = values d.
Proof.
  assert (G : forall d cs, NoDup (map fst d) -> (forall n, In n (map fst d) -> ~ In n (map fst cs)) -> fold_left (fun cs x => set_constant (fst x) (v_value (snd x)) cs) d cs = cs ++ values d).
  { induction d as [|[n v] d IH]; cbn; intros cs ND F; [now rewrite app_nil_r|]. inversion_clear ND as [|? ? N D].
    assert (E : set_constant n (v_value v) cs = cs ++ [(n, v_value v)]).
    { unfold set_constant. rewrite <- (app_nil_r cs) at 1. rewrite tset_app_other by (apply F; now left). reflexivity. }
    rewrite E, IH.
    - rewrite <- app_assoc. reflexivity.
    - exact D.
    - intros m M. rewrite map_app, in_app_iff. cbn. intros [X | [<- | []]]; [apply (F m); tauto | contradiction]. }
  intros d ND. unfold initial_constants. now rewrite G.
Qed.
Lemma values_keys : forall d, map fst (values d) = map fst d.
Proof. intros d. unfold values. rewrite map_map. reflexivity. Qed.
Lemma adjust_region_values : forall region t d cs before d' cs' b, NoDup (map fst (before ++ d)) -> cs = values (before ++ d) ->
  adjust_region region t d cs = Ok (d', cs', b) -> map fst d' = map fst d /\ cs' = values (before ++ d').
Proof.
  intros region t. induction d as [|[n v] d IH]; intros cs before d' cs' b ND E H; cbn in H; [injection H as <- <- <-; auto|].
  assert (S : forall x, adjust_region region t d cs = x -> (do y <- x; Ok ((n, v) :: fst (fst y), snd (fst y), snd y)) = Ok (d', cs', b) -> map fst d' = n :: map fst d /\ cs' = values (before ++ d')).
  { intros [[[d1 cs1] b1]|] X Y; cbn in Y; [|discriminate]. injection Y as <- <- <-.
    assert (A : before ++ (n, v) :: d = (before ++ [(n, v)]) ++ d) by (rewrite <- app_assoc; reflexivity).
    destruct (IH cs (before ++ [(n, v)]) d1 cs1 b1) as [I1 I2]; [rewrite <- A; exact ND | rewrite <- A; exact E | exact X|].
    rewrite <- app_assoc in I2. cbn in I2. split; [cbn; now rewrite I1 | exact I2]. }
  destruct (v_adjustable v && existsb (text_eqb region) (v_regions v))%bool; [|apply (S _ eq_refl H)].
  destruct (Qeq_bool t 0); [discriminate|]. destruct (adjusted t v) as [v'|]; [|apply (S _ eq_refl H)].
  injection H as <- <- <-. split; [reflexivity|]. subst cs. unfold set_constant, values. rewrite !map_app.
  assert (N : ~ In n (map fst before)). { rewrite map_app in ND. cbn in ND. apply NoDup_remove_2 in ND. rewrite in_app_iff in ND. tauto. }
  rewrite tset_app_other; [|fold (values before); rewrite values_keys; exact N]. cbn. now rewrite text_eqb_refl.
Qed.
Lemma adjust_values : forall ts d cs d' cs' b, NoDup (map fst d) -> cs = values d -> adjust_variables ts d cs = Ok (d', cs', b) -> map fst d' = map fst d /\ cs' = values d'.
Proof.
  induction ts as [|[region t] ts IH]; intros d cs d' cs' b ND E H; cbn in H; [injection H as <- <- <-; auto|].
  destruct (Qltb t (3 # 2)); [|apply (IH _ _ _ _ _ ND E H)].
  destruct (adjust_region region t d cs) as [[[d1 cs1] b1]|] eqn:X; cbn in H; [|discriminate].
  apply (adjust_region_values region t d cs []) in X; [|exact ND | exact E]. destruct X as [X1 X2]. cbn in X2.
  destruct (adjust_variables ts d1 cs1) as [[[d2 cs2] b2]|] eqn:Y; cbn in H; [|discriminate]. injection H as <- <- <-.
  apply IH in Y; [|now rewrite X1 | exact X2]. rewrite <- X1. exact Y.
Qed.
(** Without a further run the last variables are those of the last run: an adjustment which changes nothing. *)
Lemma adjust_region_same : forall region t d cs d' cs', adjust_region region t d cs = Ok (d', cs', false) -> d' = d.
Proof.
  intros region t. induction d as [|[n v] d IH]; intros cs d' cs' H; cbn in H; [now injection H as <- _|].
  assert (S : (do y <- adjust_region region t d cs; Ok ((n, v) :: fst (fst y), snd (fst y), snd y)) = Ok (d', cs', false) -> d' = (n, v) :: d).
  { destruct (adjust_region region t d cs) as [[[d1 cs1] b1]|] eqn:X; cbn; [|discriminate]. intros Y. injection Y as <- <- ->. now rewrite (IH _ _ _ X). }
  destruct (v_adjustable v && existsb (text_eqb region) (v_regions v))%bool; [|apply (S H)].
  destruct (Qeq_bool t 0); [discriminate|]. destruct (adjusted t v) as [v'|]; [discriminate | apply (S H)].
Qed.
Lemma adjust_same : forall ts d cs d' cs', adjust_variables ts d cs = Ok (d', cs', false) -> d' = d.
Proof.
  induction ts as [|[region t] ts IH]; intros d cs d' cs' H; cbn in H; [now injection H as <- _|].
  destruct (Qltb t (3 # 2)); [|apply (IH _ _ _ _ H)].
  destruct (adjust_region region t d cs) as [[[d1 cs1] b1]|] eqn:X; cbn in H; [|discriminate].
  destruct (adjust_variables ts d1 cs1) as [[[d2 cs2] b2]|] eqn:Y; cbn in H; [|discriminate]. injection H as <- <- B.
  apply Bool.orb_false_iff in B. destruct B as [-> ->]. apply IH in Y. apply adjust_region_same in X. congruence.
Qed.
Definition arguments (d : define) : list Q := map (fun v => v_value (snd v)) d.
Lemma session_values : forall run fuel i ts d cs done d' cs' ts' done', NoDup (map fst d) -> cs = values d ->
  (done = [] /\ ts = [([], 0%Q)] \/ (exists earlier, done = earlier ++ [arguments d] /\ run (arguments d) (List.length earlier) = Ok ts)) -> i = List.length done ->
  session run fuel i ts d cs done = Ok (d', cs', ts', done') ->
  map fst d' = map fst d /\ cs' = values d' /\ exists earlier, done' = earlier ++ [arguments d'] /\ run (arguments d') (List.length earlier) = Ok ts'.
Proof.
  intros run fuel. induction fuel as [|fuel IH]; intros i ts d cs done d' cs' ts' done' ND E L LI H; cbn in H;
  (destruct (min_runtime ts) as [m|] eqn:M; cbn [bind] in H; [|discriminate]);
  destruct (Qle_bool (3 # 2) m) eqn:C; try discriminate H.
  1, 2: injection H as <- <- <- <-; destruct L as [[_ ->] | L]; [cbn in M; injection M as <-; discriminate C | auto].
  destruct (Qeq_bool m 0) eqn:Z; cbn [bind fst snd] in H.
  - fold (arguments d) in H. destruct (run (arguments d) i) as [ts1|] eqn:X; cbn [bind] in H; [|discriminate].
    apply (IH (S i) ts1 d cs) in H; auto; [right; exists done; split; [reflexivity|]; now rewrite <- LI | rewrite app_length; cbn; lia].
  - destruct (adjust_variables ts d cs) as [[[d1 cs1] b1]|] eqn:X; cbn [bind fst snd] in H; [|discriminate]. destruct b1.
    + apply (adjust_values ts d cs) in X; auto. destruct X as [X1 X2]. fold (arguments d1) in H.
      destruct (run (arguments d1) i) as [ts1|] eqn:Y; cbn [bind] in H; [|discriminate].
      apply (IH (S i) ts1 d1 cs1) in H; [|now rewrite X1 | exact X2 | right; exists done; split; [reflexivity | now rewrite <- LI] | rewrite app_length; cbn; lia].
      rewrite <- X1. exact H.
    + pose proof X as X'. apply adjust_same in X'. subst d1. apply (adjust_values ts d cs) in X; auto. destruct X as [X1 X2]. injection H as <- <- <- <-.
      split; [reflexivity|]. split; [exact X2|]. destruct L as [[_ ->] | L]; [|exact L]. cbn in M. injection M as <-. discriminate Z.
Qed.

(** ** Names *)
Lemma base_name_spec : forall p b, base_name p = b <-> file_name p b.
Proof.
  assert (G : forall d b, ~ In 47%N b -> base_name (d ++ 47%N :: b) = b).
  { intros d b N. unfold base_name. induction d as [|x d IH]; cbn.
    - rewrite split_single by exact N. reflexivity.
    - destruct (x =? 47)%N.
      + destruct (PyText.split 47 (d ++ 47%N :: b)) as [|y l] eqn:E; [now apply split_not_nil in E | exact IH].
      + destruct (PyText.split 47 (d ++ 47%N :: b)) as [|y [|z l]] eqn:E; [now apply split_not_nil in E | | exact IH].
        exfalso. assert (J : join 47 [y] = d ++ 47%N :: b) by (rewrite <- E; apply join_split). cbn in J.
        assert (I' : In y (PyText.split 47 (d ++ 47%N :: b))) by (rewrite E; now left). apply split_free in I'. apply I'. rewrite J. apply in_or_app. right. now left. }
  intros p b. split.
  - intros <-. unfold base_name. assert (I' : In (last (PyText.split 47 p) []) (PyText.split 47 p)).
    { destruct (PyText.split 47 p) as [|x l] eqn:E; [now apply split_not_nil in E|]. rewrite (app_removelast_last (l := x :: l) []) at 2 by discriminate. apply in_or_app. right. now left. }
    split; [apply (split_free _ _ _ I')|].
    destruct (PyText.split 47 p) as [|x l] eqn:E; [now apply split_not_nil in E|]. destruct l as [|y l].
    + left. cbn. rewrite <- (join_split 47 p), E. reflexivity.
    + right. exists (join 47 (removelast (x :: y :: l))). rewrite <- (join_split 47 p), E. clear E I' p. revert x y. induction l as [|z l IH]; intros x y; [reflexivity|].
      rewrite join_cons by discriminate. rewrite (IH y z). change (removelast (x :: y :: z :: l)) with (x :: removelast (y :: z :: l)).
      rewrite join_cons by discriminate. change (last (x :: y :: z :: l) []) with (last (y :: z :: l) []). rewrite <- app_assoc. reflexivity.
  - intros [N [-> | [d ->]]]; [unfold base_name; now rewrite split_single | now apply G].
Qed.

(** ** Keys *)
Lemma key_eqb_spec : forall a b, key_eqb a b = true <-> alike a b.
Proof.
  induction a as [|[n x] a IH]; intros [|[m y] b]; cbn; try (split; [discriminate | intros H; inversion H]).
  - split; [constructor | reflexivity].
  - rewrite !Bool.andb_true_iff, IH, Qeq_bool_iff. split.
    + intros [[E Q] F]. destruct (text_eqb_spec n m); [|discriminate]. constructor; auto.
    + intros H. inversion_clear H as [|? ? ? ? [E Q] F]. cbn in E, Q. subst. rewrite text_eqb_refl. auto.
Qed.
Lemma alike_refl : forall a, alike a a.
Proof. induction a; constructor; auto. split; [reflexivity | apply Qeq_refl]. Qed.
Lemma alike_sym : forall a b, alike a b -> alike b a.
Proof. intros a b H. induction H as [|x y a b [E Q] F IH]; constructor; auto. split; [auto | now apply Qeq_sym]. Qed.
Lemma alike_trans : forall a b c, alike a b -> alike b c -> alike a c.
Proof.
  intros a b c H. revert c. induction H as [|x y a b [E Q] F IH]; intros c K; inversion_clear K as [|? z ? c' [E' Q'] K']; constructor; [|now apply IH].
  split; [congruence | now apply (Qeq_trans _ (snd y))].
Qed.
Lemma key_eqb_right : forall k a b, alike a b -> key_eqb k a = key_eqb k b.
Proof.
  intros k a b H. destruct (key_eqb k a) eqn:X.
  - symmetry. apply key_eqb_spec. apply key_eqb_spec in X. apply (alike_trans _ _ _ X H).
  - destruct (key_eqb k b) eqn:Y; [|reflexivity]. apply key_eqb_spec in Y. rewrite <- X. apply key_eqb_spec. apply (alike_trans _ _ _ Y), alike_sym, H.
Qed.
Section Storage.
  Variable R : Type.
  Lemma kget_kset : forall (d : kdict R) k j v, kget R k (kset R j v d) = if key_eqb k j then Some v else kget R k d.
  Proof.
    induction d as [|[x w] d IH]; intros k j v; cbn; [reflexivity|]. destruct (key_eqb j x) eqn:J; cbn.
    - apply key_eqb_spec in J. rewrite (key_eqb_right k j x J). destruct (key_eqb k x); reflexivity.
    - rewrite IH. destruct (key_eqb k x) eqn:X; [|reflexivity]. destruct (key_eqb k j) eqn:K; [|reflexivity].
      apply key_eqb_spec in X, K. assert (J' : key_eqb j x = true) by (apply key_eqb_spec; apply (alike_trans _ k); [apply alike_sym, K | exact X]). congruence.
  Qed.
  Lemma kget_alike : forall (d : kdict R) k j, alike k j -> kget R k d = kget R j d.
  Proof.
    induction d as [|[x w] d IH]; intros k j H; cbn; [reflexivity|].
    replace (key_eqb k x) with (key_eqb j x); [destruct (key_eqb j x); auto|].
    destruct (key_eqb k x) eqn:X.
    - apply key_eqb_spec in X. apply key_eqb_spec. apply (alike_trans _ k); [apply alike_sym, H | exact X].
    - destruct (key_eqb j x) eqn:Y; [|reflexivity]. apply key_eqb_spec in Y. rewrite <- X. symmetry. apply key_eqb_spec. apply (alike_trans _ _ _ H Y).
  Qed.
  Lemma add_stored : forall s binary cs model (r : R) b k m x,
    stored (add_result R s binary cs model r) b k m x <->
      (file_name binary b /\ alike k cs /\ m = model /\ x = r) \/ (~ (file_name binary b /\ alike k cs /\ m = model) /\ stored s b k m x).
  Proof.
    intros s binary cs model r b k m x. rewrite <- base_name_spec. unfold stored, add_result. remember (base_name binary) as n eqn:En. clear En binary.
    set (s1 := match tget n s with Some _ => s | None => tset n [] s end).
    set (d := match tget n s1 with Some d => d | None => [] end).
    set (d1 := match kget R cs d with Some _ => d | None => kset R cs [] d end).
    set (e := match kget R cs d1 with Some e => e | None => [] end).
    assert (S1 : forall b', b' <> n -> tget b' s1 = tget b' s).
    { intros b' N. unfold s1. destruct (tget n s); [reflexivity|]. rewrite tget_tset, text_eqb_neq by exact N. reflexivity. }
    assert (D : d = match tget n s with Some d => d | None => [] end).
    { unfold d, s1. destruct (tget n s) as [y|] eqn:Y; [now rewrite Y|]. rewrite tget_tset, text_eqb_refl. reflexivity. }
    assert (D1 : forall k', ~ alike k' cs -> kget R k' d1 = kget R k' d).
    { intros k' N. unfold d1. destruct (kget R cs d); [reflexivity|]. rewrite kget_kset. destruct (key_eqb k' cs) eqn:K; [|reflexivity]. apply key_eqb_spec in K. contradiction. }
    assert (EE : e = match kget R cs d with Some e => e | None => [] end).
    { unfold e, d1. destruct (kget R cs d) as [y|] eqn:Y; [now rewrite Y|]. rewrite kget_kset. replace (key_eqb cs cs) with true; [reflexivity|].
      symmetry. apply key_eqb_spec, alike_refl. }
    clearbody s1 d1. clearbody d. clearbody e. rewrite tget_tset. destruct (text_eqb_spec b n) as [-> | N].
    2: { rewrite (S1 b N). split; [intros H; right; split; [intros [X _]; congruence | exact H] | intros [[X _] | [_ H]]; [congruence | exact H]]. }
    assert (G : (exists d0 e0, Some (kset R cs (tset model r e) d1) = Some d0 /\ kget R k d0 = Some e0 /\ tget m e0 = Some x) <->
                exists e0, (if key_eqb k cs then Some (tset model r e) else kget R k d1) = Some e0 /\ tget m e0 = Some x).
    { split.
      - intros (d0 & e0 & X & Y & Z). injection X as <-. rewrite kget_kset in Y. exists e0. auto.
      - intros (e0 & Y & Z). exists (kset R cs (tset model r e) d1), e0. rewrite kget_kset. auto. }
    rewrite G. clear G. destruct (key_eqb k cs) eqn:K.
    - apply key_eqb_spec in K. split.
      + intros (e0 & X & Y). injection X as <-. rewrite tget_tset in Y. destruct (text_eqb_spec m model) as [-> | M]; [left; injection Y as <-; auto|].
        right. split; [tauto|]. rewrite EE in Y. destruct (tget n s) as [d0|]; [|subst d; discriminate Y]. subst d.
        destruct (kget R cs d0) as [e1|] eqn:Z; [|discriminate Y]. exists d0, e1. rewrite (kget_alike d0 k cs K). auto.
      + intros [(_ & _ & -> & ->) | (H & d0 & e0 & X & Y & Z)]; (exists (tset model r e); split; [reflexivity|]); rewrite tget_tset; [now rewrite text_eqb_refl|].
        rewrite text_eqb_neq by (intros ->; tauto). rewrite EE, D, X, <- (kget_alike d0 k cs K), Y. exact Z.
    - assert (NK : ~ alike k cs) by (intros X; apply key_eqb_spec in X; congruence). rewrite (D1 k NK), D. split.
      + intros (e0 & X & Y). right. split; [tauto|]. destruct (tget n s) as [d0|]; [|discriminate X]. exists d0, e0. auto.
      + intros [(_ & X & _) | (_ & d0 & e0 & X & Y & Z)]; [contradiction|]. rewrite X. exists e0. auto.
  Qed.

  (** ** Files *)
  Variable pickle : storage R -> list N.
  Variable unpickle : list N -> found R.
  Hypothesis HP : forall s, unpickle (pickle s) = Found R s.
  Hypothesis HE : unpickle [] = Empty R.
  Lemma writes : forall l t f, temp f = Some t -> do_steps f (map WriteTemp l) = mkFiles (store f) (Some (t ++ l)).
  Proof.
    induction l as [|x l IH]; intros t [s t'] T; cbn in *; [subst; now rewrite app_nil_r|]. subst t'. unfold do_steps in IH. rewrite (IH (t ++ [x])) by reflexivity. cbn. now rewrite <- app_assoc.
  Qed.
  Lemma save_whole : forall s f, do_steps f (save R pickle s) = mkFiles (Some (pickle s)) None.
  Proof.
    intros s f. unfold save, do_steps. cbn [fold_left]. rewrite fold_left_app. fold (do_steps (do_step f OpenTemp) (map WriteTemp (pickle s))).
    rewrite (writes (pickle s) [] (do_step f OpenTemp)) by reflexivity. reflexivity.
  Qed.
  Lemma store_kept : forall l f, (forall x, In x l -> x = OpenTemp \/ exists b, x = WriteTemp b) -> store (do_steps f l) = store f.
  Proof.
    induction l as [|x l IH]; intros f H; [reflexivity|]. cbn. unfold do_steps in IH. rewrite IH by (intros y Y; apply H; now right).
    destruct (H x (or_introl eq_refl)) as [-> | [b ->]]; reflexivity.
  Qed.
  Lemma save_prefix : forall s f n, store (do_steps f (firstn n (save R pickle s))) = store f \/ do_steps f (firstn n (save R pickle s)) = mkFiles (Some (pickle s)) None.
  Proof.
    intros s f n. destruct (Nat.le_gt_cases (List.length (save R pickle s)) n) as [L | L].
    - right. rewrite firstn_all2 by exact L. apply save_whole.
    - left. apply store_kept. intros x X. unfold save in X, L. rewrite app_comm_cons in X, L. rewrite app_length in L. cbn [List.length] in L.
      rewrite firstn_app in X. replace (n - _)%nat with 0%nat in X by (cbn [List.length] in *; lia). cbn [firstn] in X. rewrite app_nil_r in X.
      assert (X' : In x (OpenTemp :: map WriteTemp (pickle s))).
      { rewrite <- (firstn_skipn n). apply in_or_app. now left. }
      destruct X' as [<- | X']; [now left|]. right. apply in_map_iff in X'. destruct X' as (b & <- & _). now exists b.
  Qed.
  Lemma load_opened : forall f, load_store R unpickle (opened f) = load_store R unpickle f.
  Proof. intros [[t|] t']; unfold load_store, opened; cbn; [reflexivity | now rewrite HE]. Qed.
  Lemma load_saved : forall s t, load_store R unpickle (mkFiles (Some (pickle s)) t) = Ok s.
  Proof. intros s t. unfold load_store. cbn. now rewrite HP. Qed.
  Lemma load_same : forall f g, store f = store g -> load_store R unpickle f = load_store R unpickle g.
  Proof. intros f g E. unfold load_store. now rewrite E. Qed.

  (** ** Histories *)
  Variable execute : text -> text -> Z -> list Q -> nat -> res (list (text * Q)).
  Variable evaluate : text -> text -> Z -> list (text * Q) -> res R.
  Variable fuel : nat.
  Definition after (f : files) (e : event) : files :=
    match run R pickle unpickle execute evaluate fuel (opened f) (e_call e) with
    | Ok steps => do_steps (opened f) (match e_killed e with None => steps | Some n => firstn n steps end)
    | Err _ => opened f
    end.
  Notation adds := (adds execute evaluate fuel).
  Notation measure := (measure R execute evaluate fuel).
  Lemma after_spec : forall f e old, load_store R unpickle f = Ok old ->
    (load_store R unpickle (after f e) = Ok old /\ (e_killed e <> None \/ exists x, measure (e_call e) = Err x)) \/
    exists cs r, measure (e_call e) = Ok (cs, r) /\ load_store R unpickle (after f e) = Ok (add_result R old (c_binary (e_call e)) cs model_name r).
  Proof.
    intros f e old L. unfold after, run. rewrite load_opened, L. cbn [bind].
    destruct (measure (e_call e)) as [[cs r]|x] eqn:M; cbn [bind fst snd].
    2: { left. split; [now rewrite load_opened | right; now exists x]. }
    destruct (e_killed e) as [n|].
    - destruct (save_prefix (add_result R old (c_binary (e_call e)) cs model_name r) (opened f) n) as [E | E].
      + left. split; [|left; discriminate]. rewrite (load_same _ _ E), load_opened. exact L.
      + right. exists cs, r. split; [reflexivity|]. rewrite E. apply load_saved.
    - right. exists cs, r. split; [reflexivity|]. rewrite save_whole. apply load_saved.
  Qed.
  Lemma history_spec : forall l f old, load_store R unpickle f = Ok old -> exists flags new,
    List.length flags = List.length l /\ load_store R unpickle (history pickle unpickle execute evaluate fuel f l) = Ok new /\
    (forall e, In (e, true) (combine l flags) -> exists x, measure (e_call e) = Ok x) /\
    (forall e, In (e, false) (combine l flags) -> e_killed e <> None \/ exists x, measure (e_call e) = Err x) /\
    (forall b k m r, stored new b k m r <->
       (m = model_name /\ last_added execute evaluate fuel (combine l flags) b k r) \/
       ((m <> model_name \/ none_added execute evaluate fuel (combine l flags) b k) /\ stored old b k m r)).
  Proof.
    induction l as [|e l IH]; intros f old L.
    { exists [], old. cbn. repeat split; auto; try tauto.
      - intros H. right. split; [right; intros e [] | exact H].
      - intros [[_ (l1 & e & l2 & X & _)] | [_ H]]; [destruct l1; discriminate | exact H]. }
    change (history pickle unpickle execute evaluate fuel f (e :: l)) with (history pickle unpickle execute evaluate fuel (after f e) l).
    destruct (after_spec f e old L) as [[L' K] | (cs & r0 & M & L')]; destruct (IH _ _ L') as (flags & new & F1 & F2 & F3 & F4 & F5).
    - exists (false :: flags), new. cbn [List.length combine]. split; [now rewrite F1|]. split; [exact F2|].
      split; [intros e' [X | X]; [discriminate X | now apply F3]|]. split; [intros e' [X | X]; [injection X as <-; exact K | now apply F4]|].
      intros b k m r. rewrite F5. split; (intros [[A (l1 & e1 & l2 & B & C & D)] | [A B]]; [left | right]).
      + split; [exact A|]. exists ((e, false) :: l1), e1, l2. rewrite B. auto.
      + split; [|exact B]. destruct A as [A | A]; [now left | right]. intros e' [X | X]; [discriminate X | now apply A].
      + split; [exact A|]. destruct l1 as [|y l1]; [discriminate B|]. injection B as _ B. exists l1, e1, l2. auto.
      + split; [|exact B]. destruct A as [A | A]; [now left | right]. intros e' X. apply A. now right.
    - exists (true :: flags), new. cbn [List.length combine]. split; [now rewrite F1|]. split; [exact F2|].
      split; [intros e' [X | X]; [injection X as <-; now exists (cs, r0) | now apply F3]|]. split; [intros e' [X | X]; [discriminate X | now apply F4]|].
      assert (AD : forall b k r, adds e b k r <-> file_name (c_binary (e_call e)) b /\ alike k cs /\ r = r0).
      { intros b k r. split; [intros (cs' & X & Y & Z); rewrite M in X; injection X as <- <-; auto | intros (X & Y & ->); exists cs; auto]. }
      intros b k m r. rewrite F5. split.
      + intros [[A (l1 & e1 & l2 & B & C & D)] | [A B]].
        * left. split; [exact A|]. exists ((e, true) :: l1), e1, l2. rewrite B. auto.
        * apply add_stored in B. destruct B as [(B1 & B2 & -> & ->) | [B1 B2]].
          -- left. split; [reflexivity|]. exists [], e, (combine l flags). split; [reflexivity|]. split; [now apply AD|].
             destruct A as [A | A]; [congruence|]. intros e' I' r'. now apply A.
          -- right. split; [|exact B2]. destruct (text_eqb_spec m model_name) as [E | E]; [right | now left]. destruct A as [A | A]; [contradiction|].
             intros e' [X | X] r' Y; [|now apply (A e' X r')]. injection X as <-. apply AD in Y. tauto.
      + intros [[A (l1 & e1 & l2 & B & C & D)] | [A B]].
        * destruct l1 as [|y l1]; injection B as B1 B2.
          -- subst e1 l2. right. split; [right; intros e' I' r'; now apply D|]. apply add_stored. left. apply AD in C. tauto.
          -- left. split; [exact A|]. exists l1, e1, l2. auto.
        * right. split; [destruct A as [A | A]; [now left | right; intros e' X; apply A; now right]|]. apply add_stored. right. split; [|exact B].
          intros (X & Y & Z). destruct A as [A | A]; [contradiction|]. apply (A e (or_introl eq_refl) r0). apply AD. auto.
  Qed.
End Storage.

(** ** Regions *)
Lemma distinct_spec : forall l, NoDup (distinct l) /\ forall r, In r (distinct l) <-> In r l.
Proof.
  assert (G : forall l acc, NoDup acc -> let m := fold_left (fun acc r => if existsb (text_eqb r) acc then acc else acc ++ [r]) l acc in NoDup m /\ forall r, In r m <-> In r acc \/ In r l).
  { induction l as [|x l IH]; intros acc ND; cbn; [split; [exact ND | intros r; tauto]|].
    destruct (existsb (text_eqb x) acc) eqn:E.
    - destruct (IH acc ND) as [A B]. split; [exact A|]. intros r. rewrite B. apply existsb_exists in E. destruct E as (y & Y & E). destruct (text_eqb_spec x y) as [<- | ]; [|discriminate].
      split; [tauto|]. intros [X | [<- | X]]; auto.
    - destruct (IH (acc ++ [x])) as [A B].
      + apply NoDup_rev in ND. rewrite <- (rev_involutive (acc ++ [x])). apply NoDup_rev. rewrite rev_app_distr. cbn. constructor; [|exact ND].
        rewrite <- in_rev. intros X. assert (T : existsb (text_eqb x) acc = true) by (apply existsb_exists; exists x; split; [exact X | apply text_eqb_refl]). congruence.
      + split; [exact A|]. intros r. rewrite B, in_app_iff. cbn. tauto. }
  intros l. unfold distinct. destruct (G l [] (NoDup_nil _)) as [A B]. split; [exact A|]. intros r. rewrite B. cbn. tauto.
Qed.
Lemma initial_in : forall given r, In r (initial_regions given) <->
  In r (snd (parse_marker given)) /\ (r <> [] \/ forall r', In r' (snd (parse_marker given)) -> r' = []).
Proof.
  intros given r. unfold initial_regions. destruct (distinct_spec (snd (parse_marker given))) as [ND I']. revert ND I'. generalize (snd (parse_marker given)) as names. intros names ND I'.
  set (l := distinct names) in *. clearbody l. destruct (2 <=? Z.of_nat (List.length l))%Z eqn:L.
  - apply Z.leb_le in L. rewrite filter_In, I'. split.
    + intros [A B]. split; [exact A|]. left. intros ->. discriminate B.
    + intros [A [B | B]]; (split; [exact A|]); [now rewrite text_eqb_neq|]. exfalso. destruct l as [|a [|b l]]; cbn in L; try lia.
      assert (a = []) by (apply B, I'; now left). assert (b = []) by (apply B, I'; right; now left). subst. apply NoDup_cons_iff in ND. apply (proj1 ND). now left.
  - apply Z.leb_gt in L. rewrite I'. split; [|tauto]. intros A. split; [exact A|]. destruct r as [|c r]; [right | left; discriminate]. apply I' in A.
    destruct l as [|a [|b l]]; cbn in L; [destruct A | | lia]. destruct A as [-> | []]. intros r' X. apply I' in X. destruct X as [<- | []]. reflexivity.
Qed.
Lemma initial_nodup : forall given, NoDup (initial_regions given).
Proof. intros given. unfold initial_regions. destruct (2 <=? _)%Z; [apply NoDup_filter|]; apply distinct_spec. Qed.
Lemma parse_names : forall names, names <> [] -> Forall (fun r => ~ In 44%N r) names -> join 44 names <> [] -> parse_marker (Some (Some (join 44 names))) = (true, names).
Proof.
  intros names N F J. unfold parse_marker. destruct (join 44 names) as [|c t] eqn:E; [congruence|]. rewrite <- E, split_join; [reflexivity | exact N |]. rewrite Forall_forall in F. exact F.
Qed.
