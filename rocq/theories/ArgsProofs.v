(** Proofs about the arguments of the program *)
From Verif Require Export ArgsModel ArgsSpec.
From Verif Require Import DefineSpec DefineProofs DefineProps FrontModel FrontPoly LCModel.
From Coq Require Import Lia Permutation.
Local Open Scope string_scope.
Local Open Scope list_scope.

Lemma seval_symbols : forall s env env', (forall n, In n (symbols s) -> env n = env' n) -> seval env s = seval env' s.
Proof.
  induction s; cbn; intros env env' H; try reflexivity.
  - apply H. now left.
  - rewrite (IHs1 env env'), (IHs2 env env'); [reflexivity| |]; intros; apply H, in_or_app; auto.
  - rewrite (IHs1 env env'), (IHs2 env env'); [reflexivity| |]; intros; apply H, in_or_app; auto.
  - rewrite (IHs1 env env'), (IHs2 env env'); [reflexivity| |]; intros; apply H, in_or_app; auto.
Qed.
(** Two instances: all symbols, and those that remain after expanding *)
Lemma symbols_free : free_symbols symbols.
Proof. split; [intros s n I; exact I|exact seval_symbols]. Qed.
Definition remaining (s : sym) : list string := flat_map fst (normal (expand s)).
Lemma expand_symbols : forall s m c n, In (m, c) (expand s) -> In n m -> In n (symbols s).
Proof.
  induction s as [x|z|a IHa b IHb|a IHa b IHb|a IHa b IHb]; cbn [expand symbols]; intros m c n H I.
  - destruct H as [[= <- _]|[]]. exact I.
  - destruct H as [[= <- _]|[]]. destruct I.
  - unfold pmul in H. apply in_flat_map in H as ([m1 c1] & H1 & H). apply in_map_iff in H as ([m2 c2] & E & H2). cbn in E. injection E as <- _. apply in_app_or in I.
    apply in_or_app. destruct I as [I|I]; [left; now apply (IHa m1 c1)|right; now apply (IHb m2 c2)].
  - apply in_app_or in H. apply in_or_app. destruct H as [H|H]; [left; now apply (IHa m c)|right; now apply (IHb m c)].
  - unfold psub, scale in H. apply in_app_or in H. apply in_or_app. destruct H as [H|H]; [left; now apply (IHa m c)|right].
    apply in_map_iff in H as ([m2 c2] & E & H2). cbn in E. injection E as <- _. now apply (IHb m2 c2).
Qed.
Lemma add_term_in : forall m c p m' c', In (m', c') (add_term m c p) -> m' = m \/ exists c'', In (m', c'') p.
Proof.
  intros m c. induction p as [|[m1 c1] p IH]; cbn; intros m' c' H.
  - destruct H as [[= <- _]|[]]. now left.
  - destruct (names_eqb m m1).
    + destruct H as [[= <- _]|H]; right; eauto.
    + destruct H as [[= <- <-]|H]; [right; eauto|]. destruct (IH m' c' H) as [E|[c'' F]]; [now left|right; eauto].
Qed.
Lemma collect_in : forall p m c, In (m, c) (collect p) -> exists m' c', In (m', c') p /\ m = sort_names m'.
Proof.
  induction p as [|[m1 c1] p IH]; [intros m c []|]. intros m c H. change (In (m, c) (add_term (sort_names m1) c1 (collect p))) in H.
  apply add_term_in in H as [->|[c'' H]].
  - exists m1, c1. split; [now left|reflexivity].
  - destruct (IH m c'' H) as (m' & c' & I & E). exists m', c'. split; [now right|exact E].
Qed.
Lemma remaining_free : free_symbols remaining.
Proof.
  split.
  - intros s n I. unfold remaining in I. apply in_flat_map in I as ([m c] & H & I). unfold normal in H. apply filter_In in H as [H _]. apply collect_in in H as (m' & c' & H & ->).
    apply (expand_symbols s m' c'); [exact H|]. cbn in I. apply (Permutation_in (l := sort_names m')); [symmetry; apply sort_names_perm|exact I].
  - intros s env env' H. rewrite <- !eval_expand, <- !(eval_normal _ (expand s)). unfold eval. f_equal. apply map_ext_in. intros [m c] I. unfold monomial. cbn [fst snd]. f_equal. f_equal.
    apply map_ext_in. intros n In'. apply H. unfold remaining. apply in_flat_map. exists (m, c). auto.
Qed.

(** ** Which expressions are considered *)
Lemma considered_spec : forall k s, In s (considered k) <-> size_of k s \/ bound_of k s \/ index_of_access k s.
Proof.
  intros k s. unfold considered. rewrite !in_app_iff.
  assert (A : forall l, In s (accessed l) <-> exists v a idx, In (v, a) l /\ In (Some idx) a /\ In s idx).
  { intros l. unfold accessed. rewrite in_flat_map. split.
    - intros ([v a] & H & I). cbn in I. apply in_flat_map in I as ([idx|] & Ha & I); [|destruct I]. exists v, a, idx. auto.
    - intros (v & a & idx & H & Ha & I). exists (v, a). split; [exact H|]. cbn. apply in_flat_map. exists (Some idx). auto. }
  rewrite !A. unfold given_lists. rewrite !in_flat_map. split.
  - intros [([v o] & H & I)|[(l & H & I)|[(v & a & idx & H & Ha & I)|(v & a & idx & H & Ha & I)]]].
    + left. cbn in I. destruct o as [dims|]; [|destruct I]. exists v, dims. auto.
    + right. left. exists l. split; [exact H|]. destruct I as [<-|[<-|[]]]; auto.
    + right. right. exists v, a, idx. auto.
    + right. right. exists v, a, idx. auto.
  - intros [(v & dims & H & I)|[(l & H & I)|(v & a & idx & [H|H] & Ha & I)]].
    + left. exists (v, Some dims). auto.
    + right. left. exists l. split; [exact H|]. cbn. destruct I as [->| ->]; auto.
    + right. right. left. exists v, a, idx. auto.
    + right. right. right. exists v, a, idx. auto.
Qed.
Lemma mem_spec : forall n l, mem n l = true <-> In n l.
Proof. intros n l. unfold mem. rewrite existsb_exists. split; [intros (x & I & E); apply String.eqb_eq in E; congruence|intros I; exists n; split; [exact I|apply String.eqb_refl]]. Qed.
Lemma is_index_spec : forall k n, mem n (map l_index (k_loops k)) = true <-> is_index k n.
Proof. intros k n. rewrite mem_spec, in_map_iff. unfold is_index. firstorder. Qed.
Lemma required_spec : forall free k n, In n (required free k) <-> (exists s, In s (considered k) /\ In n (free s)) /\ ~ is_index k n.
Proof.
  intros free k n. unfold required. rewrite filter_In, uniquify_in, in_flat_map, Bool.negb_true_iff, <- is_index_spec. destruct (mem n _); intuition congruence.
Qed.
Lemma required_nodup : forall free k, NoDup (required free k).
Proof. intros. unfold required. apply NoDup_filter, uniquify_nodup. Qed.
(** Each analysis has values for all required constants. *)
Lemma analysed_constants : forall free k options models l constants model, run_analyses free k options models = Ok l -> In (constants, model) l ->
  forall n, In n (required free k) -> exists v, In (n, v) constants.
Proof.
  intros free k options models l constants model H I n Hn. unfold run_analyses in H.
  assert (NE : required free k <> []) by (intros E; rewrite E in Hn; destruct Hn).
  apply (C43_analyses _ _ _ _ NE (required_nodup free k) H) in I as [_ (f & (P & _) & _)]. symmetry in P. apply (Permutation_in _ P) in Hn.
  apply in_map_iff in Hn as ([n' v] & E & I). cbn in E. subst n'. eauto.
Qed.
