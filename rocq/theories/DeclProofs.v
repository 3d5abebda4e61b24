(** Proofs about declarations taken from the kernel. *)
From Coq Require Import String.
From Verif Require Import PyBase DeclModel DeclSpec.

Lemma store_app h : forall a n r, (List.length h <= a)%nat -> store (h ++ r) a n = h ++ store r (a - List.length h) n.
Proof. induction h as [|x h IH]; intros a n r H; cbn in *; [now rewrite Nat.sub_0_r|]. destruct a as [|a]; [lia|]. cbn. f_equal. apply IH. lia. Qed.
Lemma nth_new (h : heap) r i : nth_error (h ++ r) (List.length h + i) = nth_error r i.
Proof. rewrite nth_error_app2 by lia. f_equal. lia. Qed.
Lemma nth_old (h : heap) r a n : nth_error h a = Some n -> nth_error (h ++ r) a = Some n.
Proof. intros H. rewrite nth_error_app1; [exact H|]. apply nth_error_Some. congruence. Qed.
Lemma view_old h r a v : view h a = Some v -> view (h ++ r) a = Some v.
Proof.
  unfold view. intros H. destruct (nth_error h a) as [[n t s| | |]|] eqn:A; try discriminate. rewrite (nth_old h r a _ A).
  destruct (nth_error h t) as [[| dn | t' |]|] eqn:T; try discriminate; rewrite (nth_old h r t _ T); [exact H|].
  destruct (nth_error h t') as [[]|] eqn:T'; try discriminate. now rewrite (nth_old h r t' _ T').
Qed.
Lemma scalar_nodes h d n dn s : scalar h d n dn s -> exists t, nth_error h d = Some (Decl n t s) /\ nth_error h t = Some (TypeDecl dn).
Proof.
  unfold scalar, view. destruct (nth_error h d) as [[m t s'| | |]|]; try discriminate. destruct (nth_error h t) as [[| dn' | t' |]|] eqn:T; try discriminate.
  - intros H. injection H as -> -> ->. now exists t.
  - destruct (nth_error h t') as [[]|]; discriminate.
Qed.
Lemma is_scalar_view h d : is_scalar h d = true <-> exists n dn s, scalar h d n dn s.
Proof.
  split.
  - unfold is_scalar, scalar, view. destruct (nth_error h d) as [[n t s| | |]|]; try discriminate. destruct (nth_error h t) as [[| dn | |]|]; try discriminate. intros _. now exists n, dn, s.
  - intros (n & dn & s & H). apply scalar_nodes in H. destruct H as (t & A & B). unfold is_scalar. now rewrite A, B.
Qed.
Lemma deepcopy_scalar h d n dn s : scalar h d n dn s -> deepcopy h d = (h ++ [TypeDecl dn; Decl n (List.length h) s], S (List.length h)).
Proof. intros H. apply scalar_nodes in H. destruct H as (t & A & B). unfold deepcopy. now rewrite A, B. Qed.

(** One step of the loop, for a declaration of a scalar *)
Definition one (h : heap) (d : nat) (pointer : bool) (suffix : string) : heap * nat :=
  let (h1, d1) := if truth suffix || pointer then deepcopy h d else (h, d) in
  let h2 := if truth suffix then add_suffix h1 d1 suffix else h1 in
  (if pointer then add_pointer h2 d1 else h2, d1).
Lemma append_nil (s : string) : (s ++ "")%string = s.
Proof. induction s; cbn; congruence. Qed.
Lemma one_spec h d p sfx n dn s : scalar h d n dn s ->
  exists new d', one h d p sfx = (h ++ new, d') /\ view (h ++ new) d' = Some ((n ++ sfx)%string, (dn ++ sfx)%string, p, s) /\
  (truth sfx || p = true -> (List.length h <= d')%nat) /\ (truth sfx || p = false -> new = [] /\ d' = d).
Proof.
  intros H. unfold one. set (L := List.length h).
  assert (N1 : forall r, nth_error (h ++ r) (S L) = nth_error r 1) by (intros r; replace (S L) with (L + 1)%nat by lia; apply nth_new).
  assert (N0 : forall r, nth_error (h ++ r) L = nth_error r 0) by (intros r; replace L with (L + 0)%nat by lia; apply nth_new).
  assert (N2 : forall r, nth_error (h ++ r) (L + 2) = nth_error r 2) by (intros r; apply nth_new).
  assert (S1 : forall r x, store (h ++ r) (S L) x = h ++ store r 1 x) by (intros r x; rewrite store_app by (fold L; lia); repeat f_equal; fold L; lia).
  assert (S0 : forall r x, store (h ++ r) L x = h ++ store r 0 x) by (intros r x; rewrite store_app by (fold L; lia); repeat f_equal; fold L; lia).
  destruct (truth sfx) eqn:T; cbn [orb].
  - rewrite (deepcopy_scalar h d n dn s H). fold L. cbv iota beta zeta. unfold add_suffix. rewrite N1. cbn [nth_error]. rewrite S1. cbn [store]. rewrite N0. cbn [nth_error]. rewrite S0. cbn [store]. destruct p.
    + unfold add_pointer. rewrite N1. cbn [nth_error]. rewrite S1, <- app_assoc. cbn [store app]. rewrite app_length. cbn [List.length]. fold L.
      eexists. eexists. split; [reflexivity|]. split; [|split; [lia|discriminate]]. unfold view. rewrite N1. cbn [nth_error]. rewrite N2. cbn [nth_error]. rewrite N0. reflexivity.
    + eexists. eexists. split; [reflexivity|]. split; [|split; [lia|discriminate]]. unfold view. rewrite N1. cbn [nth_error]. rewrite N0. reflexivity.
  - assert (sfx = ""%string) as ->. { unfold truth in T. apply Bool.negb_false_iff in T. now apply String.eqb_eq in T. } rewrite !append_nil. destruct p.
    + rewrite (deepcopy_scalar h d n dn s H). fold L. cbv iota beta zeta. unfold add_pointer. rewrite N1. cbn [nth_error]. rewrite S1, <- app_assoc. cbn [store app]. rewrite app_length. cbn [List.length]. fold L.
      eexists. eexists. split; [reflexivity|]. split; [|split; [lia|discriminate]]. unfold view. rewrite N1. cbn [nth_error]. rewrite N2. cbn [nth_error]. rewrite N0. reflexivity.
    + exists [], d. rewrite app_nil_r. split; [reflexivity|]. split; [exact H|]. split; [discriminate|now split].
Qed.
Lemma each_one h d l p sfx : each h (d :: l) p sfx = let (h1, d1) := one h d p sfx in let (h4, r) := each h1 l p sfx in (h4, d1 :: r).
Proof. cbn [each]. unfold one. destruct (if truth sfx || p then deepcopy h d else (h, d)) as [h1 d1]. reflexivity. Qed.

Definition renamed (h h' : heap) (p : bool) (sfx : string) (d d' : nat) : Prop :=
  exists n dn s, scalar h d n dn s /\ view h' d' = Some ((n ++ sfx)%string, (dn ++ sfx)%string, p, s).
Lemma each_spec p sfx : forall l h, (forall d, In d l -> exists n dn s, scalar h d n dn s) ->
  exists new r, each h l p sfx = (h ++ new, r) /\ Forall2 (renamed h (h ++ new) p sfx) l r /\
  (truth sfx || p = true -> forall d', In d' r -> (List.length h <= d')%nat) /\ (truth sfx || p = false -> new = [] /\ r = l).
Proof.
  induction l as [|d l IH]; intros h H.
  - exists [], []. cbn. rewrite app_nil_r. repeat split; try constructor. intros _ d' [].
  - destruct (H d (or_introl eq_refl)) as (n & dn & s & S). destruct (one_spec h d p sfx n dn s S) as (new1 & d1 & E1 & V1 & A1 & B1).
    destruct (IH (h ++ new1)) as (new2 & r & E2 & F2 & A2 & B2).
    { intros x I. destruct (H x (or_intror I)) as (n' & dn' & s' & S'). exists n', dn', s'. now apply view_old. }
    exists (new1 ++ new2), (d1 :: r). rewrite each_one, E1, E2. rewrite <- app_assoc in *. split; [reflexivity|]. split; [|split].
    + constructor; [exists n, dn, s; split; [exact S|]; rewrite app_assoc; now apply view_old|].
      assert (K : forall x y, In x l -> renamed (h ++ new1) (h ++ new1 ++ new2) p sfx x y -> renamed h (h ++ new1 ++ new2) p sfx x y).
      { intros x y I (n' & dn' & s' & S' & V'). destruct (H x (or_intror I)) as (n2 & dn2 & s2 & S2). pose proof (view_old h new1 x _ S2) as W. unfold scalar in *. rewrite W in S'. injection S' as <- <- <-. now exists n2, dn2, s2. }
      clear -F2 K. induction F2; constructor; [apply K; [now left|assumption]|]. apply IHF2. intros. apply K; [now right|assumption].
    + intros T d' [<-|I]; [now apply A1|]. specialize (A2 T d' I). rewrite app_length in A2. lia.
    + intros T. destruct (B1 T) as [-> ->]. destruct (B2 T) as [-> ->]. now split.
Qed.

(** Declarations with storage extern *)
Lemma deepcopies_spec : forall l h, (forall d, In d l -> exists n dn s, scalar h d n dn s) ->
  exists new r, deepcopies h l = (h ++ new, r) /\ Forall2 (renamed h (h ++ new) false "") l r /\ (forall d', In d' r -> (List.length h <= d')%nat).
Proof.
  induction l as [|d l IH]; intros h H.
  - exists [], []. cbn. rewrite app_nil_r. repeat split; try constructor. intros d' [].
  - destruct (H d (or_introl eq_refl)) as (n & dn & s & Sc). cbn [deepcopies]. rewrite (deepcopy_scalar h d n dn s Sc). set (new1 := [TypeDecl dn; Decl n (List.length h) s]).
    destruct (IH (h ++ new1)) as (new2 & r & E2 & F2 & A2). { intros x I. destruct (H x (or_intror I)) as (n' & dn' & s' & S'). exists n', dn', s'. now apply view_old. }
    rewrite E2. exists (new1 ++ new2), (S (List.length h) :: r). rewrite <- app_assoc in *. split; [reflexivity|]. split.
    + constructor.
      * exists n, dn, s. split; [exact Sc|]. rewrite !append_nil. rewrite app_assoc. apply view_old. unfold view, new1. replace (Datatypes.S (List.length h)) with (List.length h + 1)%nat by lia. rewrite nth_new. cbn [nth_error].
        rewrite nth_error_app2 by lia. rewrite Nat.sub_diag. reflexivity.
      * assert (K : forall x y, In x l -> renamed (h ++ new1) (h ++ new1 ++ new2) false "" x y -> renamed h (h ++ new1 ++ new2) false "" x y).
        { intros x y I (n' & dn' & s' & S' & V'). destruct (H x (or_intror I)) as (n2 & dn2 & s2 & S2). pose proof (view_old h new1 x _ S2) as W. unfold scalar in *. rewrite W in S'. injection S' as <- <- <-. now exists n2, dn2, s2. }
        clear -F2 K. induction F2; constructor; [apply K; [now left|assumption]|]. apply IHF2. intros. apply K; [now right|assumption].
    + intros d' [<-|I]; [lia|]. specialize (A2 d' I). rewrite app_length in A2. lia.
Qed.
Lemma store_same h : forall a n, (a < List.length h)%nat -> nth_error (store h a n) a = Some n.
Proof. induction h as [|x h IH]; intros [|a] n H; cbn in *; try lia; [reflexivity|]. apply IH. lia. Qed.
Lemma store_other h : forall a b n, a <> b -> nth_error (store h a n) b = nth_error h b.
Proof. induction h as [|x h IH]; intros [|a] [|b] n H; cbn; try reflexivity; try congruence. apply IH. congruence. Qed.
Lemma view_extern h d a : view (set_extern h d) a = match view h a with Some (n, dn, p, s) => Some (n, dn, p, if Nat.eqb a d then ["extern"%string] else s) | None => None end.
Proof.
  unfold set_extern. destruct (nth_error h d) as [[n t s| | |]|] eqn:D.
  2-5: destruct (Nat.eqb_spec a d) as [->|]; [unfold view; rewrite D; reflexivity|destruct (view h a) as [[[[? ?] ?] ?]|]; reflexivity].
  assert (L : (d < List.length h)%nat) by (apply nth_error_Some; congruence).
  assert (K : forall x, nth_error (store h d (Decl n t ["extern"%string])) x = if Nat.eqb x d then Some (Decl n t ["extern"%string]) else nth_error h x).
  { intros x. destruct (Nat.eqb_spec x d) as [->|]; [now apply store_same|apply store_other; congruence]. }
  unfold view. rewrite K. destruct (Nat.eqb_spec a d) as [->|N].
  - rewrite D, K. destruct (Nat.eqb_spec t d) as [->|]; [rewrite D; reflexivity|]. destruct (nth_error h t) as [[| dn | t' |]|]; try reflexivity. rewrite K. destruct (Nat.eqb_spec t' d) as [->|]; [rewrite D; reflexivity|]. destruct (nth_error h t') as [[]|]; reflexivity.
  - destruct (nth_error h a) as [[m u r| | |]|]; try reflexivity. rewrite K. destruct (Nat.eqb_spec u d) as [->|]; [rewrite D; reflexivity|]. destruct (nth_error h u) as [[| dn | t' |]|]; try reflexivity. rewrite K. destruct (Nat.eqb_spec t' d) as [->|]; [rewrite D; reflexivity|]. destruct (nth_error h t') as [[]|]; reflexivity.
Qed.
Lemma views_extern : forall r h a n dn p s, view h a = Some (n, dn, p, s) -> In a r -> view (fold_left set_extern r h) a = Some (n, dn, p, ["extern"%string]).
Proof.
  assert (K : forall r h a n dn p, view h a = Some (n, dn, p, ["extern"%string]) -> view (fold_left set_extern r h) a = Some (n, dn, p, ["extern"%string])).
  { induction r as [|d r IH]; intros h a n dn p H; [exact H|]. cbn. apply IH. rewrite view_extern, H. now destruct (Nat.eqb a d). }
  induction r as [|d r IH]; intros h a n dn p s H I; [destruct I|]. cbn. destruct (Nat.eqb_spec a d) as [->|N].
  - apply K. rewrite view_extern, H, Nat.eqb_refl. reflexivity.
  - destruct I as [->|I]; [contradiction|]. apply (IH _ a n dn p s); [|exact I]. rewrite view_extern, H. destruct (Nat.eqb_spec a d); [contradiction|reflexivity].
Qed.
Lemma extern_kept h : forall r new, (forall d, In d r -> (List.length h <= d)%nat) -> exists new', fold_left set_extern r (h ++ new) = h ++ new'.
Proof.
  induction r as [|d r IH]; intros new H; [now exists new|]. cbn. assert (E : exists new1, set_extern (h ++ new) d = h ++ new1).
  { unfold set_extern. destruct (nth_error (h ++ new) d) as [[]|]; try (now exists new). rewrite store_app by (apply H; now left). eauto. }
  destruct E as (new1 & ->). apply IH. intros x I. apply H. now right.
Qed.
Lemma extern_spec h items : exists new r, build_scalar_extern_declarations h items = (h ++ new, r) /\ (forall d', In d' r -> (List.length h <= d')%nat) /\
  Forall2 (fun d d' => exists n dn s, scalar h d n dn s /\ view (h ++ new) d' = Some (n, dn, false, ["extern"%string])) (filter (is_scalar h) items) r.
Proof.
  unfold build_scalar_extern_declarations, get_scalar_declarations. set (l := filter (is_scalar h) items).
  assert (H : forall d, In d l -> exists n dn s, scalar h d n dn s) by (intros d I; apply filter_In in I; now apply is_scalar_view).
  destruct (each_spec false "" l h H) as (new0 & r0 & E0 & _ & _ & B0). destruct (B0 eq_refl) as [-> ->]. rewrite app_nil_r in E0. rewrite E0.
  destruct (deepcopies_spec l h H) as (new & r & E & F & A). rewrite E. destruct (extern_kept h r new A) as (new' & K). exists new', r. rewrite K. split; [reflexivity|]. split; [exact A|].
  rewrite <- K. assert (G : forall d d', In d' r -> renamed h (h ++ new) false "" d d' -> exists n dn s, scalar h d n dn s /\ view (fold_left set_extern r (h ++ new)) d' = Some (n, dn, false, ["extern"%string])).
  { intros d d' I (n & dn & s & Sc & V). rewrite !append_nil in V. exists n, dn, s. split; [exact Sc|]. eapply views_extern; eassumption. }
  clear -F G. revert G. generalize (fold_left set_extern r (h ++ new)). intros h' G. induction F; constructor; [apply G; [now left|assumption]|]. apply IHF. intros. apply G; [now right|assumption].
Qed.
