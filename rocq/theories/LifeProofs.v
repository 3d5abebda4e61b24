(** Lemmas about machine descriptions and ages of files *)
From Verif Require Import LifeModel LifeSpec.
Local Open Scope Z_scope.
Local Open Scope list_scope.

Lemma nth_set_same {A} : forall (l : list A) i a d, (i < List.length l)%nat -> nth i (set_nth i a l) d = a.
Proof. induction l as [|x l IH]; intros [|i] a d H; cbn in *; try lia; [reflexivity|]. apply IH; lia. Qed.
Lemma nth_set_other {A} : forall (l : list A) i j a d, i <> j -> nth j (set_nth i a l) d = nth j l d.
Proof. induction l as [|x l IH]; intros [|i] [|j] a d H; cbn; try reflexivity; try congruence. apply IH; congruence. Qed.
Lemma set_nth_length {A} : forall (l : list A) i a, List.length (set_nth i a l) = List.length l.
Proof. induction l as [|x l IH]; intros [|i] a; cbn; try reflexivity. now rewrite IH. Qed.
Lemma nth_error_set_same {A} : forall (l : list A) i a x, nth_error l i = Some x -> nth_error (set_nth i a l) i = Some a.
Proof. induction l as [|y l IH]; intros [|i] a x H; cbn in *; try discriminate; [reflexivity|]. now apply (IH i a x). Qed.
Lemma nth_error_set_other {A} : forall (l : list A) i j a, i <> j -> nth_error (set_nth i a l) j = nth_error l j.
Proof. induction l as [|y l IH]; intros [|i] [|j] a H; cbn; try reflexivity; try congruence. apply IH; congruence. Qed.

Section Life.
  Context {data : Type}.
  Variables (default : data) (abspath : text -> text) (parse : text -> res (option data)) (supported : data -> res unit) (yaml_dump : data -> res text).
  Notation state := (@state data).
  Notation event := (@event data).
  Notation source := (@source data).
  Notation step := (step default abspath parse supported yaml_dump).
  Notation run := (run default abspath parse supported yaml_dump).
  Notation new := (new default abspath parse supported).
  Notation dictionary := (dictionary default abspath parse).
  Notation load := (load abspath parse).

  (** Numbers of dictionaries exist; every path has its own. *)
  Definition well (st : state) : Prop :=
    (forall k n, tget k (s_loaded st) = Some n -> (n < List.length (s_dicts st))%nat)
    /\ (forall k k' n, tget k (s_loaded st) = Some n -> tget k' (s_loaded st) = Some n -> k = k')
    /\ (forall m x, nth_error (s_models st) m = Some x -> (m_data x < List.length (s_dicts st))%nat).

  Lemma tget_set : forall (d : tdict nat) k v k', tget k' (tset k v d) = if text_eqb k' k then Some v else tget k' d.
  Proof.
    intros. destruct (text_eqb_spec k' k) as [->|N]; rewrite tget_tset.
    - now rewrite text_eqb_refl.
    - now rewrite text_eqb_neq by congruence.
  Qed.

  (** Nothing that exists is lost by a step; [grows]: paths keep their dictionary and models their number. *)
  Definition grows (st st' : state) : Prop :=
    (forall k n, tget k (s_loaded st) = Some n -> tget k (s_loaded st') = Some n)
    /\ (List.length (s_dicts st) <= List.length (s_dicts st'))%nat
    /\ (forall m x, nth_error (s_models st) m = Some x -> exists x', nth_error (s_models st') m = Some x' /\ m_data x' = m_data x)
    /\ (forall k n, tget k (s_loaded st') = Some n -> tget k (s_loaded st) = Some n \/ (List.length (s_dicts st) <= n)%nat).
  Lemma grows_refl : forall st, grows st st.
  Proof. intros st. split; [auto|]. split; [lia|]. split; [eauto|]. auto. Qed.
  Lemma grows_trans : forall a b c, grows a b -> grows b c -> grows a c.
  Proof.
    intros a b c (A1 & A2 & A3 & A4) (B1 & B2 & B3 & B4). split; [auto|]. split; [lia|]. split.
    - intros m x H. destruct (A3 m x H) as (y & Hy & E). destruct (B3 m y Hy) as (z & Hz & E'). exists z. split; [exact Hz|congruence].
    - intros k n H. destruct (B4 k n H) as [H'|H']; [apply A4, H'|right; lia].
  Qed.

  (** A dictionary that is asked for *)
  Lemma dictionary_well : forall st s, well st -> well (fst (dictionary st s)) /\ grows st (fst (dictionary st s))
    /\ s_models (fst (dictionary st s)) = s_models st /\ s_disk (fst (dictionary st s)) = s_disk st
    /\ (forall n, (n < List.length (s_dicts st))%nat -> nth n (s_dicts (fst (dictionary st s))) None = nth n (s_dicts st) None)
    /\ (forall n, snd (dictionary st s) = Ok n -> (n < List.length (s_dicts (fst (dictionary st s))))%nat).
  Proof.
    intros st s W.
    assert (Add : forall d : data, let st' := mkState (s_disk st) (s_loaded st) (s_dicts st ++ [Some d]) (s_models st) in
      well st' /\ grows st st' /\ s_models st' = s_models st /\ s_disk st' = s_disk st
      /\ (forall n, (n < List.length (s_dicts st))%nat -> nth n (s_dicts st') None = nth n (s_dicts st) None)
      /\ (List.length (s_dicts st) < List.length (s_dicts st'))%nat).
    { intros d st'. destruct W as (W1 & W2 & W3). unfold st'. cbn. rewrite app_length. cbn.
      split; [split; [|split]|]; cbn; try rewrite app_length; cbn.
      - intros k n H. specialize (W1 k n H). lia.
      - exact W2.
      - intros m x H. specialize (W3 m x H). lia.
      - split; [|split; [reflexivity|split; [reflexivity|split]]].
        + split; [auto|]. split; [cbn; rewrite app_length; lia|]. split; [eauto|]. auto.
        + intros n H. now rewrite app_nth1.
        + lia. }
    assert (Same : well st /\ grows st st /\ s_models st = s_models st /\ s_disk st = s_disk st
      /\ (forall n, (n < List.length (s_dicts st))%nat -> nth n (s_dicts st) None = nth n (s_dicts st) None)).
    { split; [exact W|]. split; [apply grows_refl|]. auto. }
    destruct s as [p|d| |]; cbn [LifeModel.dictionary].
    - destruct p as [|c p0].
      + destruct (Add default) as (A1 & A2 & A3 & A4 & A5 & A6). do 5 (split; [assumption|]). intros n [= <-]. exact A6.
      + remember (c :: p0) as p eqn:Ep. clear Ep c p0. unfold LifeModel.load.
        destruct (tget (abspath p) (s_loaded st)) as [n|] eqn:G; cbn [fst snd].
        { destruct Same as (S1 & S2 & S3 & S4 & S5). do 5 (split; [assumption|]). intros n' [= <-]. now apply (proj1 W (abspath p)). }
        destruct (s_disk st (abspath p)) as [t|]; cbn [fst snd];
          [|destruct Same as (S1 & S2 & S3 & S4 & S5); do 5 (split; [assumption|]); discriminate].
        destruct (parse t) as [d|e]; cbn [fst snd];
          [|destruct Same as (S1 & S2 & S3 & S4 & S5); do 5 (split; [assumption|]); discriminate].
        destruct W as (W1 & W2 & W3). split; [split; [|split]|]; cbn; try rewrite app_length; cbn.
        * intros k n. rewrite tget_set. destruct (text_eqb_spec k (abspath p)); [intros [= <-]; lia|intros H; specialize (W1 k n H); lia].
        * intros k k' n. rewrite !tget_set. destruct (text_eqb_spec k (abspath p)) as [->|N]; destruct (text_eqb_spec k' (abspath p)) as [->|N']; auto.
          -- intros [= <-] H. specialize (W1 k' _ H). lia.
          -- intros H [= <-]. specialize (W1 k _ H). lia.
          -- apply W2.
        * intros m x H. specialize (W3 m x H). lia.
        * split; [|split; [reflexivity|split; [reflexivity|split]]].
          -- split; [|split; [|split]]; cbn.
             ++ intros k n H. rewrite tget_set. destruct (text_eqb_spec k (abspath p)) as [->|N]; [congruence|exact H].
             ++ rewrite app_length. lia.
             ++ eauto.
             ++ intros k n. rewrite tget_set. destruct (text_eqb_spec k (abspath p)); [intros [= <-]; right; lia|auto].
          -- intros n H. now rewrite app_nth1.
          -- intros n [= <-]. lia.
    - destruct (Add d) as (A1 & A2 & A3 & A4 & A5 & A6). do 5 (split; [assumption|]). intros n [= <-]. exact A6.
    - destruct (Add default) as (A1 & A2 & A3 & A4 & A5 & A6). do 5 (split; [assumption|]). intros n [= <-]. exact A6.
    - destruct Same as (S1 & S2 & S3 & S4 & S5). do 5 (split; [assumption|]). discriminate.
  Qed.

  Lemma new_cases : forall st s,
    (exists e, new st s = (fst (dictionary st s), Err e))
    \/ (exists n c, snd (dictionary st s) = Ok n /\ nth n (s_dicts (fst (dictionary st s))) None = Some c
        /\ let st1 := fst (dictionary st s) in
           new st s = (mkState (s_disk st1) (s_loaded st1) (s_dicts st1) (s_models st1 ++ [mkModel (path_of s) n]), Ok (List.length (s_models st1)))).
  Proof.
    intros st s. unfold LifeModel.new. destruct (dictionary st s) as [st1 [n|e]]; cbn [fst snd]; [|left; eauto].
    destruct (nth n (s_dicts st1) None) as [c|] eqn:E; cbn [checked]; [|left; eauto].
    destruct (supported c); [|left; eauto]. right. exists n, c. auto.
  Qed.

  Lemma step_well : forall st e, well st -> well (step st e) /\ grows st (step st e).
  Proof.
    intros st e W. destruct e as [s|m p|m f|m p|p t|p]; cbn [LifeModel.step].
    - destruct (dictionary_well st s W) as (D1 & D2 & D3 & D4 & D5 & D6).
      destruct (new_cases st s) as [[e E]|(n & c & Hn & Hc & E)]; rewrite E; cbn [fst]; [auto|].
      specialize (D6 n Hn). destruct D1 as (W1 & W2 & W3). split.
      + split; [|split]; cbn; auto. intros m x H. destruct (Nat.lt_ge_cases m (List.length (s_models (fst (dictionary st s))))) as [L|L].
        * rewrite nth_error_app1 in H by exact L. now apply (W3 m).
        * rewrite nth_error_app2 in H by exact L. destruct (m - _)%nat as [|k]; cbn in H; [injection H as <-; exact D6|destruct k; discriminate].
      + eapply grows_trans; [exact D2|]. split; [|split; [|split]]; cbn; auto.
        intros m x H. exists x. split; [|reflexivity]. rewrite nth_error_app1; [exact H|]. apply nth_error_Some. congruence.
    - destruct (nth_error (s_models st) m) as [x|] eqn:E; [|split; [exact W|apply grows_refl]]. destruct W as (W1 & W2 & W3). split.
      + split; [|split]; cbn; auto. intros m' x' H. destruct (Nat.eq_dec m m') as [<-|N].
        * rewrite (nth_error_set_same _ _ _ x E) in H. injection H as <-. cbn. now apply (W3 m).
        * rewrite nth_error_set_other in H by exact N. now apply (W3 m').
      + split; [|split; [|split]]; cbn; auto. intros m' x' H. destruct (Nat.eq_dec m m') as [<-|N].
        * rewrite (nth_error_set_same _ _ _ x E). eexists. split; [reflexivity|]. cbn. congruence.
        * rewrite nth_error_set_other by exact N. eauto.
    - destruct (nth_error (s_models st) m) as [x|]; [|split; [exact W|apply grows_refl]].
      destruct (description st m); [|split; [exact W|apply grows_refl]]. destruct W as (W1 & W2 & W3). split.
      + split; [|split]; cbn; try rewrite set_nth_length; auto.
      + split; [|split; [|split]]; cbn; try rewrite set_nth_length; eauto.
    - destruct (nth_error (s_models st) m) as [x|]; [|split; [exact W|apply grows_refl]].
      destruct (description st m); [|split; [exact W|apply grows_refl]].
      destruct (dump abspath yaml_dump d p (m_path x)); [|split; [exact W|apply grows_refl]]. split; [exact W|exact (grows_refl st)].
    - split; [exact W|exact (grows_refl st)].
    - split; [exact W|exact (grows_refl st)].
  Qed.
  Lemma run_well : forall h st, well st -> well (run st h) /\ grows st (run st h).
  Proof.
    induction h as [|e h IH]; intros st W; [split; [exact W|apply grows_refl]|]. cbn.
    destruct (step_well st e W) as [W1 G1]. destruct (IH _ W1) as [W2 G2]. split; [exact W2|]. now apply (grows_trans _ (step st e)).
  Qed.
  Lemma initial_well : forall d, well (@initial data d).
  Proof. intros d. split; [|split]; cbn; try discriminate. intros [|m] x; discriminate. Qed.

  (** Descriptions only change by changes of the same dictionary. *)
  Lemma step_description : forall st e m x, well st -> nth_error (s_models st) m = Some x ->
    (forall m' x' f, e = Change m' f -> nth_error (s_models st) m' = Some x' -> m_data x' <> m_data x) ->
    description (step st e) m = description st m.
  Proof.
    intros st e m x W H N. assert (L : (m_data x < List.length (s_dicts st))%nat) by now apply (proj2 (proj2 W) m).
    destruct (step_well st e W) as [_ (_ & _ & G & _)]. destruct (G m x H) as (x' & H' & Ex).
    replace (description (step st e) m) with (nth (m_data x) (s_dicts (step st e)) None) by (unfold description; now rewrite H', Ex).
    replace (description st m) with (nth (m_data x) (s_dicts st) None) by (unfold description; now rewrite H).
    destruct e as [s|m' p|m' f|m' p|p t|p]; cbn [LifeModel.step].
    - destruct (dictionary_well st s W) as (_ & _ & _ & _ & D5 & _).
      destruct (new_cases st s) as [[e E]|(n & c & Hn & Hc & E)]; rewrite E; cbn [fst s_dicts]; now apply D5.
    - destruct (nth_error (s_models st) m'); reflexivity.
    - destruct (nth_error (s_models st) m') as [y|] eqn:E; [|reflexivity]. destruct (description st m'); [|reflexivity].
      cbn [s_dicts]. apply nth_set_other. exact (N m' y f eq_refl E).
    - destruct (nth_error (s_models st) m') as [y|]; [|reflexivity]. destruct (description st m'); [|reflexivity].
      destruct (dump abspath yaml_dump d p (m_path y)); reflexivity.
    - reflexivity.
    - reflexivity.
  Qed.

  (** The number of the dictionary of a new model *)
  Lemma new_model : forall st s st' m, well st -> new st s = (st', Ok m) ->
    exists n, nth_error (s_models st') m = Some (mkModel (path_of s) n) /\ snd (dictionary st s) = Ok n
      /\ s_dicts st' = s_dicts (fst (dictionary st s)) /\ s_loaded st' = s_loaded (fst (dictionary st s))
      /\ (exists c, nth n (s_dicts st') None = Some c) /\ st' = step st (New s).
  Proof.
    intros st s st' m W H. assert (Hst : st' = step st (New s)) by (cbn; now rewrite H).
    destruct (new_cases st s) as [[e E]|(n & c & Hn & Hc & E)]; rewrite E in H; [discriminate|]. injection H as <- <-. exists n. cbn.
    rewrite nth_error_app2, Nat.sub_diag by lia. cbn. eauto 10.
  Qed.
  Definition real_path (s : source) : option text := match s with FromFile [] => None | FromFile p => Some (abspath p) | _ => None end.
  Lemma dictionary_number : forall st s n, well st -> snd (dictionary st s) = Ok n ->
    match real_path s with
    | Some p => tget p (s_loaded (fst (dictionary st s))) = Some n
    | None => n = List.length (s_dicts st) /\ s_loaded (fst (dictionary st s)) = s_loaded st
    end.
  Proof.
    intros st s n W. destruct s as [[|c p]|d| |]; cbn [LifeModel.dictionary real_path fst snd s_loaded].
    - intros [= <-]. auto.
    - remember (c :: p) as q. unfold LifeModel.load. destruct (tget (abspath q) (s_loaded st)) as [k|] eqn:G; cbn [fst snd]; [intros [= <-]; exact G|].
      destruct (s_disk st (abspath q)); [|discriminate]. destruct (parse _); [|discriminate]. cbn. intros [= <-]. now rewrite tget_set, text_eqb_refl.
    - intros [= <-]. auto.
    - intros [= <-]. auto.
    - discriminate.
  Qed.

  (** A path that was never asked for has no dictionary. *)
  Lemma step_loaded : forall st e k, tget k (s_loaded (step st e)) <> None ->
    tget k (s_loaded st) <> None \/ (exists p, e = New (FromFile p) /\ p <> [] /\ abspath p = k).
  Proof.
    intros st e k H. destruct e as [s|m' p|m' f|m' p|p t|p]; cbn [LifeModel.step] in H.
    - assert (H' : tget k (s_loaded (fst (dictionary st s))) <> None).
      { destruct (new_cases st s) as [[e E]|(n & c & Hn & Hc & E)]; rewrite E in H; exact H. }
      destruct s as [[|c p]|d| |]; cbn [LifeModel.dictionary fst s_loaded] in H'; auto.
      remember (c :: p) as q eqn:Eq. unfold LifeModel.load in H'. destruct (tget (abspath q) (s_loaded st)) eqn:G; [auto|].
      destruct (s_disk st (abspath q)); [|auto]. destruct (parse _); [|auto]. cbn in H'. rewrite tget_set in H'.
      destruct (text_eqb_spec k (abspath q)) as [->|N]; [|auto]. right. exists q. split; [reflexivity|]. split; [congruence|reflexivity].
    - destruct (nth_error (s_models st) m'); auto.
    - destruct (nth_error (s_models st) m'); [destruct (description st m')|]; auto.
    - destruct (nth_error (s_models st) m') as [y|]; [destruct (description st m')|]; auto. destruct (dump abspath yaml_dump d p (m_path y)); auto.
    - auto.
    - auto.
  Qed.
  Lemma run_loaded : forall h st k, tget k (s_loaded (run st h)) <> None ->
    tget k (s_loaded st) <> None \/ (exists p, In (New (FromFile p)) h /\ p <> [] /\ abspath p = k).
  Proof.
    induction h as [|e h IH]; intros st k H; [auto|]. cbn in H. destruct (IH _ _ H) as [H'|(p & Hp & R)].
    - destruct (step_loaded st e k H') as [?|(p & -> & R)]; [auto|]. right. exists p. split; [now left|exact R].
    - right. exists p. split; [now right|exact R].
  Qed.

  Lemma run_app : forall h h' st, run st (h ++ h') = run (run st h) h'.
  Proof. intros. unfold LifeModel.run. apply fold_left_app. Qed.
  (** Two models of different sources have different dictionaries. *)
  Definition different (s s' : source) : Prop := match real_path s, real_path s' with Some p, Some p' => p <> p' | _, _ => True end.
  Lemma apart : forall st s st1 m h st2 s' st3 m', well st -> new st s = (st1, Ok m) -> st2 = run st1 h -> new st2 s' = (st3, Ok m') -> different s s' ->
    exists x x', nth_error (s_models st3) m = Some x /\ nth_error (s_models st3) m' = Some x' /\ m_data x <> m_data x'.
  Proof.
    intros st s st1 m h st2 s' st3 m' W N E N' D.
    destruct (new_model st s st1 m W N) as (n & Hm & Hn & Hd & Hl & _ & Es). destruct (step_well st (New s) W) as [W1 G1]. rewrite <- Es in W1, G1.
    destruct (run_well h st1 W1) as [W2 G2]. rewrite <- E in W2, G2.
    destruct (new_model st2 s' st3 m' W2 N') as (n' & Hm' & Hn' & Hd' & Hl' & _ & Es'). destruct (step_well st2 (New s') W2) as [W3 G3]. rewrite <- Es' in W3, G3.
    destruct (grows_trans _ _ _ G2 G3) as (L1 & L2 & L3 & L4). destruct (L3 m _ Hm) as (x & Hx & Ex). cbn in Ex.
    exists x, (mkModel (path_of s') n'). split; [exact Hx|]. split; [exact Hm'|]. rewrite Ex. cbn. intros <-.
    pose proof (dictionary_number st s n W Hn) as K. pose proof (dictionary_number st2 s' n W2 Hn') as K'. unfold different in D.
    assert (B : (n < List.length (s_dicts st1))%nat) by exact (proj2 (proj2 W1) m _ Hm).
    destruct (real_path s') as [k'|].
    - rewrite <- Hl' in K'. destruct (real_path s) as [k|].
      + rewrite <- Hl in K. apply D. apply (proj1 (proj2 W3) k k' n); [now apply L1|exact K'].
      + destruct K as [K Kl]. destruct (L4 _ _ K') as [F|F]; [|lia]. rewrite Hl, Kl in F. pose proof (proj1 W _ _ F). lia.
    - destruct K' as [K' _]. destruct G2 as (_ & G2 & _). lia.
  Qed.
  Lemma together : forall st s st1 m h st2 s' st3 m' p, well st -> new st s = (st1, Ok m) -> st2 = run st1 h -> new st2 s' = (st3, Ok m') ->
    real_path s = Some p -> real_path s' = Some p ->
    exists x x', nth_error (s_models st3) m = Some x /\ nth_error (s_models st3) m' = Some x' /\ m_data x = m_data x'.
  Proof.
    intros st s st1 m h st2 s' st3 m' p W N E N' R R'.
    destruct (new_model st s st1 m W N) as (n & Hm & Hn & Hd & Hl & _ & Es). destruct (step_well st (New s) W) as [W1 G1]. rewrite <- Es in W1, G1.
    destruct (run_well h st1 W1) as [W2 G2]. rewrite <- E in W2, G2.
    destruct (new_model st2 s' st3 m' W2 N') as (n' & Hm' & Hn' & Hd' & Hl' & _ & Es'). destruct (step_well st2 (New s') W2) as [W3 G3]. rewrite <- Es' in W3, G3.
    destruct (grows_trans _ _ _ G2 G3) as (L1 & L2 & L3 & L4). destruct (L3 m _ Hm) as (x & Hx & Ex). cbn in Ex.
    exists x, (mkModel (path_of s') n'). split; [exact Hx|]. split; [exact Hm'|]. rewrite Ex. cbn.
    pose proof (dictionary_number st s n W Hn) as K. pose proof (dictionary_number st2 s' n' W2 Hn') as K'. rewrite R in K. rewrite R' in K'.
    rewrite <- Hl in K. rewrite <- Hl' in K'. apply L1 in K. congruence.
  Qed.
  Lemma same_data : forall h st m m' x x', well st -> nth_error (s_models st) m = Some x -> nth_error (s_models st) m' = Some x' -> m_data x = m_data x' ->
    description (run st h) m = description (run st h) m'.
  Proof.
    intros h st m m' x x' W H H' E. destruct (run_well h st W) as [_ (_ & _ & G & _)]. destruct (G _ _ H) as (y & Hy & Ey). destruct (G _ _ H') as (y' & Hy' & Ey').
    unfold description. rewrite Hy, Hy', Ey, Ey', E. reflexivity.
  Qed.

  Lemma path_set : forall st m p, (m < List.length (s_models st))%nat -> exists x, nth_error (s_models (step st (SetPath m p))) m = Some x /\ m_path x = Some p.
  Proof.
    intros st m p L. cbn. destruct (nth_error (s_models st) m) as [x|] eqn:E; [|apply nth_error_None in E; lia]. cbn. rewrite (nth_error_set_same _ _ _ x E). eauto.
  Qed.
  Lemma new_models : forall st s, exists l, s_models (fst (new st s)) = s_models st ++ l.
  Proof.
    intros st s. unfold LifeModel.new. assert (D : s_models (fst (dictionary st s)) = s_models st).
    { unfold LifeModel.dictionary. destruct s as [[|c p]|d| |]; try reflexivity. unfold LifeModel.load. destruct (tget _ _); [reflexivity|]. destruct (s_disk st _); [|reflexivity]. destruct (parse _); reflexivity. }
    destruct (dictionary st s) as [st1 [n|e]]; cbn in D; [|exists []; rewrite app_nil_r; exact D].
    destruct (checked supported (nth n (s_dicts st1) None)); cbn; rewrite D; [eauto|exists []; now rewrite app_nil_r].
  Qed.
  Lemma step_path : forall st e m x, nth_error (s_models st) m = Some x -> (forall q, e <> SetPath m q) -> exists y, nth_error (s_models (step st e)) m = Some y /\ m_path y = m_path x.
  Proof.
    intros st e m x H N. destruct e as [s|m' p|m' f|m' p|p t|p]; cbn.
    - destruct (new_models st s) as [l E]. rewrite E. exists x. split; [|reflexivity]. rewrite nth_error_app1; [exact H|]. apply nth_error_Some. congruence.
    - destruct (nth_error (s_models st) m') as [z|]; [|eauto]. cbn. exists x. split; [|reflexivity]. rewrite nth_error_set_other; [exact H|]. intros ->. exact (N p eq_refl).
    - destruct (nth_error (s_models st) m') as [z|]; [|eauto]. destruct (description st m'); eauto.
    - destruct (nth_error (s_models st) m') as [z|]; [|eauto]. destruct (description st m'); [|eauto]. match goal with |- context [match ?q with Ok _ => _ | Err _ => _ end] => destruct q end; eauto.
    - eauto.
    - eauto.
  Qed.
  Lemma path_kept : forall h st m p x, (exists y, nth_error (s_models st) m = Some y /\ m_path y = Some p) -> (forall q, ~ In (SetPath m q) h) ->
    nth_error (s_models (run st h)) m = Some x -> m_path x = Some p.
  Proof.
    induction h as [|e h IH]; intros st m p x (y & Hy & Ey) N H; [cbn in H; congruence|].
    apply (IH (step st e) m p x); [|intros q I; exact (N q (or_intror I))|exact H].
    destruct (step_path st e m y Hy) as (z & Hz & Ez); [intros q ->; exact (N q (or_introl eq_refl))|]. exists z. split; [exact Hz|congruence].
  Qed.

  (** ** The program *)
  Notation main := (main default abspath parse supported yaml_dump).
  Notation update_parts := (update_parts abspath yaml_dump).
  Notation write := (text * text)%type.
  Lemma put_get : forall p t d q, put p t d q = if text_eqb q p then Some t else d q.
  Proof. reflexivity. Qed.
  Lemma write_all_app : forall a b d, write_all d (a ++ b) = write_all (write_all d a) b.
  Proof. intros. unfold write_all. apply fold_left_app. Qed.
  Lemma write_all_other : forall ws d q, Forall (fun w : write => fst w <> q) ws -> write_all d ws q = d q.
  Proof.
    induction ws as [|w ws IH]; intros d q H; [reflexivity|]. inversion H; subst. unfold write_all in *. cbn. rewrite IH by assumption.
    rewrite put_get. now rewrite text_eqb_neq by congruence.
  Qed.
  (** Content after writes to one file: the last one *)
  Lemma write_all_last : forall ws d p t, write_all d (ws ++ [(p, t)]) p = Some t.
  Proof. intros. rewrite write_all_app. cbn. unfold put. now rewrite text_eqb_refl. Qed.

  Definition target (out : text) : text := abspath (output_name out).
  Lemma dump_writes : forall d g o ws, dump abspath yaml_dump d g o = Ok ws ->
    exists t p, yaml_dump d = Ok t /\ save_to abspath g o = Ok p /\ ws = [(p, []); (p, t)].
  Proof.
    unfold dump. intros d g o ws H. destruct (yaml_dump d) as [t|]; cbn in H; [|discriminate]. destruct (save_to abspath g o) as [p|]; cbn in H; [|discriminate].
    injection H as <-. eauto.
  Qed.
  Lemma save_path : forall p q, save_to abspath None (Some p) = Ok q -> q = abspath p.
  Proof. unfold save_to. intros [|c p] q H; congruence. Qed.
  Lemma parts_writes : forall path parts i d, Forall (fun w : write => fst w = abspath path) (fst (update_parts path parts i d)).
  Proof.
    intros path parts. induction parts as [|x parts IH]; intros i d.
    - destruct i as [[|i]|]; constructor.
    - assert (G : Forall (fun w : write => fst w = abspath path)
        (fst match p_change x d with
             | Err e => ([], Err e)
             | Ok d' => match (if p_saved x then dump abspath yaml_dump d' None (Some path) else Ok []) with
                        | Err e => ([], Err e)
                        | Ok ws => let (ws', r) := update_parts path parts (option_map pred i) d' in (ws ++ ws', r)
                        end
             end)).
      { destruct (p_change x d) as [d'|]; [|constructor].
        destruct (p_saved x).
        - destruct (dump abspath yaml_dump d' None (Some path)) as [ws|] eqn:E; [|constructor].
          destruct (dump_writes _ _ _ _ E) as (t & p & _ & Hp & ->). apply save_path in Hp. subst p.
          specialize (IH (option_map pred i) d'). destruct (update_parts path parts (option_map pred i) d') as [ws' r]. cbn [fst] in *.
          apply Forall_app. split; [|exact IH]. apply Forall_cons; [reflexivity|]. apply Forall_cons; [reflexivity|]. apply Forall_nil.
        - specialize (IH (option_map pred i) d'). destruct (update_parts path parts (option_map pred i) d') as [ws' r]. exact IH. }
      destruct i as [[|i]|]; cbn [LifeModel.update_parts]; [constructor|exact G|exact G].
  Qed.
  Lemma opened_writes : forall out, Forall (fun w : write => fst w = abspath out /\ out <> standard_output) (opened abspath out).
  Proof. intros out. unfold opened. destruct (text_eqb_spec out standard_output); [constructor|]. apply Forall_cons; [auto|apply Forall_nil]. Qed.
  Lemma basis_writes : forall files base out b, fst (basis default abspath parse supported files base out b) = [] \/ fst (basis default abspath parse supported files base out b) = opened abspath out.
  Proof.
    intros. unfold basis. destruct base as [p|]; [|auto]. match goal with |- context [match ?q with Some _ => _ | None => _ end] => destruct q end; [auto|]. destruct b; auto.
  Qed.
  Lemma target_out : forall out, out <> standard_output -> target out = abspath out.
  Proof. intros out H. unfold target, output_name. now rewrite text_eqb_neq. Qed.
  Lemma main_writes : forall files base out b parts i, Forall (fun w : write => fst w = target out) (fst (main files base out b parts i)).
  Proof.
    intros. assert (B : Forall (fun w : write => fst w = target out) (fst (basis default abspath parse supported files base out b))).
    { destruct (basis_writes files base out b) as [->| ->]; [constructor|]. eapply Forall_impl; [|apply opened_writes]. intros w [-> H]. now rewrite target_out. }
    unfold LifeModel.main. destruct (basis _ _ _ _ files base out b) as [ws [d|e]]; cbn [fst] in *; [|exact B].
    pose proof (parts_writes (output_name out) parts i d) as P. destruct (update_parts (output_name out) parts i d) as [ws' [d'|e]]; cbn [fst] in *.
    - destruct (dump abspath yaml_dump d' None (Some (output_name out))) as [ws''|] eqn:E; cbn [fst].
      + destruct (dump_writes _ _ _ _ E) as (t & p & _ & Hp & ->). apply save_path in Hp. subst p.
        apply Forall_app. split; [exact B|]. apply Forall_app. split; [exact P|]. apply Forall_cons; [reflexivity|]. apply Forall_cons; [reflexivity|]. apply Forall_nil.
      + apply Forall_app. auto.
    - apply Forall_app. auto.
  Qed.

  (** What is written: nothing, or a description that was reached *)
  Definition reached (changes : list (data -> res data)) (d : data) (w : write) : Prop :=
    snd w = [] \/ exists k d', after_parts changes k d = Ok d' /\ yaml_dump d' = Ok (snd w).
  Lemma parts_reached : forall path parts i d, Forall (reached (map p_change parts) d) (fst (update_parts path parts i d)).
  Proof.
    intros path parts. induction parts as [|x parts IH]; intros i d.
    - destruct i as [[|i]|]; constructor.
    - assert (G : forall j, Forall (reached (map p_change (x :: parts)) d)
        (fst match p_change x d with
             | Err e => ([], Err e)
             | Ok d' => match (if p_saved x then dump abspath yaml_dump d' None (Some path) else Ok []) with
                        | Err e => ([], Err e)
                        | Ok ws => let (ws', r) := update_parts path parts j d' in (ws ++ ws', r)
                        end
             end)).
      { intros j. destruct (p_change x d) as [d'|] eqn:Ex; [|constructor].
        assert (R : Forall (reached (map p_change (x :: parts)) d) (fst (update_parts path parts j d'))).
        { eapply Forall_impl; [|apply IH]. intros w [H|(k & d2 & H & H')]; [now left|]. right. exists (S k), d2. cbn. now rewrite Ex. }
        destruct (p_saved x).
        - destruct (dump abspath yaml_dump d' None (Some path)) as [ws|] eqn:E; [|constructor].
          destruct (dump_writes _ _ _ _ E) as (t & p & Ht & _ & ->). destruct (update_parts path parts j d') as [ws' r]. cbn [fst] in *.
          apply Forall_app. split; [|exact R]. apply Forall_cons; [now left|]. apply Forall_cons; [|apply Forall_nil].
          right. exists 1%nat, d'. cbn. rewrite Ex. cbn. now destruct (map p_change parts).
        - destruct (update_parts path parts j d') as [ws' r]. exact R. }
      destruct i as [[|i]|]; cbn [LifeModel.update_parts]; [constructor|apply G|apply G].
  Qed.
  (** The description at the end of the parts *)
  Definition done (parts : list (@part data)) (i : option nat) : nat := match i with Some k => Nat.min k (List.length parts) | None => List.length parts end.
  Lemma parts_done : forall path parts i d ws d', update_parts path parts i d = (ws, Ok d') -> after_parts (map p_change parts) (done parts i) d = Ok d'.
  Proof.
    intros path parts. induction parts as [|x parts IH]; intros i d ws d' H.
    - destruct i as [[|i]|]; cbn in H; injection H as _ <-; cbn; try rewrite Nat.min_0_r; reflexivity.
    - assert (G : forall j, match p_change x d with
             | Err e => ([], Err e)
             | Ok d' => match (if p_saved x then dump abspath yaml_dump d' None (Some path) else Ok []) with
                        | Err e => ([], Err e)
                        | Ok ws => let (ws', r) := update_parts path parts j d' in (ws ++ ws', r)
                        end
             end = (ws, Ok d') -> exists d1 ws1, p_change x d = Ok d1 /\ update_parts path parts j d1 = (ws1, Ok d')).
      { intros j Hj. destruct (p_change x d) as [d1|]; [|discriminate]. destruct (if p_saved x then _ else _) as [ws1|]; [|discriminate].
        destruct (update_parts path parts j d1) as [ws2 r] eqn:E. injection Hj as _ ->. exists d1, ws2. auto. }
      destruct i as [[|i]|]; cbn [LifeModel.update_parts option_map pred] in H.
      + injection H as _ <-. reflexivity.
      + destruct (G _ H) as (d1 & ws1 & Ex & E). specialize (IH _ _ _ _ E). cbn [done List.length map after_parts Nat.min]. cbn [done] in IH. now rewrite Ex.
      + destruct (G _ H) as (d1 & ws1 & Ex & E). specialize (IH _ _ _ _ E). cbn [done List.length map after_parts]. cbn [done] in IH. now rewrite Ex.
  Qed.
  Lemma after_parts_min : forall (changes : list (data -> res data)) k d, after_parts changes (Nat.min k (List.length changes)) d = after_parts changes k d.
  Proof. induction changes as [|f l IH]; intros [|k] d; cbn; try reflexivity. destruct (f d); cbn; [apply IH|reflexivity]. Qed.
  (** Nothing but an empty file is written if YAML can not be written. *)
  Lemma parts_no_yaml : forall path parts i d, (forall d, exists e, yaml_dump d = Err e) -> fst (update_parts path parts i d) = [].
  Proof.
    intros path parts. induction parts as [|x parts IH]; intros i d N.
    - destruct i as [[|i]|]; reflexivity.
    - assert (G : forall j, fst match p_change x d with
             | Err e => ([], Err e)
             | Ok d' => match (if p_saved x then dump abspath yaml_dump d' None (Some path) else Ok []) with
                        | Err e => ([], Err e)
                        | Ok ws => let (ws', r) := update_parts path parts j d' in (ws ++ ws', r)
                        end
             end = []).
      { intros j. destruct (p_change x d) as [d'|]; [|reflexivity]. unfold dump. destruct (N d') as [e ->]. cbn. destruct (p_saved x); [reflexivity|].
        specialize (IH j d' N). destruct (update_parts path parts j d') as [ws r]. exact IH. }
      destruct i as [[|i]|]; cbn [LifeModel.update_parts]; [reflexivity|apply G|apply G].
  Qed.
End Life.

(** ** Ages *)
Definition tree_files (t : tree) : list (option Z) := match t with Dir f _ => f end.
Definition tree_dirs (t : tree) : list tree := match t with Dir _ d => d end.
Lemma latest_files_spec : forall fs m, m <= fold_left latest_file fs m
  /\ (forall x, In (Some x) fs -> x <= fold_left latest_file fs m)
  /\ (fold_left latest_file fs m = m \/ In (Some (fold_left latest_file fs m)) fs).
Proof.
  induction fs as [|f fs IH]; intros m; cbn [fold_left]; [split; [lia|split; [intros x []|auto]]|].
  destruct (IH (latest_file m f)) as (A & B & C). assert (M : m <= latest_file m f) by (destruct f; cbn; lia).
  split; [lia|]. split.
  - intros x [->|H]; [cbn [latest_file] in *; lia|now apply B].
  - destruct C as [C|C]; [|right; now right]. destruct f as [y|]; cbn [latest_file] in *; [|now left].
    destruct (Z.max_spec m y) as [[L E]|[L E]]; rewrite E in C; [right; left; now rewrite E, C|left; rewrite E; exact C].
Qed.
Section TreeInd.
  Variable P : tree -> Prop.
  Hypothesis H : forall f ds, Forall P ds -> P (Dir f ds).
  Fixpoint tree_ind' (t : tree) : P t :=
    match t with
    | Dir f ds => H f ds ((fix go l : Forall P l := match l with [] => Forall_nil P | x :: l' => Forall_cons x (tree_ind' x) (go l') end) ds)
    end.
End TreeInd.
Notation found := (found tree tree_files tree_dirs).
Lemma latest_spec : forall t m, m <= latest t m /\ (forall x, found t x -> x <= latest t m) /\ (latest t m = m \/ found t (latest t m)).
Proof.
  induction t as [fs ds IH] using tree_ind'. intros m. cbn [latest]. destruct (latest_files_spec fs m) as (A & B & C).
  remember (fold_left latest_file fs m) as m1 eqn:E1.
  assert (D : forall l m, Forall (fun t => forall m, m <= latest t m /\ (forall x, found t x -> x <= latest t m) /\ (latest t m = m \/ found t (latest t m))) l ->
    let r := fold_left (fun m d => latest d m) l m in
    m <= r /\ (forall d x, In d l -> found d x -> x <= r) /\ (r = m \/ exists d, In d l /\ found d r)).
  { clear. induction l as [|t l IH]; intros m F; cbn; [split; [lia|split; [intros d x []|auto]]|]. inversion F as [|? ? Ht Fl]; subst.
    destruct (IH (latest t m) Fl) as (A & B & C). destruct (Ht m) as (A' & B' & C'). split; [lia|]. split.
    - intros d x [<-|I] Fx; [specialize (B' x Fx); lia|now apply (B d)].
    - destruct C as [C|(d & I & Fd)]; [|right; exists d; auto]. rewrite C. destruct C' as [C'|C']; [now left|right; exists t; auto]. }
  destruct (D ds m1 IH) as (A' & B' & C'). cbv zeta in *. split; [lia|]. split.
  - intros x Fx. inversion Fx as [? ? I|? t' ? I F']; subst; cbn in I; [specialize (B x I); lia|now apply (B' t')].
  - destruct C' as [C'|(d & I & Fd)].
    + rewrite C'. destruct C as [C|C]; [now left|]. right. now apply found_here.
    + right. now apply (found_below _ _ _ _ d).
Qed.
