From Coq Require Import Ascii String Lia.
From Verif Require Import PyBase IacaModel IacaSpec.
Local Open Scope string_scope.
Local Open Scope list_scope.

(** ** Paths *)
Lemma path_eqb_true : forall p q, path_eqb p q = true <-> p = q.
Proof. intros p q. unfold path_eqb. destruct (list_eq_dec string_dec p q); split; congruence. Qed.
Lemma path_eqb_refl : forall p, path_eqb p p = true.
Proof. intros p. now apply path_eqb_true. Qed.
Lemma path_eqb_false : forall p q, path_eqb p q = false <-> p <> q.
Proof. intros p q. unfold path_eqb. destruct (list_eq_dec string_dec p q); split; congruence. Qed.
Lemma path_eqb_app : forall b p q, path_eqb (b ++ p) (b ++ q) = path_eqb p q.
Proof.
  intros b p q. destruct (path_eqb p q) eqn:E.
  - apply path_eqb_true in E. subst. apply path_eqb_refl.
  - apply path_eqb_false in E. apply path_eqb_false. intros H. apply app_inv_head in H. auto.
Qed.
Lemma put_same : forall s p n, put s p n p = Some n.
Proof. intros. unfold put. now rewrite path_eqb_refl. Qed.
Lemma put_other : forall s p n q, q <> p -> put s p n q = s q.
Proof. intros s p n q H. unfold put. apply path_eqb_false in H. now rewrite H. Qed.
Lemma below_refl : forall b, below b b.
Proof. intros b. exists []. now rewrite app_nil_r. Qed.
Lemma below_app : forall b q, below b (b ++ q).
Proof. intros b q. now exists q. Qed.
Lemma below_common : forall (a b p : path), below a p -> below b p -> below a b \/ below b a.
Proof.
  induction a as [|x a IH]; intros b p [q ->] [r H].
  - left. now exists b.
  - destruct b as [|y b]; [right; now exists (x :: a)|]. injection H as -> H.
    destruct (IH b (a ++ q)) as [[t ->] | [t ->]]; [now exists q | now exists r | left; now exists t | right; now exists t].
Qed.

(** ** Steps *)
Definition target (o : op) : option path := match o with Mkdir p | Copy p _ | Chmod p | Truncate p | Write p _ | Symlink p _ => Some p | Fail _ => None end.
Definition within (b : path) (o : op) : Prop := forall p, target o = Some p -> below b p.
Lemma apply_other : forall o s s' p, apply o s = Ok s' -> target o <> Some p -> s' p = s p.
Proof.
  intros o s s' p E H. destruct o as [q|q c|q|q|q c|q t|e]; cbn in E, H;
  try (destruct (s q) as [[|x c'|t']|]); try discriminate E; injection E as <-; try reflexivity; apply put_other; congruence.
Qed.
Lemma perform_other : forall os s s' p, perform os s = Ok s' -> (forall o, In o os -> target o <> Some p) -> s' p = s p.
Proof.
  induction os as [|o os IH]; intros s s' p E H; cbn in E; [now injection E as <-|].
  destruct (apply o s) as [s1|] eqn:A; cbn in E; [|discriminate].
  rewrite (IH s1 s' p E) by (intros o' I'; apply H; now right). apply (apply_other o s s1 p A). apply H. now left.
Qed.
Lemma perform_app : forall os os' s, perform (os ++ os') s = (do s1 <- perform os s; perform os' s1).
Proof. induction os as [|o os IH]; intros os' s; cbn; [reflexivity|]. destruct (apply o s); cbn; auto. Qed.
Definition agree (b : path) (s t : fs) : Prop := forall p, below b p -> s p = t p.
Lemma apply_agree : forall b o s t t', within b o -> agree b s t -> apply o t = Ok t' -> exists s', apply o s = Ok s' /\ agree b s' t'.
Proof.
  intros b o s t t' W A E.
  assert (P : forall p n, agree b (put s p n) (put t p n)).
  { intros p n q B. unfold put. destruct (path_eqb q p); [reflexivity | now apply A]. }
  destruct o as [q|q c|q|q|q c|q u|e]; cbn in E |- *; try (rewrite (A q (W q eq_refl)); destruct (t q) as [[|x c'|t2]|]);
  try discriminate E; injection E as <-; eexists; (split; [reflexivity|]); auto.
Qed.
(** ** What the operations of an installation change *)
Section Proofs.
  Variables home package : path.
  Variable system : string.
  Variable fix_script : string -> string.
  Notation install_version := (install_version fix_script).
  Notation install := (install fix_script).
  Notation main := (main home package system fix_script).
  Notation find_iaca := (find_iaca home package system).
  Notation location := (location home package system).
  Notation step := (step home package system fix_script).
  Notation later := (later home package system fix_script).

  Lemma version_within : forall b v dir script a o, In o (install_version b v dir script a) -> within (b ++ [v]) o.
  Proof.
    intros b v dir script a o H p T. unfold IacaModel.install_version in H. destruct a as [z|e]; [|destruct H as [<- | []]; discriminate T].
    assert (B : forall q, below (b ++ [v]) (b ++ v :: q)). { intros q. exists q. now rewrite <- app_assoc. }
    destruct (members dir z) as [|e m]; [destruct H as [<- | []]; discriminate T|]. remember (e :: m) as l eqn:L. clear L e m.
    destruct H as [<- | H]; [injection T as <-; apply below_refl|].
    apply in_app_or in H. destruct H as [H | H].
    - apply in_map_iff in H. destruct H as (e & <- & _). injection T as <-. apply B.
    - destruct script; cbn [In] in H.
      + destruct H as [<- | [<- | [<- | [<- | []]]]]; cbn in T; try (injection T as <-; apply B).
        destruct (content l ["bin"; "iaca.sh"]); cbn in T; [injection T as <-; apply B | discriminate].
      + destruct H as [<- | []]. injection T as <-. apply B.
  Qed.
  Lemma install_cases : forall b o a x, In x (install b o a) -> within b x /\
    (In x [Symlink (b ++ ["bin"; "iaca3.0"]) [".."; "v3.0"; "iaca"]] \/ target x <> Some (b ++ ["bin"; "iaca3.0"])).
  Proof.
    intros b o a x H.
    assert (V : forall v dir script ar, v <> "bin" -> In x (install_version b v dir script ar) -> within b x /\ target x <> Some (b ++ ["bin"; "iaca3.0"])).
    { intros v dir script ar NB I'. apply version_within in I'. split.
      - intros p T. destruct (I' p T) as [q ->]. exists ([v] ++ q). now rewrite <- app_assoc.
      - intros T. destruct (I' _ T) as [q E]. rewrite <- app_assoc in E. apply app_inv_head in E. injection E as E _. congruence. }
    assert (K : forall p, In x [Mkdir p] \/ (exists t, In x [Symlink p t]) -> forall q, p = b ++ q -> q <> ["bin"; "iaca3.0"] -> within b x /\ target x <> Some (b ++ ["bin"; "iaca3.0"])).
    { intros p C q -> D.
      assert (T : target x = Some (b ++ q)) by (destruct C as [[<- | []] | [t [<- | []]]]; reflexivity).
      unfold within. rewrite T. split; [intros p E; injection E as <-; apply below_app|].
      intros E. injection E as E. apply app_inv_head in E. auto. }
    unfold IacaModel.install in H. destruct H as [<- | H].
    { split; [intros p T; injection T as <-; apply below_refl|]. right. cbn. intros E. injection E as E.
      rewrite <- (app_nil_r b) in E at 1. apply app_inv_head in E. discriminate. }
    repeat (apply in_app_or in H; destruct H as [H | H]; [apply V in H; [|discriminate]; tauto|]).
    cbn [In] in H. destruct H as [<- | [<- | [<- | [<- | [<- | []]]]]].
    - destruct (K (b ++ ["bin"])) with (q := ["bin"]) as [X Y]; auto; [left; now left | discriminate].
    - destruct (K (b ++ ["bin"; "iaca2.1"])) with (q := ["bin"; "iaca2.1"]) as [X Y]; auto; [right; eexists; now left | discriminate].
    - destruct (K (b ++ ["bin"; "iaca2.2"])) with (q := ["bin"; "iaca2.2"]) as [X Y]; auto; [right; eexists; now left | discriminate].
    - destruct (K (b ++ ["bin"; "iaca2.3"])) with (q := ["bin"; "iaca2.3"]) as [X Y]; auto; [right; eexists; now left | discriminate].
    - split; [intros p T; injection T as <-; apply below_app | left; now left].
  Qed.
  (** The link which is looked for last is made in the last step. *)
  Lemma install_last : forall b o a, exists before, install b o a = before ++ [Symlink (b ++ ["bin"; "iaca3.0"]) [".."; "v3.0"; "iaca"]] /\
    forall x, In x before -> target x <> Some (b ++ ["bin"; "iaca3.0"]).
  Proof.
    intros b o a. unfold IacaModel.install. eexists. split.
    - match goal with |- ?m :: ?v1 ++ ?v2 ++ ?v3 ++ ?v4 ++ [?d; ?l1; ?l2; ?l3; ?l4] = _ =>
        transitivity ((m :: v1 ++ v2 ++ v3 ++ v4 ++ [d; l1; l2; l3]) ++ [l4]) end; [|reflexivity].
      cbn [app]. rewrite <- !app_assoc. reflexivity.
    - intros x H T.
      assert (I' : In x (install b o a)).
      { unfold IacaModel.install. destruct H as [<- | H]; [now left|]. right. repeat rewrite in_app_iff in H. repeat rewrite in_app_iff. cbn [In] in H |- *. tauto. }
      destruct (install_cases b o a x I') as [_ [[<- | []] | D]]; [|contradiction].
      destruct H as [H | H]; [discriminate|].
      repeat (apply in_app_or in H; destruct H as [H | H]; [apply version_within in H; destruct (H _ eq_refl) as [q E]; rewrite <- app_assoc in E; apply app_inv_head in E; discriminate|]).
      cbn [In] in H. destruct H as [H | [H | [H | [H | []]]]]; try discriminate; injection H as H; apply app_inv_head in H; discriminate.
  Qed.

  (** ** Locations *)
  Lemma get_os_own : forall o, get_os system = Ok o <-> own system o.
  Proof.
    intros o. unfold get_os, own. destruct (String.eqb_spec system "Darwin") as [-> | D].
    - split; [intros E; injection E as <-; now right | intros [[H _] | [_ ->]]; [discriminate | reflexivity]].
    - destruct (String.eqb_spec system "Linux") as [-> | L].
      + split; [intros E; injection E as <-; now left | intros [[_ ->] | [H _]]; [reflexivity | discriminate]].
      + split; [discriminate | intros [[H _] | [H _]]; congruence].
  Qed.
  Lemma own_unique : forall o o', own system o -> own system o' -> o = o'.
  Proof. unfold own. intros o o' [[-> ->] | [-> ->]] [[H ->] | [H ->]]; congruence. Qed.
  Lemma search_locations : forall ps, search_path home package system = Ok ps -> exists o, own system o /\ ps = [home ++ [".kerncraft"; "iaca"; o]; package ++ ["iaca"; o]].
  Proof.
    intros ps. unfold search_path. destruct (get_os system) as [o|] eqn:E; cbn; [|discriminate]. intros H. injection H as <-. exists o.
    split; [now apply get_os_own | reflexivity].
  Qed.
  Definition usable_there (s : fs) (b : path) : bool := forallb (fun r => exists_ s (b ++ ["bin"; r])) requires.
  Lemma find_iaca_ok : forall s p, find_iaca s = Ok p -> exists b, location b /\ p = b ++ ["bin"] /\ usable_there s b = true /\
    (in_package package system b -> forall a, in_home home system a -> in_home home system b \/ usable_there s a = false).
  Proof.
    intros s p. unfold IacaModel.find_iaca. destruct (search_path home package system) as [ps|] eqn:E; cbn [bind]; [|discriminate].
    apply search_locations in E. destruct E as (o & O & ->). cbn [find].
    fold (usable_there s (home ++ [".kerncraft"; "iaca"; o])). fold (usable_there s (package ++ ["iaca"; o])).
    destruct (usable_there s (home ++ [".kerncraft"; "iaca"; o])) eqn:H.
    - intros X. injection X as <-. eexists. split; [left; exists o; auto|]. split; [reflexivity|]. split; [exact H|]. intros _ a _. left. exists o; auto.
    - destruct (usable_there s (package ++ ["iaca"; o])) eqn:P; [|discriminate].
      intros X. injection X as <-. eexists. split; [right; exists o; auto|]. split; [reflexivity|]. split; [exact P|]. intros _ a (o' & O' & ->). right.
      now rewrite (own_unique o' o O' O).
  Qed.
  Lemma find_iaca_none : forall s e, find_iaca s = Err e -> (e = AssertionError /\ forall o, ~ own system o) \/ (e = RuntimeError /\ (exists o, own system o) /\ forall b, location b -> usable_there s b = false).
  Proof.
    intros s e. unfold IacaModel.find_iaca, search_path. destruct (get_os system) as [o|x] eqn:E; cbn [bind].
    - apply get_os_own in E. cbn [find].
      fold (usable_there s (home ++ [".kerncraft"; "iaca"; o])). fold (usable_there s (package ++ ["iaca"; o])).
      destruct (usable_there s (home ++ [".kerncraft"; "iaca"; o])) eqn:H; [discriminate|].
      destruct (usable_there s (package ++ ["iaca"; o])) eqn:P; [discriminate|].
      intros X. injection X as <-. right. split; [reflexivity|]. split; [now exists o|].
      intros b [(o' & O' & ->) | (o' & O' & ->)]; now rewrite (own_unique o' o O' E).
    - intros X. injection X as <-. left. unfold get_os in E. destruct (String.eqb_spec system "Darwin"); [discriminate|].
      destruct (String.eqb_spec system "Linux"); [discriminate|]. injection E as <-. split; [reflexivity|]. intros o [[H _] | [H _]]; congruence.
  Qed.
  Lemma usable_iff : forall s b, usable_there s b = true <-> forall r, In r requires -> exists n, resolve s (b ++ ["bin"; r]) = Some n.
  Proof.
    intros s b. unfold usable_there. rewrite forallb_forall. unfold exists_.
    split; intros H r I'; specialize (H r I'); destruct (resolve s (b ++ ["bin"; r])) as [n|]; eauto; try discriminate. destruct H; discriminate.
  Qed.
  Lemma remove_first_in : forall x y l, In y (remove_first x l) -> In y l.
  Proof. intros x y l. induction l as [|a l IH]; cbn; [auto|]. destruct (String.eqb a x); cbn; [auto|]. intros [-> | H]; auto. Qed.
  Lemma main_install : forall args permitted archives s b steps, main args permitted archives s = Install b steps ->
    location b /\ s b = None /\ exists o, In o ["lin64"; "mac"] /\ (In o args \/ own system o) /\ steps = install b o archives.
  Proof.
    intros args permitted archives s b steps H.
    assert (G : forall l, (forall x, In x l -> In x args) ->
      match l with
      | l0 :: rest =>
          if String.eqb l0 licence then
            match (match rest with o :: _ => if (String.eqb o "lin64" || String.eqb o "mac")%bool then Ok o else Err AssertionError | [] => get_os system end) with
            | Err e => Raise e
            | Ok o =>
                match search_path home package system with
                | Err e => Raise e
                | Ok ps => match find (fun p => match apply (Mkdir p) s with Ok _ => permitted p | Err _ => false end) (rev ps) with Some b => Install b (install b o archives) | None => Exit 1 end
                end
            end
          else Exit 1
      | [] => Exit 1
      end = Install b steps -> location b /\ s b = None /\ exists o, In o ["lin64"; "mac"] /\ (In o args \/ own system o) /\ steps = install b o archives).
    { intros [|l0 rest] L X; [discriminate|]. destruct (String.eqb l0 licence); [|discriminate].
      destruct (match rest with o :: _ => if (String.eqb o "lin64" || String.eqb o "mac")%bool then Ok o else Err AssertionError | [] => get_os system end) as [o|] eqn:O; [|discriminate].
      destruct (search_path home package system) as [ps|] eqn:P; [|discriminate]. apply search_locations in P. destruct P as (o' & O' & ->).
      destruct (find _ _) as [b'|] eqn:F; [|discriminate]. injection X as -> <-. apply find_some in F. destruct F as [I' F]. apply in_rev in I'.
      split; [destruct I' as [<- | [<- | []]]; [left | right]; exists o'; auto|]. split; [cbn [apply] in F; destruct (s b); [discriminate | reflexivity]|].
      exists o. destruct rest as [|r rest].
      - apply get_os_own in O. split; [destruct O as [[_ ->] | [_ ->]]; cbn; auto|]. split; [now right | reflexivity].
      - destruct (String.eqb_spec r "lin64") as [-> | N1]; cbn in O.
        + injection O as <-. split; [now left|]. split; [left; apply L; right; now left | reflexivity].
        + destruct (String.eqb_spec r "mac") as [-> | N2]; cbn in O; [|discriminate]. injection O as <-.
          split; [right; now left|]. split; [left; apply L; right; now left | reflexivity]. }
    unfold IacaModel.main in H. destruct (find_iaca s) as [p|e].
    - destruct (existsb _ args); [|discriminate]. apply (G _ (fun x => remove_first_in _ x args) H).
    - destruct e; try discriminate. apply (G args (fun x X => X) H).
  Qed.

  (** ** Invariant of all histories *)
  Definition nothing : fs := fun _ => None.
  Definition untouched (st : state) (b : path) : Prop := agree b nothing (files st) /\ ~ In b (map fst (running st)).
  Definition begun (st : state) (b : path) : Prop := exists args archives o did rest s,
    In (Call b args archives) (calls st) /\ In o ["lin64"; "mac"] /\ (In o args \/ own system o) /\ install b o archives = did ++ rest /\ did <> [] /\
    perform did nothing = Ok s /\ agree b s (files st) /\ forall l, In (b, l) (running st) -> l = rest.
  Definition invariant (st : state) : Prop :=
    NoDup (map fst (running st)) /\ (forall b l, In (b, l) (running st) -> location b) /\ forall b, location b -> untouched st b \/ begun st b.
  Hypothesis A : apart home package system.
  Lemma locations_apart : forall a b, location a -> location b -> a <> b -> forall p, below a p -> ~ below b p.
  Proof.
    intros a b La Lb N p Ba Bb. destruct La as [Ha | Pa]; destruct Lb as [Hb | Pb].
    - destruct Ha as (o & O & ->), Hb as (o' & O' & ->). apply N. now rewrite (own_unique o o').
    - destruct (below_common a b p Ba Bb); destruct (A a b Ha Pb); auto.
    - destruct (below_common a b p Ba Bb); destruct (A b a Hb Pa); auto.
    - destruct Pa as (o & O & ->), Pb as (o' & O' & ->). apply N. now rewrite (own_unique o o').
  Qed.
  (** A step of an installation in [b] changes nothing in the other location. *)
  Lemma apply_elsewhere : forall b b' o s s', within b o -> location b -> location b' -> b' <> b -> apply o s = Ok s' -> agree b' s s'.
  Proof.
    intros b b' o s s' W L L' N E p B. symmetry. apply (apply_other o s s' p E). intros T. apply (locations_apart b' b L' L N p B). apply (W p T).
  Qed.
  Lemma agree_trans : forall b s t u, agree b s t -> agree b t u -> agree b s u.
  Proof. intros b s t u H K p B. rewrite (H p B). apply (K p B). Qed.
  Lemma did_within : forall b o a did rest x, install b o a = did ++ x :: rest -> within b x.
  Proof. intros b o a did rest x E. apply (install_cases b o a x). rewrite E. apply in_or_app. right. now left. Qed.
  Lemma step_invariant : forall st st', step st st' -> invariant st -> invariant st'.
  Proof.
    intros st st' S (ND & RL & LO). destruct S as [st args permitted archives b first rest s' M E | st l1 l2 b o rest s' R E | st s' E]; cbn in *.
    - apply main_install in M. destruct M as (Lb & SB & o & OO & OA & EI).
      assert (UN : untouched st b).
      { destruct (LO b Lb) as [U | (ar & az & o1 & did & rs & s & _ & _ & _ & EI' & NE & PE & AG & _)]; [exact U|]. exfalso.
        destruct did as [|x did]; [contradiction|]. assert (x = Mkdir b) by (unfold IacaModel.install in EI'; injection EI' as <- _; reflexivity). subst x.
        assert (K : exists n, s b = Some n).
        { cbn [perform apply nothing bind] in PE. assert (G : forall l s1 s2 p, perform l s1 = Ok s2 -> (exists n, s1 p = Some n) -> exists n, s2 p = Some n).
          { induction l as [|y l IH]; intros s1 s2 p P X; cbn in P; [now injection P as <-|]. destruct (apply y s1) as [s3|] eqn:A1; cbn in P; [|discriminate].
            apply (IH s3 s2 p P). destruct (target y) as [q|] eqn:T.
            - destruct (list_eq_dec string_dec p q) as [-> | D].
              + destruct y as [w|w c|w|w|w c|w t|e]; cbn in T, A1; try discriminate T; injection T as ->;
                try (destruct (s1 q) as [[|z c'|t']|] eqn:Q); try discriminate A1; injection A1 as <-; try (rewrite put_same; eauto); eauto.
              + rewrite (apply_other y s1 s3 p A1) by congruence. exact X.
            - rewrite (apply_other y s1 s3 p A1) by congruence. exact X. }
          apply (G did _ s b PE). exists Dir. apply put_same. }
        destruct K as [n K]. rewrite <- (AG b (below_refl b)) in SB. congruence. }
      assert (W : within b first). { apply (did_within b o archives [] rest first). now rewrite <- EI. }
      split; [cbn; constructor; [apply UN | exact ND]|]. split.
      { intros b' l [H | H]; [injection H as -> _; exact Lb | apply (RL b' l H)]. }
      intros b' L'. destruct (list_eq_dec string_dec b' b) as [-> | D].
      + right. destruct (apply_agree b first nothing (files st) s' W (proj1 UN) E) as (s & E' & AG).
        exists args, archives, o, [first], rest, s. cbn. rewrite E'. cbn. repeat split; auto; [discriminate|].
        intros l [H | H]; [now injection H as <-|]. exfalso. apply (proj2 UN). apply (in_map fst _ _ H).
      + destruct (LO b' L') as [[U1 U2] | (ar & az & o1 & did & rs & s & C1 & C2 & C3 & C4 & C5 & C6 & C7 & C8)].
        * left. split; [apply (agree_trans b' _ _ _ U1), (apply_elsewhere b b' first _ _ W Lb L' D E)|]. cbn. intros [H | H]; [congruence | auto].
        * right. exists ar, az, o1, did, rs, s. cbn. repeat split; auto; [apply (agree_trans b' _ _ _ C7), (apply_elsewhere b b' first _ _ W Lb L' D E)|].
          intros l [H | H]; [injection H as <- _; contradiction | auto].
    - assert (Lb : location b). { apply (RL b (o :: rest)). rewrite R. apply in_or_app. right. now left. }
      assert (EM : map fst (l1 ++ (b, rest) :: l2) = map fst (running st)). { rewrite R, !map_app. reflexivity. }
      assert (NB : forall l, ~ In (b, l) l1 /\ ~ In (b, l) l2).
      { intros l. rewrite R, map_app in ND. cbn in ND. apply NoDup_remove_2 in ND. rewrite in_app_iff in ND.
        split; intros H; apply (in_map fst) in H; cbn in H; tauto. }
      destruct (LO b Lb) as [[_ U] | (ar & az & o1 & did & rs & s & C1 & C2 & C3 & C4 & C5 & C6 & C7 & C8)].
      { exfalso. apply U. rewrite R, map_app. apply in_or_app. right. now left. }
      assert (RS : o :: rest = rs). { apply C8. rewrite R. apply in_or_app. right. now left. } subst rs.
      assert (W : within b o) by apply (did_within b o1 az did rest o C4).
      split; [change (NoDup (map fst (l1 ++ (b, rest) :: l2))); now rewrite EM|]. split.
      { intros b' l H. apply in_app_or in H. destruct H as [H | [H | H]].
        - apply (RL b' l). rewrite R. apply in_or_app. now left.
        - now injection H as <- _.
        - apply (RL b' l). rewrite R. apply in_or_app. right. now right. }
      intros b' L'. destruct (list_eq_dec string_dec b' b) as [-> | D].
      + right. destruct (apply_agree b o s (files st) s' W C7 E) as (s2 & E2 & AG).
        exists ar, az, o1, (did ++ [o]), rest, s2. repeat split; auto.
        * rewrite <- app_assoc. exact C4.
        * intros H. apply app_eq_nil in H. destruct H. discriminate.
        * rewrite perform_app, C6. cbn. now rewrite E2.
        * intros l H. apply in_app_or in H. destruct (NB l). destruct H as [H | [H | H]]; [contradiction | now injection H as <- | contradiction].
      + assert (EL : agree b' (files st) s') by apply (apply_elsewhere b b' o _ _ W Lb L' D E).
        destruct (LO b' L') as [[U1 U2] | (ar' & az' & o2 & did' & rs' & t & D1 & D2 & D3 & D4 & D5 & D6 & D7 & D8)].
        * left. split; [apply (agree_trans b' _ _ _ U1 EL)|]. change (~ In b' (map fst (l1 ++ (b, rest) :: l2))). now rewrite EM.
        * right. exists ar', az', o2, did', rs', t. repeat split; auto; [apply (agree_trans b' _ _ _ D7 EL)|].
          intros l H. apply D8. rewrite R. apply in_app_or in H. apply in_or_app. destruct H as [H | [H | H]]; [now left | injection H as -> _; contradiction | right; now right].
    - split; [exact ND|]. split; [exact RL|]. intros b L.
      assert (EL : agree b (files st) s') by (intros p B; symmetry; now apply (E b)).
      destruct (LO b L) as [[U1 U2] | (ar & az & o & did & rs & s & C1 & C2 & C3 & C4 & C5 & C6 & C7 & C8)].
      + left. split; [apply (agree_trans b _ _ _ U1 EL) | exact U2].
      + right. exists ar, az, o, did, rs, s. repeat split; auto. apply (agree_trans b _ _ _ C7 EL).
  Qed.
  Lemma later_invariant : forall st st', later st st' -> invariant st -> invariant st'.
  Proof. intros st st' H. induction H as [|st1 st2 H IH S]; [auto|]. intros I'. apply (step_invariant st1 st2 S). auto. Qed.
  Lemma reachable_invariant : forall st, reachable home package system fix_script st -> invariant st.
  Proof.
    intros st (st0 & (R & C & F) & L). apply (later_invariant st0 st L). split; [rewrite R; constructor|]. split; [rewrite R; intros b l []|].
    intros b Lb. left. split; [intros p B; symmetry; apply (F b p Lb B) | rewrite R; intros []].
  Qed.

  (** ** Contents *)
  Lemma content_last : forall z e q, content (z ++ [e]) q = if path_eqb (fst e) q then Some (snd e) else content z q.
  Proof. intros z e q. unfold content. rewrite rev_app_distr. cbn. destruct (path_eqb (fst e) q); reflexivity. Qed.
  Lemma hidden_spec : forall n, hidden n = false <-> forall r, n <> String "."%char r.
  Proof.
    intros [|c n]; cbn; [split; [discriminate | reflexivity]|]. destruct (Ascii.eqb_spec c "."%char) as [-> | D].
    - split; [discriminate|]. intros H. destruct (H n eq_refl).
    - split; [intros _ r E; congruence | reflexivity].
  Qed.
  Lemma visible_spec : forall q, existsb hidden q = false <-> visible q.
  Proof.
    intros q. induction q as [|n q IH]; cbn; [split; [intros _ n [] | reflexivity]|]. rewrite Bool.orb_false_iff, IH, hidden_spec. unfold visible. split.
    - intros [H K] m [<- | I']; [exact H | now apply K].
    - intros H. split; [apply H; now left | intros m I'; apply H; now right].
  Qed.
  Lemma content_archived : forall dir z q c, content (members dir z) q = Some c <-> archived z dir q c.
  Proof.
    intros dir z. induction z as [|e z IH] using rev_ind; intros q c.
    - split; [discriminate|]. intros (_ & _ & z1 & z2 & E & _). destruct z1; discriminate.
    - unfold members in *. rewrite flat_map_app. cbn [flat_map]. rewrite app_nil_r. destruct e as [n ce]. cbn [fst snd].
      (* the last entry has the name looked for, or not *)
      assert (K : forall m, (q <> [] -> visible q -> n = dir :: q -> m = [(q, ce)]) -> (forall e', In e' m -> n = dir :: fst e' /\ fst e' <> [] /\ visible (fst e') /\ m = [(fst e', ce)]) ->
        content (flat_map (fun e => match fst e with d :: n :: rest => if (String.eqb d dir && negb (existsb hidden (n :: rest)))%bool then [(n :: rest, snd e)] else [] | _ => [] end) z ++ m) q = Some c
          <-> archived (z ++ [(n, ce)]) dir q c).
      { intros m M1 M2. destruct (list_eq_dec string_dec n (dir :: q)) as [-> | D].
        - destruct m as [|e' m].
          + rewrite app_nil_r, IH. split.
            * intros (Q & V & _). discriminate (M1 Q V eq_refl).
            * intros (Q & V & _). discriminate (M1 Q V eq_refl).
          + destruct (M2 e' (or_introl eq_refl)) as (X1 & X2 & X3 & X4). injection X1 as X1. subst q. rewrite X4, content_last. cbn [fst snd]. rewrite path_eqb_refl. split.
            * intros E. injection E as <-. split; [exact X2|]. split; [exact X3|]. exists z, []. split; [reflexivity | intros c' []].
            * intros (_ & _ & z1 & z2 & E & F). destruct z2 as [|y z2] using rev_ind.
              { apply app_inj_tail in E. destruct E as [_ E]. injection E as <-. reflexivity. }
              { exfalso. clear IHz2. rewrite app_comm_cons, app_assoc in E. apply app_inj_tail in E. destruct E as [_ <-]. apply (F ce). apply in_or_app. right. now left. }
        - assert (C : content (flat_map (fun e => match fst e with d :: n :: rest => if (String.eqb d dir && negb (existsb hidden (n :: rest)))%bool then [(n :: rest, snd e)] else [] | _ => [] end) z ++ m) q
                     = content (flat_map (fun e => match fst e with d :: n :: rest => if (String.eqb d dir && negb (existsb hidden (n :: rest)))%bool then [(n :: rest, snd e)] else [] | _ => [] end) z) q).
          { destruct m as [|e' m]; [now rewrite app_nil_r|]. destruct (M2 e' (or_introl eq_refl)) as (X1 & X2 & X3 & X4). rewrite X4, content_last. cbn [fst].
            replace (path_eqb (fst e') q) with false; [reflexivity|]. symmetry. apply path_eqb_false. intros <-. contradiction. }
          rewrite C, IH. split.
          + intros (Q & V & z1 & z2 & -> & F). split; [exact Q|]. split; [exact V|]. exists z1, (z2 ++ [(n, ce)]). split; [now rewrite <- app_assoc|].
            intros c' H. apply in_app_or in H. destruct H as [H | [H | []]]; [apply (F c' H) | congruence].
          + intros (Q & V & z1 & z2 & E & F). split; [exact Q|]. split; [exact V|]. destruct z2 as [|y z2] using rev_ind.
            { apply app_inj_tail in E. destruct E as [_ E]. congruence. }
            { clear IHz2. rewrite app_comm_cons, app_assoc in E. apply app_inj_tail in E. destruct E as [-> _]. exists z1, z2. split; [reflexivity|].
              intros c' H. apply (F c'). apply in_or_app. now left. } }
      apply K; clear K.
      + intros Q V ->. destruct q as [|x q]; [contradiction|]. apply visible_spec in V. rewrite V, String.eqb_refl. reflexivity.
      + intros e' H. destruct n as [|d [|x rest]]; try contradiction. destruct (String.eqb_spec d dir) as [-> | D]; cbn [andb] in H |- *; [|contradiction].
        destruct (existsb hidden (x :: rest)) eqn:V; cbn [negb] in H |- *; [contradiction|]. destruct H as [<- | []]. cbn [fst].
        split; [reflexivity|]. split; [discriminate|]. split; [now apply visible_spec | reflexivity].
  Qed.
  Lemma archived_unique : forall z dir q c c', archived z dir q c -> archived z dir q c' -> c = c'.
  Proof. intros z dir q c c' H K. apply content_archived in H, K. congruence. Qed.
  Lemma copies : forall (b : path) (v : string) (m : zip) (s : fs), exists s', perform (map (fun e : path * string => Copy (b ++ v :: fst e) (snd e)) m) s = Ok s' /\
    forall q : path, s' (b ++ v :: q) = match content m q with Some c => Some (File false c) | None => s (b ++ v :: q) end.
  Proof.
    intros b v m s. induction m as [|e m (s1 & E1 & K1)] using rev_ind; [exists s; split; reflexivity|].
    rewrite map_app, perform_app, E1. cbn. eexists. split; [reflexivity|]. intros q. rewrite content_last. unfold put at 1.
    rewrite path_eqb_app. destruct (path_eqb (fst e) q) eqn:Q.
    - apply path_eqb_true in Q. subst q. rewrite !path_eqb_refl. reflexivity.
    - replace (path_eqb (v :: q) (v :: fst e)) with false; [apply K1|]. symmetry. apply path_eqb_false. apply path_eqb_false in Q. congruence.
  Qed.
  (** The files of one version after its steps *)
  Definition expected (m : zip) (script : bool) (q : path) : option node :=
    match content m q with
    | None => None
    | Some c => Some (if script then if path_eqb q script_name then File true (fix_script c) else File (path_eqb q ["bin"; "iaca"]) c else File (path_eqb q ["iaca"]) c)
    end.
  Definition has_programs (m : zip) (script : bool) : Prop :=
    if script then content m ["bin"; "iaca"] <> None /\ content m script_name <> None else content m ["iaca"] <> None.
  Lemma put_at : forall s b p n q, put s (b ++ p) n (b ++ q) = if path_eqb q p then Some n else s (b ++ q).
  Proof. intros. unfold put. now rewrite path_eqb_app. Qed.
  Lemma cons_eqb : forall v p q, path_eqb (v :: p) (v :: q) = path_eqb p q.
  Proof. intros v p q. apply (path_eqb_app [v]). Qed.
  Lemma version_files : forall b v dir script z s, s (b ++ [v]) = None -> (forall q, q <> [] -> s (b ++ v :: q) = None) ->
    (has_programs (members dir z) script -> exists s', perform (install_version b v dir script (Ok z)) s = Ok s') /\
    (forall s', perform (install_version b v dir script (Ok z)) s = Ok s' ->
       has_programs (members dir z) script /\ forall q, q <> [] -> s' (b ++ v :: q) = expected (members dir z) script q).
  Proof.
    intros b v dir script z s SV SQ. unfold IacaModel.install_version. remember (members dir z) as m eqn:M. clear M.
    destruct m as [|e0 m0]; [split; [intros H; destruct script; cbn in H; try destruct H; congruence | discriminate]|].
    remember (e0 :: m0) as m eqn:M. clear M e0 m0.
    cbn [perform apply]. rewrite SV. cbn [bind]. destruct (copies b v m (put s (b ++ [v]) Dir)) as (s1 & E1 & K1).
    rewrite perform_app, E1. cbn [bind].
    assert (K : forall q, q <> [] -> s1 (b ++ v :: q) = match content m q with Some c => Some (File false c) | None => None end).
    { intros q Q. rewrite K1. destruct (content m q); [reflexivity|]. rewrite put_at. replace (path_eqb (v :: q) [v]) with false; [now apply SQ|].
      symmetry. apply path_eqb_false. congruence. }
    assert (Ka : s1 (b ++ [v; "iaca"]) = match content m ["iaca"] with Some c => Some (File false c) | None => None end) by (apply (K ["iaca"]); discriminate).
    assert (Kb : s1 (b ++ [v; "bin"; "iaca"]) = match content m ["bin"; "iaca"] with Some c => Some (File false c) | None => None end) by (apply (K ["bin"; "iaca"]); discriminate).
    assert (Kc : s1 (b ++ [v; "bin"; "iaca.sh"]) = match content m ["bin"; "iaca.sh"] with Some c => Some (File false c) | None => None end) by (apply (K ["bin"; "iaca.sh"]); discriminate).
    destruct script; unfold has_programs, expected, script_name.
    - destruct (content m ["bin"; "iaca"]) as [c1|] eqn:C1; [|split; [intros [H _]; congruence | cbn [perform apply bind]; rewrite Kb; discriminate]].
      destruct (content m ["bin"; "iaca.sh"]) as [c2|] eqn:C2.
      2: { split; [intros [_ H]; congruence|]. cbn [perform apply]. rewrite Kb. cbn [bind]. rewrite put_at.
           replace (path_eqb [v; "bin"; "iaca.sh"] [v; "bin"; "iaca"]) with false by (symmetry; apply path_eqb_false; congruence). rewrite Kc. discriminate. }
      assert (E : exists s', perform [Chmod (b ++ [v; "bin"; "iaca"]); Chmod (b ++ [v; "bin"; "iaca.sh"]); Truncate (b ++ [v; "bin"; "iaca.sh"]); Write (b ++ [v; "bin"; "iaca.sh"]) (fix_script c2)] s1 = Ok s' /\
        forall q, s' (b ++ v :: q) = if path_eqb q ["bin"; "iaca.sh"] then Some (File true (fix_script c2)) else if path_eqb q ["bin"; "iaca"] then Some (File true c1) else s1 (b ++ v :: q)).
      { cbn [perform apply]. rewrite Kb. cbn [bind]. rewrite put_at.
        replace (path_eqb [v; "bin"; "iaca.sh"] [v; "bin"; "iaca"]) with false by (symmetry; apply path_eqb_false; congruence). rewrite Kc. cbn [bind].
        rewrite put_at, path_eqb_refl. cbn [bind]. rewrite put_at, path_eqb_refl. cbn [bind]. eexists. split; [reflexivity|]. intros q.
        rewrite !put_at, !cons_eqb. destruct (path_eqb q ["bin"; "iaca.sh"]); reflexivity. }
      destruct E as (s' & E & KE). split; [intros _; now exists s'|]. intros s2 E2. rewrite E in E2. injection E2 as <-. split; [split; discriminate|].
      intros q Q. rewrite KE. destruct (path_eqb q ["bin"; "iaca.sh"]) eqn:Q1; [apply path_eqb_true in Q1; subst q; now rewrite C2|].
      destruct (path_eqb q ["bin"; "iaca"]) eqn:Q2; [apply path_eqb_true in Q2; subst q; now rewrite C1|]. apply (K q Q).
    - destruct (content m ["iaca"]) as [c|] eqn:C; [|split; [congruence | cbn [perform apply bind]; rewrite Ka; discriminate]].
      cbn [perform apply]. rewrite Ka. cbn [bind]. split; [intros _; eexists; reflexivity|]. intros s' E. injection E as <-. split; [discriminate|].
      intros q Q. rewrite put_at, cons_eqb. destruct (path_eqb q ["iaca"]) eqn:Q1; [apply path_eqb_true in Q1; subst q; now rewrite C|]. apply (K q Q).
  Qed.
  Lemma expected_holds : forall s d z dir script, has_programs (members dir z) script -> (forall q, q <> [] -> s (d ++ q) = expected (members dir z) script q) ->
    holds fix_script s d z dir script.
  Proof.
    intros s d z dir script P E. split; [|split].
    - intros q c H. rewrite (E q (proj1 H)). apply content_archived in H. unfold expected. rewrite H.
      destruct script; [destruct (path_eqb q script_name)|]; eexists; reflexivity.
    - intros q n Q H. rewrite (E q Q) in H. unfold expected in H. destruct (content (members dir z) q) as [c|] eqn:C; [|discriminate].
      exists c. now apply content_archived.
    - intros q H. unfold has_programs in P. destruct script; cbn [In] in H.
      + destruct P as [P1 P2]. destruct H as [<- | [<- | []]]; (rewrite E; [|discriminate]); unfold expected.
        * destruct (content (members dir z) ["bin"; "iaca"]) as [c|]; [|congruence]. exists c. reflexivity.
        * destruct (content (members dir z) script_name) as [c|]; [|congruence]. eexists. rewrite path_eqb_refl. reflexivity.
      + destruct H as [<- | []]. rewrite E by discriminate. unfold expected. destruct (content (members dir z) ["iaca"]) as [c|]; [|congruence]. exists c. reflexivity.
  Qed.

  (** ** Complete installations *)
  Lemma version_step : forall b v dir script ar s s', (forall q, s (b ++ v :: q) = None) -> perform (install_version b v dir script ar) s = Ok s' ->
    (exists z, ar = Ok z /\ has_programs (members dir z) script /\ forall q, q <> [] -> s' (b ++ v :: q) = expected (members dir z) script q) /\
    forall q, match q with w :: _ => w <> v | [] => True end -> s' (b ++ q) = s (b ++ q).
  Proof.
    intros b v dir script ar s s' N E. split.
    - destruct ar as [z|e]; [|discriminate E]. exists z. split; [reflexivity|].
      apply (proj2 (version_files b v dir script z s (N []) (fun q _ => N q)) s' E).
    - intros q Q. apply (perform_other _ _ _ _ E). intros o I' T. apply version_within in I'. destruct (I' _ T) as [r X].
      rewrite <- app_assoc in X. apply app_inv_head in X. destruct q as [|w q]; [discriminate|]. injection X as X _. congruence.
  Qed.
  (** The steps after the versions *)
  Definition links (b : path) : list op :=
    [Mkdir (b ++ ["bin"]);
     Symlink (b ++ ["bin"; "iaca2.1"]) [".."; "v2.1"; "bin"; "iaca.sh"]; Symlink (b ++ ["bin"; "iaca2.2"]) [".."; "v2.2"; "bin"; "iaca.sh"];
     Symlink (b ++ ["bin"; "iaca2.3"]) [".."; "v2.3"; "bin"; "iaca.sh"]; Symlink (b ++ ["bin"; "iaca3.0"]) [".."; "v3.0"; "iaca"]].
  Lemma links_done : forall b s, (forall q, s (b ++ "bin" :: q) = None) -> exists s', perform (links b) s = Ok s' /\
    s' (b ++ ["bin"; "iaca2.1"]) = Some (Link [".."; "v2.1"; "bin"; "iaca.sh"]) /\ s' (b ++ ["bin"; "iaca2.2"]) = Some (Link [".."; "v2.2"; "bin"; "iaca.sh"]) /\
    s' (b ++ ["bin"; "iaca2.3"]) = Some (Link [".."; "v2.3"; "bin"; "iaca.sh"]) /\ s' (b ++ ["bin"; "iaca3.0"]) = Some (Link [".."; "v3.0"; "iaca"]) /\
    forall q, match q with w :: _ => w <> "bin" | [] => True end -> s' (b ++ q) = s (b ++ q).
  Proof.
    intros b s N. unfold links. cbn [perform apply]. rewrite (N []). cbn [bind].
    rewrite put_at. change (path_eqb ["bin"; "iaca2.1"] ["bin"]) with false. cbn iota. rewrite (N ["iaca2.1"]). cbn [bind].
    rewrite !put_at. change (path_eqb ["bin"; "iaca2.2"] ["bin"; "iaca2.1"]) with false. change (path_eqb ["bin"; "iaca2.2"] ["bin"]) with false. cbn iota. rewrite (N ["iaca2.2"]). cbn [bind].
    rewrite !put_at. change (path_eqb ["bin"; "iaca2.3"] ["bin"; "iaca2.2"]) with false. change (path_eqb ["bin"; "iaca2.3"] ["bin"; "iaca2.1"]) with false.
    change (path_eqb ["bin"; "iaca2.3"] ["bin"]) with false. cbn iota. rewrite (N ["iaca2.3"]). cbn [bind].
    rewrite !put_at. change (path_eqb ["bin"; "iaca3.0"] ["bin"; "iaca2.3"]) with false. change (path_eqb ["bin"; "iaca3.0"] ["bin"; "iaca2.2"]) with false.
    change (path_eqb ["bin"; "iaca3.0"] ["bin"; "iaca2.1"]) with false. change (path_eqb ["bin"; "iaca3.0"] ["bin"]) with false. cbn iota. rewrite (N ["iaca3.0"]). cbn [bind].
    eexists. split; [reflexivity|]. rewrite !put_at. repeat (split; [reflexivity|]). intros q Q. rewrite !put_at.
    assert (G : forall r, path_eqb q ("bin" :: r) = false). { intros r. apply path_eqb_false. destruct q as [|w q]; [discriminate|]. intros X. injection X as X _. congruence. }
    now rewrite !G.
  Qed.
  Lemma resolve_link : forall s b name t q, s (b ++ ["bin"; name]) = Some (Link (".." :: t)) -> (forall d, follow d t = d ++ q) -> resolve s (b ++ ["bin"; name]) = s (b ++ q).
  Proof.
    intros s b name t q E F. unfold resolve. rewrite E.
    replace (removelast (b ++ ["bin"; name])) with (b ++ ["bin"]).
    - change (follow (b ++ ["bin"]) (".." :: t)) with (follow (removelast (b ++ ["bin"])) t). rewrite removelast_last, F. reflexivity.
    - change ["bin"; name] with (["bin"] ++ [name]). rewrite app_assoc, removelast_last. reflexivity.
  Qed.
  Lemma install_complete : forall b o archives s s', (forall q, s (b ++ q) = None) -> perform (install b o archives) s = Ok s' -> forall t, agree b s' t -> complete fix_script t b o archives.
  Proof.
    intros b o archives s s' N E t AG. unfold IacaModel.install in E. cbn [perform apply] in E.
    pose proof (N []) as Nb. rewrite app_nil_r in Nb. rewrite Nb in E. cbn [bind] in E.
    assert (N0 : forall w q, put s b Dir (b ++ w :: q) = None).
    { intros w q. rewrite <- (app_nil_r b) at 1. rewrite put_at. replace (path_eqb (w :: q) []) with false by (symmetry; apply path_eqb_false; discriminate). apply N. }
    remember (put s b Dir) as s0 eqn:E0. clear E0 N Nb s.
    rewrite perform_app in E. destruct (perform (install_version b "v2.1" _ _ _) s0) as [s1|] eqn:E1; cbn [bind] in E; [|discriminate].
    rewrite perform_app in E. destruct (perform (install_version b "v2.2" _ _ _) s1) as [s2|] eqn:E2; cbn [bind] in E; [|discriminate].
    rewrite perform_app in E. destruct (perform (install_version b "v2.3" _ _ _) s2) as [s3|] eqn:E3; cbn [bind] in E; [|discriminate].
    rewrite perform_app in E. destruct (perform (install_version b "v3.0" _ _ _) s3) as [s4|] eqn:E4; cbn [bind] in E; [|discriminate].
    fold (links b) in E.
    apply version_step in E1; [|apply N0]. destruct E1 as [(z1 & A1 & P1 & C1) O1].
    apply version_step in E2; [|intros q; rewrite O1 by discriminate; apply N0]. destruct E2 as [(z2 & A2 & P2 & C2) O2].
    apply version_step in E3; [|intros q; rewrite O2, O1 by discriminate; apply N0]. destruct E3 as [(z3 & A3 & P3 & C3) O3].
    apply version_step in E4; [|intros q; rewrite O3, O2, O1 by discriminate; apply N0]. destruct E4 as [(z4 & A4 & P4 & C4) O4].
    destruct (links_done b s4) as (s5 & E5 & L1 & L2 & L3 & L4 & O5); [intros q; rewrite O4, O3, O2, O1 by discriminate; apply N0|].
    rewrite E5 in E. injection E as ->.
    rewrite (AG _ (below_app b _)) in L1. rewrite (AG _ (below_app b _)) in L2. rewrite (AG _ (below_app b _)) in L3. rewrite (AG _ (below_app b _)) in L4.
    assert (O6 : forall q, match q with w :: _ => w <> "bin" | [] => True end -> t (b ++ q) = s4 (b ++ q)).
    { intros q Q. rewrite <- (AG _ (below_app b q)). apply (O5 q Q). } clear O5. rename O6 into O5. split.
    - intros v [<- | [<- | [<- | [<- | []]]]].
      + exists z1. split; [exact A1|]. change (negb (String.eqb "v2.1" "v3.0")) with true. unfold directory. cbn [String.eqb]. change (String.eqb "v2.1" "v2.1") with true. cbn iota.
        replace (if String.eqb o "mac" then "iaca-mac64" else ("iaca-" ++ o)%string) with ("iaca-" ++ (if String.eqb o "mac" then "mac64" else o))%string by (destruct (String.eqb o "mac"); reflexivity).
        apply expected_holds; [exact P1|]. intros q Q. rewrite <- app_assoc. cbn [app]. rewrite O5, O4, O3, O2 by discriminate. apply (C1 q Q).
      + exists z2. split; [exact A2|]. apply expected_holds; [exact P2|]. intros q Q. rewrite <- app_assoc. cbn [app]. rewrite O5, O4, O3 by discriminate. apply (C2 q Q).
      + exists z3. split; [exact A3|]. apply expected_holds; [exact P3|]. intros q Q. rewrite <- app_assoc. cbn [app]. rewrite O5, O4 by discriminate. apply (C3 q Q).
      + exists z4. split; [exact A4|]. apply expected_holds; [exact P4|]. intros q Q. rewrite <- app_assoc. cbn [app]. rewrite O5 by discriminate. apply (C4 q Q).
    - assert (F3 : forall (x y z : string) (d : path), x <> ".." -> y <> ".." -> z <> ".." -> follow d [x; y; z] = d ++ [x; y; z]).
      { intros x y z d X Y Z. unfold follow. cbn [fold_left]. apply String.eqb_neq in X, Y, Z. rewrite X, Y, Z, <- !app_assoc. reflexivity. }
      repeat split.
      + apply (resolve_link t b "iaca2.1" ["v2.1"; "bin"; "iaca.sh"] _ L1). intros d. apply F3; discriminate.
      + apply (resolve_link t b "iaca2.2" ["v2.2"; "bin"; "iaca.sh"] _ L2). intros d. apply F3; discriminate.
      + apply (resolve_link t b "iaca2.3" ["v2.3"; "bin"; "iaca.sh"] _ L3). intros d. apply F3; discriminate.
      + apply (resolve_link t b "iaca3.0" ["v3.0"; "iaca"] _ L4). intros d. unfold follow. cbn. now rewrite <- app_assoc.
  Qed.
  Lemma usable_programs : forall z dir c c', archived z dir ["bin"; "iaca"] c -> archived z dir script_name c' -> has_programs (members dir z) true.
  Proof. intros z dir c c' H K. apply content_archived in H, K. split; congruence. Qed.
  Lemma install_succeeds : forall b o archives s, (forall q, s (b ++ q) = None) -> usable o archives -> exists s', perform (install b o archives) s = Ok s'.
  Proof.
    intros b o archives s N (U & z4 & c4 & A4 & K4). unfold IacaModel.install. cbn [perform apply].
    destruct (U "v2.1") as (z1 & c1 & c1' & A1 & K1 & K1'); [cbn; auto|].
    destruct (U "v2.2") as (z2 & c2 & c2' & A2 & K2 & K2'); [cbn; auto|].
    destruct (U "v2.3") as (z3 & c3 & c3' & A3 & K3 & K3'); [cbn; auto|].
    pose proof (N []) as Nb. rewrite app_nil_r in Nb. rewrite Nb. cbn [bind].
    assert (N0 : forall w q, put s b Dir (b ++ w :: q) = None).
    { intros w q. rewrite <- (app_nil_r b) at 1. rewrite put_at. replace (path_eqb (w :: q) []) with false by (symmetry; apply path_eqb_false; discriminate). apply N. }
    remember (put s b Dir) as s0 eqn:E0. clear E0 N Nb s.
    assert (P1 : has_programs (members ("iaca-" ++ (if String.eqb o "mac" then "mac64" else o))%string z1) true).
    { replace ("iaca-" ++ (if String.eqb o "mac" then "mac64" else o))%string with (directory "v2.1" o) by (unfold directory; cbn; destruct (String.eqb o "mac"); reflexivity).
      apply (usable_programs _ _ _ _ K1 K1'). }
    pose proof (usable_programs _ _ _ _ K2 K2') as P2. pose proof (usable_programs _ _ _ _ K3 K3') as P3.
    assert (P4 : has_programs (members ("iaca-" ++ o)%string z4) false). { apply content_archived in K4. change (directory "v3.0" o) with ("iaca-" ++ o)%string in K4. unfold has_programs. rewrite K4. discriminate. }
    change (directory "v2.2" o) with ("iaca-" ++ o)%string in P2. change (directory "v2.3" o) with ("iaca-" ++ o)%string in P3.
    rewrite A1, A2, A3, A4. rewrite perform_app.
    destruct (proj1 (version_files b "v2.1" _ true z1 s0 (N0 _ _) (fun q _ => N0 _ q)) P1) as (s1 & E1). rewrite E1. cbn [bind].
    apply version_step in E1; [|apply N0]. destruct E1 as [_ O1].
    assert (N2 : forall q, s1 (b ++ "v2.2" :: q) = None) by (intros q; rewrite O1 by discriminate; apply N0).
    rewrite perform_app. destruct (proj1 (version_files b "v2.2" _ true z2 s1 (N2 _) (fun q _ => N2 q)) P2) as (s2 & E2). rewrite E2. cbn [bind].
    apply version_step in E2; [|apply N2]. destruct E2 as [_ O2].
    assert (N3 : forall q, s2 (b ++ "v2.3" :: q) = None) by (intros q; rewrite O2, O1 by discriminate; apply N0).
    rewrite perform_app. destruct (proj1 (version_files b "v2.3" _ true z3 s2 (N3 _) (fun q _ => N3 q)) P3) as (s3 & E3). rewrite E3. cbn [bind].
    apply version_step in E3; [|apply N3]. destruct E3 as [_ O3].
    assert (N4 : forall q, s3 (b ++ "v3.0" :: q) = None) by (intros q; rewrite O3, O2, O1 by discriminate; apply N0).
    rewrite perform_app. destruct (proj1 (version_files b "v3.0" _ false z4 s3 (N4 _) (fun q _ => N4 q)) P4) as (s4 & E4). rewrite E4. cbn [bind].
    apply version_step in E4; [|apply N4]. destruct E4 as [_ O4].
    destruct (links_done b s4) as (s5 & E5 & _); [intros q; rewrite O4, O3, O2, O1 by discriminate; apply N0|]. exists s5. exact E5.
  Qed.

  (** ** What is found *)
  Lemma complete_usable : forall s b o archives, complete fix_script s b o archives -> usable_there s b = true.
  Proof.
    intros s b o archives (V & _ & L2 & L3 & L4). apply usable_iff.
    assert (P : forall v q, In v ["v2.1"; "v2.2"; "v2.3"; "v3.0"] -> In q (if negb (String.eqb v "v3.0") then [["bin"; "iaca"]; script_name] else [["iaca"]]) -> exists n, s (b ++ v :: q) = Some n).
    { intros v q Iv Iq. destruct (V v Iv) as (z & _ & _ & _ & H). destruct (H q Iq) as [c C]. rewrite <- app_assoc in C. eauto. }
    intros r [<- | [<- | [<- | []]]].
    - rewrite L2. apply (P "v2.2" script_name); cbn; auto.
    - rewrite L3. apply (P "v2.3" script_name); cbn; auto.
    - rewrite L4. apply (P "v3.0" ["iaca"]); cbn; auto.
  Qed.
  Lemma apply_keeps : forall y s1 s3 p, apply y s1 = Ok s3 -> s1 p <> None -> s3 p <> None.
  Proof.
    intros y s1 s3 p A1 X. destruct (target y) as [q|] eqn:T; [|rewrite (apply_other y s1 s3 p A1) by congruence; exact X].
    destruct (list_eq_dec string_dec p q) as [-> | D]; [|rewrite (apply_other y s1 s3 p A1) by congruence; exact X].
    destruct y as [w|w c|w|w|w c|w t|e]; cbn in T, A1; try discriminate T; injection T as ->;
    try (destruct (s1 q) as [[|z c'|t']|] eqn:Q); try discriminate A1; injection A1 as <-; try (rewrite put_same; discriminate); congruence.
  Qed.
  Lemma perform_keeps : forall l s s' p, perform l s = Ok s' -> s p <> None -> s' p <> None.
  Proof.
    induction l as [|y l IH]; intros s s' p P X; cbn in P; [now injection P as <-|]. destruct (apply y s) as [s3|] eqn:A1; cbn in P; [|discriminate].
    apply (IH s3 s' p P). apply (apply_keeps y s s3 p A1 X).
  Qed.
  (** Where an installation is usable, it is finished. *)
  Lemma usable_finished : forall st b, invariant st -> location b -> usable_there (files st) b = true -> exists args archives o,
    In (Call b args archives) (calls st) /\ In o ["lin64"; "mac"] /\ (In o args \/ own system o) /\ (forall t, agree b (files st) t -> complete fix_script t b o archives) /\
    (forall l, In (b, l) (running st) -> l = []) /\ files st b <> None.
  Proof.
    intros st b (_ & _ & LO) L U.
    assert (R : exists n, files st (b ++ ["bin"; "iaca3.0"]) = Some n).
    { destruct (proj1 (usable_iff _ _) U "iaca3.0") as [n H]; [cbn; auto|]. unfold resolve in H. destruct (files st (b ++ ["bin"; "iaca3.0"])) as [m|]; [eauto | discriminate]. }
    destruct R as [n R]. destruct (LO b L) as [[U1 _] | (args & archives & o & did & rest & s & C1 & C2 & C3 & C4 & C5 & C6 & C7 & C8)].
    { rewrite <- (U1 _ (below_app b _)) in R. discriminate. }
    assert (rest = []).
    { destruct rest as [|x rest] using rev_ind; [reflexivity|]. exfalso. clear IHrest.
      destruct (install_last b o archives) as (before & EB & NB). rewrite app_assoc in C4. rewrite C4 in EB. apply app_inj_tail in EB. destruct EB as [<- _].
      rewrite <- (C7 _ (below_app b _)) in R. rewrite (perform_other did nothing s _ C6) in R; [discriminate|].
      intros y Y. apply NB. apply in_or_app. now left. }
    subst rest. rewrite app_nil_r in C4. subst did. exists args, archives, o. split; [exact C1|]. split; [exact C2|]. split; [exact C3|].
    split; [intros t AG; apply (install_complete b o archives nothing s (fun _ => eq_refl) C6 t (agree_trans b _ _ _ C7 AG))|]. split; [exact C8|].
    rewrite <- (C7 b (below_refl b)). unfold IacaModel.install in C6. cbn [perform apply nothing bind] in C6.
    apply (perform_keeps _ _ s b C6). rewrite put_same. discriminate.
  Qed.
  Lemma step_frozen : forall st st' b, invariant st -> location b -> usable_there (files st) b = true -> step st st' -> agree b (files st) (files st').
  Proof.
    intros st st' b INV L U S. destruct (usable_finished st b INV L U) as (_ & _ & _ & _ & _ & _ & _ & FIN & EX). destruct INV as (ND & RL & LO).
    destruct S as [st args permitted archives b' first rest s' M E | st l1 l2 b' o rest s' R E | st s' E]; cbn [files].
    - apply main_install in M. destruct M as (Lb & SB & o & _ & _ & EI). assert (D : b <> b') by congruence.
      apply (apply_elsewhere b' b first _ _ (did_within b' o archives [] rest first (eq_sym EI)) Lb L D E).
    - assert (I' : In (b', o :: rest) (running st)) by (rewrite R; apply in_or_app; right; now left).
      assert (D : b <> b') by (intros ->; discriminate (FIN _ I')).
      destruct (LO b' (RL _ _ I')) as [[_ X] | (ar & az & o1 & did & rs & s & _ & _ & _ & C4 & _ & _ & _ & C8)].
      { exfalso. apply X. apply (in_map fst _ _ I'). }
      rewrite <- (C8 _ I') in C4. apply (apply_elsewhere b' b o _ _ (did_within b' o1 az did rest o C4) (RL _ _ I') L D E).
    - intros p B. symmetry. now apply (E b).
  Qed.
  Lemma later_frozen : forall st st' b, invariant st -> location b -> usable_there (files st) b = true -> later st st' -> agree b (files st) (files st') /\ usable_there (files st') b = true.
  Proof.
    intros st st' b INV L U H. destruct (usable_finished st b INV L U) as (_ & archives & o & _ & _ & _ & C & _).
    induction H as [|st1 st2 H IH S]; [split; [intros p _; reflexivity | exact U]|].
    destruct IH as [AG U1]. assert (AG2 : agree b (files st) (files st2)).
    { apply (agree_trans b _ _ _ AG). apply (step_frozen st1 st2 b (later_invariant st st1 H INV) L U1 S). }
    split; [exact AG2|]. apply (complete_usable _ b o archives). now apply C.
  Qed.
  Lemma later_keeps : forall st st' b, location b -> later st st' -> files st b <> None -> files st' b <> None.
  Proof.
    intros st st' b L H X. induction H as [|st1 st2 H IH S]; [exact X|].
    destruct S as [st1 args permitted archives b' first rest s' M E | st1 l1 l2 b' o rest s' R E | st1 s' E]; cbn [files].
    - apply (apply_keeps first _ _ b E IH).
    - apply (apply_keeps o _ _ b E IH).
    - rewrite (E b b L (below_refl b)). exact IH.
  Qed.
  Lemma later_trans : forall st1 st2 st3, later st1 st2 -> later st2 st3 -> later st1 st3.
  Proof. intros st1 st2 st3 H K. induction K as [|st4 st5 K IH S]; [exact H|]. apply (Then _ _ _ _ st1 st4 st5 IH S). Qed.
  (** An installation which is not interrupted *)
  Lemma run_later : forall os st b s', hd_error (running st) = Some (b, os) -> perform os (files st) = Ok s' -> later st (State s' ((b, []) :: tl (running st)) (calls st)).
  Proof.
    induction os as [|o os IH]; intros [s run cs] b s' R E; destruct run as [|r run]; try discriminate R; injection R as ->; cbn [perform files running calls tl] in *.
    - injection E as <-. apply Now.
    - destruct (apply o s) as [s1|] eqn:A1; cbn [bind] in E; [|discriminate].
      apply (later_trans _ (State s1 ((b, os) :: run) cs)).
      + apply (Then _ _ _ _ _ (State s ((b, o :: os) :: run) cs)); [apply Now|]. exact (GoOn home package system fix_script (State s ((b, o :: os) :: run) cs) [] run b o os s1 eq_refl A1).
      + exact (IH (State s1 ((b, os) :: run) cs) b s' eq_refl E).
  Qed.
  Lemma begin_later : forall st args permitted archives b steps s', main args permitted archives (files st) = Install b steps -> perform steps (files st) = Ok s' ->
    later st (State s' ((b, []) :: running st) (Call b args archives :: calls st)).
  Proof.
    intros st args permitted archives b steps s' M E.
    assert (K : exists first rest, steps = first :: rest). { destruct (main_install _ _ _ _ _ _ M) as (_ & _ & o & _ & _ & ->). unfold IacaModel.install. eauto. }
    destruct K as (first & rest & ->). cbn [perform] in E. destruct (apply first (files st)) as [s1|] eqn:A1; cbn [bind] in E; [|discriminate].
    apply (later_trans _ (State s1 ((b, rest) :: running st) (Call b args archives :: calls st))).
    - apply (Then _ _ _ _ _ st); [apply Now|]. apply (Begin _ _ _ _ st args permitted archives b first rest s1 M A1).
    - exact (run_later rest (State s1 ((b, rest) :: running st) (Call b args archives :: calls st)) b s' eq_refl E).
  Qed.
End Proofs.
