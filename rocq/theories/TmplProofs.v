(** Lemmas about replacing identifiers *)
From Coq Require Import String Lia PeanoNat.
From Verif Require Import PyBase TmplModel TmplSpec.
Local Open Scope string_scope.
Local Open Scope list_scope.

Section Induction.
  Variable P : node -> Prop.
  Hypothesis HId : forall n, P (Id n).
  Hypothesis HNode : forall k ts ones items, Forall P ones -> Forall P items -> P (Node k ts ones items).
  Fixpoint node_induction (n : node) : P n :=
    match n with
    | Id m => HId m
    | Node k ts ones items =>
        HNode k ts ones items
          ((fix go l : Forall P l := match l with [] => Forall_nil P | x :: l' => Forall_cons x (node_induction x) (go l') end) ones)
          ((fix go l : Forall P l := match l with [] => Forall_nil P | x :: l' => Forall_cons x (node_induction x) (go l') end) items)
    end.
End Induction.

(** ** The specification in terms of [Forall] and [Exists] *)
Lemma mentions_node id k ts ones items :
  mentions id (Node k ts ones items) <-> Exists (mentions id) ones \/ Exists (mentions id) items.
Proof.
  cbn [mentions]. split; intros [H|H]; [left|right|left|right].
  - induction ones as [|x l IH]; [destruct H|]. destruct H; [now apply Exists_cons_hd|apply Exists_cons_tl; auto].
  - induction items as [|x l IH]; [destruct H|]. destruct H; [now apply Exists_cons_hd|apply Exists_cons_tl; auto].
  - induction H; [now left|now right].
  - induction H; [now left|now right].
Qed.
Lemma not_mentions_node id k ts ones items :
  ~ mentions id (Node k ts ones items) <-> Forall (fun x => ~ mentions id x) ones /\ Forall (fun x => ~ mentions id x) items.
Proof. rewrite mentions_node, !Forall_Exists_neg. tauto. Qed.
Lemma in_lists_node id k ts ones items :
  in_lists id (Node k ts ones items)
  <-> k <> "list" /\ Forall (fun x => x <> Id id /\ in_lists id x) ones /\ Forall (in_lists id) items.
Proof.
  cbn [in_lists]. split; intros [K [A B]]; (split; [exact K|]); split.
  - clear B. induction ones as [|x l IH]; [constructor|]. destruct A as [A A']. apply Forall_cons; auto.
  - clear A. induction items as [|x l IH]; [constructor|]. destruct B as [A A']. apply Forall_cons; auto.
  - clear B. induction A; auto.
  - clear A. induction B; auto.
Qed.
Lemma proper_node k ts ones items :
  proper (Node k ts ones items) <-> k <> "list" /\ Forall proper ones /\ Forall proper items.
Proof.
  cbn [proper]. split; intros [K [A B]]; (split; [exact K|]); split.
  - clear B. induction ones as [|x l IH]; [constructor|]. destruct A as [A A']. apply Forall_cons; auto.
  - clear A. induction items as [|x l IH]; [constructor|]. destruct B as [A A']. apply Forall_cons; auto.
  - clear B. induction A; auto.
  - clear A. induction B; auto.
Qed.
Lemma all_apart_node id k ts ones items :
  all_apart id (Node k ts ones items) <-> apart id items /\ Forall (all_apart id) ones /\ Forall (all_apart id) items.
Proof.
  cbn [all_apart]. split; intros [K [A B]]; (split; [exact K|]); split.
  - clear B K. induction ones as [|x l IH]; [constructor|]. destruct A as [A A']. apply Forall_cons; auto.
  - clear A K. induction items as [|x l IH]; [constructor|]. destruct B as [A A']. apply Forall_cons; auto.
  - clear B K. induction A; auto.
  - clear A K. induction B; auto.
Qed.

(** ** Trees without the identifier *)
Lemma fill_none s n : (forall m, mentions m n -> s m = None) -> fill s n = [n].
Proof.
  induction n as [m|k ts ones items IH1 IH2] using node_induction; intros H.
  - cbn. rewrite (H m); [reflexivity|reflexivity].
  - cbn [fill]. do 2 f_equal.
    + assert (A : Forall (fun x => forall m, mentions m x -> s m = None) ones).
      { apply Forall_forall. intros x Hx m Hm. apply H. apply mentions_node. left. apply Exists_exists. eauto. }
      clear H IH2. induction ones as [|x l IH]; [reflexivity|]. inversion IH1; inversion A; subst. cbn [map]. f_equal.
      * rewrite H1 by assumption. reflexivity.
      * auto.
    + assert (A : Forall (fun x => forall m, mentions m x -> s m = None) items).
      { apply Forall_forall. intros x Hx m Hm. apply H. apply mentions_node. right. apply Exists_exists. eauto. }
      clear H IH1. induction items as [|x l IH]; [reflexivity|]. inversion IH2; inversion A; subst. cbn [flat_map].
      rewrite H1 by assumption. cbn. f_equal. auto.
Qed.
Lemma only_none id r m : m <> id -> only id r m = None.
Proof. intros H. unfold only. destruct (String.eqb_spec m id); [contradiction|reflexivity]. Qed.
Lemma fill_only_none id r n : ~ mentions id n -> fill (only id r) n = [n].
Proof. intros H. apply fill_none. intros m Hm. apply only_none. intros ->. auto. Qed.
Lemma fill_list_none s l : (forall x m, In x l -> mentions m x -> s m = None) -> flat_map (fill s) l = l.
Proof.
  induction l as [|x l IH]; intros H; [reflexivity|]. cbn. rewrite (fill_none s x).
  - cbn. f_equal. apply IH. intros y m Hy. apply H. now right.
  - intros m. apply H. now left.
Qed.

Lemma matches_spec id a : matches id a = true <-> a = Id id.
Proof.
  destruct a as [m|]; cbn; [|split; discriminate].
  destruct (String.eqb_spec m id); split; congruence.
Qed.

Lemma mapM_eventually (f : nat -> node -> res node) l :
  Forall (fun x => exists f0, forall g, (f0 <= g)%nat -> f g x = Ok x) l ->
  exists f0, forall g, (f0 <= g)%nat -> mapM (f g) l = Ok l.
Proof.
  induction 1 as [|x l [a A] _ [b B]]; [exists 0%nat; reflexivity|].
  exists (Nat.max a b). intros g Hg. cbn. rewrite A by lia. cbn. rewrite B by lia. reflexivity.
Qed.
Lemma mapM_eventually_gen (f : nat -> node -> res node) (h : node -> node) l :
  Forall (fun x => exists f0, forall g, (f0 <= g)%nat -> f g x = Ok (h x)) l ->
  exists f0, forall g, (f0 <= g)%nat -> mapM (f g) l = Ok (map h l).
Proof.
  induction 1 as [|x l [a A] _ [b B]]; [exists 0%nat; reflexivity|].
  exists (Nat.max a b). intros g Hg. cbn. rewrite A by lia. cbn. rewrite B by lia. reflexivity.
Qed.

Section Step.
  Variables (id : string) (r : replacement).
  Notation walk := (TmplModel.walk id r).
  Notation replace_id := (TmplModel.replace_id id r).
  Notation matches := (TmplModel.matches id).

  (** *** Elements without the identifier are passed over *)
  Lemma walk_prefix xs :
    Forall (fun x => ~ mentions id x /\ exists f0, forall g, (f0 <= g)%nat -> replace_id g x = Ok x) xs ->
    exists f0, forall g, (f0 <= g)%nat -> forall f done rest,
      walk (replace_id g) (List.length xs + f) done (xs ++ rest) = walk (replace_id g) f (done ++ xs) rest.
  Proof.
    induction 1 as [|x l [N [a A]] _ [b B]].
    - exists 0%nat. intros g _ f done rest. cbn [List.length app Nat.add]. now rewrite app_nil_r.
    - exists (Nat.max a b). intros g Hg f done rest. cbn [List.length app Nat.add TmplModel.walk].
      assert (M : matches x = false).
      { destruct (matches x) eqn:E; [|reflexivity]. apply matches_spec in E. subst x. now destruct N. }
      rewrite M, A by lia. cbn [bind]. rewrite B by lia. now rewrite <- app_assoc.
  Qed.
  Lemma replace_none n : ~ mentions id n -> exists f0, forall f, (f0 <= f)%nat -> replace_id f n = Ok n.
  Proof.
    induction n as [m|k ts ones items IH1 IH2] using node_induction; intros H.
    - exists 1%nat. intros [|f] L; [lia|]. reflexivity.
    - apply not_mentions_node in H. destruct H as [H1 H2].
      assert (A1 : Forall (fun x => ~ mentions id x /\ exists f0, forall g, (f0 <= g)%nat -> replace_id g x = Ok x) ones).
      { rewrite Forall_forall in *. auto. }
      assert (A2 : Forall (fun x => ~ mentions id x /\ exists f0, forall g, (f0 <= g)%nat -> replace_id g x = Ok x) items).
      { rewrite Forall_forall in *. auto. }
      assert (B1 : forall x v, ~ mentions id x -> (if matches x then v else true) = true).
      { intros x v N. destruct (matches x) eqn:E; [|reflexivity]. apply matches_spec in E. subst x. now destruct N. }
      assert (C : forall x, ~ mentions id x -> matches x = false).
      { intros x N. destruct (matches x) eqn:E; [|reflexivity]. apply matches_spec in E. subst x. now destruct N. }
      destruct (mapM_eventually (fun g a => if matches a then Ok (as_node r) else replace_id g a) ones) as [a A].
      { eapply Forall_impl; [|exact A1]. intros x [N [f0 F]]. exists f0. intros g Hg. rewrite (C x N). auto. }
      destruct (mapM_eventually (fun g a => if matches a then Ok a else replace_id g a) items) as [b B].
      { eapply Forall_impl; [|exact A2]. intros x [N [f0 F]]. exists f0. intros g Hg. rewrite (C x N). auto. }
      destruct (walk_prefix items A2) as [c W].
      exists (S (a + b + c + List.length items)). intros [|f] L; [lia|]. cbn [TmplModel.replace_id].
      rewrite A by lia. cbn [bind]. destruct (String.eqb k "list").
      + rewrite B by lia. reflexivity.
      + specialize (W f ltac:(lia) (f - List.length items)%nat [] []). rewrite app_nil_r in W.
        replace (List.length items + (f - List.length items))%nat with f in W by lia. rewrite W.
        cbn [app]. destruct (f - List.length items)%nat; reflexivity.
  Qed.

End Step.

Section Fill.
  Variables (id : string) (r : replacement).
  Notation walk := (TmplModel.walk id r).
  Notation replace_id := (TmplModel.replace_id id r).
  Notation matches := (TmplModel.matches id).
  Hypothesis fresh : forall x, In x (nodes r) -> ~ mentions id x.

  Definition becomes (a : node) : Prop :=
    a <> Id id -> exists a', fill (only id r) a = [a'] /\ exists f0, forall f, (f0 <= f)%nat -> replace_id f a = Ok a'.

  Lemma fill_id : fill (only id r) (Id id) = nodes r.
  Proof. cbn. unfold only. now rewrite String.eqb_refl. Qed.

  Lemma walk_done_nil g f done : walk (replace_id g) f done [] = Ok done.
  Proof. destruct f; reflexivity. Qed.

  Lemma walk_fill n : forall todo, (List.length todo <= n)%nat ->
    (nodes r = [] -> apart id todo) -> Forall becomes todo ->
    exists f0, forall f g, (f0 <= f)%nat -> (f0 <= g)%nat -> forall done,
      walk (replace_id g) f done todo = Ok (done ++ flat_map (fill (only id r)) todo).
  Proof.
    induction n as [|n IHn]; intros [|a todo] L AP B.
    - exists 0%nat. intros. rewrite walk_done_nil, app_nil_r. reflexivity.
    - cbn in L. lia.
    - exists 0%nat. intros. rewrite walk_done_nil, app_nil_r. reflexivity.
    - inversion B as [|? ? Ba Bt]; subst. cbn in L.
      assert (APt : nodes r = [] -> apart id todo) by (intros E; apply (AP E)).
      destruct (matches a) eqn:M.
      + pose proof M as M'. apply matches_spec in M'. subst a. clear Ba. cbn [flat_map]. rewrite fill_id.
        destruct r as [x|[|x xs]]; cbn [nodes] in *.
        * destruct (IHn todo ltac:(lia) APt Bt) as [f0 F].
          exists (S f0). intros [|f] g Lf Lg done; [lia|]. cbn [TmplModel.walk]. rewrite M, F by lia. rewrite <- app_assoc. reflexivity.
        * destruct todo as [|b todo].
          -- exists 1%nat. intros [|f] g Lf Lg done; [lia|]. cbn [TmplModel.walk]. rewrite M. cbn. now rewrite app_nil_r.
          -- destruct (AP eq_refl) as [N APb]. specialize (N eq_refl). cbn beta iota in N.
             inversion Bt as [|? ? _ Bt']; subst. cbn in L. destruct APb as [_ APb].
             destruct (IHn todo ltac:(lia) (fun _ => APb) Bt') as [f0 F].
             exists (S f0). intros [|f] g Lf Lg done; [lia|]. cbn [TmplModel.walk]. rewrite M, F by lia.
             cbn [app flat_map]. rewrite (fill_only_none id _ b N). now rewrite <- app_assoc.
        * destruct (walk_prefix id (Inject (x :: xs)) xs) as [a Wp].
          { apply Forall_forall. intros y Hy. assert (N : ~ mentions id y) by (apply fresh; now right).
            split; [exact N|]. apply replace_none. exact N. }
          destruct (IHn todo ltac:(lia) APt Bt) as [f0 F].
          exists (S (a + f0 + List.length xs)). intros [|f] g Lf Lg done; [lia|]. cbn [TmplModel.walk]. rewrite M.
          replace f with (List.length xs + (f - List.length xs))%nat by lia.
          rewrite Wp by lia. rewrite F by lia. rewrite <- !app_assoc. reflexivity.
      + destruct (Ba) as [a' [Fa [f1 F1]]].
        { intros ->. cbn in M. rewrite String.eqb_refl in M. discriminate. }
        destruct (IHn todo ltac:(lia) APt Bt) as [f0 F].
        exists (S (f0 + f1)). intros [|f] g Lf Lg done; [lia|]. cbn [TmplModel.walk]. rewrite M, F1 by lia.
        cbn [bind]. rewrite F by lia. cbn [flat_map]. rewrite Fa. now rewrite <- app_assoc.
  Qed.

  (** *** Replacing is filling *)
  Definition suits (n : node) : Prop :=
    match r with Single _ => proper n | Inject l => in_lists id n /\ (l = [] -> all_apart id n) end.
  Lemma suits_node k ts ones items : suits (Node k ts ones items) ->
    k <> "list" /\ Forall (fun a => suits a /\ (a = Id id -> as_node r = single (nodes r))) ones
    /\ Forall suits items /\ (nodes r = [] -> apart id items).
  Proof.
    clear fresh. unfold suits. destruct r as [x|l]; cbn [as_node nodes].
    - intros H. apply proper_node in H. destruct H as [K [A B]]. repeat split; [exact K| |exact B|discriminate].
      eapply Forall_impl; [|exact A]. cbn. auto.
    - intros [H G]. apply in_lists_node in H. destruct H as [K [A B]].
      assert (G' : l = [] -> apart id items /\ Forall (all_apart id) ones /\ Forall (all_apart id) items).
      { intros E. apply all_apart_node with (k := k) (ts := ts). auto. }
      repeat split; [exact K| | |intros E; now apply G'].
      + rewrite Forall_forall in A |- *. intros a Ha. destruct (A a Ha) as [A1 A2]. repeat split; [exact A2| |contradiction].
        intros E. destruct (G' E) as [_ [G1 _]]. rewrite Forall_forall in G1. auto.
      + rewrite Forall_forall in B |- *. intros a Ha. split; [auto|].
        intros E. destruct (G' E) as [_ [_ G1]]. rewrite Forall_forall in G1. auto.
  Qed.
  Lemma replace_fill n : suits n -> becomes n.
  Proof.
    induction n as [m|k ts ones items IH1 IH2] using node_induction; intros S N.
    - exists (Id m). split.
      + cbn. rewrite only_none by congruence. reflexivity.
      + exists 1%nat. intros [|f] L; [lia|]. reflexivity.
    - apply suits_node in S. destruct S as [K [S1 [S2 AP]]].
      exists (Node k ts (map (fun a => single (fill (only id r) a)) ones) (flat_map (fill (only id r)) items)). split; [reflexivity|].
      destruct (mapM_eventually_gen (fun g a => if matches a then Ok (as_node r) else replace_id g a)
                                    (fun a => single (fill (only id r) a)) ones) as [f1 F1].
      { rewrite Forall_forall in *. intros a Ha. destruct (S1 a Ha) as [Sa Ea]. destruct (matches a) eqn:M.
        - apply matches_spec in M. subst a. exists 0%nat. intros g _. rewrite fill_id. now rewrite Ea.
        - destruct (IH1 a Ha Sa) as [a' [E [f0 F]]].
          + intros ->. cbn in M. rewrite String.eqb_refl in M. discriminate.
          + exists f0. intros g Hg. rewrite E. cbn [single]. auto. }
      destruct (walk_fill (List.length items) items (Nat.le_refl _) AP) as [f2 F2].
      { rewrite Forall_forall in *. auto. }
      exists (S (f1 + f2)). intros [|f] L; [lia|]. cbn [TmplModel.replace_id]. rewrite F1 by lia. cbn [bind].
      destruct (String.eqb_spec k "list"); [contradiction|]. rewrite F2 by lia. reflexivity.
  Qed.
End Fill.

(** ** One replacement after the other *)
Lemma single_one x : single [x] = x.
Proof. reflexivity. Qed.
Lemma flat_map_flat_map' {A B C} (f : A -> list B) (g : B -> list C) l :
  flat_map g (flat_map f l) = flat_map (fun x => flat_map g (f x)) l.
Proof. induction l as [|x l IH]; [reflexivity|]. cbn. now rewrite flat_map_app, IH. Qed.
Lemma flat_map_ext_Forall {A B} (f g : A -> list B) l : Forall (fun x => f x = g x) l -> flat_map f l = flat_map g l.
Proof. induction 1; cbn; congruence. Qed.
Lemma map_ext_Forall' {A B} (f g : A -> B) l : Forall (fun x => f x = g x) l -> map f l = map g l.
Proof. induction 1; cbn; congruence. Qed.

Lemma fill_cons id r l n : (forall x m, In x (nodes r) -> mentions m x -> assigned l m = None) ->
  fill (assigned ((id, r) :: l)) n = flat_map (fill (assigned l)) (fill (only id r) n).
Proof.
  intros H. assert (E : flat_map (fill (assigned l)) (nodes r) = nodes r) by (apply fill_list_none; exact H).
  induction n as [m|k ts ones items IH1 IH2] using node_induction.
  - cbn [fill assigned]. unfold only. destruct (String.eqb m id); [now rewrite E|]. cbn. now rewrite app_nil_r.
  - cbn [fill flat_map]. rewrite app_nil_r. do 2 f_equal.
    + rewrite map_map. apply map_ext_Forall'. eapply Forall_impl; [|exact IH1]. intros a ->.
      destruct a as [m|k' ts' o' i'].
      * cbn [fill]. unfold only. destruct (String.eqb m id); [|cbn; now rewrite app_nil_r].
        rewrite E. unfold single at 1 3.
        destruct (nodes r) as [|x [|y z]] eqn:N.
        -- reflexivity.
        -- cbn in E. rewrite app_nil_r in E. now rewrite E.
        -- rewrite <- N in E |- *. cbn [fill map]. rewrite E. reflexivity.
      * cbn [fill flat_map]. rewrite app_nil_r. reflexivity.
    + rewrite flat_map_flat_map'. apply flat_map_ext_Forall. exact IH2.
Qed.

(** *** What a replacement preserves *)
Lemma fill_shape id r n : n <> Id id -> exists n', fill (only id r) n = [n'] /\ match n with Id m => n' = Id m | Node k ts _ _ => exists o i, n' = Node k ts o i end.
Proof.
  destruct n as [m|k ts o i]; intros N; cbn.
  - rewrite only_none by congruence. eauto.
  - eexists. split; [reflexivity|]. eauto.
Qed.
Lemma none_in_lists id n : ~ mentions id n -> proper n -> in_lists id n.
Proof.
  induction n as [m|k ts ones items IH1 IH2] using node_induction; intros N P; [exact I|].
  apply not_mentions_node in N. apply proper_node in P. destruct N as [N1 N2], P as [K [P1 P2]].
  apply in_lists_node. rewrite !Forall_forall in *. split; [exact K|]. split.
  - intros x Hx. split; [|auto]. intros ->. apply (N1 _ Hx). reflexivity.
  - intros x Hx. auto.
Qed.
Lemma in_lists_proper id n : in_lists id n -> proper n.
Proof.
  induction n as [m|k ts ones items IH1 IH2] using node_induction; intros P; [exact I|].
  apply in_lists_node in P. destruct P as [K [P1 P2]]. apply proper_node. rewrite !Forall_forall in *.
  split; [exact K|]. split; intros x Hx; [apply IH1, P1|apply IH2, P2]; auto.
Qed.
Lemma suits_proper h r n : suits h r n -> proper n.
Proof. destruct r; cbn; [auto|]. intros [H _]. eapply in_lists_proper; eauto. Qed.
Lemma as_single r : (exists x, r = Single x) -> exists x, nodes r = [x].
Proof. intros [x ->]. now exists x. Qed.
Lemma suits_one h r k ts ones items a : suits h r (Node k ts ones items) -> In a ones -> a = Id h -> exists x, r = Single x.
Proof.
  destruct r as [x|l]; [eauto|]. cbn [suits]. intros [H _] I E. apply in_lists_node in H. destruct H as [_ [H _]].
  rewrite Forall_forall in H. destruct (H a I). contradiction.
Qed.
Lemma proper_fill h r n : suits h r n -> Forall proper (nodes r) -> Forall proper (fill (only h r) n).
Proof.
  intros S R. induction n as [m|k ts ones items IH1 IH2] using node_induction.
  - cbn. unfold only. destruct (String.eqb m h); [exact R|]. repeat constructor.
  - cbn [fill]. apply Forall_cons; [|constructor]. pose proof S as S0. apply suits_node in S. destruct S as [K [S1 [S2 _]]].
    rewrite !Forall_forall in *. apply proper_node. split; [exact K|]. split.
    + apply Forall_forall. intros y Hy. apply in_map_iff in Hy. destruct Hy as [a [<- Ha]].
      destruct (S1 a Ha) as [Sa Ea]. specialize (IH1 a Ha Sa). rewrite Forall_forall in IH1. destruct (matches h a) eqn:M.
      * apply matches_spec in M. destruct (suits_one _ _ _ _ _ _ _ S0 Ha M) as [x X]. subst a. rewrite fill_id in *. subst r.
        cbn in *. apply IH1. now left.
      * destruct (fill_shape h r a) as [a' [E _]].
        { intros ->. cbn in M. rewrite String.eqb_refl in M. discriminate. }
        rewrite E in *. cbn [single]. apply IH1. now left.
    + apply Forall_forall. intros y Hy. apply in_flat_map in Hy. destruct Hy as [a [Ha Hy]].
      specialize (IH2 a Ha (S2 a Ha)). rewrite Forall_forall in IH2. auto.
Qed.
Lemma in_lists_fill id h r n : suits h r n -> Forall proper (nodes r) -> (forall x, In x (nodes r) -> ~ mentions id x) ->
  in_lists id n -> Forall (in_lists id) (fill (only h r) n).
Proof.
  intros S R N L. induction n as [m|k ts ones items IH1 IH2] using node_induction.
  - cbn. unfold only. rewrite !Forall_forall in *. destruct (String.eqb m h).
    + intros x Hx. apply none_in_lists; auto.
    + intros x [<-|[]]. exact I.
  - cbn [fill]. apply Forall_cons; [|constructor]. pose proof S as S0. apply suits_node in S. destruct S as [K [S1 [S2 _]]].
    apply in_lists_node in L. destruct L as [_ [L1 L2]].
    rewrite !Forall_forall in *. apply in_lists_node. split; [exact K|]. split.
    + apply Forall_forall. intros y Hy. apply in_map_iff in Hy. destruct Hy as [a [<- Ha]].
      destruct (S1 a Ha) as [Sa Ea]. destruct (L1 a Ha) as [La1 La2]. specialize (IH1 a Ha Sa La2). rewrite Forall_forall in IH1.
      destruct (matches h a) eqn:M.
      * apply matches_spec in M. destruct (suits_one _ _ _ _ _ _ _ S0 Ha M) as [x X]. subst a. rewrite fill_id in *. subst r.
        cbn in *. split; [|apply IH1; now left]. intros ->. apply (N (Id id)); [now left|reflexivity].
      * destruct (fill_shape h r a) as [a' [E Sh]].
        { intros ->. cbn in M. rewrite String.eqb_refl in M. discriminate. }
        rewrite E in *. cbn [single]. split; [|apply IH1; now left].
        destruct a as [m|]; [congruence|]. destruct Sh as [o [i ->]]. discriminate.
    + apply Forall_forall. intros y Hy. apply in_flat_map in Hy. destruct Hy as [a [Ha Hy]].
      specialize (IH2 a Ha (S2 a Ha) (L2 a Ha)). rewrite Forall_forall in IH2. auto.
Qed.

(** *** Number of occurrences *)
Fixpoint occurs (id : string) (n : node) : nat :=
  match n with
  | Id m => if String.eqb m id then 1%nat else 0%nat
  | Node _ _ ones items => (list_sum (map (occurs id) ones) + list_sum (map (occurs id) items))%nat
  end.
Notation occ id l := (list_sum (map (occurs id) l)).
Lemma occ_app id l l' : occ id (l ++ l') = (occ id l + occ id l')%nat.
Proof. now rewrite map_app, list_sum_app. Qed.
Lemma occ_cons id x l : occ id (x :: l) = (occurs id x + occ id l)%nat.
Proof. reflexivity. Qed.
Lemma occ_zero id l : occ id l = 0%nat <-> Forall (fun x => occurs id x = 0%nat) l.
Proof.
  split.
  - induction l as [|x l IH]; intros H; [constructor|]. rewrite occ_cons in H. apply Forall_cons; [lia|apply IH; lia].
  - induction 1; [reflexivity|]. rewrite occ_cons. lia.
Qed.
Lemma occurs_zero id n : occurs id n = 0%nat <-> ~ mentions id n.
Proof.
  induction n as [m|k ts ones items IH1 IH2] using node_induction.
  - cbn. destruct (String.eqb_spec m id); split; intros; try congruence; try lia.
  - rewrite not_mentions_node. cbn [occurs].
    assert (A : (occ id ones + occ id items = 0 <-> occ id ones = 0 /\ occ id items = 0)%nat) by lia.
    rewrite A, !occ_zero. rewrite !Forall_forall in *. split; intros [H1 H2]; split; intros x Hx.
    + apply IH1; auto.
    + apply IH2; auto.
    + apply IH1; auto.
    + apply IH2; auto.
Qed.
Lemma occ_in id x l : In x l -> (occurs id x <= occ id l)%nat.
Proof. induction l as [|y l IH]; [intros []|]. intros [->|H]; rewrite occ_cons; [lia|]. specialize (IH H). lia. Qed.
Lemma once_apart id n : (occurs id n <= 1)%nat -> all_apart id n.
Proof.
  induction n as [m|k ts ones items IH1 IH2] using node_induction; intros O; [exact I|].
  cbn [occurs] in O. apply all_apart_node. rewrite !Forall_forall in *. split; [|split].
  - assert (O' : (occ id items <= 1)%nat) by lia. clear O IH1 IH2. induction items as [|x l IH]; [exact I|].
    rewrite occ_cons in O'. split; [|apply IH; lia]. intros ->. cbn [occurs] in O'. rewrite String.eqb_refl in O'.
    destruct l as [|y l]; [exact I|]. apply occurs_zero. rewrite occ_cons in O'. lia.
  - intros x Hx. apply IH1; [auto|]. pose proof (occ_in id x ones Hx). lia.
  - intros x Hx. apply IH2; [auto|]. pose proof (occ_in id x items Hx). lia.
Qed.
Lemma occurs_fill id h r n : id <> h -> (forall x, In x (nodes r) -> ~ mentions id x) ->
  occ id (fill (only h r) n) = occurs id n.
Proof.
  intros D N. assert (R : occ id (nodes r) = 0%nat).
  { apply occ_zero. apply Forall_forall. intros x Hx. apply occurs_zero. auto. }
  induction n as [m|k ts ones items IH1 IH2] using node_induction.
  - cbn [fill]. unfold only. destruct (String.eqb_spec m h) as [->|].
    + rewrite R. cbn. destruct (String.eqb_spec h id); [congruence|reflexivity].
    + cbn. lia.
  - cbn [fill map]. cbn [list_sum fold_right]. rewrite Nat.add_0_r. cbn [occurs]. f_equal.
    + rewrite map_map. f_equal. apply map_ext_Forall'. eapply Forall_impl; [|exact IH1]. cbn beta. intros a <-.
      destruct (fill (only h r) a) as [|x [|y z]] eqn:E; cbn [single].
      * reflexivity.
      * cbn. lia.
      * cbn [occurs map list_sum fold_right]. lia.
    + clear IH1. induction IH2 as [|x l Hx _ IH]; [reflexivity|]. cbn [flat_map]. rewrite occ_app, IH, Hx. reflexivity.
Qed.

(** *** All replacements *)
Definition fits (n : node) (p : string * replacement) : Prop :=
  match snd p with Single _ => proper n | Inject _ => in_lists (fst p) n /\ (occurs (fst p) n <= 1)%nat end.
Lemma fits_suits n h r : fits n (h, r) -> suits h r n.
Proof. destruct r; cbn; [auto|]. intros [A B]. split; [exact A|]. intros _. now apply once_apart. Qed.
Lemma fits_proper n p : fits n p -> proper n.
Proof. destruct p as [h r]. intros H. eapply suits_proper, fits_suits, H. Qed.
Lemma assigned_none l m : ~ In m (map fst l) -> assigned l m = None.
Proof.
  induction l as [|[h r] l IH]; [reflexivity|]. cbn. intros N. destruct (String.eqb_spec m h); [subst; tauto|]. apply IH. tauto.
Qed.
Lemma replace_all_fill l : forall n, (forall h, n <> Id h) ->
  NoDup (map fst l) ->
  (forall p x, In p l -> In x (nodes (snd p)) -> proper x /\ forall h, In h (map fst l) -> ~ mentions h x) ->
  Forall (fits n) l ->
  exists n', fill (assigned l) n = [n'] /\ exists f0, forall f, (f0 <= f)%nat -> replace_all f l n = Ok n'.
Proof.
  induction l as [|[h r] l IH]; intros n NI ND P F.
  - exists n. split; [|exists 0%nat; reflexivity]. apply fill_none. reflexivity.
  - inversion ND as [|? ? Nh ND']; subst. inversion F as [|? ? F1 F2]; subst.
    assert (S : suits h r n) by (apply fits_suits; exact F1).
    destruct (replace_fill h r) with (n := n) as [n1 [E1 [f1 R1]]]; [|exact S|apply NI|].
    { intros x Hx. apply (P (h, r) x); [now left|exact Hx|now left]. }
    destruct (fill_shape h r n (NI h)) as [n1' [E1' Sh]]. rewrite E1 in E1'. injection E1' as <-.
    assert (Pr : Forall proper (nodes r)).
    { apply Forall_forall. intros x Hx. apply (P (h, r) x); [now left|exact Hx]. }
    destruct (IH n1) as [n2 [E2 [f2 R2]]].
    + intros h'. destruct n as [m|]; [exfalso; now apply (NI m)|]. destruct Sh as [o [i ->]]. discriminate.
    + exact ND'.
    + intros p x Hp Hx. destruct (P p x (or_intror Hp) Hx) as [A B]. split; [exact A|]. intros h' Hh. apply B. now right.
    + rewrite !Forall_forall in *. intros [h' r'] Hp. specialize (F2 _ Hp).
      assert (Hh : In h' (map fst l)) by (apply in_map_iff; exists (h', r'); auto).
      assert (Nr : forall x, In x (nodes r) -> ~ mentions h' x).
      { intros x Hx. apply (P (h, r) x); [now left|exact Hx|now right]. }
      destruct r' as [x'|l']; cbn in F2 |- *.
      * assert (Q : Forall proper (fill (only h r) n)) by (apply proper_fill; [exact S|apply Forall_forall; exact Pr]).
        rewrite E1 in Q. now inversion Q.
      * destruct F2 as [F2 O]. split.
        -- assert (Q : Forall (in_lists h') (fill (only h r) n)) by (apply in_lists_fill; [exact S|apply Forall_forall; exact Pr|exact Nr|exact F2]).
           rewrite E1 in Q. now inversion Q.
        -- assert (Q : occ h' (fill (only h r) n) = occurs h' n).
           { apply occurs_fill; [|exact Nr]. intros ->. contradiction. }
           rewrite E1 in Q. cbn in Q. lia.
    + exists n2. split.
      * rewrite fill_cons, E1.
        -- cbn. now rewrite E2.
        -- intros x m Hx Hm. apply assigned_none. intros Hin. apply (P (h, r) x (or_introl eq_refl) Hx) with (h := m); [now right|exact Hm].
      * exists (f1 + f2)%nat. intros f L. cbn [replace_all]. rewrite R1 by lia. cbn [bind]. apply R2. lia.
Qed.

(** *** No placeholder is left *)
Lemma mentions_fill h s n : Exists (mentions h) (fill s n) ->
  exists m, mentions m n /\ match s m with Some l => Exists (mentions h) l | None => m = h end.
Proof.
  induction n as [m|k ts ones items IH1 IH2] using node_induction; intros H.
  - exists m. split; [reflexivity|]. cbn in H. destruct (s m); [exact H|]. inversion H as [? ? E|? ? E]; [exact E|inversion E].
  - cbn [fill] in H. inversion H as [? ? E|? ? E]; [|inversion E]. subst. apply mentions_node in E.
    rewrite !Forall_forall in *. rewrite !Exists_exists in E. destruct E as [[y [Hy M]]|[y [Hy M]]].
    + apply in_map_iff in Hy. destruct Hy as [a [<- Ha]].
      destruct (IH1 a Ha) as [m [Mm Hm]].
      * destruct (fill s a) as [|x [|z l]]; cbn [single] in M.
        -- apply mentions_node in M. destruct M as [M|M]; inversion M.
        -- now apply Exists_cons_hd.
        -- apply mentions_node in M. destruct M as [M|M]; [inversion M|exact M].
      * exists m. split; [|exact Hm]. apply mentions_node. left. apply Exists_exists. eauto.
    + apply in_flat_map in Hy. destruct Hy as [a [Ha Hy]].
      destruct (IH2 a Ha) as [m [Mm Hm]].
      * apply Exists_exists. eauto.
      * exists m. split; [|exact Hm]. apply mentions_node. right. apply Exists_exists. eauto.
Qed.

Lemma fill_ext s s' n : (forall m, s m = s' m) -> fill s n = fill s' n.
Proof.
  intros H. induction n as [m|k ts ones items IH1 IH2] using node_induction; cbn [fill]; [now rewrite H|].
  do 2 f_equal.
  - apply map_ext_Forall'. eapply Forall_impl; [|exact IH1]. intros a ->. reflexivity.
  - apply flat_map_ext_Forall. exact IH2.
Qed.
Lemma intended_assigned p m : assigned (steps p) m = intended p m.
Proof.
  cbn. unfold intended.
  repeat match goal with |- context [String.eqb m ?s] => destruct (String.eqb_spec m s); [subst m|] end; try reflexivity; discriminate.
Qed.

(** *** The calls *)
Lemma placeholder_names : forall h, In h placeholders -> h <> "dummy" /\ h <> "var_false" /\ h <> "kernel".
Proof. intros h H. repeat (destruct H as [<-|H]; [repeat split; discriminate|]). destruct H. Qed.
Lemma Exists_one {A} (P : A -> Prop) x : Exists P [x] -> P x.
Proof. intros H. inversion H as [? ? E|? ? E]; [exact E|inversion E]. Qed.
Lemma Exists_two {A} (P : A -> Prop) x y : Exists P [x; y] -> P x \/ P y.
Proof. intros H. inversion H as [? ? E|? ? E]; [now left|right; now apply Exists_one]. Qed.
Lemma mentions_call h f args : mentions h (call f args) -> h = f \/ Exists (mentions h) args.
Proof.
  intros H. apply mentions_node in H. destruct H as [H|H]; [|inversion H].
  apply Exists_two in H. destruct H as [H|H]; [left; now symmetry|]. apply mentions_node in H.
  destruct H as [H|H]; [inversion H|now right].
Qed.
Lemma mentions_address h n : mentions h (address n) -> h = n.
Proof.
  intros H. apply mentions_node in H. destruct H as [H|H]; [|inversion H]. apply Exists_one in H. now symmetry.
Qed.
Lemma mentions_dummy h ds : mentions h (build_dummy_calls ds) -> h = "var_false" \/ h = "dummy" \/ In h (map fst ds).
Proof.
  intros H. apply mentions_node in H. destruct H as [H|H]; [|inversion H].
  apply Exists_two in H. destruct H as [H|H]; [left; now symmetry|right]. apply mentions_node in H.
  destruct H as [H|H]; [inversion H|]. apply Exists_exists in H. destruct H as [x [Hx M]].
  apply in_map_iff in Hx. destruct Hx as [d [<- Hd]]. apply mentions_call in M. destruct M as [M|M]; [now left|right].
  apply Exists_one in M. apply in_map_iff. exists d. split; [|exact Hd].
  destruct (is_array d); [exact M|symmetry; now apply mentions_address].
Qed.
Lemma mentions_kernel_call h name ds cs : mentions h (build_kernel_call name ds cs) -> h = name \/ In h (map fst ds) \/ In h cs.
Proof.
  intros H. apply mentions_call in H. destruct H as [H|H]; [now left|right].
  apply Exists_exists in H. destruct H as [x [Hx M]]. rewrite !in_app_iff, !in_map_iff in Hx.
  destruct Hx as [[d [<- Hd]]|[[d [<- Hd]]|[c [<- Hc]]]].
  - left. cbn in M. subst h. apply in_map. now apply filter_In in Hd.
  - left. apply mentions_address in M. subst h. apply in_map. now apply filter_In in Hd.
  - right. cbn in M. now subst h.
Qed.
Lemma proper_call f args : Forall proper args -> proper (call f args).
Proof.
  intros H. apply proper_node. split; [discriminate|]. split; [|constructor].
  apply Forall_cons; [exact I|]. apply Forall_cons; [|constructor]. apply proper_node. split; [discriminate|]. split; [constructor|exact H].
Qed.
Lemma proper_address n : proper (address n).
Proof. cbn. split; [discriminate|]. auto. Qed.
Lemma proper_dummy ds : proper (build_dummy_calls ds).
Proof.
  apply proper_node. split; [discriminate|]. split; [|constructor].
  apply Forall_cons; [exact I|]. apply Forall_cons; [|constructor]. apply proper_node. split; [discriminate|]. split; [constructor|].
  apply Forall_forall. intros x Hx. apply in_map_iff in Hx. destruct Hx as [d [<- _]]. apply proper_call.
  apply Forall_cons; [|constructor]. destruct (is_array d); [exact I|apply proper_address].
Qed.
Lemma proper_kernel_call name ds cs : proper (build_kernel_call name ds cs).
Proof.
  apply proper_call. rewrite !Forall_app. repeat split; apply Forall_forall; intros x Hx; apply in_map_iff in Hx; destruct Hx as [d [<- _]].
  - exact I.
  - apply proper_address.
  - exact I.
Qed.

Ltac tree := repeat (first [exact I | discriminate | split]).
Lemma template_proper : proper template.
Proof. cbn. tree. Qed.
Lemma template_in_lists id : In id ["DECLARE_CONSTS"; "DECLARE_ARRAYS"; "DECLARE_INIT_SCALARS"; "INIT_ARRAYS"] -> in_lists id template.
Proof. intros H. repeat (destruct H as [<-|H]; [cbn; tree|]). destruct H. Qed.

Lemma main_filled p : clean p -> proper_pieces p ->
  exists n', fill (intended p) template = [n'] /\ exists f0, forall f, (f0 <= f)%nat -> main_ast f p = Ok n'.
Proof.
  intros C P. destruct (replace_all_fill (steps p) template) as [n' [E F]].
  - discriminate.
  - cbn. repeat (apply NoDup_cons; [intros H; cbn in H; repeat (destruct H as [H|H]; [discriminate|]); exact H|]). constructor.
  - assert (A : forall l x, In x l -> (forall y, In y l -> In y (const_decls p ++ array_decls p ++ scalar_decls p ++ array_inits p)) ->
                            proper x /\ forall h, In h placeholders -> ~ mentions h x).
    { intros l x Hx Hl. split; [apply P; auto|]. intros h Hh. apply C; auto. }
    intros q x Hq Hx.
    assert (B : proper x /\ forall h, In h placeholders -> ~ mentions h x).
    { cbn in Hq. repeat destruct Hq as [<-|Hq]; cbn in Hx.
      - apply (A _ x Hx). intros y Hy. rewrite !in_app_iff. auto.
      - apply (A _ x Hx). intros y Hy. rewrite !in_app_iff. auto.
      - apply (A _ x Hx). intros y Hy. rewrite !in_app_iff. auto.
      - destruct Hx as [<-|[]]. split; [apply proper_dummy|]. intros h Hh M. apply mentions_dummy in M.
        destruct (placeholder_names h Hh) as [N1 [N2 _]]. destruct M as [M|[M|M]]; try contradiction. now apply (proj1 (C h Hh)).
      - destruct Hx as [<-|[]]. split; [apply proper_kernel_call|]. intros h Hh M. apply mentions_kernel_call in M.
        destruct (placeholder_names h Hh) as [N1 [N2 N3]]. destruct (C h Hh) as [C1 [C2 _]]. destruct M as [M|[M|M]]; contradiction.
      - apply (A _ x Hx). intros y Hy. rewrite !in_app_iff. auto.
      - destruct Hq. }
    split; [apply B|]. intros h Hh. apply B. cbn in Hh. unfold placeholders. cbn. tauto.
  - repeat (apply Forall_cons; [|]); [..|constructor]; cbn [fits fst snd]; try exact template_proper.
    all: split; [apply template_in_lists; cbn; tauto|vm_compute; lia].
  - exists n'. split; [|exact F]. rewrite <- E. apply fill_ext. intros m. symmetry. apply intended_assigned.
Qed.
Lemma intended_clean p h m l : clean p -> In h placeholders -> intended p m = Some l -> ~ Exists (mentions h) l.
Proof.
  intros C Hh H E. destruct (C h Hh) as [C1 [C2 C3]]. destruct (placeholder_names h Hh) as [N1 [N2 N3]].
  assert (A : forall k, (forall y, In y k -> In y (const_decls p ++ array_decls p ++ scalar_decls p ++ array_inits p)) -> Exists (mentions h) k -> False).
  { intros k I X. apply Exists_exists in X. destruct X as [x [Hx M]]. apply (C3 x); auto. }
  unfold intended in H.
  repeat match type of H with context [String.eqb m ?s] => destruct (String.eqb m s) end; try discriminate H; injection H as <-.
  - apply (A _) in E; [exact E|]. intros y Hy. rewrite !in_app_iff. auto.
  - apply (A _) in E; [exact E|]. intros y Hy. rewrite !in_app_iff. auto.
  - apply (A _) in E; [exact E|]. intros y Hy. rewrite !in_app_iff. auto.
  - apply (A _) in E; [exact E|]. intros y Hy. rewrite !in_app_iff. auto.
  - apply Exists_one, mentions_dummy in E. destruct E as [E|[E|E]]; contradiction.
  - apply Exists_one, mentions_kernel_call in E. destruct E as [E|[E|E]]; contradiction.
Qed.
Lemma intended_placeholder p h : In h placeholders -> exists l, intended p h = Some l.
Proof. intros H. repeat (destruct H as [<-|H]; [eexists; reflexivity|]). destruct H. Qed.

Lemma parameters_agree ds cs name :
  Forall2 (fits_parameter ds cs) (kernel_parameters ds cs) (arguments (build_kernel_call name ds cs)).
Proof.
  unfold build_kernel_call, kernel_parameters, call. cbn [arguments]. apply Forall2_app; [|apply Forall2_app].
  - assert (A : forall d, In d (filter is_array ds) -> In (fst d, KArray) ds).
    { intros [n k] H. apply filter_In in H. destruct H as [H T]. destruct k; try discriminate T. exact H. }
    induction (filter is_array ds) as [|d l IH]; cbn [map]; constructor; [|apply IH; intros; apply A; now right].
    split; [reflexivity|]. apply A. now left.
  - assert (A : forall d, In d (filter is_scalar ds) -> In (fst d, KScalar) ds).
    { intros [n k] H. apply filter_In in H. destruct H as [H T]. destruct k; try discriminate T. exact H. }
    induction (filter is_scalar ds) as [|d l IH]; cbn [map]; constructor; [|apply IH; intros; apply A; now right].
    split; [reflexivity|]. split; [reflexivity|]. apply A. now left.
  - assert (A : forall c, In c cs -> In c cs) by auto. revert A. generalize cs at 1 4 5. intros l.
    induction l as [|c l IH]; intros A; cbn [map]; constructor; [|apply IH; intros; apply A; now right].
    split; [reflexivity|]. apply A. now left.
Qed.
