From Coq Require Import String.
From Verif Require Import PyBase PyBaseFacts LoopModel LoopSpec LoopProofs AstModel AstSpec.
Local Open Scope string_scope.
Local Open Scope list_scope.
Local Open Scope Z_scope.

(** * conv_ast_to_sym *)
Lemma conv_sound e s : conv_ast_to_sym e = Ok s -> same_index e s.
Proof.
  revert s. induction e as [n|[z|]|op l IHl r IHr|op e IH|a IHa b IHb|]; cbn [conv_ast_to_sym];
    intros s H env.
  - injection H as <-. reflexivity.
  - injection H as <-. reflexivity.
  - discriminate.
  - cbn [ceval]. destruct (String.eqb op "*") eqn:E1.
    { destruct (conv_ast_to_sym l) as [a|]; [|discriminate].
      destruct (conv_ast_to_sym r) as [b|]; [|discriminate]. cbn in H. injection H as <-.
      now rewrite (IHl a eq_refl env), (IHr b eq_refl env). }
    destruct (String.eqb op "+") eqn:E2.
    { destruct (conv_ast_to_sym l) as [a|]; [|discriminate].
      destruct (conv_ast_to_sym r) as [b|]; [|discriminate]. cbn in H. injection H as <-.
      now rewrite (IHl a eq_refl env), (IHr b eq_refl env). }
    destruct (String.eqb op "-") eqn:E3; [|discriminate].
    destruct (conv_ast_to_sym l) as [a|]; [|discriminate].
    destruct (conv_ast_to_sym r) as [b|]; [|discriminate]. cbn in H. injection H as <-.
    now rewrite (IHl a eq_refl env), (IHr b eq_refl env).
  - destruct (_ || _ || _)%bool; discriminate.
  - discriminate.
  - discriminate.
Qed.

(** * References *)
Lemma get_offsets_rev_sound e l :
  get_offsets_rev e = Ok l ->
  exists n subs, reference e = Some (n, subs) /\ get_basename e = Ok n /\
    subs <> [] /\ Forall2 same_index (rev subs) l.
Proof.
  revert l. induction e as [n|v|op a IHa b IHb|op a IHa|a IHa s IHs|]; cbn [get_offsets_rev];
    intros l H; try discriminate.
  destruct a as [n|v|op a1 a2|op a1|a1 a2|]; try discriminate.
  - destruct s as [m|v|op s1 s2|op s1|s1 s2|]; try discriminate.
    all: match type of H with context [conv_ast_to_sym ?e] =>
           destruct (conv_ast_to_sym e) as [s'|] eqn:E; [|discriminate] end.
    all: cbn in H; injection H as <-; cbn; eexists _, _; repeat split; try discriminate.
    all: constructor; [now apply conv_sound|constructor].
  - destruct s as [m|v|op s1 s2|op s1|s1 s2|]; try discriminate.
    all: match type of H with context [conv_ast_to_sym ?e] =>
           destruct (conv_ast_to_sym e) as [s'|] eqn:E; [|discriminate] end.
    all: cbn [bind] in H; destruct (get_offsets_rev (EArr a1 a2)) as [rest|] eqn:E2; [|discriminate].
    all: cbn [bind] in H; injection H as <-;
         destruct (IHa rest eq_refl) as (n & subs & Href & Hb & Hne & HF).
    all: exists n; eexists.
    all: split; [change (reference (EArr ?a ?b)) with (reference (EArr a b)); cbn [reference];
                 cbn [reference] in Href; rewrite Href; reflexivity|].
    all: split; [exact Hb|split; [now destruct subs|]].
    all: rewrite rev_app_distr; cbn; constructor; [now apply conv_sound|assumption].
Qed.

Lemma get_offsets_sound e n a :
  get_basename e = Ok n -> get_offsets e = Ok a ->
  exists subs, reference e = Some (n, subs) /\ describes a subs.
Proof.
  intros Hn Ha. destruct e as [m|v|op e1 e2|op e1|e1 e2|]; cbn [get_offsets] in Ha;
    try (cbn in Ha; discriminate).
  - injection Ha as <-. cbn in Hn. injection Hn as <-. exists []. split; reflexivity.
  - destruct (get_offsets_rev (EArr e1 e2)) as [l|] eqn:E; [|discriminate].
    cbn in Ha. injection Ha as <-.
    destruct (get_offsets_rev_sound _ _ E) as (n' & subs & Href & Hb & Hne & HF).
    rewrite Hb in Hn. injection Hn as ->. exists subs. split; [assumption|].
    split; [assumption|]. apply Forall2_rev in HF. now rewrite rev_involutive in HF.
Qed.

(** * Sources and destinations *)
Section Acc.
  Variable access_eqb : access -> access -> bool.
  (** Python set equality identifies only accesses that describe the same references. *)
  Definition eqb_sound := forall a b subs,
    access_eqb a b = true -> describes a subs -> describes b subs.
  Hypothesis Heqb : eqb_sound.

  Lemma set_add_in s a x : In x (set_add access_eqb s a) -> In x s \/ x = a.
  Proof.
    unfold set_add. destruct (existsb _ s); [auto|].
    rewrite in_app_iff. cbn. intuition.
  Qed.

  Lemma set_add_incl s a x : In x s -> In x (set_add access_eqb s a).
  Proof. unfold set_add. destruct (existsb _ s); [auto|]. rewrite in_app_iff. auto. Qed.

  Lemma set_add_new s a subs :
    describes a subs -> exists b, In b (set_add access_eqb s a) /\ describes b subs.
  Proof.
    intros H. unfold set_add. destruct (existsb (access_eqb a) s) eqn:E.
    - apply existsb_exists in E as (b & Hb & He). exists b. split; [assumption|]. eapply Heqb; eassumption.
    - exists a. split; [|assumption]. rewrite in_app_iff. right. now left.
  Qed.

  Lemma acc_add_incl d k a n x : listed d n x -> listed (acc_add access_eqb d k a) n x.
  Proof.
    intros (s & Hs & Hx). induction d as [|[k' s'] d IH]; [easy|]. cbn [acc_add].
    destruct Hs as [[= -> ->]|Hs].
    - destruct (String.eqb_spec k n) as [->|Hne].
      + eexists. split; [left; reflexivity|]. now apply set_add_incl.
      + exists s. split; [now left|assumption].
    - destruct (String.eqb_spec k k') as [->|Hne].
      + exists s. split; [now right|assumption].
      + destruct (IH Hs) as (s'' & H1 & H2). exists s''. split; [now right|assumption].
  Qed.

  Lemma acc_add_new d k a subs :
    describes a subs -> exists b, listed (acc_add access_eqb d k a) k b /\ describes b subs.
  Proof.
    intros H. induction d as [|[k' s'] d IH]; cbn [acc_add].
    - exists a. split; [|assumption]. exists [a]. split; now left.
    - destruct (String.eqb_spec k k') as [->|Hne].
      + destruct (set_add_new s' a subs H) as (b & Hb & Hd). exists b. split; [|assumption].
        eexists. split; [now left|assumption].
      + destruct IH as (b & (s & Hs & Hb) & Hd). exists b. split; [|assumption].
        exists s. split; [now right|assumption].
  Qed.

  Lemma acc_add_inv d k a n x :
    listed (acc_add access_eqb d k a) n x -> listed d n x \/ (n = k /\ x = a).
  Proof.
    intros (s & Hs & Hx). induction d as [|[k' s'] d IH]; cbn [acc_add] in Hs.
    - destruct Hs as [[= <- <-]|[]]. destruct Hx as [<-|[]]. now right.
    - destruct (String.eqb_spec k k') as [->|Hne].
      + destruct Hs as [[= <- <-]|Hs].
        * apply set_add_in in Hx as [Hx|Hx]; [|now right]. left. exists s'. split; [now left|assumption].
        * left. exists s. split; [now right|assumption].
      + destruct Hs as [[= <- <-]|Hs].
        * left. exists s'. split; [now left|assumption].
        * destruct (IH Hs) as [(s'' & H1 & H2)|H]; [|now right].
          left. exists s''. split; [now right|assumption].
  Qed.

  (** What a dictionary must satisfy relative to a list of references. *)
  Definition complete (d : list (string * list access)) (rs : list (string * list expr)) :=
    forall n subs, In (n, subs) rs -> exists a, listed d n a /\ describes a subs.
  Definition exact (d : list (string * list access)) (rs : list (string * list expr)) :=
    forall n a, listed d n a -> exists subs, In (n, subs) rs /\ describes a subs.

  Lemma complete_add d rs k a subs :
    complete d rs -> describes a subs -> complete (acc_add access_eqb d k a) (rs ++ [(k, subs)]).
  Proof.
    intros Hc Hd n subs' Hin. apply in_app_iff in Hin as [Hin|[[= <- <-]|[]]].
    - destruct (Hc _ _ Hin) as (b & Hb & Hdb). exists b. split; [|assumption]. now apply acc_add_incl.
    - now apply acc_add_new.
  Qed.

  Lemma exact_add d rs k a subs :
    exact d rs -> describes a subs -> exact (acc_add access_eqb d k a) (rs ++ [(k, subs)]).
  Proof.
    intros He Hd n b Hl. apply acc_add_inv in Hl as [Hl|[-> ->]].
    - destruct (He _ _ Hl) as (subs' & Hin & Hdb). exists subs'. rewrite in_app_iff. auto.
    - exists subs. rewrite in_app_iff. split; [right; now left|assumption].
  Qed.

  Definition src_inv (st : kstate) rs := complete (sources st) rs /\ exact (sources st) rs.
  Definition dst_inv (st : kstate) rs := complete (destinations st) rs /\ exact (destinations st) rs.

  Lemma p_sources_inv e st st' rs :
    p_sources access_eqb e st = Ok st' -> src_inv st rs -> src_inv st' (rs ++ reads e).
  Proof.
    revert st st' rs. induction e as [n|v|op l IHl r IHr|op e IH|a IHa b IHb|];
      intros st st' rs H Hinv; cbn [p_sources] in H; try discriminate.
    - cbn in H. injection H as <-. destruct Hinv as [Hc He]. split; cbn [sources add_source].
      + now apply complete_add.
      + now apply exact_add.
    - injection H as <-. now rewrite app_nil_r.
    - destruct (p_sources access_eqb l st) as [st1|] eqn:E1; [|discriminate]. cbn [bind] in H.
      destruct (p_sources access_eqb r st1) as [st2|] eqn:E2; [|discriminate]. cbn [bind] in H.
      injection H as <-. pose proof (IHl _ _ _ E1 Hinv) as H1. pose proof (IHr _ _ _ E2 H1) as H2.
      rewrite <- app_assoc in H2. exact H2.
    - destruct (allowed_unary op); [|discriminate].
      destruct (p_sources access_eqb e st) as [st1|] eqn:E1; [|discriminate]. cbn [bind] in H.
      injection H as <-. exact (IH _ _ _ E1 Hinv).
    - destruct (get_basename (EArr a b)) as [n|] eqn:E1; [|discriminate]. cbn [bind] in H.
      destruct (get_offsets (EArr a b)) as [acc|] eqn:E2; [|discriminate]. cbn [bind] in H.
      injection H as <-. destruct (get_offsets_sound _ _ _ E1 E2) as (subs & Href & Hd).
      cbn [reads]. rewrite Href. destruct Hinv as [Hc He]. split; cbn [sources add_source].
      + now apply complete_add.
      + now apply exact_add.
  Qed.

  Lemma p_sources_dst e st st' :
    p_sources access_eqb e st = Ok st' -> destinations st' = destinations st.
  Proof.
    revert st st'. induction e as [n|v|op l IHl r IHr|op e IH|a IHa b IHb|];
      intros st st' H; cbn [p_sources] in H; try discriminate.
    - cbn in H. now injection H as <-.
    - now injection H as <-.
    - destruct (p_sources access_eqb l st) as [st1|] eqn:E1; [|discriminate]. cbn [bind] in H.
      destruct (p_sources access_eqb r st1) as [st2|] eqn:E2; [|discriminate]. cbn [bind] in H.
      injection H as <-. cbn. now rewrite (IHr _ _ E2), (IHl _ _ E1).
    - destruct (allowed_unary op); [|discriminate].
      destruct (p_sources access_eqb e st) as [st1|] eqn:E1; [|discriminate]. cbn [bind] in H.
      injection H as <-. cbn. now apply IH.
    - destruct (get_basename (EArr a b)) as [n|] eqn:E1; [|discriminate]. cbn [bind] in H.
      destruct (get_offsets (EArr a b)) as [acc|] eqn:E2; [|discriminate]. cbn [bind] in H.
      now injection H as <-.
  Qed.

  Lemma p_assignment_inv s st st' rs ws :
    p_assignment access_eqb s st = Ok st' -> src_inv st rs -> dst_inv st ws ->
    src_inv st' (rs ++ stmt_reads s) /\ dst_inv st' (ws ++ stmt_writes s).
  Proof.
    unfold p_assignment. intros H Hs Hd.
    assert (H' : exists n a subs, reference (lvalue s) = Some (n, subs) /\ describes a subs /\
      let write_and_read := negb (String.eqb (aop s) "=") in
      let st1 := if write_and_read
                   then add_flop st (strip_eq (aop s)) (dget (flops st) (strip_eq (aop s)) + 1)
                   else st in
      let st2 := add_dest access_eqb st1 n a in
      let st3 := if write_and_read then add_source access_eqb st2 n a else st2 in
      p_sources access_eqb (rvalue s) st3 = Ok st').
    { destruct (lvalue s) as [m|v|op l r|op e|a b|] eqn:El; try discriminate.
      - cbn [bind get_basename get_offsets] in H. exists m, None, []. split; [reflexivity|split; [reflexivity|exact H]].
      - destruct (get_basename (EArr a b)) as [n|] eqn:E1; [|discriminate]. cbn [bind] in H.
        destruct (get_offsets (EArr a b)) as [acc|] eqn:E2; [|discriminate]. cbn [bind] in H.
        destruct (get_offsets_sound _ _ _ E1 E2) as (subs & Href & Hde). exists n, acc, subs. split; [assumption|split; [assumption|exact H]]. }
    destruct H' as (n & a & subs & Href & Hde & Hp). cbv zeta in Hp.
    unfold stmt_reads, stmt_writes. rewrite Href. cbn [opt_list].
    destruct (String.eqb (aop s) "="); cbn [negb] in Hp; cbv iota in Hp.
    - split.
      + cbn [app]. eapply p_sources_inv; [exact Hp|]. exact Hs.
      + unfold dst_inv. rewrite (p_sources_dst _ _ _ Hp). cbn.
        destruct Hd as [Hc He]. split; [now apply complete_add|now apply exact_add].
    - split.
      + rewrite app_assoc. eapply p_sources_inv; [exact Hp|]. destruct Hs as [Hc He].
        split; cbn; [now apply complete_add|now apply exact_add].
      + unfold dst_inv. rewrite (p_sources_dst _ _ _ Hp). cbn.
        destruct Hd as [Hc He]. split; [now apply complete_add|now apply exact_add].
  Qed.

  Lemma p_assignments_inv l st st' rs ws :
    p_assignments access_eqb l st = Ok st' -> src_inv st rs -> dst_inv st ws ->
    src_inv st' (rs ++ flat_map stmt_reads l) /\ dst_inv st' (ws ++ flat_map stmt_writes l).
  Proof.
    revert st rs ws. induction l as [|s l IH]; intros st rs ws H Hs Hd; cbn [p_assignments] in H.
    - injection H as <-. cbn. now rewrite !app_nil_r.
    - destruct (p_assignment access_eqb s st) as [st1|] eqn:E; [|discriminate]. cbn [bind] in H.
      destruct (p_assignment_inv _ _ _ _ _ E Hs Hd) as [Hs1 Hd1].
      cbn [flat_map]. rewrite !app_assoc. now apply (IH st1).
  Qed.

  Lemma empty_inv : src_inv empty_state [] /\ dst_inv empty_state [].
  Proof.
    split; split; cbn; intros n x H; try easy; destruct H as (s & [] & _).
  Qed.

  Lemma analysis_exact l st :
    p_assignments access_eqb l empty_state = Ok st ->
    (forall n subs, In (n, subs) (flat_map stmt_reads l) ->
       exists a, listed (sources st) n a /\ describes a subs) /\
    (forall n a, listed (sources st) n a ->
       exists subs, In (n, subs) (flat_map stmt_reads l) /\ describes a subs) /\
    (forall n subs, In (n, subs) (flat_map stmt_writes l) ->
       exists a, listed (destinations st) n a /\ describes a subs) /\
    (forall n a, listed (destinations st) n a ->
       exists subs, In (n, subs) (flat_map stmt_writes l) /\ describes a subs).
  Proof.
    intros H. destruct (p_assignments_inv _ _ _ [] [] H (proj1 empty_inv) (proj2 empty_inv))
      as [[H1 H2] [H3 H4]]. auto.
  Qed.
End Acc.

(** * FLOPs *)
Lemma dget_dset d k v k' : dget (dset d k v) k' = if String.eqb k' k then v else dget d k'.
Proof.
  induction d as [|[k0 v0] d IH]; cbn [dset dget].
  - reflexivity.
  - destruct (String.eqb_spec k k0) as [->|Hne]; cbn [dget].
    + destruct (String.eqb k' k0); reflexivity.
    + destruct (String.eqb_spec k' k0) as [->|Hne2]; [|exact IH].
      destruct (String.eqb_spec k0 k) as [->|_]; [congruence|reflexivity].
Qed.

Lemma occurrences_cons op x l :
  occurrences op (x :: l) = (if String.eqb op x then 1 else 0) + occurrences op l.
Proof.
  unfold occurrences. cbn [count_occ]. destruct (string_dec x op) as [->|H].
  - rewrite String.eqb_refl. lia.
  - destruct (String.eqb_spec op x) as [->|_]; [congruence|lia].
Qed.

Lemma occurrences_app op l1 l2 : occurrences op (l1 ++ l2) = occurrences op l1 + occurrences op l2.
Proof. unfold occurrences. rewrite count_occ_app. lia. Qed.

Lemma flop_step st op op' :
  dget (flops (add_flop st op (dget (flops st) op + 1))) op'
  = (if String.eqb op' op then 1 else 0) + dget (flops st) op'.
Proof.
  cbn [add_flop flops]. rewrite dget_dset. destruct (String.eqb_spec op' op) as [->|_]; lia.
Qed.

Lemma p_sources_flops eqb e st st' :
  p_sources eqb e st = Ok st' -> no_incdec (operators e) ->
  forall op, dget (flops st') op = dget (flops st) op + occurrences op (operators e).
Proof.
  revert st st'. induction e as [n|v|o l IHl r IHr|o e IH|a IHa b IHb|];
    intros st st' H Hno op; cbn [p_sources] in H; try discriminate.
  - cbn in H. injection H as <-. cbn. unfold occurrences; cbn; lia.
  - injection H as <-. unfold occurrences; cbn; lia.
  - destruct (p_sources eqb l st) as [st1|] eqn:E1; [|discriminate]. cbn [bind] in H.
    destruct (p_sources eqb r st1) as [st2|] eqn:E2; [|discriminate]. cbn [bind] in H.
    injection H as <-. rewrite flop_step. cbn [operators]. rewrite occurrences_cons, occurrences_app.
    rewrite (IHr _ _ E2), (IHl _ _ E1); [lia| |].
    + intros x Hx. apply Hno. cbn. right. apply in_app_iff. now left.
    + intros x Hx. apply Hno. cbn. right. apply in_app_iff. now right.
  - destruct (allowed_unary o) eqn:Eo; [|discriminate].
    destruct (p_sources eqb e st) as [st1|] eqn:E1; [|discriminate]. cbn [bind] in H.
    injection H as <-.
    assert (Ho : o = "-").
    { specialize (Hno o (or_introl eq_refl)). unfold allowed_unary in Eo.
      destruct (String.eqb_spec o "-"); [assumption|].
      destruct (String.eqb_spec o "--"); [subst; cbn in Hno; tauto|].
      destruct (String.eqb_spec o "++"); [subst; cbn in Hno; tauto|].
      destruct (String.eqb_spec o "p++"); [subst; cbn in Hno; tauto|].
      destruct (String.eqb_spec o "p--"); [subst; cbn in Hno; tauto|discriminate]. }
    subst o. change (last_char "-") with "-". rewrite flop_step. cbn [operators].
    rewrite occurrences_cons, (IH _ _ E1); [lia|]. intros x Hx. apply Hno. now right.
  - destruct (get_basename (EArr a b)) as [n|] eqn:E1; [|discriminate]. cbn [bind] in H.
    destruct (get_offsets (EArr a b)) as [acc|] eqn:E2; [|discriminate]. cbn [bind] in H.
    injection H as <-. cbn. unfold occurrences; cbn; lia.
Qed.

Lemma p_assignment_flops eqb s st st' :
  p_assignment eqb s st = Ok st' -> arithmetic_assignment (aop s) -> no_incdec (stmt_operators s) ->
  forall op, dget (flops st') op = dget (flops st) op + occurrences op (stmt_operators s).
Proof.
  unfold p_assignment. intros H Ha Hno op.
  assert (H' : exists n a,
    let write_and_read := negb (String.eqb (aop s) "=") in
    let st1 := if write_and_read
                 then add_flop st (strip_eq (aop s)) (dget (flops st) (strip_eq (aop s)) + 1)
                 else st in
    let st2 := add_dest eqb st1 n a in
    let st3 := if write_and_read then add_source eqb st2 n a else st2 in
    p_sources eqb (rvalue s) st3 = Ok st').
  { destruct (lvalue s) as [m|v|o l r|o e|a b|] eqn:El; try discriminate.
    - cbn [bind get_basename get_offsets] in H. eauto.
    - destruct (get_basename (EArr a b)) as [n|] eqn:E1; [|discriminate]. cbn [bind] in H.
      destruct (get_offsets (EArr a b)) as [acc|] eqn:E2; [|discriminate]. cbn [bind] in H. eauto. }
  destruct H' as (n & a & Hp). cbv zeta in Hp.
  unfold stmt_operators in *. rewrite occurrences_app.
  assert (Hno' : no_incdec (operators (rvalue s))).
  { intros x Hx. apply Hno. apply in_app_iff. now right. }
  rewrite (p_sources_flops _ _ _ _ Hp Hno').
  assert (Hc : forall o, compound_operator (aop s) = [o] -> strip_eq (aop s) = o ->
     String.eqb (aop s) "=" = false ->
     dget (flops (if negb (String.eqb (aop s) "=")
       then add_source eqb (add_dest eqb (add_flop st (strip_eq (aop s))
                (dget (flops st) (strip_eq (aop s)) + 1)) n a) n a
       else add_dest eqb st n a)) op
     = dget (flops st) op + occurrences op (compound_operator (aop s))).
  { intros o Ho1 Ho2 Ho3. rewrite Ho3, Ho1, Ho2. cbn [negb].
    cbn [add_source add_dest flops]. rewrite flop_step, occurrences_cons.
    unfold occurrences; cbn; lia. }
  destruct Ha as [E|[E|[E|[E|[E|[]]]]]]; rewrite <- E in *; cbn in Hc |- *.
  - unfold occurrences; cbn; lia.
  - rewrite (Hc "+"); try reflexivity. lia.
  - rewrite (Hc "-"); try reflexivity. lia.
  - rewrite (Hc "*"); try reflexivity. lia.
  - rewrite (Hc "/"); try reflexivity. lia.
Qed.

Lemma p_assignments_flops eqb l st st' :
  p_assignments eqb l st = Ok st' ->
  Forall (fun s => arithmetic_assignment (aop s) /\ no_incdec (stmt_operators s)) l ->
  forall op, dget (flops st') op = dget (flops st) op + occurrences op (flat_map stmt_operators l).
Proof.
  revert st. induction l as [|s l IH]; intros st H Hall op; cbn [p_assignments] in H.
  - injection H as <-. unfold occurrences; cbn; lia.
  - destruct (p_assignment eqb s st) as [st1|] eqn:E; [|discriminate]. cbn [bind] in H.
    inversion Hall as [|? ? [Ha Hn] Hall']; subst. cbn [flat_map]. rewrite occurrences_app.
    rewrite (IH _ H Hall'), (p_assignment_flops _ _ _ _ E Ha Hn). lia.
Qed.

Lemma flops_exact eqb l st :
  p_assignments eqb l empty_state = Ok st ->
  Forall (fun s => arithmetic_assignment (aop s) /\ no_incdec (stmt_operators s)) l ->
  forall op, dget (flops st) op = occurrences op (flat_map stmt_operators l).
Proof. intros H Hall op. rewrite (p_assignments_flops _ _ _ _ H Hall op). cbn. lia. Qed.

(** * Rewriting to one dimension *)
Lemma unchain_reference e n subs :
  reference e = Some (n, subs) -> unchain e = (rev subs, EID n).
Proof.
  revert subs. induction e as [m|v|op l IHl r IHr|op e IH|a IHa b IHb|]; cbn [reference unchain];
    intros subs H; try discriminate.
  - now injection H as <- <-.
  - destruct (reference a) as [[m l]|] eqn:E; [|discriminate]. injection H as <- <-.
    rewrite (IHa l eq_refl). now rewrite rev_app_distr.
Qed.

Lemma fold_bin_eval env op f l x vx vs :
  (forall a b va vb, ceval env a = Some va -> ceval env b = Some vb ->
      ceval env (EBin op a b) = Some (f va vb)) ->
  ceval env x = Some vx -> Forall2 (fun e v => ceval env e = Some v) l vs ->
  ceval env (fold_left (EBin op) l x) = Some (fold_left f vs vx).
Proof.
  intros Hop Hx HF. revert x vx Hx. induction HF as [|e v l vs He _ IH]; intros x vx Hx; cbn [fold_left];
    [assumption|]. apply IH. now apply Hop.
Qed.

Lemma mul_eval env a b va vb :
  ceval env a = Some va -> ceval env b = Some vb -> ceval env (EBin "*" a b) = Some (va * vb).
Proof. intros Ha Hb. cbn. now rewrite Ha, Hb. Qed.
Lemma add_eval env a b va vb :
  ceval env a = Some va -> ceval env b = Some vb -> ceval env (EBin "+" a b) = Some (va + vb).
Proof. intros Ha Hb. cbn. now rewrite Ha, Hb. Qed.

Lemma Forall2_firstn {A B} (R : A -> B -> Prop) n l l' :
  Forall2 R l l' -> Forall2 R (firstn n l) (firstn n l').
Proof.
  intros H. revert n. induction H; intros [|n]; cbn; constructor; auto.
Qed.

(** [i] subscripts are already processed; inner dimensions first. *)
Fixpoint terms (rdims : list Z) (i : nat) (vs : list Z) : list Z :=
  match vs with
  | [] => []
  | v :: vs' => v * zprod (firstn i rdims) :: terms rdims (S i) vs'
  end.

Lemma summands_eval env dims vdims i ds vs :
  Forall2 (fun e v => ceval env e = Some v) dims vdims ->
  Forall2 (fun e v => ceval env e = Some v) ds vs ->
  (i + length ds <= length dims)%nat ->
  exists ts, summands dims i ds = Ok ts /\
    Forall2 (fun e v => ceval env e = Some v) ts (terms (rev vdims) i vs).
Proof.
  intros Hd. revert i vs. induction ds as [|d ds IH]; intros i vs HF Hlen; inversion HF; subst.
  - exists []. split; [reflexivity|constructor].
  - destruct (IH (S i) l' H3 ltac:(cbn in Hlen; lia)) as (ts & Hts & HFts).
    cbn [summands]. destruct i as [|i].
    + rewrite Hts. eexists. split; [reflexivity|]. constructor; [|assumption].
      cbn. now rewrite Z.mul_1_r.
    + destruct (firstn (S i) (rev dims)) as [|f fs] eqn:Ef.
      { apply (f_equal (@length _)) in Ef. rewrite firstn_length, rev_length in Ef. cbn [length] in Ef, Hlen. lia. }
      cbn [reduce_bin bind]. rewrite Hts. cbn [bind]. eexists. split; [reflexivity|].
      constructor; [|assumption].
      pose proof (Forall2_firstn _ (S i) _ _ (Forall2_rev _ _ _ Hd)) as Hf. rewrite Ef in Hf.
      destruct (firstn (S i) (rev vdims)) as [|vf vfs]; [inversion Hf|].
      inversion Hf as [|? ? ? ? Hvf Hvfs]; subst.
      replace (y * zprod (vf :: vfs)) with (y * fold_left Z.mul vfs vf)
        by (rewrite fold_left_mul, zprod_cons; ring).
      apply mul_eval; [assumption|]. apply fold_bin_eval; try assumption. apply mul_eval.
Qed.

Lemma fold_add l a : fold_left Z.add l a = a + zsum l.
Proof.
  revert a. induction l as [|x l IH]; intros a; cbn [fold_left]; [unfold zsum; cbn; lia|].
  rewrite IH. unfold zsum. cbn. lia.
Qed.

Lemma terms_sum done rdims vs :
  (length vs <= length rdims)%nat ->
  zsum (terms (done ++ rdims) (length done) vs) = zprod done * mval rdims vs.
Proof.
  revert done rdims. induction vs as [|v vs IH]; intros done rdims H; cbn [terms].
  - destruct rdims; unfold zsum; cbn; ring.
  - destruct rdims as [|d rdims]; [cbn in H; lia|]. cbn [mval].
    change (zsum (?a :: ?b)) with (a + zsum b).
    replace (S (length done)) with (length (done ++ [d])) by (rewrite app_length; cbn; lia).
    replace (done ++ d :: rdims)%list with ((done ++ [d]) ++ rdims)%list at 2 by now rewrite <- app_assoc.
    rewrite IH by (cbn in H; lia). rewrite firstn_app, firstn_all, Nat.sub_diag, firstn_O, app_nil_r.
    rewrite zprod_app. change (zprod [d]) with (d * 1). ring.
Qed.

Lemma transform_ref_exact env dict n dims vdims aref subs vsubs :
  reference aref = Some (n, subs) -> subs <> [] -> dict n = Some dims ->
  length subs = length dims ->
  Forall2 (fun e v => ceval env e = Some v) dims vdims ->
  Forall2 (fun e v => ceval env e = Some v) subs vsubs ->
  exists idx, transform_ref dict aref = Ok (EArr (EID n) idx)
    /\ ceval env idx = Some (access_to_sympy vdims vsubs).
Proof.
  intros Href Hne Hdict Hlen Hd Hs. unfold transform_ref.
  rewrite (unchain_reference _ _ _ Href), Hdict.
  destruct (summands_eval env dims vdims 0 (rev subs) (rev vsubs) Hd (Forall2_rev _ _ _ Hs))
    as (ts & Hts & HFts); [rewrite rev_length; lia|].
  rewrite Hts. cbn [bind].
  pose proof (F2_length _ _ _ Hd) as L1. pose proof (F2_length _ _ _ Hs) as L2.
  destruct ts as [|t ts].
  { exfalso. inversion HFts as [Heq|]; subst. destruct (rev vsubs) eqn:E; [|discriminate].
    apply (f_equal (@length _)) in E. rewrite rev_length in E. cbn in E.
    destruct subs; [congruence|cbn in *; lia]. }
  cbn [reduce_bin bind]. eexists. split; [reflexivity|].
  inversion HFts as [|? vt ? vts Hvt Hvts E1 E2]; subst.
  rewrite (fold_bin_eval env "+" Z.add ts t vt vts (add_eval env) Hvt Hvts). f_equal.
  rewrite fold_add. change (vt + zsum vts) with (zsum (vt :: vts)). rewrite E2.
  pose proof (terms_sum [] (rev vdims) (rev vsubs)) as Ht. cbn [length app] in Ht.
  rewrite Ht by (rewrite !rev_length; lia).
  rewrite access_to_sympy_pos by lia. rewrite pos_mval by lia.
  change (zprod []) with 1. ring.
Qed.

Lemma transform_decl_exact env dims vdims :
  dims <> [] -> Forall2 (fun e v => ceval env e = Some v) dims vdims ->
  exists d, transform_decl dims = Some d /\ ceval env d = Some (array_elements vdims).
Proof.
  intros Hne H. destruct dims as [|d ds]; [congruence|]. cbn [transform_decl].
  eexists. split; [reflexivity|]. inversion H as [|? v ? vs Hv Hvs]; subst.
  rewrite (fold_bin_eval env "*" Z.mul ds d v vs (mul_eval env) Hv Hvs). f_equal.
  unfold array_elements. cbn [fold_left]. now destruct v.
Qed.

Lemma transform_in_bounds env dict n dims vdims aref subs vsubs :
  reference aref = Some (n, subs) -> subs <> [] -> dict n = Some dims ->
  Forall2 (fun e v => ceval env e = Some v) dims vdims ->
  Forall2 (fun e v => ceval env e = Some v) subs vsubs ->
  in_range vdims vsubs ->
  exists idx v d size,
    transform_ref dict aref = Ok (EArr (EID n) idx) /\ ceval env idx = Some v /\
    transform_decl dims = Some d /\ ceval env d = Some size /\
    nth_error (row_major vdims) (Z.to_nat v) = Some vsubs /\ 0 <= v < size.
Proof.
  intros Href Hne Hdict Hd Hs Hr.
  assert (Hlen : length subs = length dims).
  { rewrite (F2_length _ _ _ Hd), (F2_length _ _ _ Hs). symmetry. eapply F2_length. exact Hr. }
  destruct (transform_ref_exact env dict n dims vdims aref subs vsubs Href Hne Hdict Hlen Hd Hs)
    as (idx & Hidx & Hv).
  destruct (transform_decl_exact env dims vdims) as (d & Hdd & Hsz).
  { intros ->. destruct subs; [congruence|discriminate]. }
  { assumption. }
  destruct (row_major_exact _ _ Hr) as [H1 H2].
  exists idx, (access_to_sympy vdims vsubs), d, (array_elements vdims). auto 10.
Qed.
