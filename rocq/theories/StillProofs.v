(** Proofs for references which stay (C111, C135). *)
From Coq Require Import String Permutation.
From Verif Require Import PyBase PyBaseFacts PyStr AstModel AstSpec LCModel LCSpec LCProofs FrontModel FrontSpec FrontDistance LruSpec LruProofs LruLink EvictSpec EvictProofs StillSpec.
Local Open Scope list_scope.
Local Open Scope Z_scope.

(** ** Leaving lines out *)
Definition out (X : list line) (l : line) : bool := negb (existsb (line_eqb l) X).
Lemma out_spec X l : out X l = true <-> ~ In l X.
Proof.
  unfold out. rewrite negb_true_iff, <- not_true_iff_false. apply not_iff_compat. rewrite existsb_exists. split; [intros (x & I & E); now destruct (line_eqb_spec l x) as [->|]|intros I; exists l; split; [assumption|now destruct (line_eqb_spec l l)]].
Qed.
Lemma hit_in n past l : hit n past l = true -> In l past.
Proof. intros H. destruct (in_dec line_dec l past) as [|N]; [assumption|]. rewrite (hit_never n past l N) in H. discriminate. Qed.
Section Out.
  Context (X : list line).
  Notation F := (filter (out X)).
  Lemma hit_drop n past l : out X l = true -> hit (n - List.length X) (F past) l = true -> hit n past l = true.
  Proof.
    intros O H. assert (I := hit_in _ _ _ H). apply filter_In in I as [I _]. destruct (last_access l past I) as (p1 & p2 & E & N). rewrite E in H |- *. rewrite filter_app in H. cbn [filter] in H. rewrite O in H.
    destruct (hit_split n p1 l p2 N) as (a & -> & A & NA). destruct (hit_split (n - List.length X) (F p1) l (F p2)) as (b & HB & B & NB); [intros J; apply N; now apply filter_In in J as [J _]|]. rewrite HB in H. apply Nat.ltb_lt in H. apply Nat.ltb_lt.
    assert (LE : (List.length a <= List.length (b ++ X))%nat); [|rewrite app_length in LE; lia]. apply NoDup_incl_length; [assumption|]. intros x J. apply in_or_app. destruct (in_dec line_dec x X) as [|NX]; [now right|]. left. apply B, filter_In. split; [now apply A|]. now apply out_spec.
  Qed.
  Lemma hit_keep n past l : out X l = true -> hit n past l = true -> hit n (F past) l = true.
  Proof.
    intros O H. assert (I := hit_in _ _ _ H). destruct (last_access l past I) as (p1 & p2 & E & N). rewrite E in H |- *. rewrite filter_app. cbn [filter]. rewrite O.
    destruct (hit_split n p1 l p2 N) as (a & HA & A & NA). destruct (hit_split n (F p1) l (F p2)) as (b & -> & B & NB); [intros J; apply N; now apply filter_In in J as [J _]|]. rewrite HA in H. apply Nat.ltb_lt in H. apply Nat.ltb_lt.
    assert (LE : (List.length b <= List.length a)%nat); [|lia]. apply NoDup_incl_length; [assumption|]. intros x J. apply A. apply B, filter_In in J as [J _]. exact J.
  Qed.
  Lemma out_snoc past a : F (past ++ [a]) = F past ++ (if out X a then [a] else []).
  Proof. rewrite filter_app. reflexivity. Qed.
  Lemma misses_lower n : forall future past, misses_after n (F past) (F future) <= misses_after n past future.
  Proof.
    induction future as [|a f IH]; intros past; [reflexivity|]. cbn [filter misses_after]. specialize (IH (past ++ [a])). rewrite out_snoc in IH. destruct (out X a) eqn:O.
    - cbn [misses_after]. destruct (hit n past a) eqn:H; [rewrite (hit_keep n past a O H); lia|]. destruct (hit n (F past) a); lia.
    - rewrite app_nil_r in IH. destruct (hit n past a); lia.
  Qed.
  Lemma misses_upper n : forall future past, (forall f1 x f2, future = f1 ++ x :: f2 -> In x X -> hit n (past ++ f1) x = true) -> misses_after n past future <= misses_after (n - List.length X) (F past) (F future).
  Proof.
    induction future as [|a f IH]; intros past A; [reflexivity|]. cbn [filter misses_after]. specialize (IH (past ++ [a])). rewrite out_snoc in IH.
    assert (A' : forall f1 x f2, f = f1 ++ x :: f2 -> In x X -> hit n ((past ++ [a]) ++ f1) x = true) by (intros f1 x f2 E I; rewrite <- app_assoc; apply (A (a :: f1) x f2); [now rewrite E|assumption]). specialize (IH A').
    destruct (out X a) eqn:O.
    - cbn [misses_after]. destruct (hit (n - List.length X) (F past) a) eqn:H; [rewrite (hit_drop n past a O H); lia|]. destruct (hit n past a); lia.
    - rewrite app_nil_r in IH. assert (I : In a X) by (destruct (in_dec line_dec a X) as [|N]; [assumption|apply out_spec in N; congruence]). specialize (A [] a f eq_refl I). rewrite app_nil_r in A. rewrite A. lia.
  Qed.
  (** Modified lines *)
  Notation G := (filter (fun e : event => out X (fst e))).
  Lemma lines_out past : map fst (G past) = F (map fst past).
  Proof. induction past as [|a past IH]; [reflexivity|]. cbn [filter map]. destruct (out X (fst a)); cbn [map]; now rewrite IH. Qed.
  Lemma dirty_hit n past l : dirty n past l = true -> hit n (map fst past) l = true.
  Proof. intros D. apply wb_hit. apply dirty_in in D. apply in_map_iff. now exists (l, true). Qed.
  Lemma dirty_snoc n past a l : dirty n (past ++ [a]) l = true <-> ((fst a = l /\ snd a = true) \/ dirty n past l = true) /\ hit n (map fst (past ++ [a])) l = true.
  Proof.
    split.
    - intros D. split; [|now apply dirty_hit]. apply dirty_in in D. rewrite wb_snoc in D. apply firstn_in in D. destruct D as [E|D].
      + injection E as E1 E2. apply orb_prop in E2 as [E2|E2]; [now left|]. right. unfold dirty. unfold same_line in E2. now rewrite <- E1.
      + apply filter_In in D as [D _]. right. now apply dirty_in.
    - intros [[[<- S]|D] H]; [|now apply stays_dirty]. destruct a as [l b]. cbn in S. subst b. now apply written_hit.
  Qed.
  Lemma dirty_drop n past l : out X l = true -> dirty (n - List.length X) (G past) l = true -> dirty n past l = true.
  Proof.
    intros O. induction past as [|a past IH] using rev_ind; [intros D; unfold dirty in D; discriminate D|]. rewrite filter_app. cbn [filter]. intros D.
    assert (H : hit n (map fst (past ++ [a])) l = true).
    { apply (hit_drop n _ l O). rewrite <- lines_out, filter_app. apply dirty_hit. exact D. }
    apply dirty_snoc. split; [|exact H]. destruct (out X (fst a)); [apply dirty_snoc in D as [[D|D] _]; [now left|right; now apply IH]|]. rewrite app_nil_r in D. right. now apply IH.
  Qed.
  Lemma dirty_keep n past l : out X l = true -> dirty n past l = true -> dirty n (G past) l = true.
  Proof.
    intros O. induction past as [|a past IH] using rev_ind; [trivial|]. intros D. assert (H : hit n (map fst (G (past ++ [a]))) l = true) by (rewrite lines_out; apply hit_keep; [assumption|now apply dirty_hit]).
    rewrite filter_app in H |- *. cbn [filter] in H |- *. apply dirty_snoc in D as [D _]. destruct (out X (fst a)) eqn:OA.
    - apply dirty_snoc. split; [|exact H]. destruct D as [D|D]; [now left|right; now apply IH].
    - rewrite app_nil_r. destruct D as [[D _]|D]; [congruence|now apply IH].
  Qed.
  Lemma events_snoc past (a : event) : G (past ++ [a]) = G past ++ (if out X (fst a) then [a] else []).
  Proof. rewrite filter_app. reflexivity. Qed.
  Lemma dirties_bounds n past a : 0 <= dirties n past a <= 1.
  Proof. unfold dirties. destruct (_ && _)%bool; lia. Qed.
  Lemma dirtied_lower n : forall future past, dirtied_after n (G past) (G future) <= dirtied_after n past future.
  Proof.
    induction future as [|a f IH]; intros past; [reflexivity|]. cbn [filter dirtied_after]. specialize (IH (past ++ [a])). rewrite events_snoc in IH. destruct (out X (fst a)) eqn:O.
    - cbn [dirtied_after]. enough (dirties n (G past) a <= dirties n past a) by lia. unfold dirties. destruct (snd a); [|reflexivity]. cbn [andb].
      destruct (dirty n past (fst a)) eqn:D; [now rewrite (dirty_keep n past (fst a) O D)|]. destruct (dirty n (G past) (fst a)); cbn; lia.
    - rewrite app_nil_r in IH. pose proof (dirties_bounds n past a). lia.
  Qed.
  (** Modified ones of the lines left out *)
  Definition modified (n : nat) (past : list event) : Z := Z.of_nat (List.length (filter (dirty n past) X)).
  Lemma modified_bounds n past : 0 <= modified n past <= Z.of_nat (List.length X).
  Proof. unfold modified. split; [lia|]. apply inj_le. clear. induction X as [|x l IH]; [reflexivity|]. cbn [filter]. destruct (dirty n past x); cbn [List.length]; lia. Qed.
  Lemma modified_step n past a : NoDup X -> (forall x, In x X -> hit n (map fst (past ++ [a])) x = true) -> out X (fst a) = false -> modified n past + dirties n past a <= modified n (past ++ [a]).
  Proof.
    intros ND H O. unfold modified. assert (M : forall x, In x X -> dirty n past x = true -> dirty n (past ++ [a]) x = true) by (intros x I D; apply dirty_snoc; split; [now right|now apply H]).
    assert (LE : forall l, incl l X -> (List.length (filter (dirty n past) l) <= List.length (filter (dirty n (past ++ [a])) l))%nat).
    { induction l as [|x l IH]; intros I; [reflexivity|]. cbn [filter]. specialize (IH (fun y J => I y (or_intror J))). destruct (dirty n past x) eqn:D; [rewrite (M x (I x (or_introl eq_refl)) D); cbn [List.length]; lia|]. destruct (dirty n (past ++ [a]) x); cbn [List.length]; lia. }
    unfold dirties. destruct (snd a && negb (dirty n past (fst a)))%bool eqn:C; [|specialize (LE X (incl_refl X)); lia].
    apply andb_prop in C as [C1 C2]. apply negb_true_iff in C2. assert (I : In (fst a) X) by (destruct (in_dec line_dec (fst a) X) as [|N]; [assumption|apply out_spec in N; congruence]).
    assert (D : dirty n (past ++ [a]) (fst a) = true) by (apply dirty_snoc; split; [left; now split|now apply H]).
    apply in_split in I as (l1 & l2 & E). assert (L1 : incl l1 X) by (rewrite E; intros y J; apply in_or_app; now left). assert (L2 : incl l2 X) by (rewrite E; intros y J; apply in_or_app; right; now right).
    rewrite E. rewrite !filter_app, !app_length. cbn [filter]. rewrite C2, D. cbn [List.length]. pose proof (LE l1 L1). pose proof (LE l2 L2). lia.
  Qed.
  Lemma modified_other n past a : (forall x, In x X -> hit n (map fst (past ++ [a])) x = true) -> modified n past <= modified n (past ++ [a]).
  Proof.
    intros H. unfold modified. apply inj_le. assert (G : forall l, incl l X -> (List.length (filter (dirty n past) l) <= List.length (filter (dirty n (past ++ [a])) l))%nat); [|apply G, incl_refl].
    induction l as [|x l IH]; intros I; [reflexivity|]. cbn [filter]. specialize (IH (fun y J => I y (or_intror J))). destruct (dirty n past x) eqn:D; [|destruct (dirty n (past ++ [a]) x); cbn [List.length]; lia].
    replace (dirty n (past ++ [a]) x) with true; [cbn [List.length]; lia|]. symmetry. apply dirty_snoc. split; [now right|]. apply H, I. now left.
  Qed.
  Lemma dirtied_upper n : NoDup X -> forall future past, (forall f1 f2 x, future = f1 ++ f2 -> In x X -> hit n (map fst (past ++ f1)) x = true) ->
    dirtied_after n past future + modified n past <= dirtied_after (n - List.length X) (G past) (G future) + modified n (past ++ future).
  Proof.
    intros ND. induction future as [|a f IH]; intros past A; [cbn [filter dirtied_after]; rewrite app_nil_r; lia|]. cbn [filter dirtied_after]. specialize (IH (past ++ [a])). rewrite events_snoc in IH.
    assert (A' : forall f1 f2 x, f = f1 ++ f2 -> In x X -> hit n (map fst ((past ++ [a]) ++ f1)) x = true) by (intros f1 f2 x E I; rewrite <- app_assoc; apply (A (a :: f1) f2 x); [now rewrite E|assumption]). specialize (IH A'). rewrite <- app_assoc in IH. cbn [app] in IH.
    assert (H : forall x, In x X -> hit n (map fst (past ++ [a])) x = true) by (intros x I; now apply (A [a] f x)).
    destruct (out X (fst a)) eqn:O.
    - cbn [dirtied_after]. pose proof (modified_other n past a H). enough (dirties n past a <= dirties (n - List.length X) (G past) a) by lia. unfold dirties. destruct (snd a); [|reflexivity]. cbn [andb].
      destruct (dirty (n - List.length X) (G past) (fst a)) eqn:D; [now rewrite (dirty_drop n past (fst a) O D)|]. destruct (dirty n past (fst a)); cbn; lia.
    - rewrite app_nil_r in IH. pose proof (modified_step n past a ND H O). lia.
  Qed.
End Out.

(** ** Traces *)
Lemma positions_cons s e : s < e -> positions s e = s :: positions (s + 1) e.
Proof. intros H. rewrite (positions_app s (s + 1) e) by lia. rewrite positions_snoc by lia. unfold positions at 1. replace (Z.to_nat (s - s)) with 0%nat by lia. reflexivity. Qed.
Lemma positions_nil s e : e <= s -> positions s e = [].
Proof. intros H. unfold positions. replace (Z.to_nat (e - s)) with 0%nat by lia. reflexivity. Qed.
Lemma positions_prefix a : forall s e u b, positions s e = a ++ u :: b -> a = positions s u /\ s <= u < e.
Proof.
  induction a as [|x a IH]; intros s e u b E; (destruct (Z.le_gt_cases e s) as [L|L]; [rewrite positions_nil in E by assumption; discriminate|]); rewrite positions_cons in E by assumption; cbn [app] in E.
  - injection E as -> _. rewrite positions_nil by lia. split; [reflexivity|lia].
  - injection E as -> E. destruct (IH _ _ _ _ E) as [-> B]. split; [|lia]. now rewrite (positions_cons x u) by lia.
Qed.
Lemma flat_prefix {A B} (f : A -> list B) ts : forall f1 f2, flat_map f ts = f1 ++ f2 -> exists ts1 ts2 g1, ts = ts1 ++ ts2 /\ f1 = flat_map f ts1 ++ g1 /\ (g1 = [] \/ exists u ts3 g2, ts2 = u :: ts3 /\ f u = g1 ++ g2).
Proof.
  induction ts as [|t ts IH]; intros f1 f2 E; cbn [flat_map] in E.
  - exists [], [], []. symmetry in E. apply app_eq_nil in E as [-> _]. auto.
  - destruct (Nat.le_gt_cases (List.length (f t)) (List.length f1)) as [L|L].
    + assert (X : exists f3, f1 = f t ++ f3).
      { exists (skipn (List.length (f t)) f1). rewrite <- (firstn_skipn (List.length (f t)) f1) at 1. f_equal. apply (f_equal (firstn (List.length (f t)))) in E. rewrite !firstn_app, firstn_all, Nat.sub_diag in E. replace (List.length (f t) - List.length f1)%nat with 0%nat in E by lia. cbn [firstn] in E. now rewrite !app_nil_r in E. }
      destruct X as (f3 & ->). rewrite <- app_assoc in E. apply app_inv_head in E. destruct (IH _ _ E) as (ts1 & ts2 & g1 & -> & -> & H). exists (t :: ts1), ts2, g1. cbn [flat_map app]. now rewrite app_assoc.
    + exists [], (t :: ts), f1. split; [reflexivity|]. split; [reflexivity|]. right. exists t, ts, (skipn (List.length f1) (f t)). split; [reflexivity|].
      rewrite <- (firstn_skipn (List.length f1) (f t)) at 1. f_equal. apply (f_equal (firstn (List.length f1))) in E. rewrite !firstn_app, firstn_all, Nat.sub_diag in E. replace (List.length f1 - List.length (f t))%nat with 0%nat in E by lia. cbn [firstn] in E. now rewrite !app_nil_r in E.
Qed.
Lemma slot_app L slots a b : slot_trace L slots (a ++ b) = slot_trace L slots a ++ slot_trace L slots b.
Proof. apply flat_map_app. Qed.
Lemma movers_in slots r b : In (r, b) (movers slots) <-> In (Moves r, b) slots.
Proof.
  unfold movers. rewrite in_flat_map. split; [intros ([[q|l] c] & I & J); cbn in J; [destruct J as [[= -> ->]|[]]; assumption|easy]|]. intros I. exists (Moves r, b). split; [assumption|]. now left.
Qed.
Lemma stayers_in slots l : In l (stayers slots) <-> exists b, In (Stays l, b) slots.
Proof.
  unfold stayers. rewrite in_flat_map. split; [intros ([[q|m] c] & I & J); cbn in J; [easy|destruct J as [->|[]]; now exists c]|]. intros (b & I). exists (Stays l, b). split; [assumption|]. now left.
Qed.
Section Slots.
  Context (n : nat) (L : Z) (slots : list slot) (LP : 0 < L) (SEP : separate slots).
  Let X := nodup line_dec (stayers slots).
  Lemma still_number : distinct (stayers slots) = Z.of_nat (List.length X).
  Proof. apply distinct_nodup. Qed.
  Lemma movers_out ts : filter (fun e : event => out X (fst e)) (slot_trace L slots ts) = wtrace L (movers slots) ts.
  Proof.
    unfold slot_trace, wtrace. induction ts as [|t ts IH]; [reflexivity|]. cbn [flat_map]. rewrite filter_app, IH. f_equal. unfold separate in SEP.
    assert (G : forall l, incl l slots -> filter (fun e : event => out X (fst e)) (map (slot_access L t) l) = map (waccess L t) (movers l)).
    { induction l as [|[x b] l IHl]; intros I; [reflexivity|]. cbn [map filter]. unfold slot_access at 1. cbn [fst snd]. specialize (IHl (fun y J => I y (or_intror J))). rewrite IHl. unfold movers. cbn [flat_map fst snd]. destruct x as [r|l0]; cbn [target_line].
      - replace (out X (line_of L t r)) with true; [reflexivity|]. symmetry. apply out_spec. unfold X. rewrite nodup_In. intros J. apply (SEP r (line_of L t r)); [|assumption|reflexivity]. apply in_map_iff. exists (r, b). split; [reflexivity|]. apply movers_in, I. now left.
      - replace (out X l0) with false; [reflexivity|]. symmetry. apply not_true_is_false. intros O. apply out_spec in O. apply O. unfold X. rewrite nodup_In. apply stayers_in. exists b. apply I. now left. }
    apply G, incl_refl.
  Qed.
  Context (FIT : needed (distances (map fst (movers slots))) 2 + 2 * Z.of_nat (List.length (movers slots)) * (L - 1) <= (Z.of_nat n - distinct (stayers slots)) * L).
  (** Lines which stay are never replaced. *)
  Lemma still_hit s u g1 g2 x : s < u -> In x X -> g1 = [] \/ map (slot_access L u) slots = g1 ++ g2 -> hit n (map fst (slot_trace L slots (positions s u) ++ g1)) x = true.
  Proof.
    intros SU I H. assert (J : In x (stayers slots)) by (now apply nodup_In in I). apply stayers_in in J as (b & J). apply in_split in J as (a1 & a2 & E).
    replace u with (u - 1 + 1) at 1 by lia. rewrite positions_snoc, slot_app by lia.
    assert (EM : slot_trace L slots [u - 1] = map (slot_access L (u - 1)) a1 ++ (x, b) :: map (slot_access L (u - 1)) a2) by (unfold slot_trace; cbn [flat_map]; rewrite app_nil_r, E, map_app; reflexivity).
    rewrite EM. rewrite <- !app_assoc, app_assoc, map_app, <- app_comm_cons. cbn [map fst]. set (refs := map fst (movers slots)) in *.
    apply (hit_within n _ x _ (cover_lines L refs [] refs (u - 1) 2 ++ X)).
    - assert (W : forall t y, In y slots -> u - 1 <= t < u - 1 + 2 -> In (target_line L t (fst y)) (cover_lines L refs [] refs (u - 1) 2 ++ X)).
      { intros t [[r|l] c] Iy T; cbn [fst target_line]; apply in_or_app.
        - left. apply window_covered; [assumption|]. exists r, t. split; [apply in_map_iff; exists (r, c); split; [reflexivity|now apply movers_in]|]. split; [assumption|reflexivity].
        - right. apply nodup_In, stayers_in. now exists c. }
      intros y Iy. apply in_map_iff in Iy as (e & <- & Ie). apply in_app_iff in Ie as [Ie|Ie].
      + apply in_map_iff in Ie as (z & <- & Iz). apply W; [rewrite E; apply in_or_app; right; now right|lia].
      + destruct H as [->|H]; [easy|]. assert (Iu : In e (map (slot_access L u) slots)) by (rewrite H; apply in_or_app; now left). apply in_map_iff in Iu as (z & <- & Iz). apply W; [assumption|lia].
    - assert (LE : (List.length (nodup line_dec (x :: cover_lines L refs [] refs (u - 1) 2 ++ X)) <= List.length (cover_lines L refs [] refs (u - 1) 2 ++ X))%nat).
      { apply NoDup_incl_length; [apply NoDup_nodup|]. intros y Iy. apply nodup_In in Iy as [<-|Iy]; [apply in_or_app; now right|assumption]. }
      pose proof (cover_lines_length L refs (u - 1) 2 LP ltac:(lia) refs []) as CL. fold (distances refs) in CL. rewrite <- needed_clip in CL. rewrite app_length in LE. rewrite still_number in FIT. assert (LR : List.length refs = List.length (movers slots)) by (unfold refs; apply map_length). rewrite LR in CL. nia.
  Qed.
  Lemma still_always s t e f1 f2 x : s < t -> slot_trace L slots (positions t e) = f1 ++ f2 -> In x X -> hit n (map fst (slot_trace L slots (positions s t) ++ f1)) x = true.
  Proof.
    intros ST E I. apply flat_prefix in E as (ts1 & ts2 & g1 & E1 & -> & H). fold (slot_trace L slots ts1). rewrite app_assoc, <- slot_app. destruct ts2 as [|u ts3].
    - assert (g1 = []) as -> by (destruct H as [|(u & ? & ? & ? & _)]; [assumption|discriminate]). rewrite app_nil_r in E1. subst ts1. destruct (Z.le_gt_cases e t) as [Q|Q].
      + rewrite (positions_nil t e Q), (app_nil_r (positions s t)). apply (still_hit s t [] [] x); auto.
      + rewrite <- positions_app by lia. apply (still_hit s e [] [] x); auto; lia.
    - apply positions_prefix in E1 as [-> B]. rewrite <- positions_app by lia. destruct H as [->|(u' & ts4 & g2 & [= <- <-] & H)].
      + apply (still_hit s u [] [] x); auto; lia.
      + apply (still_hit s u g1 g2 x); auto; lia.
  Qed.
  Lemma number_left : Z.of_nat (n - List.length X) = Z.of_nat n - distinct (stayers slots).
  Proof.
    rewrite still_number in *. assert (0 <= needed (distances (map fst (movers slots))) 2); [|nia]. rewrite needed_clip. unfold distances.
    assert (H : forall refs l before, 0 <= zsum (map (fun v => clip v 2) (distances_from refs before l))).
    { induction l as [|r l IH]; intros before; [reflexivity|]. cbn [distances_from map]. match goal with |- 0 <= zsum (?a :: ?b) => change (zsum (a :: b)) with (a + zsum b) end. specialize (IH (before ++ [r])). assert (0 <= clip (distance refs before r) 2); [|lia]. destruct (distance refs before r) as [v|] eqn:D; cbn; [|lia]. apply distance_nonneg in D. lia. }
    apply H.
  Qed.
  Lemma still_misses s t e : s < t -> misses_after n (trace L (map fst (movers slots)) (positions s t)) (trace L (map fst (movers slots)) (positions t e))
    <= misses_after n (map fst (slot_trace L slots (positions s t))) (map fst (slot_trace L slots (positions t e)))
    <= misses_after (n - List.length X) (trace L (map fst (movers slots)) (positions s t)) (trace L (map fst (movers slots)) (positions t e)).
  Proof.
    intros ST. assert (E : forall ts, trace L (map fst (movers slots)) ts = filter (out X) (map fst (slot_trace L slots ts))) by (intros ts; rewrite <- lines_out, movers_out; symmetry; apply lines_trace).
    rewrite !E. split; [apply misses_lower|]. apply misses_upper. intros f1 x f2 F I. apply map_eq_app in F as (h1 & h2 & F & <- & _). rewrite <- map_app. now apply (still_always s t e h1 h2).
  Qed.
  Lemma still_evictions s t m : s < t -> 0 <= m -> (forall q r, In q (written (movers slots)) -> In r (written (movers slots)) -> fst q = fst r -> s <= t - (snd q - snd r)) ->
    m * distinct (filter (fun r => leading (movers slots) r || replaced n L (movers slots) r)%bool (written (movers slots))) - Z.of_nat n
    <= evictions_after n (slot_trace L slots (positions s t)) (slot_trace L slots (positions t (t + m * L)))
    <= m * distinct (filter (fun r => negb (kept (n - List.length X) L (movers slots) r)) (written (movers slots))) + Z.of_nat n + distinct (stayers slots).
  Proof.
    intros ST M WA. pose proof (between n (slot_trace L slots (positions s t)) (slot_trace L slots (positions t (t + m * L)))) as B.
    assert (F1 : streams_fit (n - List.length X) L (movers slots)) by (unfold streams_fit; now rewrite number_left).
    assert (F2 : streams_fit n L (movers slots)) by (unfold streams_fit; rewrite still_number in FIT; nia).
    pose proof (dirtied_lower X n (slot_trace L slots (positions t (t + m * L))) (slot_trace L slots (positions s t))) as D1.
    pose proof (dirtied_upper X n (NoDup_nodup line_dec _) (slot_trace L slots (positions t (t + m * L))) (slot_trace L slots (positions s t)) (fun f1 f2 x E I => still_always s t (t + m * L) f1 f2 x ST E I)) as D2.
    pose proof (modified_bounds X n (slot_trace L slots (positions s t))). pose proof (modified_bounds X n (slot_trace L slots (positions s t) ++ slot_trace L slots (positions t (t + m * L)))).
    rewrite !movers_out in D1, D2. pose proof (dirtied_windows n L (movers slots) s t (Z.to_nat m) LP ST F2 WA) as [W1 _]. pose proof (dirtied_windows (n - List.length X) L (movers slots) s t (Z.to_nat m) LP ST F1 WA) as [_ W2]. rewrite Z2Nat.id in W1, W2 by assumption. rewrite still_number. lia.
  Qed.
End Slots.

(** ** Kernels *)
Lemma uses_index_spec k x n : uses_index k x n = true <-> uses x (array_references k n).
Proof.
  unfold uses_index, uses. rewrite existsb_exists. split.
  - intros (idx & I & H). apply existsb_exists in H as (s & J & H). destruct (shape s) as [[[v|] c]|] eqn:E; try discriminate. apply String.eqb_eq in H as ->. now exists idx, s, c.
  - intros (idx & s & c & I & J & E). exists idx. split; [assumption|]. apply existsb_exists. exists s. split; [assumption|]. rewrite E. apply String.eqb_refl.
Qed.
Notation movable k x := (filter (fun v : string * option (list sym) => uses_index k x (fst v))).
Lemma moving_lru less k inner rho number vars ds w : usual k -> NoDup (map fst (variables k)) -> (forall v, In v vars -> In v (variables k)) -> (forall n, uniform (array_references k n)) -> less_sound less ->
  NoDup (map fst vars) -> (forall n m, In n (map fst vars) -> In m (map fst vars) -> number n = number m -> n = m) ->
  all_distances less k inner vars = Ok (ds, w) -> Forall (not_negative rho) ds -> Permutation (map (dist_value rho) ds) (distances (kernel_refs number rho k (movable k inner vars))).
Proof.
  intros U ND SUB UN LS NV INJ. revert ds w. induction vars as [|[n [dims|]] vars IH]; intros ds w H F; cbn [all_distances] in H; cbn [filter fst].
  - injection H as <- <-. reflexivity.
  - destruct (array_distances less k inner n dims) as [[d1 w1]|] eqn:A; [|discriminate]. cbn [bind] in H. destruct (all_distances less k inner vars) as [[d2 w2]|] eqn:B; [|discriminate]. cbn [bind fst snd] in H. injection H as <- <-.
    apply Forall_app in F as [F1 F2]. cbn [map] in NV, INJ. inversion NV as [|? ? N1 N2]; subst.
    assert (IH' : Permutation (map (dist_value rho) d2) (distances (kernel_refs number rho k (movable k inner vars)))) by (apply (IH (fun v I => SUB v (or_intror I)) N2) with (w := w2); try assumption; [|reflexivity]; intros m m' I I'; apply INJ; now right).
    destruct (uses_index k inner n) eqn:UI.
    + apply uses_index_spec in UI. unfold kernel_refs. cbn [flat_map]. fold (kernel_refs number rho k (movable k inner vars)). rewrite distances_disjoint.
      * rewrite map_app. apply Permutation_app; [|exact IH']. destruct (array_dims k n dims U ND (SUB _ (or_introl eq_refl))) as (sizes & -> & L); [now apply (uses_nonempty inner)|]. apply (array_lru less k inner n sizes d1 w1); auto.
      * intros r q I J. apply in_map_iff in I as (idx & <- & I). cbn [fst]. unfold kernel_refs in J. apply in_flat_map in J as ([m [d|]] & J1 & J2); [|easy]. apply in_map_iff in J2 as (i2 & <- & J2). cbn [fst].
        intros X. apply filter_In in J1 as [J1 _]. assert (IM : In m (map fst vars)) by (apply in_map_iff; now exists (m, Some d)). apply INJ in X; [|now left|now right]. subst m. contradiction.
    + assert (NU : ~ uses inner (array_references k n)) by (rewrite <- uses_index_spec; congruence). assert (D : d1 = []); [|now subst d1].
      destruct (array_references k n) as [|i r] eqn:E; [rewrite array_no_references in A by assumption; now injection A as <- <-|].
      destruct (array_dims k n dims U ND (SUB _ (or_introl eq_refl))) as (sizes & -> & L); [congruence|]. rewrite array_unused in A; try assumption; [now injection A as <- <-|now rewrite E].
  - cbn [map] in NV, INJ. inversion NV; subst. assert (IH' : Permutation (map (dist_value rho) ds) (distances (kernel_refs number rho k (movable k inner vars)))) by (apply (IH (fun v I => SUB v (or_intror I))) with (w := w); auto; intros m m' I I'; apply INJ; now right).
    destruct (uses_index k inner n); [|assumption]. unfold kernel_refs. cbn [flat_map app]. exact IH'.
Qed.
Lemma filter_permutation {A} (f : A -> bool) a b : Permutation a b -> Permutation (filter f a) (filter f b).
Proof. apply filter_perm. Qed.
Lemma kernel_moving less k inner incr rest rho number refs ds w : usual k -> NoDup (map fst (variables k)) -> (forall n, uniform (array_references k n)) -> less_sound less -> rev (loops k) = (inner, incr) :: rest ->
  (forall n m, In n (map fst (variables k)) -> In m (map fst (variables k)) -> number n = number m -> n = m) ->
  reuse_distances less k = Ok (ds, w) -> Forall (not_negative rho) ds -> Permutation refs (kernel_refs number rho k (moving k inner)) -> Permutation (map (dist_value rho) ds) (distances refs).
Proof.
  intros U ND UN LS R INJ H F PR. unfold reuse_distances in H. rewrite R in H. destruct (checks k) as [[]|]; [|discriminate]. cbn [bind] in H.
  set (vars := sort_with _ _) in H. assert (P : Permutation (variables k) vars) by (apply sort_with_perm'). rewrite (distances_perm _ _ PR).
  assert (PK : Permutation (kernel_refs number rho k (moving k inner)) (kernel_refs number rho k (movable k inner vars))) by (unfold kernel_refs, moving; apply Permutation_flat_map, filter_perm, P). rewrite (distances_perm _ _ PK).
  assert (PN := Permutation_map fst P). apply (moving_lru less k inner rho number vars ds w); try assumption.
  - intros v I. now apply (Permutation_in _ (Permutation_sym P)).
  - now apply (Permutation_NoDup PN).
  - intros n m I J. apply INJ; apply (Permutation_in _ (Permutation_sym PN)); assumption.
Qed.
Lemma filter_names {A B} (f : A * B -> bool) l : NoDup (map fst l) -> NoDup (map fst (filter f l)).
Proof.
  induction l as [|x l IH]; intros H; [constructor|]. cbn [map] in H. inversion H as [|? ? N1 N2]; subst. cbn [filter]. destruct (f x); [|now apply IH]. cbn [map]. constructor; [|now apply IH]. intros I. apply N1. apply in_map_iff in I as (y & E & I). apply filter_In in I as [I _]. rewrite <- E. now apply in_map.
Qed.
Lemma moving_writes number env k inner vars a b : counted k inner vars a b ->
  (forall n dims, In (n, Some dims) (movable k inner vars) -> entries (destinations k) n = [] \/ exists idx, entries (destinations k) n = [Some idx]) -> b = Z.of_nat (List.length (kernel_writes number env k (movable k inner vars))).
Proof.
  intros C. induction C as [|n vars a b C IH|n dims vars a b U C IH|n dims vars a b U C IH]; intros OW; [reflexivity| | |]; cbn [filter fst] in OW |- *.
  - destruct (uses_index k inner n); [|now apply IH]. unfold kernel_writes. cbn [flat_map app]. apply IH. intros n' d I. apply (OW n' d). now right.
  - destruct (uses_index k inner n) eqn:E; [apply uses_index_spec in E; contradiction|now apply IH].
  - destruct (uses_index k inner n) eqn:E; [|apply uses_index_spec in U; congruence]. unfold kernel_writes. cbn [flat_map]. rewrite app_length, map_length, Nat2Z.inj_add. f_equal; [|apply IH; intros n' d I; apply (OW n' d); now right]. destruct (OW n dims (or_introl eq_refl)) as [E'|[idx E']]; now rewrite E'.
Qed.
Lemma kernel_refs_in number env k vars r : In r (kernel_refs number env k vars) -> exists n dims, In (n, Some dims) vars /\ fst r = number n.
Proof. unfold kernel_refs. intros I. apply in_flat_map in I as ([n [dims|]] & I & J); [|easy]. apply in_map_iff in J as (idx & <- & J). now exists n, dims. Qed.
Lemma kernel_separate number env k x width slots : (forall n m, In n (map fst (variables k)) -> In m (map fst (variables k)) -> number n = number m -> n = m) -> slots_of number env k x width slots -> separate slots.
Proof.
  intros INJ [P S] r l I J E. apply (Permutation_in _ P) in I. apply S, in_map_iff in J as (q & <- & J). cbn [fst line_of] in E. apply kernel_refs_in in I as (n & dims & I & A). apply kernel_refs_in in J as (m & d & J & B).
  apply filter_In in I as [I U]. apply filter_In in J as [J V]. cbn [fst] in U, V. assert (n = m); [|subst m; rewrite U in V; discriminate]. apply INJ; [apply in_map_iff; now exists (n, Some dims)|apply in_map_iff; now exists (m, Some d)|congruence].
Qed.
Lemma place_stays env x v : forall idx dims, (forall d, In d dims -> independent_of x d) -> (forall s, In s idx -> independent_of x s) -> place (set env x v) dims idx = place env dims idx.
Proof.
  intros idx dims D S. unfold place. f_equal; apply map_ext_in; intros y I; [now apply D|now apply S].
Qed.
Lemma kernel_stays k x n sizes idx env v : usual k -> In x (map fst (loops k)) -> lookup (variables k) n = Some (Some (map SVar sizes)) -> ~ uses x (array_references k n) -> In idx (array_references k n) ->
  place (set env x v) (map SVar sizes) idx = place env (map SVar sizes) idx.
Proof.
  intros U IN L NU I. destruct (usual_references k n sizes idx U L I) as (NE & LN & SZ & SH). apply place_stays.
  - intros d J. apply in_map_iff in J as (s & <- & J). intros e w. cbn [seval]. unfold set. destruct (String.eqb_spec s x) as [->|]; [|reflexivity]. now destruct (SZ x J).
  - intros s J e w. destruct (SH s J) as (y & c & SS & _). rewrite !(shape_value _ _ _ SS). cbn [fst]. destruct y as [y|]; [|reflexivity]. unfold set. destruct (String.eqb_spec y x) as [->|]; [|reflexivity]. exfalso. apply NU. now exists idx, s, c.
Qed.
