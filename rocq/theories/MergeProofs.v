From Coq Require Import Lia.
From Verif Require Import PyBase DefineModel DefineProofs MergeModel MergeSpec.
Local Open Scope string_scope.
Local Open Scope list_scope.

Section Induction.
  Variable P : tree -> Prop.
  Hypothesis leaf : forall v, P (Leaf v).
  Hypothesis node : forall l, Forall (fun x => P (snd x)) l -> P (Node l).
  Fixpoint tree_induction (t : tree) : P t :=
    match t with
    | Leaf v => leaf v
    | Node l => node l ((fix go l : Forall (fun x => P (snd x)) l := match l with [] => Forall_nil _ | x :: l' => Forall_cons _ (tree_induction (snd x)) (go l') end) l)
    end.
End Induction.
Lemma entry_cons k p l : entry (Node l) (k :: p) = match lookup k l with Some t => entry t p | None => None end.
Proof. cbn. induction l as [|[j t] l IH]; cbn; [easy|]. destruct (String.eqb k j); easy. Qed.
Lemma entry_nil t : entry t [] = Some (match t with Leaf v => IsLeaf v | Node _ => IsNode end).
Proof. reflexivity. Qed.

(** ** One level *)
Definition go (upd : tree -> tree -> res tree) : list (string * tree) -> tree -> res tree :=
  fix go (items : list (string * tree)) (d : tree) : res tree :=
    match items with
    | [] => Ok d
    | (k, v) :: items' =>
        match v with
        | Node _ => do s <- get_item d k; do r <- upd v s; do d' <- set_item d k r; go items' d'
        | Leaf _ => do d' <- set_item d k v; go items' d'
        end
    end.
Lemma update_go items d : update (Node items) d = go update items d.
Proof. reflexivity. Qed.
Definition sub (l : list (string * tree)) (k : string) : tree := match lookup k l with Some t => t | None => Node [] end.
Lemma go_spec upd items l r : NoDup (map fst items) -> go upd items (Node l) = Ok r ->
  exists l', r = Node l' /\ forall k,
    match lookup k items with
    | Some (Leaf v) => lookup k l' = Some (Leaf v)
    | Some (Node m) => exists t, upd (Node m) (sub l k) = Ok t /\ lookup k l' = Some t
    | None => lookup k l' = lookup k l
    end.
Proof.
  revert l. induction items as [|[k v] items IH]; intros l D H; cbn in H.
  - injection H as <-. exists l. split; [easy|]. intros k. easy.
  - cbn in D. inversion D as [|? ? NI D']; subst. assert (LN : lookup k items = None) by (destruct (lookup k items) eqn:E; [|easy]; exfalso; apply NI, lookup_in; congruence).
    assert (REST : forall x l1, lookup k l1 = Some x -> (forall j, j <> k -> lookup j l1 = lookup j l) -> go upd items (Node l1) = Ok r ->
      exists l', r = Node l' /\ lookup k l' = Some x /\ forall j, j <> k -> match lookup j items with Some (Leaf w) => lookup j l' = Some (Leaf w)
        | Some (Node m) => exists t, upd (Node m) (sub l j) = Ok t /\ lookup j l' = Some t | None => lookup j l' = lookup j l end).
    { intros x l1 K O G. destruct (IH l1 D' G) as (l' & -> & S). exists l'. split; [easy|]. split.
      - specialize (S k). rewrite LN in S. congruence.
      - intros j N. specialize (S j). unfold sub in *. rewrite (O j N) in S. exact S. }
    destruct v as [v|m].
    + cbn [bind set_item] in H. destruct (REST (Leaf v) (put k (Leaf v) l)) as (l' & -> & K & O); [rewrite lookup_put, String.eqb_refl; easy| |exact H|].
      { intros j N. rewrite lookup_put. destruct (String.eqb_spec j k); [easy|easy]. }
      exists l'. split; [easy|]. intros j. cbn [lookup]. destruct (String.eqb_spec j k) as [->|N]; [easy|now apply O].
    + cbn [bind get_item] in H. fold (sub l k) in H. destruct (upd (Node m) (sub l k)) as [t|] eqn:E; [|discriminate]. cbn [bind set_item] in H.
      destruct (REST t (put k t l)) as (l' & -> & K & O); [rewrite lookup_put, String.eqb_refl; easy| |exact H|].
      { intros j N. rewrite lookup_put. destruct (String.eqb_spec j k); [easy|easy]. }
      exists l'. split; [easy|]. intros j. cbn [lookup]. destruct (String.eqb_spec j k) as [->|N]; [now exists t|now apply O].
Qed.
Lemma go_total upd items l : NoDup (map fst items) -> (forall k m, lookup k items = Some (Node m) -> exists t, upd (Node m) (sub l k) = Ok t) -> exists r, go upd items (Node l) = Ok r.
Proof.
  revert l. induction items as [|[k v] items IH]; intros l D H; cbn; [eauto|]. cbn in D. inversion D as [|? ? NI D']; subst.
  assert (LN : lookup k items = None) by (destruct (lookup k items) eqn:E; [|easy]; exfalso; apply NI, lookup_in; congruence).
  assert (REST : forall l1, (forall j, j <> k -> lookup j l1 = lookup j l) -> exists r, go upd items (Node l1) = Ok r).
  { intros l1 O. apply IH; [easy|]. intros j m E. assert (N : j <> k) by congruence. destruct (H j m) as [t T]; [cbn; destruct (String.eqb_spec j k); easy|]. exists t. unfold sub in *. now rewrite (O j N). }
  assert (O : forall x j, j <> k -> lookup j (put k x l) = lookup j l) by (intros x j N; rewrite lookup_put; destruct (String.eqb_spec j k); easy).
  destruct v as [v|m]; cbn [bind set_item get_item].
  - apply REST. apply O.
  - fold (sub l k). destruct (H k m) as [t T]; [cbn; now rewrite String.eqb_refl|]. rewrite T. cbn [bind set_item]. apply REST. apply O.
Qed.
Lemma go_leaf upd items v : go upd items (Leaf v) = match items with [] => Ok (Leaf v) | (_, Leaf _) :: _ => Err TypeError | (_, Node _) :: _ => Err AttributeError end.
Proof. destruct items as [|[k [w|m]] items]; reflexivity. Qed.

(** ** All levels *)
Lemma leaf_above_cons k p l : leaf_above (Node l) (k :: p) <-> match lookup k l with Some t => leaf_above t p | None => False end.
Proof.
  unfold leaf_above. split.
  - intros (q & r & v & E & N & H). destruct q as [|k' q]; [cbn in H; discriminate|]. cbn [app] in E. injection E as <- ->. rewrite entry_cons in H. destruct (lookup k l); [|discriminate]. now exists q, r, v.
  - destruct (lookup k l) as [t|] eqn:L; [|easy]. intros (q & r & v & -> & N & H). exists (k :: q), r, v. split; [easy|]. split; [easy|]. now rewrite entry_cons, L.
Qed.
Definition merged (u d : tree) (p : list string) (o : option kind) : Prop :=
  match entry u p with
  | Some (IsLeaf v) => o = Some (IsLeaf v)
  | Some IsNode => match entry d p with Some (IsLeaf w) => o = Some (IsLeaf w) | _ => o = Some IsNode end
  | None => leaf_above u p /\ o = None \/ ~ leaf_above u p /\ o = entry d p
  end.
Lemma update_leaf_above v p : p <> [] -> leaf_above (Leaf v) p.
Proof. intros N. now exists [], p, v. Qed.
Lemma update_merged u : unique_keys u -> forall d r, update u d = Ok r -> forall p, merged u d p (entry r p).
Proof.
  induction u as [v|items IH] using tree_induction; intros U d r H p; [discriminate|]. inversion U as [|? D F]; subst. rewrite update_go in H. destruct d as [w|l].
  - rewrite go_leaf in H. destruct items as [|[? [?|?]] ?]; try discriminate. injection H as <-. unfold merged. destruct p as [|k p]; [easy|]. rewrite entry_cons. cbn [lookup]. right. split; [|easy].
    intros X. now apply leaf_above_cons in X.
  - destruct (go_spec update items l r D H) as (l' & -> & S). unfold merged. destruct p as [|k p]; [easy|]. assert (LA := leaf_above_cons k p items). rewrite !entry_cons. specialize (S k).
    destruct (lookup k items) as [[v|m]|] eqn:L.
    + rewrite S. destruct p as [|k' p]; [easy|]. cbn [entry]. left. split; [now apply LA, update_leaf_above|easy].
    + destruct S as (t & T & ->). assert (I := lookup_some k (Node m) items L). rewrite Forall_forall in IH, F. assert (Q := IH (k, Node m) I (F (k, Node m) I) _ _ T p). unfold merged in Q. unfold sub in Q. cbn [snd] in Q.
      destruct (entry (Node m) p) as [[v|]|] eqn:E; [exact Q| |].
      * destruct (lookup k l) as [x|]; [exact Q|]. destruct p as [|k' p]; exact Q.
      * destruct (lookup k l) as [x|]; [destruct Q as [[A B]|[A B]]; [left|right]; (split; [now rewrite LA|exact B])|].
        destruct p as [|k' p]; [discriminate|]. destruct Q as [[A B]|[A B]]; [left|right]; (split; [now rewrite LA|exact B]).
    + right. split; [now rewrite LA|]. now rewrite S.
Qed.
Lemma update_ok u : unique_keys u -> is_mapping u = true -> forall d, ~ conflict u d -> exists r, update u d = Ok r.
Proof.
  induction u as [v|items IH] using tree_induction; intros U M d NC; [discriminate|]. inversion U as [|? D F]; subst. rewrite update_go. destruct d as [w|l].
  - rewrite go_leaf. destruct items as [|[k t] items]; [eauto|]. exfalso. apply NC. exists [], k, w. split; [easy|]. split; [easy|]. cbn [app]. rewrite entry_cons. cbn [lookup]. rewrite String.eqb_refl. destruct t; discriminate.
  - apply go_total; [easy|]. intros k m L. assert (I := lookup_some k (Node m) items L). rewrite Forall_forall in IH, F. apply (IH (k, Node m) I); [exact (F (k, Node m) I)|easy|].
    intros (p & j & v & A & B & C). unfold sub in A. destruct (lookup k l) as [t|] eqn:LL.
    + apply NC. exists (k :: p), j, v. cbn [app]. rewrite !entry_cons, LL, L. easy.
    + destruct p as [|k' p]; [discriminate|]. rewrite entry_cons in A. discriminate.
Qed.
Lemma update_conflict u : unique_keys u -> forall d, conflict u d -> exists e, update u d = Err e /\ (e = TypeError \/ e = AttributeError).
Proof.
  induction u as [v|items IH] using tree_induction; intros U d C; [exists AttributeError; auto|]. inversion U as [|? D F]; subst.
  assert (RES : forall d', (exists e, go update items d' = Err e) -> exists e, go update items d' = Err e /\ (e = TypeError \/ e = AttributeError)).
  { clear - IH U. intros d' [e H]. exists e. split; [easy|].
    assert (G : forall m, (forall k v, In (k, v) m -> forall d e, update v d = Err e -> e = TypeError \/ e = AttributeError) -> forall d e, go update m d = Err e -> e = TypeError \/ e = AttributeError).
    { clear. induction m as [|[k v] m IHm]; intros Q d e H; cbn in H; [discriminate|]. destruct v as [v|n].
      - destruct d as [w|l]; cbn in H; [injection H as <-; now left|]. apply IHm in H; [easy|]. intros j x I. apply (Q j). now right.
      - destruct d as [w|l]; cbn [get_item bind] in H; [injection H as <-; now right|].
        destruct (update (Node n) _) as [t|e'] eqn:E; cbn [bind set_item] in H; [|injection H as <-; apply (Q k (Node n) (or_introl eq_refl) _ _ E)]. apply IHm in H; [easy|]. intros j x I. apply (Q j). now right. }
    assert (ALL : forall t d e, update t d = Err e -> e = TypeError \/ e = AttributeError).
    { clear - G. induction t as [v|items IH] using tree_induction; intros d e H; [injection H as <-; now right|]. rewrite update_go in H. apply (G items) in H; [easy|]. intros k v I. rewrite Forall_forall in IH. exact (IH (k, v) I). }
    apply (G items (fun k v _ => ALL v) d' e H). }
  rewrite update_go. apply RES. clear RES. destruct C as (p & j & v & A & B & N). destruct p as [|k p].
  - destruct d as [w|l]; [|discriminate]. rewrite go_leaf. cbn [app] in N. destruct items as [|[? [?|?]] ?]; [now rewrite entry_cons in N|eauto|eauto].
  - destruct d as [w|l]; [discriminate|]. cbn [app] in N. rewrite entry_cons in A. rewrite entry_cons in B. rewrite entry_cons in N. destruct (lookup k items) as [t|] eqn:L; [|easy]. destruct (lookup k l) as [x|] eqn:LL; [|discriminate].
    destruct (go update items (Node l)) as [r|e] eqn:G; [exfalso|eauto]. destruct (go_spec update items l r D G) as (l' & -> & S). specialize (S k). rewrite L in S. destruct t as [w|m].
    + destruct p; [discriminate|discriminate].
    + destruct S as (t & T & _). unfold sub in T. rewrite LL in T.
      assert (I := lookup_some k (Node m) items L). rewrite Forall_forall in IH, F. destruct (IH (k, Node m) I (F (k, Node m) I) x) as (e & E & _); [now exists p, j, v|cbn [snd] in E; congruence].
Qed.
Lemma update_mapping u d r : unique_keys u -> is_mapping d = true -> update u d = Ok r -> is_mapping r = true.
Proof.
  intros U M H. destruct u as [v|items]; [discriminate|]. inversion U; subst. destruct d as [w|l]; [discriminate|]. rewrite update_go in H. apply go_spec in H as (l' & -> & _); easy.
Qed.
Lemma merge_all_app a b d : merge_all (a ++ b) d = do d' <- merge_all a d; merge_all b d'.
Proof.
  revert d. induction a as [|u a IH]; intros d; [easy|]. cbn. destruct (is_mapping u); [|easy]. destruct (update u d); cbn; [apply IH|easy].
Qed.
Lemma go_err upd items l e : NoDup (map fst items) -> go upd items (Node l) = Err e -> exists k m, lookup k items = Some (Node m) /\ upd (Node m) (sub l k) = Err e.
Proof.
  revert l. induction items as [|[k v] items IH]; intros l D H; cbn in H; [discriminate|]. cbn in D. inversion D as [|? ? NI D']; subst.
  assert (LN : lookup k items = None) by (destruct (lookup k items) eqn:E; [|easy]; exfalso; apply NI, lookup_in; congruence).
  assert (O : forall x j, j <> k -> lookup j (put k x l) = lookup j l) by (intros x j N; rewrite lookup_put; destruct (String.eqb_spec j k); easy).
  assert (REST : forall x, go upd items (Node (put k x l)) = Err e -> exists j m, lookup j ((k, v) :: items) = Some (Node m) /\ upd (Node m) (sub l j) = Err e).
  { intros x G. destruct (IH _ D' G) as (j & m & L & E). exists j, m. assert (N : j <> k) by congruence. unfold sub in *. rewrite (O x j N) in E. split; [|easy]. cbn. destruct (String.eqb_spec j k); easy. }
  destruct v as [v|m]; cbn [bind set_item get_item] in H; [now apply REST in H|]. fold (sub l k) in H. destruct (upd (Node m) (sub l k)) as [t|e'] eqn:E; cbn [bind set_item] in H; [now apply REST in H|].
  injection H as ->. exists k, m. split; [cbn; now rewrite String.eqb_refl|easy].
Qed.
Lemma update_err u : unique_keys u -> is_mapping u = true -> forall d e, update u d = Err e -> conflict u d /\ (e = TypeError \/ e = AttributeError).
Proof.
  induction u as [v|items IH] using tree_induction; intros U M d e H; [discriminate|]. inversion U as [|? D F]; subst. rewrite update_go in H. destruct d as [w|l].
  - rewrite go_leaf in H. destruct items as [|[k t] items]; [discriminate|]. split.
    + exists [], k, w. split; [easy|]. split; [easy|]. cbn [app]. rewrite entry_cons. cbn [lookup]. rewrite String.eqb_refl. destruct t; discriminate.
    + destruct t; injection H as <-; auto.
  - destruct (go_err update items l e D H) as (k & m & L & E). assert (I := lookup_some k (Node m) items L). rewrite Forall_forall in IH, F.
    destruct (IH (k, Node m) I (F (k, Node m) I) eq_refl _ _ E) as [(p & j & v & A & B & C) K]. split; [|easy]. unfold sub in A. destruct (lookup k l) as [t|] eqn:LL.
    + exists (k :: p), j, v. cbn [app]. rewrite !entry_cons, LL, L. easy.
    + destruct p as [|k' p]; [discriminate|]. rewrite entry_cons in A. discriminate.
Qed.
