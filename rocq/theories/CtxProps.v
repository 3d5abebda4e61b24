(** C146: temporary changes. *)
From Verif Require Import PyBase CtxModel CtxSpec CtxProofs.
Local Open Scope Z_scope.

(** However blocks are nested and wherever exceptions are raised, the limit and the order are those of before, and no directory is left. *)
Theorem C146_restored : forall p depth s, limit (fst (exec depth p s)) = limit s /\ key (fst (exec depth p s)) = key s.
Proof. exact limit_key. Qed.
Theorem C146_directories_partial : forall p depth s, removable p -> consistent s -> dirs (fst (exec depth p s)) = dirs s.
Proof. intros p depth s R C. now apply dirs_kept. Qed.
Print Assumptions C146_restored.
Print Assumptions C146_directories_partial.
Example C146_example : let p := Limit 100000 (Seq (NoSort (Temp true (Limit 7 (Fail KeyError)))) Skip) in let s := mkState 1000 SafeKey [3] 4 [] in
  removable p /\ consistent s /\ exec 10 p s = (mkState 1000 SafeKey [3] 5 [], Some KeyError)
  /\ exec 10 (Try p (Temp true Skip)) s = (mkState 1000 SafeKey [3] 6 [], None).
Proof. cbn. repeat split. intros d [<-|[]]. reflexivity. Qed.

(** Everything printed in a block of [pprint_nosort] is printed in the order that does not compare symbolic expressions, and afterwards the order of
    before is used again. *)
Theorem C146_order : forall p depth s, exists k,
  shown (fst (exec depth (NoSort p) s)) = shown s ++ repeat SympySafeKey k /\
  shown (fst (exec depth (Try (NoSort p) Skip) s)) = shown s ++ repeat SympySafeKey k /\
  shown (fst (exec depth (Seq (Try (NoSort p) Skip) Show) s)) = shown s ++ repeat SympySafeKey k ++ [key s].
Proof.
  intros p depth s. destruct (shown_inside p depth (set_key s SympySafeKey) eq_refl) as [k H]. exists k. cbn [exec].
  destruct (exec depth p (set_key s SympySafeKey)) as [s' [e|]]; cbn in *; (split; [exact H|split; [exact H|rewrite H; now rewrite app_assoc]]).
Qed.
Print Assumptions C146_order.
Example C146_order_example : shown (fst (exec 0 (Seq (Try (NoSort (Seq Show (Fail TypeError))) Skip) Show) (mkState 9 SafeKey [] 0 []))) = [SympySafeKey; SafeKey].
Proof. reflexivity. Qed.

(** A directory which cannot be removed is left, and the reason why the block failed is lost. *)
Theorem C146_unremovable_refuted : forall depth s e p, (forall s', snd (exec depth p s') = Some e) ->
  snd (exec depth (Temp false p) s) = Some OSError /\ (p = Fail e -> In (made s) (dirs (fst (exec depth (Temp false p) s)))).
Proof.
  intros depth s e p H. cbn [exec]. split; [now destruct (exec depth p (make_dir s))|]. intros ->. cbn. apply in_or_app. right. now left.
Qed.
Print Assumptions C146_unremovable_refuted.
Example C146_unremovable_example : forall s', snd (exec 0 (Fail KeyError) s') = Some KeyError.
Proof. reflexivity. Qed.

(** Inside the block, k nested calls succeed exactly if they fit into the new limit. *)
Theorem C146_deep : forall n k depth s, 1 <= n -> (0 < k)%nat ->
  snd (exec depth (Limit n (nested k)) s) = None <-> depth + Z.of_nat k <= n.
Proof.
  intros n k depth s N K. cbn [exec]. destruct (Z.ltb_spec n 1); [lia|]. rewrite nested_exec. cbn [limit set_limit snd].
  destruct (Z.leb_spec (depth + Z.of_nat k) n), (Z.eqb_spec (Z.of_nat k) 0); cbn; split; intros; try lia; try reflexivity; try discriminate.
Qed.
Print Assumptions C146_deep.
(** A limit below 1 is an error, and nothing is changed. *)
Theorem C146_invalid : forall n p depth s, n < 1 -> exec depth (Limit n p) s = (s, Some ValueError).
Proof. intros n p depth s H. cbn. destruct (Z.ltb_spec n 1); [reflexivity|lia]. Qed.
Print Assumptions C146_invalid.
(** The limit of kerncraft is 100000 even if the caller has set a higher one: calls that succeed without the block fail in it. *)
Theorem C146_lowered_refuted : forall s, 100000 < limit s ->
  let p := nested (Z.to_nat (limit s)) in snd (exec 0 p s) = None /\ snd (exec 0 (Limit 100000 p) s) = Some RuntimeError.
Proof.
  intros s H p. subst p. split.
  - rewrite nested_exec. cbn [snd]. destruct (Z.leb_spec (0 + Z.of_nat (Z.to_nat (limit s))) (limit s)); [reflexivity|lia].
  - cbn [exec]. change (100000 <? 1) with false. cbv iota. rewrite nested_exec. cbn [limit set_limit snd].
    destruct (Z.leb_spec (0 + Z.of_nat (Z.to_nat (limit s))) 100000); [lia|]. destruct (Z.eqb_spec (Z.of_nat (Z.to_nat (limit s))) 0); [lia|reflexivity].
Qed.
Print Assumptions C146_lowered_refuted.
Example C146_deep_example : snd (exec 5 (Limit 9 (nested 4)) (mkState 6 SafeKey [] 0 [])) = None /\ snd (exec 5 (nested 4) (mkState 6 SafeKey [] 0 [])) = Some RuntimeError
  /\ 100000 < limit (mkState 200000 SafeKey [] 0 []).
Proof. repeat split. Qed.

(** Blocks of two threads that overlap without being nested change the order for good; nested ones do not. *)
Theorem C146_threads_refuted : exists l, (forall saved, steps l saved SafeKey = SympySafeKey) /\ (forall i, In (Enter i) l <-> In (Leave i) l).
Proof.
  exists [Enter 0; Enter 1; Leave 0; Leave 1]. split; [reflexivity|]. intros i. cbn. split; intros H; repeat destruct H as [H|H]; try discriminate; try contradiction; injection H as <-; auto.
Qed.
Print Assumptions C146_threads_refuted.
