(** Proofs about temporary changes. *)
From Verif Require Import PyBase CtxModel CtxSpec.
Local Open Scope Z_scope.

Lemma limit_key p : forall depth s, limit (fst (exec depth p s)) = limit s /\ key (fst (exec depth p s)) = key s.
Proof.
  induction p as [| |e|p IH|p IHp q IHq|p IHp q IHq|n p IH|p IH|b p IH]; intros depth s; cbn [exec].
  - now split.
  - now split.
  - now split.
  - destruct (_ <=? _); [apply IH|now split].
  - specialize (IHp depth s). destruct (exec depth p s) as [s' [e|]]; cbn [fst] in *; [exact IHp|]. destruct (IHq depth s') as [A B]. destruct IHp as [C D]. split; congruence.
  - specialize (IHp depth s). destruct (exec depth p s) as [s' [e|]]; cbn [fst] in *; [|exact IHp]. destruct (IHq depth s') as [A B]. destruct IHp as [C D]. split; congruence.
  - destruct (n <? 1); [now split|]. specialize (IH depth (set_limit s n)). destruct (exec depth p (set_limit s n)) as [s' e]. cbn in *. split; [reflexivity|apply IH].
  - specialize (IH depth (set_key s SympySafeKey)). destruct (exec depth p (set_key s SympySafeKey)) as [s' e]. cbn in *. split; [apply IH|reflexivity].
  - specialize (IH depth (make_dir s)). destruct (exec depth p (make_dir s)) as [s' e]. destruct b; cbn in *; exact IH.
Qed.

Lemma filter_old l d : (forall x, In x l -> x < d) -> filter (fun x => negb (x =? d)) (l ++ [d]) = l.
Proof.
  intros H. rewrite filter_app. cbn. rewrite Z.eqb_refl. cbn. rewrite app_nil_r. induction l as [|x l IH]; [reflexivity|]. cbn. pose proof (H x (or_introl eq_refl)). destruct (Z.eqb_spec x d); [lia|]. cbn. f_equal. apply IH. intros y I. apply H. now right.
Qed.
Lemma dirs_kept p : removable p -> forall depth s, consistent s -> dirs (fst (exec depth p s)) = dirs s /\ made s <= made (fst (exec depth p s)).
Proof.
  induction p as [| |e|p IH|p IHp q IHq|p IHp q IHq|n p IH|p IH|b p IH]; intros R depth s C; cbn [exec removable] in *.
  - split; [reflexivity|cbn; lia].
  - split; [reflexivity|cbn; lia].
  - split; [reflexivity|cbn; lia].
  - destruct (_ <=? _); [now apply IH|split; [reflexivity|cbn; lia]].
  - destruct R as [R1 R2]. specialize (IHp R1 depth s C). destruct (exec depth p s) as [s' [e|]]; cbn [fst] in *; [exact IHp|]. destruct IHp as [D M].
    destruct (IHq R2 depth s') as [A B]; [intros d I; rewrite D in I; specialize (C d I); lia|]. split; [congruence|lia].
  - destruct R as [R1 R2]. specialize (IHp R1 depth s C). destruct (exec depth p s) as [s' [e|]]; cbn [fst] in *; [|exact IHp]. destruct IHp as [D M].
    destruct (IHq R2 depth s') as [A B]; [intros d I; rewrite D in I; specialize (C d I); lia|]. split; [congruence|lia].
  - destruct (n <? 1); [split; [reflexivity|cbn; lia]|]. specialize (IH R depth (set_limit s n) C). destruct (exec depth p (set_limit s n)) as [s' e]. cbn in *. exact IH.
  - specialize (IH R depth (set_key s SympySafeKey) C). destruct (exec depth p (set_key s SympySafeKey)) as [s' e]. cbn in *. exact IH.
  - destruct R as [-> R]. specialize (IH R depth (make_dir s)). destruct (exec depth p (make_dir s)) as [s' e]. cbn in *.
    destruct IH as [D M]. { intros d I. cbn in *. apply in_app_or in I. destruct I as [I|[<-|[]]]; [specialize (C d I); lia|lia]. }
    rewrite D. split; [now apply filter_old|lia].
Qed.

Lemma nested_exec k : forall depth s, exec depth (nested k) s = (s, if (depth + Z.of_nat k <=? limit s) || (Z.of_nat k =? 0) then None else Some RuntimeError).
Proof.
  induction k as [|k IH]; intros depth s; cbn [nested exec]; [cbn; now rewrite orb_true_r|].
  rewrite IH. replace (Z.of_nat (S k) =? 0) with false by (symmetry; apply Z.eqb_neq; lia).
  destruct (Z.leb_spec (depth + 1) (limit s)), (Z.leb_spec (depth + 1 + Z.of_nat k) (limit s)), (Z.leb_spec (depth + Z.of_nat (S k)) (limit s)), (Z.eqb_spec (Z.of_nat k) 0); try lia; reflexivity.
Qed.

(** Inside a block of [pprint_nosort] the order stays changed. *)
Lemma shown_inside p : forall depth s, key s = SympySafeKey -> exists k, shown (fst (exec depth p s)) = shown s ++ repeat SympySafeKey k.
Proof.
  induction p as [| |e|p IH|p IHp q IHq|p IHp q IHq|n p IH|p IH|b p IH]; intros depth s K; cbn [exec].
  - exists 0%nat. now rewrite app_nil_r.
  - exists 1%nat. cbn. now rewrite K.
  - exists 0%nat. now rewrite app_nil_r.
  - destruct (_ <=? _); [now apply IH|]. exists 0%nat. now rewrite app_nil_r.
  - destruct (IHp depth s K) as [k H]. destruct (limit_key p depth s) as [_ L]. destruct (exec depth p s) as [s' [e|]]; cbn [fst] in *; [now exists k|].
    destruct (IHq depth s') as [j J]; [congruence|]. exists (k + j)%nat. rewrite J, H, repeat_app. now rewrite app_assoc.
  - destruct (IHp depth s K) as [k H]. destruct (limit_key p depth s) as [_ L]. destruct (exec depth p s) as [s' [e|]]; cbn [fst] in *; [|now exists k].
    destruct (IHq depth s') as [j J]; [congruence|]. exists (k + j)%nat. rewrite J, H, repeat_app. now rewrite app_assoc.
  - destruct (n <? 1); [exists 0%nat; now rewrite app_nil_r|]. destruct (IH depth (set_limit s n) K) as [k H]. exists k. destruct (exec depth p (set_limit s n)). exact H.
  - destruct (IH depth (set_key s SympySafeKey) eq_refl) as [k H]. exists k. destruct (exec depth p (set_key s SympySafeKey)). exact H.
  - destruct (IH depth (make_dir s) K) as [k H]. exists k. destruct (exec depth p (make_dir s)). destruct b; exact H.
Qed.
