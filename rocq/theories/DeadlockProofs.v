From Verif Require Import PyBase DeadlockModel DeadlockSpec.
From Coq Require Import Lia.
Local Open Scope Z_scope.

Lemma file_eqb_spec a b : reflect (a = b) (file_eqb a b).
Proof. unfold file_eqb. destruct (file_eq_dec a b); now constructor. Qed.

Lemma nth_set_nth {A} (l : list A) p q x :
  nth_error (set_nth l p x) q =
  if (q =? p)%nat then match nth_error l q with Some _ => Some x | None => None end else nth_error l q.
Proof.
  revert p q. induction l as [|y l IH]; intros [|p] [|q]; cbn; try reflexivity.
  - now destruct (q =? p)%nat.
  - apply IH.
Qed.
Lemma set_nth_inv {A} (l : list A) p q x y z :
  nth_error l p = Some z ->
  nth_error (set_nth l p x) q = Some y -> (q = p /\ y = x) \/ (q <> p /\ nth_error l q = Some y).
Proof.
  intros Hp. rewrite nth_set_nth. destruct (Nat.eqb_spec q p) as [->|Hq]; [|now right].
  rewrite Hp. intros [= <-]. now left.
Qed.

Lemma in_drop f h g m : In (g, m) (drop f h) <-> In (g, m) h /\ g <> f.
Proof.
  unfold drop. rewrite filter_In. cbn. destruct (file_eqb_spec f g); cbn; intuition congruence.
Qed.
Lemma has_any_spec f h : has_any f h = true <-> exists m, In (f, m) h.
Proof.
  unfold has_any. rewrite existsb_exists. split.
  - intros ((g & m) & H & E). cbn in E. destruct (file_eqb_spec f g); [subst; eauto|discriminate].
  - intros (m & H). exists (f, m). split; [assumption|]. cbn. now destruct (file_eqb_spec f f).
Qed.
Lemma has_ex_spec f h : has_ex f h = true <-> In (f, EX) h.
Proof.
  unfold has_ex. rewrite existsb_exists. split.
  - intros ((g & m) & H & E). cbn in E. destruct (file_eqb_spec f g); [subst|discriminate].
    destruct m; [discriminate|assumption].
  - intros H. exists (f, EX). split; [assumption|]. cbn. now destruct (file_eqb_spec f f).
Qed.

(** ** Lock order *)

Definition rank (f : file) : Z :=
  match kind_of f with
  | Code | LayerConditions | CacheSimulation => 0
  | Header => 1
  | Assembly | Object => 2
  | MainCode | MarkedObject => 3
  | Marked => 4
  | Analysis | Executable => 5
  end.

Definition above (f : file) (h : locks) : Prop := forall g m, In (g, m) h -> rank f < rank g.

(** Programs that request files only below all files they hold, release only what they hold, and
    (if [strict]) use only files they have locked. *)
Inductive ok (strict : bool) : locks -> list cmd -> Prop :=
| ok_nil h : ok strict h []
| ok_lock h f w r k : above f h -> ok strict ((f, EX) :: h) (w ++ k) -> ok strict ((f, SH) :: h) (r ++ k) ->
    ok strict h (Lock f w r :: k)
| ok_check h f w r k : above f h -> ok strict ((f, EX) :: h) (w ++ k) -> ok strict ((f, SH) :: h) (r ++ k) ->
    ok strict ((f, SH) :: h) (Check f w r :: k)
| ok_wantex h f w r k : above f h -> ok strict ((f, EX) :: h) (w ++ k) -> ok strict ((f, SH) :: h) (r ++ k) ->
    ok strict h (WantEx f w r :: k)
| ok_check2 h f w r k : above f h -> ok strict ((f, EX) :: h) (w ++ k) -> ok strict ((f, SH) :: h) (r ++ k) ->
    ok strict ((f, EX) :: h) (Check2 f w r :: k)
| ok_convert h f k : In (f, EX) h -> above f (drop f h) -> ok strict ((f, SH) :: drop f h) k ->
    ok strict h (Convert f :: k)
| ok_reacquire h f k : above f h -> ok strict ((f, SH) :: h) k -> ok strict h (Reacquire f :: k)
| ok_close h f k : ok strict (drop f h) k -> ok strict h (CloseLock f :: k)
| ok_use h f k : (strict = true -> exists m, In (f, m) h) -> ok strict h k -> ok strict h (Use f :: k)
| ok_make h f k : In (f, EX) h -> ok strict h k -> ok strict h (Make f :: k).

Lemma drop_above f h : above f h -> drop f h = h.
Proof.
  unfold drop, above. induction h as [|[g m] h IH]; intros H; [reflexivity|]. cbn.
  destruct (file_eqb_spec f g) as [->|_]; cbn.
  - specialize (H g m (or_introl eq_refl)). lia.
  - f_equal. apply IH. intros g' m' Hg. apply (H g' m'). now right.
Qed.

Lemma drop_cons f m h : above f h -> drop f ((f, m) :: h) = h.
Proof.
  intros H. unfold drop. cbn. destruct (file_eqb_spec f f); [|congruence]. cbn. now apply drop_above.
Qed.

Lemma ok_step strict all x b x' :
  ok strict (holds x) (todo x) -> step_proc all x b = Some x' -> ok strict (holds x') (todo x').
Proof.
  destruct x as [k h]. unfold step_proc. cbn [todo holds]. intros H.
  destruct H; intros E;
    repeat match type of E with
    | (if existsb ?a ?b then _ else _) = _ => destruct (existsb a b); [discriminate E|]
    | (if b then _ else _) = _ => destruct b
    | (match ?h with [] => _ | _ => _ end) = _ => destruct h
    end; try discriminate E; injection E as <-; cbn [todo holds]; try (now constructor); try assumption.
  - change (ok strict (drop f ((f, SH) :: h)) (WantEx f w r :: k)). rewrite drop_cons by assumption. now constructor.
  - constructor.
    + now left.
    + now rewrite drop_cons.
    + now rewrite drop_cons.
Qed.

(** ** Progress *)

Definition all_ok (strict : bool) (s : list proc) : Prop :=
  forall p x, nth_error s p = Some x -> ok strict (holds x) (todo x).

Lemma exec_ok strict s a s' : all_ok strict s -> exec s a = Some s' -> all_ok strict s'.
Proof.
  intros H E q y Hq. destruct a as [p b|p]; cbn [exec] in E;
    destruct (nth_error s p) as [x|] eqn:Hp; try discriminate.
  - destruct (step_proc s x b) as [x'|] eqn:Es; [|discriminate]. injection E as <-.
    destruct (set_nth_inv _ _ _ _ _ _ Hp Hq) as [[-> ->]|[_ Hq']]; [|now apply (H q)].
    apply (ok_step strict s x b); [now apply (H p)|assumption].
  - destruct (todo x); [discriminate|]. injection E as <-.
    destruct (set_nth_inv _ _ _ _ _ _ Hp Hq) as [[-> ->]|[_ Hq']]; [constructor|now apply (H q)].
Qed.

Lemma run_ok strict s l s' : all_ok strict s -> run s l = Some s' -> all_ok strict s'.
Proof.
  revert s. induction l as [|a l IH]; intros s H E; cbn in E; [injection E as <-; assumption|].
  destruct (exec s a) as [s1|] eqn:E1; [|discriminate]. apply (IH s1); [|assumption]. now apply (exec_ok _ s a).
Qed.

(** The file a process waits for. *)
Definition waits (x : proc) : option file :=
  match todo x with
  | Lock f _ _ :: _ | WantEx f _ _ :: _ | Reacquire f :: _ => Some f
  | _ => None
  end.

Lemma blocked s x :
  ~ finished x -> step_proc s x true = None ->
  exists f, waits x = Some f /\ exists q y m, nth_error s q = Some y /\ In (f, m) (holds y).
Proof.
  destruct x as [k h]. unfold finished, step_proc, waits. cbn [todo holds]. intros Hf E.
  assert (Hex : forall f, existsb (fun y => has_ex f (holds y)) s = true ->
                exists q y m, nth_error s q = Some y /\ In (f, m) (holds y)).
  { intros f He. apply existsb_exists in He as (y & Hy & Hh). apply In_nth_error in Hy as (q & Hq).
    exists q, y, EX. split; [assumption|]. now apply has_ex_spec. }
  assert (Hany : forall f, existsb (fun y => has_any f (holds y)) s = true ->
                exists q y m, nth_error s q = Some y /\ In (f, m) (holds y)).
  { intros f He. apply existsb_exists in He as (y & Hy & Hh). apply In_nth_error in Hy as (q & Hq).
    apply has_any_spec in Hh as (m & Hm). eauto. }
  destruct k as [|[f w r|f w r|f w r|f w r|f|f|f|f|f] k]; try discriminate.
  - destruct h; [|discriminate]. exfalso. now apply Hf.
  - destruct (existsb _ s) eqn:Ee; [|discriminate]. eauto.
  - destruct (existsb _ s) eqn:Ee; [|discriminate]. eauto.
  - destruct (existsb _ s) eqn:Ee; [|discriminate]. eauto.
Qed.

Lemma ok_waits strict x f : ok strict (holds x) (todo x) -> waits x = Some f -> above f (holds x).
Proof.
  destruct x as [k h]. unfold waits. cbn [todo holds]. intros H E. destruct H; try discriminate;
    injection E as <-; assumption.
Qed.

Lemma rank_bounds f : 0 <= rank f <= 5.
Proof. unfold rank. destruct (kind_of f); lia. Qed.

Lemma progress_aux strict s : all_ok strict s -> forall n p x f,
  nth_error s p = Some x -> waits x = Some f -> rank f < Z.of_nat n ->
  (exists q b s', exec s (Step q b) = Some s').
Proof.
  intros Hok. induction n as [|n IH]; intros p x f Hp Hw Hr; [pose proof (rank_bounds f); lia|].
  destruct (step_proc s x true) as [x'|] eqn:Es.
  - exists p, true. cbn. rewrite Hp, Es. eauto.
  - destruct (blocked s x) as (f' & Hw' & q & y & m & Hq & Hin); [|assumption|].
    + intros [Ht _]. unfold waits in Hw. rewrite Ht in Hw. discriminate.
    + rewrite Hw in Hw'. injection Hw' as <-.
      destruct (step_proc s y true) as [y'|] eqn:Ey.
      * exists q, true. cbn. rewrite Hq, Ey. eauto.
      * destruct (blocked s y) as (g & Hg & _); [|assumption|].
        -- intros [_ Hh]. rewrite Hh in Hin. destruct Hin.
        -- apply (IH q y g Hq Hg). pose proof (ok_waits strict y g (Hok q y Hq) Hg f m Hin). lia.
Qed.

Lemma progress strict s : all_ok strict s ->
  all_finished s \/ exists q b s', exec s (Step q b) = Some s'.
Proof.
  intros Hok.
  assert (D : (exists p x, nth_error s p = Some x /\ ~ finished x) \/ all_finished s).
  { clear Hok. induction s as [|x s IH].
    - right. intros [|p] x; discriminate.
    - assert (Dx : finished x \/ ~ finished x).
      { unfold finished. destruct (todo x), (holds x); try (right; now intros []). now left. }
      destruct Dx as [Dx|Dx]; [|left; now exists O, x].
      destruct IH as [(p & y & H)|H]; [left; now exists (S p), y|].
      right. intros [|p] y Hy; cbn in Hy; [congruence|now apply (H p)]. }
  destruct D as [(p & x & Hp & Hf)|D]; [right|now left].
  destruct (step_proc s x true) as [x'|] eqn:Es.
  - exists p, true. cbn. rewrite Hp, Es. eauto.
  - destruct (blocked s x Hf Es) as (f & Hw & _).
    apply (progress_aux strict s Hok 6 p x f Hp Hw). pose proof (rank_bounds f). lia.
Qed.

(** ** Termination *)
Local Open Scope nat_scope.

Fixpoint weight (c : cmd) : nat :=
  let sum := fix sum (l : list cmd) : nat := match l with [] => 0 | c :: l' => weight c + sum l' end in
  match c with
  | Lock _ w r => 6 + sum w + sum r
  | Check _ w r => 5 + sum w + sum r
  | WantEx _ w r => 4 + sum w + sum r
  | Check2 _ w r => 3 + sum w + sum r
  | Convert _ => 2
  | _ => 1
  end.
Fixpoint weights (l : list cmd) : nat := match l with [] => 0 | c :: l' => weight c + weights l' end.
Definition finishedb (x : proc) : bool :=
  match todo x, holds x with [], [] => true | _, _ => false end.
Definition measure (x : proc) : nat := weights (todo x) + (if finishedb x then 0 else 1).
Fixpoint total (s : list proc) : nat := match s with [] => 0 | x :: s' => measure x + total s' end.

Lemma weights_app a b : weights (a ++ b) = (weights a + weights b)%nat.
Proof. induction a as [|c a IH]; cbn; [reflexivity|]. rewrite IH. lia. Qed.
Lemma weight_lock f w r : weight (Lock f w r) = (6 + weights w + weights r)%nat.
Proof. reflexivity. Qed.

Lemma step_measure all x b x' : step_proc all x b = Some x' -> (measure x' < measure x)%nat.
Proof.
  destruct x as [k h]. unfold step_proc, measure, finishedb. cbn [todo holds].
  destruct k as [|[f w r|f w r|f w r|f w r|f|f|f|f|f] k]; intros E;
    repeat match type of E with
    | (if existsb ?a ?b then _ else _) = _ => destruct (existsb a b); [discriminate E|]
    | (if b then _ else _) = _ => destruct b
    | (match ?h with [] => _ | _ => _ end) = _ => destruct h
    end; try discriminate E; injection E as <-; cbn [todo holds];
    repeat match goal with |- context [match ?l with [] => _ | _ => _ end] =>
      let E' := fresh in destruct l eqn:E' end;
    rewrite <- ?H, <- ?H0, <- ?H1; cbn [weights weight];
    fold weights; rewrite ?weights_app; cbn [weights weight]; try lia.
  all: try (match goal with H : _ ++ _ = [] |- _ => apply app_eq_nil in H as [-> ->] end; cbn; lia).
Qed.

Lemma total_set s p x y : nth_error s p = Some x -> (measure y < measure x)%nat ->
  (total (set_nth s p y) < total s)%nat.
Proof.
  revert p. induction s as [|z s IH]; intros [|p] H L; cbn in *; try discriminate.
  - injection H as ->. lia.
  - specialize (IH p H L). lia.
Qed.

Lemma exec_total s a s' : exec s a = Some s' -> (total s' < total s)%nat.
Proof.
  destruct a as [p b|p]; cbn [exec]; destruct (nth_error s p) as [x|] eqn:Hp; try discriminate.
  - destruct (step_proc s x b) as [x'|] eqn:Es; [|discriminate]. intros [= <-].
    apply (total_set s p x); [assumption|]. now apply (step_measure s x b).
  - destruct (todo x) as [|c k] eqn:Ht; [discriminate|]. intros [= <-].
    apply (total_set s p x); [assumption|]. unfold measure, finishedb. rewrite Ht. cbn. lia.
Qed.

Lemma run_total s l s' : run s l = Some s' -> (length l + total s' <= total s)%nat.
Proof.
  revert s. induction l as [|a l IH]; intros s E; cbn in E; [injection E as <-; cbn; lia|].
  destruct (exec s a) as [s1|] eqn:E1; [|discriminate]. apply exec_total in E1. apply IH in E. cbn. lia.
Qed.

Local Open Scope Z_scope.
(** ** The programs are ordered *)

Ltac in_list := cbn; repeat (first [left; reflexivity | right]).
Ltac tidy := unfold drop; cbn [filter fst];
  repeat match goal with
  | |- context [file_eqb ?a ?b] =>
      first [ replace (file_eqb a b) with true by (symmetry; destruct (file_eqb_spec a b); congruence)
            | replace (file_eqb a b) with false by (symmetry; destruct (file_eqb_spec a b) as [E|]; [discriminate E|reflexivity]) ];
      cbn [negb filter fst]
  end.
Ltac above_tac :=
  let g := fresh "g" in let m := fresh "m" in let Hg := fresh "Hg" in
  intros g m Hg; cbn in Hg;
  repeat (destruct Hg as [Hg|Hg]; [injection Hg as <- <-; cbn; lia|]); now destruct Hg.

Ltac ok_step1 :=
  cbn [app];
  match goal with
  | |- ok _ _ (Lock _ _ _ :: _) => apply ok_lock; [above_tac| |]
  | |- ok _ _ (Make _ :: _) => apply ok_make; [in_list|]
  | |- ok _ _ (Use _ :: _) => apply ok_use; [first [discriminate|intros _; eexists; in_list]|]
  | |- ok _ _ (CloseLock _ :: _) => apply ok_close; tidy
  | |- ok _ _ (Convert _ :: _) => apply ok_convert; [in_list|tidy; above_tac|tidy]
  | H : ok _ _ ?k |- ok _ _ ?k => exact H
  end.
Ltac ok_tac := repeat ok_step1.

Lemma call_ok strict header c k :
  (strict = true -> header = false) -> ok strict [] k -> ok strict [] (call_code header c ++ k).
Proof.
  intros Hs Hk.
  destruct c as [iaca a m v|v o|v|v]; cbn [call_code].
  - unfold incore_analysis, compile_kernel, assemble_to_object, get_kernel_header, get_kernel_code.
    destruct iaca; ok_tac.
  - unfold benchmark, build_executable, get_main_code, compile_kernel, get_kernel_header, get_kernel_code.
    destruct header, strict; try (specialize (Hs eq_refl); discriminate Hs); ok_tac.
  - unfold predictor. ok_tac.
  - unfold predictor. ok_tac.
Qed.

Lemma program_ok strict header l :
  (strict = true -> header = false) -> ok strict [] (program header l).
Proof.
  intros Hs. induction l as [|c l IH]; cbn [program flat_map]; [constructor|]. now apply call_ok.
Qed.

Lemma start_ok strict header ps : (strict = true -> header = false) -> all_ok strict (start header ps).
Proof.
  intros Hs p x Hp. unfold start in Hp. rewrite nth_error_map in Hp.
  destruct (nth_error ps p) as [l|]; [|discriminate]. injection Hp as <-. cbn. now apply program_ok.
Qed.

Lemma no_deadlock header ps l s :
  run (start header ps) l = Some s -> all_finished s \/ exists p b s', exec s (Step p b) = Some s'.
Proof.
  intros H. apply (progress false). apply (run_ok false (start header ps) l); [|assumption].
  apply start_ok. discriminate.
Qed.

Lemma bounded_schedules header ps : exists n, forall l s, run (start header ps) l = Some s -> (length l <= n)%nat.
Proof. exists (total (start header ps)). intros l s H. apply run_total in H. lia. Qed.

(** ** Exclusion *)

Definition mx (s : list proc) : Prop :=
  forall p q x y f m, p <> q -> nth_error s p = Some x -> nth_error s q = Some y ->
    In (f, EX) (holds x) -> ~ In (f, m) (holds y).

Lemma existsb_false_in {A} (g : A -> bool) l p x : existsb g l = false -> nth_error l p = Some x -> g x = false.
Proof.
  intros H Hp. destruct (g x) eqn:E; [|reflexivity]. exfalso.
  assert (existsb g l = true) by (apply existsb_exists; exists x; split; [now apply nth_error_In in Hp|assumption]).
  congruence.
Qed.

(** New locks of a process. *)
Lemma step_locks all x b x' f m :
  step_proc all x b = Some x' -> In (f, m) (holds x') ->
  In (f, m) (holds x)
  \/ (m = SH /\ (forall p y, nth_error all p = Some y -> ~ In (f, EX) (holds y)))
  \/ (m = SH /\ In (f, EX) (holds x))
  \/ (m = EX /\ (forall p y m', nth_error all p = Some y -> ~ In (f, m') (holds y)))
  \/ (m = SH /\ exists k, todo x = Convert f :: k).
Proof.
  destruct x as [k h]. unfold step_proc. cbn [todo holds]. intros E Hin.
  destruct k as [|[g w r|g w r|g w r|g w r|g|g|g|g|g] k];
    repeat match type of E with
    | (if existsb ?a ?b then _ else _) = _ => destruct (existsb a b) eqn:?; [discriminate E|]
    | (if b then _ else _) = _ => destruct b
    | (match ?h with [] => _ | _ => _ end) = _ => destruct h
    end; try discriminate E; injection E as <-; cbn [todo holds] in Hin; try (left; assumption);
    try (apply in_drop in Hin as [Hin _]; left; assumption); try (now destruct Hin).
  - destruct Hin as [[= <- <-]|Hin]; [|now left]. right; left. split; [reflexivity|].
    intros p y Hp Hy. apply has_ex_spec in Hy.
    pose proof (existsb_false_in _ _ _ _ Heqb0 Hp). cbn in *. congruence.
  - destruct Hin as [[= <- <-]|Hin]; [|now left]. right; right; right; left. split; [reflexivity|].
    intros p y m' Hp Hy. assert (Hh : has_any g (holds y) = true) by (apply has_any_spec; eauto).
    pose proof (existsb_false_in _ _ _ _ Heqb0 Hp). cbn in *. congruence.
  - destruct Hin as [[= <- <-]|Hin].
    + right; right; right; right. split; [reflexivity|now exists k].
    + apply in_drop in Hin as [Hin _]. now left.
  - destruct Hin as [[= <- <-]|Hin]; [|now left]. right; left. split; [reflexivity|].
    intros p y Hp Hy. apply has_ex_spec in Hy.
    pose proof (existsb_false_in _ _ _ _ Heqb0 Hp). cbn in *. congruence.
Qed.

Lemma ok_convert_holds strict h f k : ok strict h (Convert f :: k) -> In (f, EX) h.
Proof. intros H. now inversion H. Qed.

Lemma ok_make_holds strict h f k : ok strict h (Make f :: k) -> In (f, EX) h.
Proof. intros H. now inversion H. Qed.
Lemma ok_use_holds h f k : ok true h (Use f :: k) -> exists m, In (f, m) h.
Proof. intros H. inversion H; subst. auto. Qed.

Lemma exec_mx strict s a s' : all_ok strict s -> mx s -> exec s a = Some s' -> mx s'.
Proof.
  intros Hok Hm E. destruct a as [p b|p]; cbn [exec] in E;
    destruct (nth_error s p) as [x|] eqn:Hp; try discriminate.
  - destruct (step_proc s x b) as [x'|] eqn:Es; [|discriminate]. injection E as <-.
    intros i j xi xj f m Hij Hi Hj Hex Hin.
    destruct (set_nth_inv _ _ _ _ _ _ Hp Hi) as [[-> ->]|[Ni Hi']];
    destruct (set_nth_inv _ _ _ _ _ _ Hp Hj) as [[-> ->]|[Nj Hj']].
    + congruence.
    + destruct (step_locks _ _ _ _ _ _ Es Hex) as [H|[[H _]|[[H _]|[[_ H]|[H _]]]]]; try discriminate.
      * exact (Hm p j x xj f m Hij Hp Hj' H Hin).
      * exact (H j xj m Hj' Hin).
    + destruct (step_locks _ _ _ _ _ _ Es Hin) as [H|[[_ H]|[[_ H]|[[_ H]|[_ (k & H)]]]]].
      * exact (Hm i p xi x f m Hij Hi' Hp Hex H).
      * exact (H i xi Hi' Hex).
      * exact (Hm i p xi x f EX Hij Hi' Hp Hex H).
      * exact (H i xi EX Hi' Hex).
      * pose proof (Hok p x Hp) as O. rewrite H in O. apply ok_convert_holds in O.
        exact (Hm i p xi x f EX Hij Hi' Hp Hex O).
    + exact (Hm i j xi xj f m Hij Hi' Hj' Hex Hin).
  - destruct (todo x); [discriminate|]. injection E as <-.
    intros i j xi xj f m Hij Hi Hj Hex Hin.
    destruct (set_nth_inv _ _ _ _ _ _ Hp Hi) as [[-> ->]|[Ni Hi']]; [destruct Hex|].
    destruct (set_nth_inv _ _ _ _ _ _ Hp Hj) as [[-> ->]|[Nj Hj']]; [destruct Hin|].
    exact (Hm i j xi xj f m Hij Hi' Hj' Hex Hin).
Qed.

Lemma run_mx strict s l s' : all_ok strict s -> mx s -> run s l = Some s' -> mx s'.
Proof.
  revert s. induction l as [|a l IH]; intros s Hok Hm E; cbn in E; [injection E as <-; assumption|].
  destruct (exec s a) as [s1|] eqn:E1; [|discriminate]. apply (IH s1); [| |assumption].
  - now apply (exec_ok _ s a).
  - now apply (exec_mx strict s a).
Qed.

Lemma start_mx header ps : mx (start header ps).
Proof.
  intros p q x y f m _ Hp _ Hin _. unfold start in Hp. rewrite nth_error_map in Hp.
  destruct (nth_error ps p); [|discriminate]. injection Hp as <-. destruct Hin.
Qed.

Lemma make_exclusive header ps l s p f :
  run (start header ps) l = Some s -> about_to_make s p f ->
  has_lock s p f EX /\ forall q m, q <> p -> ~ has_lock s q f m.
Proof.
  intros H (k & h & Hp).
  assert (Hok : all_ok false (start header ps)) by (apply start_ok; discriminate).
  pose proof (run_ok _ _ _ _ Hok H p _ Hp) as O. cbn in O. apply ok_make_holds in O.
  split; [eexists; split; [eassumption|assumption]|].
  intros q m Hq (y & Hy & Hin).
  exact (run_mx _ _ _ _ Hok (start_mx header ps) H p q _ _ f m (not_eq_sym Hq) Hp Hy O Hin).
Qed.

Lemma use_shared ps l s p f :
  run (start false ps) l = Some s -> about_to_use s p f ->
  (exists m, has_lock s p f m) /\ forall q, q <> p -> ~ has_lock s q f EX.
Proof.
  intros H (k & h & Hp).
  assert (Hok : all_ok true (start false ps)) by (apply start_ok; reflexivity).
  pose proof (run_ok _ _ _ _ Hok H p _ Hp) as O. cbn in O. apply ok_use_holds in O as (m & Hm).
  split; [exists m; eexists; split; [eassumption|assumption]|].
  intros q Hq (y & Hy & Hin).
  exact (run_mx _ _ _ _ Hok (start_mx false ps) H q p _ _ f m Hq Hy Hp Hin Hm).
Qed.
