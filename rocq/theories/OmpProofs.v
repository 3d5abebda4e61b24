(** Proofs for C108 to C110 *)
From Coq Require Import String.
From Verif Require Import AstSpec LoopSpec GenSpec GenProofs OmpModel OmpSpec.
From Verif Require PerfProofs.
Local Open Scope string_scope.
Local Open Scope list_scope.
Local Open Scope Z_scope.

(** ** Lists *)
Lemma nth_set {A} i (x : A) l : (i < List.length l)%nat -> nth_error (set_nth i x l) i = Some x.
Proof.
  unfold set_nth. revert l. induction i as [|i IH]; intros [|y l] L; cbn in *; try lia; [reflexivity|]. apply IH. lia.
Qed.
Lemma nth_set_other {A} i j (x : A) l : i <> j -> (i < List.length l)%nat -> nth_error (set_nth i x l) j = nth_error l j.
Proof.
  unfold set_nth. revert j l. induction i as [|i IH]; intros [|j] [|y l] N L; cbn in *; try lia; try reflexivity.
  - apply IH; lia.
Qed.
Lemma set_length {A} i (x : A) l : (i < List.length l)%nat -> List.length (set_nth i x l) = List.length l.
Proof. unfold set_nth. intros L. rewrite app_length, firstn_length. cbn [List.length]. rewrite skipn_length. lia. Qed.
Lemma nth_lt {A} i (x : A) l : nth_error l i = Some x -> (i < List.length l)%nat.
Proof. intros H. apply nth_error_Some. congruence. Qed.

(** ** Runs of single threads *)
Section Runs.
  Context {V : Type} (A : arithmetic V).
  Notation proc := (@process V).
  Notation op := (@op V).
  Fixpoint run (ops : list op) (s : proc * list V) : option (proc * list V) :=
    match ops with [] => Some s | o :: ops' => let? s' := step A o s in run ops' s' end.
  Lemma run_app a b s : run (a ++ b) s = let? s' := run a s in run b s'.
  Proof. revert s. induction a as [|o a IH]; intros s; cbn [app run obind]; [reflexivity|]. destruct (step A o s); cbn [obind]; [apply IH|reflexivity]. Qed.

  Definition touches (o : op) (l : location) : Prop := o = Get l \/ o = Put l.
  Definition touched (ops : list op) (l : location) : Prop := exists o, In o ops /\ touches o l.
  Definition written (ops : list op) (l : location) : Prop := In (Put l) ops.
  Lemma location_dec (a b : location) : {a = b} + {a <> b}.
  Proof. decide equality; (apply string_dec || apply Z.eq_dec). Qed.
  Lemma contents_put t l v m : contents (put t l v) m = if location_dec m l then Some v else @contents V t m.
  Proof.
    destruct l as [b z|n|c], m as [b' z'|n'|c']; cbn; try (destruct (location_dec _ _); [discriminate|reflexivity]).
    - destruct (String.eqb_spec b' b) as [->|N]; cbn [andb]; [destruct (Z.eqb_spec z' z) as [->|N]|]; destruct (location_dec _ _); congruence.
    - destruct (String.eqb_spec n' n) as [->|N]; destruct (location_dec _ _); congruence.
    - destruct (String.eqb_spec c' c) as [->|N]; destruct (location_dec _ _); congruence.
  Qed.
  Lemma pointers_put t l (v : V) : pointers (put t l v) = pointers t.
  Proof. now destruct l. Qed.
  Lemma step_frame o t st t' st' l : step A o (t, st) = Some (t', st') -> o <> Put l -> contents t' l = contents t l.
  Proof.
    destruct o; cbn [step]; try (destruct st as [|? [|? ?]]; intros [= <- <-] _; reflexivity).
    - destruct (contents t l0); [|discriminate]. cbn. now intros [= <- <-].
    - destruct st as [|v st]; [discriminate|]. intros [= <- <-] N. rewrite contents_put. destruct (location_dec l l0); congruence.
  Qed.
  Lemma step_pointers o t st t' st' : step A o (t, st) = Some (t', st') -> pointers t' = pointers t.
  Proof.
    destruct o; cbn [step]; try (destruct st as [|? [|? ?]]; intros [= <- <-]; reflexivity).
    - destruct (contents t l); [|discriminate]. cbn. now intros [= <- <-].
    - destruct st as [|v st]; [discriminate|]. intros [= <- <-]. apply pointers_put.
  Qed.
  Lemma run_frame ops l : forall t st t' st', run ops (t, st) = Some (t', st') -> ~ written ops l -> contents t' l = contents t l.
  Proof.
    induction ops as [|o ops IH]; cbn [run]; intros t st t' st' H N; [now injection H as <- <-|].
    destruct (step A o (t, st)) as [[t1 st1]|] eqn:E; [|discriminate]. cbn [obind] in H.
    rewrite (IH t1 st1 t' st' H) by (intros W; apply N; now right). apply (step_frame o t st t1 st1); [assumption|]. intros ->. apply N. now left.
  Qed.
  Lemma run_pointers ops : forall t st t' st', run ops (t, st) = Some (t', st') -> pointers t' = pointers t.
  Proof.
    induction ops as [|o ops IH]; cbn [run]; intros t st t' st' H; [now injection H as <- <-|].
    destruct (step A o (t, st)) as [[t1 st1]|] eqn:E; [|discriminate]. cbn [obind] in H. rewrite (IH t1 st1 t' st' H). now apply (step_pointers o t st t1 st1).
  Qed.
  Definition agree (S : location -> Prop) (t u : proc) : Prop := forall l, S l -> contents t l = contents u l.
  Lemma step_agree o (S : location -> Prop) t u st t' st' : (forall l, touches o l -> S l) -> agree S t u -> step A o (t, st) = Some (t', st') ->
    exists u', step A o (u, st) = Some (u', st') /\ agree S t' u'.
  Proof.
    intros T AG. destruct o as [v|l|l|o|o| |]; cbn [step].
    - intros [= <- <-]. now exists u.
    - rewrite <- (AG l) by (apply T; now left). destruct (contents t l); [|discriminate]. cbn. intros [= <- <-]. now exists u.
    - destruct st as [|v st]; [discriminate|]. intros [= <- <-]. eexists. split; [reflexivity|]. intros m Sm. rewrite !contents_put. destruct (location_dec m l); auto.
    - destruct st as [|? [|? ?]]; intros [= <- <-]. now exists u.
    - destruct st as [|? [|? ?]]; intros [= <- <-]. now exists u.
    - destruct st as [|? ?]; intros [= <- <-]. now exists u.
    - destruct st as [|? ?]; intros [= <- <-]. now exists u.
  Qed.
  Lemma run_agree ops (S : location -> Prop) : forall t u st t' st', (forall l, touched ops l -> S l) -> agree S t u -> run ops (t, st) = Some (t', st') ->
    exists u', run ops (u, st) = Some (u', st') /\ agree S t' u'.
  Proof.
    induction ops as [|o ops IH]; cbn [run]; intros t u st t' st' T AG H.
    - injection H as <- <-. now exists u.
    - destruct (step A o (t, st)) as [[t1 st1]|] eqn:E; [|discriminate]. cbn [obind] in H.
      destruct (step_agree o S t u st t1 st1) as (u1 & E1 & AG1); try assumption; [intros l L; apply T; exists o; split; [now left|assumption]|].
      rewrite E1. cbn [obind]. apply (IH t1); try assumption. intros l (o' & I & L). apply T. exists o'. split; [now right|assumption].
  Qed.
  Lemma written_touched ops l : written ops l -> touched ops l.
  Proof. intros H. exists (Put l). split; [assumption|now right]. Qed.
  Lemma written_dec ops l : {written ops l} + {~ written ops l}.
  Proof.
    induction ops as [|o ops [I|I]]; [right; intros []|left; now right|].
    destruct o as [v|x|x|o|o| |]; try (right; intros [H|H]; [discriminate|auto]).
    destruct (location_dec x l) as [->|N]; [left; now left|]. right. intros [H|H]; [congruence|auto].
  Defined.
  Lemma touched_app a b l : touched (a ++ b) l <-> touched a l \/ touched b l.
  Proof.
    split; [intros (o & I & T); apply in_app_or in I as [I|I]; [left|right]; exists o; auto|].
    intros [(o & I & T)|(o & I & T)]; exists o; (split; [apply in_or_app; auto|assumption]).
  Qed.

  (** *** Accesses of common locations have fixed values *)
  Section Interleaving.
    Context (K : location -> bool) (c : location -> option V).
    Definition fixed_op (o : op) (s : proc * list V) : Prop :=
      match o with
      | Get l => K l = true -> contents (fst s) l = c l
      | Put l => K l = true -> match snd s with v :: _ => Some v = c l | [] => True end
      | _ => True
      end.
    Fixpoint fixed (ops : list op) (s : proc * list V) : Prop :=
      match ops with [] => True | o :: ops' => fixed_op o s /\ forall s', step A o s = Some s' -> fixed ops' s' end.
    Lemma fixed_app a b s : fixed a s -> (forall s', run a s = Some s' -> fixed b s') -> fixed (a ++ b) s.
    Proof.
      revert s. induction a as [|o a IH]; cbn [app fixed run]; intros s Fa Fb; [now apply Fb|]. destruct Fa as [F1 F2]. split; [assumption|].
      intros s' E. apply IH; [now apply F2|]. intros s2 R. apply Fb. rewrite E. exact R.
    Qed.
    Context (t0 : proc) (full : list (list op)).
    Hypothesis defined : forall i ops, nth_error full i = Some ops -> run ops (t0, []) <> None.
    Hypothesis fixed_all : forall i ops, nth_error full i = Some ops -> fixed ops (t0, []).
    Hypothesis disjoint : forall i j a b l, i <> j -> nth_error full i = Some a -> nth_error full j = Some b -> K l = false -> written a l -> ~ touched b l.

    (** What thread i has done, and what it would have done alone *)
    Definition alone (t : proc) (ops done : list op) (m : proc) (th : list op * list V) : Prop :=
      ops = done ++ fst th /\ run done (t0, []) = Some (m, snd th) /\ fixed (fst th) (m, snd th)
      /\ (forall l, K l = false -> touched ops l -> contents t l = contents m l)
      /\ (forall l, K l = true -> contents m l = c l -> contents t l = c l).
    Definition invariant (t : proc) (ths : list (list op * list V)) : Prop :=
      List.length ths = List.length full
      /\ (forall i ops th, nth_error full i = Some ops -> nth_error ths i = Some th -> exists done m, alone t ops done m th)
      /\ (forall l, K l = false -> (forall i ops, nth_error full i = Some ops -> ~ written ops l) -> contents t l = contents t0 l)
      /\ (forall l, K l = true -> contents t l = contents t0 l \/ contents t l = c l)
      /\ pointers t = pointers t0.
    Lemma invariant_start : invariant t0 (start full).
    Proof.
      unfold start. split; [now rewrite map_length|]. split; [|split; [reflexivity|split; [now left|reflexivity]]].
      intros i ops th F T. rewrite nth_error_map, F in T. injection T as <-. exists [], t0. repeat split; auto. cbn. now apply (fixed_all i).
    Qed.
    Lemma invariant_step t ths i o ops st : invariant t ths -> nth_error ths i = Some (o :: ops, st) ->
      exists t' st', step A o (t, st) = Some (t', st') /\ invariant t' (set_nth i (ops, st') ths).
    Proof.
      intros (LEN & TH & UN & CO & PT) NT. assert (LT := nth_lt _ _ _ NT). destruct (nth_error full i) as [fi|] eqn:NF; [|apply nth_error_None in NF; lia].
      destruct (TH i fi (o :: ops, st) NF NT) as (done & m & EF & RD & FX & AG & KG). cbn [fst snd] in *. destruct FX as [FO FX].
      (* the operation is defined when the thread is alone *)
      destruct (step A o (m, st)) as [[m' st']|] eqn:E.
      2:{ exfalso. apply (defined i fi NF). rewrite EF, run_app, RD. cbn [obind run]. now rewrite E. }
      assert (RD' : run (done ++ [o]) (t0, []) = Some (m', st')) by (rewrite run_app, RD; cbn [obind run]; now rewrite E).
      assert (EF' : fi = (done ++ [o]) ++ ops) by (rewrite <- app_assoc; exact EF).
      specialize (FX _ eq_refl).
      assert (TO : forall l, touches o l -> touched fi l) by (intros l T; exists o; split; [rewrite EF; apply in_or_app; right; now left|assumption]).
      assert (ST : exists t', step A o (t, st) = Some (t', st') /\ (forall l, K l = false -> touched fi l -> contents t' l = contents m' l)
                   /\ (forall l, K l = true -> contents m' l = c l -> contents t' l = c l)).
      { clear - FO E AG KG TO. destruct o as [v|l|l|o|o| |]; cbn [step] in *.
        - injection E as <- <-. eexists. split; [reflexivity|]. auto.
        - assert (EQ : contents t l = contents m l).
          { destruct (K l) eqn:KL; [|apply AG; [assumption|apply TO; now left]]. cbn in FO. rewrite (FO KL). apply KG; [assumption|now apply FO]. }
          rewrite EQ. destruct (contents m l) as [v|]; [|discriminate]. cbn in *. injection E as <- <-. eexists. split; [reflexivity|]. auto.
        - destruct st as [|v st]; [discriminate|]. injection E as <- <-. eexists. split; [reflexivity|]. cbn in FO. split; intros x KX.
          + intros T. rewrite !contents_put. destruct (location_dec x l); auto.
          + rewrite !contents_put. destruct (location_dec x l) as [->|N]; auto.
        - destruct st as [|? [|? ?]]; try discriminate; injection E as <- <-; eexists; (split; [reflexivity|]); auto.
        - destruct st as [|? [|? ?]]; try discriminate; injection E as <- <-; eexists; (split; [reflexivity|]); auto.
        - destruct st as [|? ?]; try discriminate; injection E as <- <-; eexists; (split; [reflexivity|]); auto.
        - destruct st as [|? ?]; try discriminate; injection E as <- <-; eexists; (split; [reflexivity|]); auto. }
      destruct ST as (t' & E' & AG' & KG'). exists t', st'. split; [assumption|].
      assert (KW : forall l, K l = true -> contents t' l = contents t l \/ contents t' l = c l).
      { intros l KL. destruct o as [v|x|x|o|o| |]; try (left; apply (step_frame _ _ _ _ _ _ E'); discriminate). cbn in E'.
        destruct st as [|v st]; [discriminate|]. injection E' as <- <-. rewrite contents_put. destruct (location_dec l x) as [->|N]; [|now left]. right. cbn in FO. auto. }
      split; [rewrite set_length; assumption|]. split; [|split; [|split]].
      - intros j fj th NJ NTJ. destruct (Nat.eq_dec i j) as [<-|NE].
        + rewrite nth_set in NTJ by assumption. injection NTJ as <-. rewrite NF in NJ. injection NJ as <-. exists (done ++ [o]), m'. split; [exact EF'|].
          split; [exact RD'|]. split; [exact FX|]. split; assumption.
        + rewrite nth_set_other in NTJ by assumption. destruct (TH j fj th NJ NTJ) as (dj & mj & EJ & RJ & FJ & AJ & KJ). exists dj, mj. do 3 (split; [assumption|]). split.
          * intros l KL T. rewrite <- (AJ l KL T). apply (step_frame _ _ _ _ _ _ E'). intros ->. apply (disjoint i j fi fj l NE NF NJ KL); [|assumption].
            unfold written. rewrite EF. apply in_or_app. right. now left.
          * intros l KL H. destruct (KW l KL) as [Q|Q]; [rewrite Q; auto|assumption].
      - intros l KL H. rewrite <- (UN l KL H). apply (step_frame _ _ _ _ _ _ E'). intros ->. apply (H i fi NF). unfold written. rewrite EF. apply in_or_app. right. now left.
      - intros l KL. destruct (KW l KL) as [Q|Q]; [rewrite Q; auto|now right].
      - rewrite (step_pointers _ _ _ _ _ E'). exact PT.
    Qed.
    Lemma invariant_interleave sched : forall t ths, invariant t ths -> exists t' ths', interleave A sched t ths = Some (t', ths') /\ invariant t' ths'.
    Proof.
      induction sched as [|i sched IH]; cbn [interleave]; intros t ths IN; [eauto|]. destruct (nth_error ths i) as [[[|o ops] st]|] eqn:N; auto.
      destruct (invariant_step t ths i o ops st IN N) as (t1 & st1 & E & IN'). rewrite E. cbn [obind]. auto.
    Qed.
    (** At the end, every location has the content it has after the thread alone that accesses it. *)
    Lemma interleave_alone sched : exists t' ths', interleave A sched t0 (start full) = Some (t', ths') /\ (finished ths' ->
      (forall i ops m st l, nth_error full i = Some ops -> run ops (t0, []) = Some (m, st) -> K l = false -> touched ops l -> contents t' l = contents m l)
      /\ (forall i ops m st l, nth_error full i = Some ops -> run ops (t0, []) = Some (m, st) -> K l = true -> contents m l = c l -> contents t' l = c l)
      /\ (forall l, K l = false -> (forall i ops, nth_error full i = Some ops -> ~ written ops l) -> contents t' l = contents t0 l)
      /\ (forall l, K l = true -> contents t' l = contents t0 l \/ contents t' l = c l)
      /\ pointers t' = pointers t0).
    Proof.
      destruct (invariant_interleave sched t0 (start full) invariant_start) as (t' & ths' & E & LEN & TH & UN & CO & PT). exists t', ths'. split; [assumption|].
      intros FI. assert (Q : forall i ops m st, nth_error full i = Some ops -> run ops (t0, []) = Some (m, st) ->
        (forall l, K l = false -> touched ops l -> contents t' l = contents m l) /\ (forall l, K l = true -> contents m l = c l -> contents t' l = c l)).
      { intros i ops m st N R. destruct (nth_error ths' i) as [[rest st']|] eqn:NT; [|apply nth_error_None in NT; apply nth_lt in N; lia].
        destruct (TH i ops _ N NT) as (done & m' & EO & RD & _ & AG & KG). cbn [fst snd] in *. unfold finished in FI. rewrite Forall_forall in FI.
        assert (rest = []) by exact (FI _ (nth_error_In _ _ NT)). subst rest. rewrite app_nil_r in EO. subst done. rewrite R in RD. injection RD as <- <-. auto. }
      split; [intros i ops m st l N R; exact (proj1 (Q i ops m st N R) l)|]. split; [intros i ops m st l N R; exact (proj2 (Q i ops m st N R) l)|]. auto.
    Qed.
  End Interleaving.
End Runs.

(** ** Iterations of different threads *)
Section Parallel.
  Context {V : Type} (A : arithmetic V).
  Notation proc := (@process V).
  Notation op := (@op V).
  Notation run := (run A).
  Definition neutral (ops : list op) : Prop := forall t st s, run ops (t, st) = Some s -> snd s = st.
  Lemma neutral_app a b : neutral a -> neutral b -> neutral (a ++ b).
  Proof.
    intros Na Nb t st s. rewrite run_app. destruct (run a (t, st)) as [[t1 st1]|] eqn:E; [|discriminate]. cbn [obind]. intros R. specialize (Na _ _ _ E). cbn in Na. subst st1.
    exact (Nb _ _ _ R).
  Qed.
  Lemma neutral_concat l : (forall c, In c l -> neutral c) -> neutral (concat l).
  Proof.
    induction l as [|c l IH]; intros H; [intros t st s; cbn; now intros [= <-]|]. cbn [concat]. apply neutral_app; [apply H; now left|]. apply IH. intros x I. apply H. now right.
  Qed.
  Lemma merge_alone parts seq : merge parts seq -> (forall p c, In p parts -> In c p -> neutral c) -> forall t t' st, run (concat seq) (t, []) = Some (t', st) ->
    forall i p (S : location -> Prop), nth_error parts i = Some p -> (forall l, touched (concat p) l -> S l) ->
      (forall j q l, j <> i -> nth_error parts j = Some q -> written (concat q) l -> ~ S l) -> exists m, run (concat p) (t, []) = Some (m, []) /\ agree S m t'.
  Proof.
    induction 1 as [parts F|parts i x rest l N M IH]; intros NE t t' st R j p S NJ TS DS.
    - rewrite Forall_forall in F. assert (E : [] = p) by (apply F, (nth_error_In _ _ NJ)). subst p. cbn in *. injection R as <- <-. exists t. split; [reflexivity|]. intros ? ?. reflexivity.
    - assert (LT := nth_lt _ _ _ N). cbn [concat] in R. rewrite run_app in R. destruct (run x (t, [])) as [[t1 st1]|] eqn:E; [|discriminate]. cbn [obind] in R.
      assert (NX : neutral x) by (apply (NE (x :: rest)); [apply (nth_error_In _ _ N)|now left]). assert (ES := NX _ _ _ E). cbn in ES. subst st1.
      assert (NE' : forall p c, In p (set_nth i rest parts) -> In c p -> neutral c).
      { intros q c I J. apply In_nth_error in I as [y I]. destruct (Nat.eq_dec i y) as [<-|NY].
        - rewrite nth_set in I by assumption. injection I as <-. apply (NE (x :: rest)); [apply (nth_error_In _ _ N)|now right].
        - rewrite nth_set_other in I by assumption. apply (NE q); [apply (nth_error_In _ _ I)|assumption]. }
      destruct (Nat.eq_dec i j) as [<-|NIJ].
      + rewrite N in NJ. injection NJ as <-. cbn [concat] in TS. destruct (IH NE' t1 t' st R i rest S) as (m & RM & AM).
        * now apply nth_set.
        * intros y T. apply TS, touched_app. now right.
        * intros y q z NY NQ. rewrite nth_set_other in NQ by auto. exact (DS y q z NY NQ).
        * exists m. split; [|assumption]. cbn [concat]. rewrite run_app, E. exact RM.
      + destruct (IH NE' t1 t' st R j p S) as (m & RM & AM).
        * now rewrite nth_set_other.
        * assumption.
        * intros y q z NY NQ. destruct (Nat.eq_dec i y) as [<-|NYI].
          -- rewrite nth_set in NQ by assumption. injection NQ as <-. intros W. apply (DS i (x :: rest) z); try assumption. cbn [concat]. apply in_or_app. now right.
          -- rewrite nth_set_other in NQ by assumption. exact (DS y q z NY NQ).
        * assert (AG : agree S t1 t).
          { intros z Sz. apply (run_frame A x z t [] t1 []); [assumption|]. intros W. apply (DS i (x :: rest) z); try assumption. cbn [concat]. apply in_or_app. now left. }
          destruct (run_agree A (concat p) S t1 t [] m [] TS AG RM) as (m' & RM' & AM'). exists m'. split; [assumption|]. intros z Sz. rewrite <- (AM' z Sz). now apply AM.
  Qed.

  Definition is_scalar (l : location) : bool := match l with Elem _ _ => false | _ => true end.
  Section Scalars.
    Context (cs : list (string * string)) (t0 : proc).
    Hypothesis nodup : NoDup (map fst cs).
    Definition common (l : location) : option V :=
      match l with Local n => match lookup n cs with Some x => contents t0 (Cell x) | None => contents t0 l end | _ => contents t0 l end.
    Notation fixed := (fixed A is_scalar common).
    Definition cells_kept (t : proc) : Prop := forall x, contents t (Cell x) = contents t0 (Cell x).
    Definition copied (l : list (string * string)) (t : proc) : Prop := forall n x, In (n, x) l -> contents t (Local n) = contents t0 (Cell x).

    Lemma common_local n x : In (n, x) cs -> common (Local n) = contents t0 (Cell x).
    Proof. intros I. cbn [common]. now rewrite (in_lookup n cs x nodup I). Qed.
    Lemma copy_in_cells l t st t' st' : run (copy_in_code l) (t, st) = Some (t', st') -> forall x, contents t' (Cell x) = contents t (Cell x).
    Proof.
      intros R x. apply (run_frame A (copy_in_code l) _ t st t' st' R). unfold written, copy_in_code. intros I. apply in_flat_map in I as (y & _ & [I|[I|[]]]); discriminate.
    Qed.
    Lemma copy_in_elems l t st t' st' : run (copy_in_code l) (t, st) = Some (t', st') -> forall b z, contents t' (Elem b z) = contents t (Elem b z).
    Proof.
      intros R b z. apply (run_frame A (copy_in_code l) _ t st t' st' R). unfold written, copy_in_code. intros I. apply in_flat_map in I as (y & _ & [I|[I|[]]]); discriminate.
    Qed.
    Lemma copy_in_spec l : forall t st t' st', incl l cs -> cells_kept t -> run (copy_in_code l) (t, st) = Some (t', st') -> st' = st /\ (forall n x, In (n, x) l -> contents t' (Local n) = contents t0 (Cell x)).
    Proof.
      induction l as [|[n x] l IH]; intros t st t' st' IC C R; [cbn in R; injection R as <- <-; now split|].
      cbn [copy_in_code flat_map app fst snd OmpProofs.run step] in R. rewrite C in R. destruct (contents t0 (Cell x)) as [v|] eqn:E; [|discriminate]. cbn [obind step] in R.
      assert (IC' : incl l cs) by (intros y I; apply IC; now right).
      destruct (IH (put t (Local n) v) st t' st') as [-> H]; [assumption|intros y; rewrite contents_put; destruct (location_dec _ _); [discriminate|apply C]|exact R|].
      split; [reflexivity|]. intros m y [I|I]; [|now apply H]. injection I as -> ->. rewrite E.
      destruct (in_dec string_dec m (map fst l)) as [J|J].
      - apply in_map_iff in J as ([m' y'] & EM & J). cbn in EM. subst m'. rewrite (H m y' J).
        assert (Q : lookup m cs = Some y) by (apply in_lookup; [assumption|apply IC; now left]). assert (Q' : lookup m cs = Some y') by (apply in_lookup; [assumption|now apply IC']). congruence.
      - rewrite (run_frame A (copy_in_code l) (Local m) _ _ _ _ R).
        + rewrite contents_put. now destruct (location_dec _ _).
        + unfold written, copy_in_code. intros W. apply in_flat_map in W as ([a b] & I & [W|[W|[]]]); [discriminate|]. injection W as <-. apply J. apply (in_map fst) in I. exact I.
    Qed.
    Lemma copy_in_fixed l : forall t st, incl l cs -> cells_kept t -> fixed (copy_in_code l) (t, st).
    Proof.
      induction l as [|[n x] l IH]; intros t st IC C; [exact Logic.I|]. cbn [copy_in_code flat_map app fst snd OmpProofs.fixed fixed_op is_scalar]. split; [intros _; apply C|].
      intros s E. cbn [step] in E. rewrite C in E. destruct (contents t0 (Cell x)) as [v|] eqn:EX; [|discriminate]. cbn [obind] in E. injection E as <-. cbn [snd]. split.
      - intros _. rewrite (common_local n x) by (apply IC; now left). now rewrite EX.
      - intros s E. cbn [step] in E. injection E as <-. apply IH; [intros y I; apply IC; now right|]. intros y. change (contents (put t (Local n) v) (Cell y) = contents t0 (Cell y)). rewrite contents_put. destruct (location_dec _ _); [discriminate|apply C].
    Qed.
    (** Scalars have their values and do not change. *)
    Definition settled (t : proc) : Prop := cells_kept t /\ copied cs t.
    Lemma copy_out_spec l : forall t st, incl l cs -> settled t -> (forall n x, In (n, x) l -> contents t0 (Cell x) <> None) ->
      exists t', run (copy_out_code l) (t, st) = Some (t', st) /\ (forall y, contents t' y = contents t y) /\ fixed (copy_out_code l) (t, st).
    Proof.
      induction l as [|[n x] l IH]; intros t st IC [C CP] D; [exists t; split; [reflexivity|split; [reflexivity|exact Logic.I]]|].
      assert (IN : In (n, x) cs) by (apply IC; now left). assert (E : contents t (Local n) = contents t0 (Cell x)) by now apply CP.
      destruct (contents t0 (Cell x)) as [v|] eqn:EX; [|now destruct (D n x (or_introl eq_refl))].
      assert (SM : forall y, contents (put t (Cell x) v) y = contents t y) by (intros y; rewrite contents_put; destruct (location_dec y (Cell x)) as [->|]; [now rewrite C, EX|reflexivity]).
      destruct (IH (put t (Cell x) v) st) as (t' & R & S' & F').
      - intros y I. apply IC. now right.
      - split; [intros y; rewrite SM; apply C|]. intros m y I. rewrite SM. now apply CP.
      - intros m y I. apply (D m). now right.
      - exists t'. split; [|split].
        + cbn [copy_out_code flat_map app fst snd OmpProofs.run step]. rewrite E. cbn [obind step]. exact R.
        + intros y. rewrite S'. apply SM.
        + cbn [copy_out_code flat_map app fst snd OmpProofs.fixed fixed_op is_scalar]. split; [intros _; rewrite (common_local n x IN), EX; exact E|].
          intros s ES. cbn [step] in ES. rewrite E in ES. cbn [obind] in ES. injection ES as <-. cbn [snd]. split; [intros _; cbn [common]; congruence|].
          intros s ES. cbn [step] in ES. injection ES as <-. exact F'.
    Qed.
    (** Code of the loops: writes elements only and reads elements and local variables *)
    Definition loop_op (o : op) : Prop :=
      match o with Get (Elem _ _) => True | Get (Local n) => In n (map fst cs) | Get (Cell _) => False | Put (Elem _ _) => True | Put _ => False | _ => True end.
    Lemma loop_keeps ops t st t' st' l : (forall o, In o ops -> loop_op o) -> run ops (t, st) = Some (t', st') -> is_scalar l = true -> contents t' l = contents t l.
    Proof. intros H R L. apply (run_frame A ops l t st t' st' R). intros W. apply H in W. now destruct l. Qed.
    Lemma settled_same t t' : settled t -> (forall l, is_scalar l = true -> contents t' l = contents t l) -> settled t'.
    Proof. intros [C CP] H. split; [intros x; rewrite H; auto|]. intros n x I. rewrite H; [now apply CP|reflexivity]. Qed.
    Lemma loop_fixed ops : forall s, (forall o, In o ops -> loop_op o) -> settled (fst s) -> fixed ops s.
    Proof.
      induction ops as [|o ops IH]; intros [t st] H ST; [exact Logic.I|]. cbn [OmpProofs.fixed]. assert (LO := H o (or_introl eq_refl)). split.
      - destruct o as [v|l|l|o|o| |]; cbn [fixed_op]; try exact Logic.I; destruct l as [b z|n|x]; cbn in LO; try easy. intros _. cbn [fst] in *.
        apply in_map_iff in LO as ([m x] & EM & I). cbn in EM. subst m. rewrite (common_local n x I). destruct ST as [_ CP]. now apply CP.
      - intros [t' st'] E. apply IH; [intros o' I; apply H; now right|]. cbn [fst]. apply (settled_same t); [assumption|]. intros l L. apply (step_frame A o t st t' st' l E).
        intros ->. now destruct l.
    Qed.

    Context (parts : list (list (list op))) (seq : list (list op)) (t' : proc) (st' : list V).
    Hypothesis M : merge parts seq.
    Hypothesis nonempty : parts <> [].
    Hypothesis NEU : forall p c, In p parts -> In c p -> neutral c /\ forall o, In o c -> loop_op o.
    Hypothesis NES : forall c, In c seq -> forall o, In o c -> loop_op o.
    Hypothesis NEN : forall c, In c seq -> neutral c.
    Hypothesis DIS : forall i j p q l, i <> j -> nth_error parts i = Some p -> nth_error parts j = Some q -> written (concat p) l -> ~ touched (concat q) l.
    Hypothesis SEQ : run (copy_in_code cs ++ concat seq ++ copy_out_code cs) (t0, []) = Some (t', st').
    Hypothesis WR : forall l, written (concat seq) l -> exists i p, nth_error parts i = Some p /\ written (concat p) l.
    Hypothesis MW : forall i p l, nth_error parts i = Some p -> written (concat p) l -> written (concat seq) l.

    Definition code_of (p : list (list op)) : list op := copy_in_code cs ++ concat p ++ copy_out_code cs.
    Lemma concat_in (p : list (list op)) o : In o (concat p) -> exists c, In c p /\ In o c.
    Proof. intros I. apply in_concat in I as (c & ? & ?). eauto. Qed.
    Lemma code_elem p b z : (touched (code_of p) (Elem b z) <-> touched (concat p) (Elem b z)) /\ (written (code_of p) (Elem b z) <-> written (concat p) (Elem b z)).
    Proof.
      assert (NI : forall (o : op), touches o (Elem b z) -> ~ In o (copy_in_code cs) /\ ~ In o (copy_out_code cs)).
      { intros o T. split; intros I; apply in_flat_map in I as ([n x] & _ & [<-|[<-|[]]]); destruct T; discriminate. }
      assert (Q : forall (o : op), touches o (Elem b z) -> In o (code_of p) <-> In o (concat p)).
      { intros o T. destruct (NI o T) as [N1 N2]. unfold code_of. rewrite !in_app_iff. tauto. }
      split; [|apply Q; now right]. split; intros (o & I & T); exists o; (split; [now apply Q|assumption]).
    Qed.
    Lemma parallel_same sched : exists t2 ths, interleave A sched t0 (start (map code_of parts)) = Some (t2, ths) /\ (finished ths -> same_process t2 t').
    Proof.
      rewrite !run_app in SEQ. destruct (run (copy_in_code cs) (t0, [])) as [[t1 st1]|] eqn:E1; [|discriminate]. cbn [obind] in SEQ. rewrite run_app in SEQ.
      destruct (copy_in_spec cs t0 [] t1 st1) as [-> CP]; [intros x I; exact I|intros x; reflexivity|exact E1|].
      destruct (run (concat seq) (t1, [])) as [[t2 st2]|] eqn:E2; [|discriminate]. cbn [obind] in SEQ.
      assert (ST1 : settled t1) by (split; [intros x; apply (copy_in_cells _ _ _ _ _ E1)|exact CP]).
      assert (LS : forall o, In o (concat seq) -> loop_op o) by (intros o I; apply concat_in in I as (d & I & J); exact (NES d I o J)).
      assert (K2 : forall l, is_scalar l = true -> contents t2 l = contents t1 l) by (intros l; apply (loop_keeps _ _ _ _ _ l LS E2)).
      assert (N2 := neutral_concat seq NEN _ _ _ E2). cbn in N2. subst st2.
      assert (D0 : forall n x, In (n, x) cs -> contents t0 (Cell x) <> None).
      { intros n x I H. clear - E1 I H. assert (G : forall l t st, In (n, x) l -> cells_kept t -> run (copy_in_code l) (t, st) = None).
        { induction l as [|[m y] l IH]; intros t st J C; [easy|]. cbn [copy_in_code flat_map app fst snd OmpProofs.run step]. destruct J as [J|J].
          - injection J as -> ->. now rewrite C, H.
          - destruct (contents t (Cell y)) as [v|]; [|reflexivity]. cbn [obind step]. apply (IH (put t (Local m) v) st J). intros q. rewrite contents_put. destruct (location_dec _ _); [discriminate|apply C]. }
        rewrite (G cs t0 [] I) in E1; [discriminate|intros y; reflexivity]. }
      destruct (copy_out_spec cs t2 []) as (t3 & R3 & S3 & _); [intros x I; exact I|now apply (settled_same t1)|exact D0|]. rewrite R3 in SEQ. injection SEQ as <- <-.
      assert (MA := merge_alone parts seq M (fun p d I J => proj1 (NEU p d I J)) t1 t2 [] E2).
      assert (LP : forall p, In p parts -> forall o, In o (concat p) -> loop_op o) by (intros p I o J; apply concat_in in J as (d & J & L); exact (proj2 (NEU p d I J) o L)).
      assert (AL : forall i p, nth_error parts i = Some p -> exists m m', run (concat p) (t1, []) = Some (m, []) /\ agree (touched (concat p)) m t2 /\ settled m
                   /\ run (code_of p) (t0, []) = Some (m', []) /\ (forall y, contents m' y = contents m y) /\ fixed (code_of p) (t0, [])).
      { intros i p N. assert (IP := nth_error_In _ _ N). destruct (MA i p (touched (concat p)) N) as (m & RM & AM); [auto|intros j q l NE NQ W; now apply (DIS j i q p)|].
        assert (KM : forall l, is_scalar l = true -> contents m l = contents t1 l) by (intros l; apply (loop_keeps (concat p) t1 [] m [] l (LP p IP) RM)).
        assert (SM : settled m) by now apply (settled_same t1).
        destruct (copy_out_spec cs m []) as (m' & R' & S' & F'); [intros x I; exact I|assumption|exact D0|]. exists m, m'. do 3 (split; [assumption|]).
        split; [unfold code_of; rewrite run_app, E1; cbn [obind]; rewrite run_app, RM; exact R'|]. split; [exact S'|].
        unfold code_of. apply fixed_app; [apply copy_in_fixed; [intros x I; exact I|intros x; reflexivity]|]. intros s1 Q. rewrite E1 in Q. injection Q as <-.
        apply fixed_app; [apply loop_fixed; [now apply LP|assumption]|]. intros s2 Q. rewrite RM in Q. injection Q as <-. exact F'. }
      assert (NM : forall i d, nth_error (map code_of parts) i = Some d -> exists p, nth_error parts i = Some p /\ d = code_of p).
      { intros i d N. rewrite nth_error_map in N. destruct (nth_error parts i) as [p|]; [|discriminate]. injection N as <-. eauto. }
      destruct (interleave_alone A is_scalar common t0 (map code_of parts)) with (sched := sched) as (t4 & ths & EI & FI).
      - intros i d N. apply NM in N as (p & N & ->). destruct (AL i p N) as (m & m' & _ & _ & _ & R & _). congruence.
      - intros i d N. apply NM in N as (p & N & ->). destruct (AL i p N) as (m & m' & _ & _ & _ & _ & _ & F). exact F.
      - intros i j a b l NE Na Nb KL Wa Tb. apply NM in Na as (p & Na & ->). apply NM in Nb as (q & Nb & ->). destruct l as [x z| |]; try discriminate.
        apply (proj2 (code_elem p x z)) in Wa. apply (proj1 (code_elem q x z)) in Tb. exact (DIS i j p q _ NE Na Nb Wa Tb).
      - exists t4, ths. split; [assumption|]. intros DONE. destruct (FI DONE) as (Q1 & Q2 & Q3 & Q4 & Q5). split.
        + rewrite Q5. rewrite (run_pointers A _ _ _ _ _ R3), (run_pointers A _ _ _ _ _ E2), (run_pointers A _ _ _ _ _ E1). reflexivity.
        + intros l. rewrite S3. destruct (is_scalar l) eqn:SL.
          * rewrite (K2 l SL). destruct parts as [|p0 ps] eqn:EP; [now destruct nonempty|]. destruct (AL 0%nat p0 eq_refl) as (m & m' & RM & _ & SM & R & S' & _).
            assert (KM : contents m l = contents t1 l) by (apply (loop_keeps (concat p0) t1 [] m [] l (LP p0 (or_introl eq_refl)) RM SL)).
            destruct (Q4 l SL) as [H|H].
            -- destruct l as [b z|n|x]; [discriminate| |].
               ++ destruct (lookup n cs) as [x|] eqn:L.
                  ** apply lookup_in in L. rewrite <- KM. assert (CM : contents m (Local n) = common (Local n)) by (rewrite (common_local n x L); destruct SM as [_ CPM]; now apply CPM).
                     rewrite CM. apply (Q2 0%nat (code_of p0) m' [] (Local n) eq_refl R eq_refl). now rewrite S'.
                  ** rewrite H. symmetry. apply (run_frame A _ _ _ _ _ _ E1). intros W. apply in_flat_map in W as ([a x] & I & [W|[W|[]]]); [discriminate|]. injection W as <-.
                     apply (proj2 (lookup_none a cs) L). apply (in_map fst) in I. exact I.
               ++ rewrite H. symmetry. apply (copy_in_cells _ _ _ _ _ E1).
            -- rewrite H. rewrite <- KM. destruct l as [b z|n|x]; [discriminate| |].
               ++ destruct (lookup n cs) as [x|] eqn:L.
                  ** apply lookup_in in L. rewrite (common_local n x L). destruct SM as [_ CPM]. symmetry. now apply CPM.
                  ** cbn [common]. rewrite L, KM. symmetry. apply (run_frame A _ _ _ _ _ _ E1). intros W. apply in_flat_map in W as ([a x] & I & [W|[W|[]]]); [discriminate|]. injection W as <-.
                     apply (proj2 (lookup_none a cs) L). apply (in_map fst) in I. exact I.
               ++ destruct SM as [CM _]. now rewrite CM.
          * destruct (written_dec (concat seq) l) as [W|W].
            -- apply WR in W as (i & p & N & W). destruct (AL i p N) as (m & m' & RM & AM & _ & R & S' & _).
               assert (T : touched (code_of p) l) by (destruct l as [b z| |]; try discriminate; apply code_elem, written_touched, W).
               rewrite (Q1 i (code_of p) m' [] l); [|now rewrite nth_error_map, N|exact R|exact SL|exact T]. rewrite S'. apply AM. now apply written_touched.
            -- rewrite (run_frame A _ _ _ _ _ _ E2 W). destruct l as [b z| |]; try discriminate. rewrite (copy_in_elems _ _ _ _ _ E1). apply Q3; [reflexivity|].
               intros i d N WD. apply NM in N as (p & N & ->). apply (proj2 (code_elem p b z)) in WD. apply W. exact (MW i p _ N WD).
    Qed.
  End Scalars.
End Parallel.

(** ** The code of a thread does what the statements do. *)
Section Code.
  Context {V : Type} (A : arithmetic V) (k : kernel) (env : ienv) (ptrs : list (string * string)) (vars : list string).
  Notation TM := (@target_machine V k env ptrs vars).
  Notation run := (run A).
  Notation loc := (location_of k env ptrs vars).
  Notation ploc := (place_location k env ptrs vars).
  Lemma read_location p t : read TM p t = let? l := loc p in contents t l.
  Proof.
    unfold read, location_of. destruct p as [n [|z [|y zs]]]; cbn [fst snd target_machine get_var load]; try reflexivity.
    - now destruct (existsb (String.eqb n) vars).
    - destruct (lookup n ptrs) as [b|]; [|reflexivity]. cbn [obind]. destruct (block_size k env b) as [w|]; [|reflexivity]. cbn [obind]. now destruct (_ && _)%bool.
  Qed.
  Lemma write_location p v t : write TM p v t = let? l := loc p in Some (put t l v).
  Proof.
    unfold write, location_of. destruct p as [n [|z [|y zs]]]; cbn [fst snd target_machine set_var store]; try reflexivity.
    - now destruct (existsb (String.eqb n) vars).
    - destruct (lookup n ptrs) as [b|]; [|reflexivity]. cbn [obind]. destruct (block_size k env b) as [w|]; [|reflexivity]. cbn [obind]. now destruct (_ && _)%bool.
  Qed.
  Lemma eval_place it e t : (let? p := place_of it e in let? v := read TM p t in Some (v, t)) = let? l := ploc it e in let? v := contents t l in Some (v, t).
  Proof. unfold place_location. destruct (place_of it e) as [p|]; [|reflexivity]. cbn [obind]. rewrite read_location. now destruct (loc p). Qed.
  Lemma expr_run it e : forall t st,
    match expr_code A k env ptrs vars it e with
    | Some c => run c (t, st) = let? (v, t') := eval A TM it e t in Some (t', v :: st)
    | None => eval A TM it e t = None
    end.
  Proof.
    induction e as [n|z|o x IHx y IHy|o x IH|a IHa b IHb|]; intros t st; cbn [expr_code eval].
    - destruct (lookup n it) as [z|]; [reflexivity|]. rewrite eval_place. destruct (ploc it (EID n)) as [l|]; [|reflexivity]. cbn [obind OmpProofs.run step]. now destruct (contents t l).
    - now destruct z.
    - specialize (IHx t st). destruct (expr_code A k env ptrs vars it x) as [cx|]; cbn [obind].
      + destruct (expr_code A k env ptrs vars it y) as [cy|] eqn:EY; cbn [obind].
        * rewrite run_app, IHx. destruct (eval A TM it x t) as [[a t1]|]; [|reflexivity]. cbn [obind]. specialize (IHy t1 (a :: st)). rewrite run_app, IHy.
          now destruct (eval A TM it y t1) as [[b t2]|].
        * destruct (eval A TM it x t) as [[a t1]|]; [|reflexivity]. cbn [obind]. now rewrite (IHy t1 []).
      + now rewrite IHx.
    - destruct (String.eqb o "-") eqn:EM.
      + specialize (IH t st). destruct (expr_code A k env ptrs vars it x) as [cx|]; cbn [obind]; [|now rewrite IH].
        rewrite run_app, IH. now destruct (eval A TM it x t) as [[a t1]|].
      + unfold place_location. destruct (place_of it x) as [p|]; [|reflexivity]. cbn [obind]. rewrite read_location. destruct (loc p) as [l|] eqn:EL; [|reflexivity]. cbn [obind].
        destruct (String.eqb_spec o "++") as [->|N1]; [|destruct (String.eqb_spec o "p++") as [->|N2]; [|destruct (String.eqb_spec o "--") as [->|N3]; [|destruct (String.eqb_spec o "p--") as [->|N4]]]];
          cbn [orb obind String.eqb Ascii.eqb Bool.eqb andb]; cbn [OmpProofs.run step obind]; destruct (contents t l) as [v|]; cbn [obind OmpProofs.run step]; try reflexivity; rewrite write_location, EL; reflexivity.
    - rewrite eval_place. destruct (ploc it (EArr a b)) as [l|]; [|reflexivity]. cbn [obind OmpProofs.run step]. now destruct (contents t l).
    - reflexivity.
  Qed.
  Lemma stmt_run it a t st :
    match stmt_code A k env ptrs vars it a with
    | Some c => run c (t, st) = let? t' := execute A TM it a t in Some (t', st)
    | None => execute A TM it a t = None
    end.
  Proof.
    unfold stmt_code, execute. assert (E := expr_run it (rvalue a) t st). destruct (expr_code A k env ptrs vars it (rvalue a)) as [c|]; cbn [obind]; [|now rewrite E].
    unfold place_location. destruct (place_of it (lvalue a)) as [p|]; cbn [obind]; [|now destruct (eval A TM it (rvalue a) t) as [[v t1]|]].
    destruct (loc p) as [l|] eqn:EL; cbn [obind].
    - destruct (String.eqb (aop a) "=").
      + rewrite run_app, E. destruct (eval A TM it (rvalue a) t) as [[v t1]|]; [|reflexivity]. cbn [obind OmpProofs.run step]. now rewrite write_location, EL.
      + destruct (compound_operator (aop a)) as [|o [|? ?]]; try (destruct (eval A TM it (rvalue a) t) as [[v t1]|]; reflexivity).
        rewrite run_app, E. destruct (eval A TM it (rvalue a) t) as [[v t1]|]; [|reflexivity]. cbn [obind OmpProofs.run step]. rewrite read_location, EL. cbn [obind].
        destruct (contents t1 l) as [w|]; [|reflexivity]. cbn [obind]. now rewrite write_location, EL.
    - destruct (eval A TM it (rvalue a) t) as [[v t1]|]; [|reflexivity]. cbn [obind]. rewrite write_location, read_location, EL. cbn [obind].
      destruct (String.eqb (aop a) "="); [reflexivity|]. now destruct (compound_operator (aop a)) as [|o [|? ?]].
  Qed.
  Lemma body_run it b : forall t st,
    match body_code A k env ptrs vars it b with
    | Some c => run c (t, st) = let? t' := execute_all A TM it b t in Some (t', st)
    | None => execute_all A TM it b t = None
    end.
  Proof.
    induction b as [|a b IH]; intros t st; cbn [body_code execute_all]; [reflexivity|]. assert (E := stmt_run it a t st).
    destruct (stmt_code A k env ptrs vars it a) as [c|]; cbn [obind]; [|now rewrite E].
    destruct (body_code A k env ptrs vars it b) as [d|]; cbn [obind].
    - rewrite run_app, E. destruct (execute A TM it a t) as [t1|]; [|reflexivity]. cbn [obind]. apply IH.
    - destruct (execute A TM it a t) as [t1|]; [|reflexivity]. cbn [obind]. exact (IH t1 []).
  Qed.
  Definition chunk (b : list assignment) (it : ienv) : list op := match body_code A k env ptrs vars it b with Some c => c | None => [] end.
  Lemma loop_chunks b its : (forall it, In it its -> body_code A k env ptrs vars it b <> None) -> loop_code A k env ptrs vars its b = Some (concat (map (chunk b) its)).
  Proof.
    induction its as [|it its IH]; intros H; [reflexivity|]. cbn [loop_code map concat]. assert (N := H it (or_introl eq_refl)). unfold chunk at 1.
    destruct (body_code A k env ptrs vars it b) as [c|]; [|congruence]. cbn [obind]. rewrite IH by (intros i I; apply H; now right). reflexivity.
  Qed.
  Lemma repeat_codes b its : forall t t', repeat_all A TM its b t = Some t' -> forall it, In it its -> body_code A k env ptrs vars it b <> None.
  Proof.
    induction its as [|i its IH]; cbn [repeat_all]; intros t t' R it I; [easy|]. destruct (execute_all A TM i b t) as [t1|] eqn:E; [|discriminate]. cbn [obind] in R.
    destruct I as [<-|I]; [|now apply (IH t1 t')]. assert (B := body_run i b t []). destruct (body_code A k env ptrs vars i b); [discriminate|congruence].
  Qed.
  Lemma repeat_run b its : (forall it, In it its -> body_code A k env ptrs vars it b <> None) -> forall t st,
    run (concat (map (chunk b) its)) (t, st) = let? t' := repeat_all A TM its b t in Some (t', st).
  Proof.
    induction its as [|i its IH]; cbn [map concat repeat_all]; intros H t st; [reflexivity|]. assert (N := H i (or_introl eq_refl)). rewrite run_app. unfold chunk at 1.
    assert (B := body_run i b t st). destruct (body_code A k env ptrs vars i b) as [c|]; [|congruence]. rewrite B. destruct (execute_all A TM i b t) as [t1|]; [|reflexivity]. cbn [obind].
    apply IH. intros j J. apply H. now right.
  Qed.
  Lemma chunk_neutral b it : neutral A (chunk b it).
  Proof.
    intros t st s R. unfold chunk in R. assert (B := body_run it b t st). destruct (body_code A k env ptrs vars it b) as [c|]; [|cbn in R; now injection R as <-].
    rewrite B in R. destruct (execute_all A TM it b t); [|discriminate]. now injection R as <-.
  Qed.
  (** Accesses of the code *)
  Lemma expr_ops it e c : expr_code A k env ptrs vars it e = Some c -> forall l,
    (In (Get l) c -> exists r, (In r (operands e) \/ In r (incremented e)) /\ ploc it r = Some l) /\ (In (Put l) c -> exists r, In r (incremented e) /\ ploc it r = Some l).
  Proof.
    revert c. induction e as [n|z|o x IHx y IHy|o x IH|a IHa b IHb|]; intros c; cbn [expr_code operands incremented].
    - destruct (lookup n it) as [z|]; [intros [= <-] l; split; intros [E|[]]; discriminate|]. destruct (ploc it (EID n)) as [l|] eqn:E; [|discriminate]. cbn [obind]. intros [= <-] m.
      split; (intros [Q|[]]; [|idtac] || intros [Q|[]]); [|discriminate]. injection Q as <-. exists (EID n). split; [left; now left|assumption].
    - destruct z as [z|]; intros [= <-] l; split; intros [E|[]]; discriminate.
    - destruct (expr_code A k env ptrs vars it x) as [cx|]; [|discriminate]. cbn [obind]. destruct (expr_code A k env ptrs vars it y) as [cy|]; [|discriminate]. cbn [obind]. intros [= <-] l.
      destruct (IHx cx eq_refl l) as [X1 X2], (IHy cy eq_refl l) as [Y1 Y2].
      assert (L : In (@Apply V o) [Apply o] -> True) by auto.
      split; intros I; apply in_app_or in I as [I|I].
      + destruct (X1 I) as (r & R & P). exists r. rewrite !in_app_iff. tauto.
      + apply in_app_or in I as [I|[I|[]]]; [|discriminate]. destruct (Y1 I) as (r & R & P). exists r. rewrite !in_app_iff. tauto.
      + destruct (X2 I) as (r & R & P). exists r. rewrite !in_app_iff. tauto.
      + apply in_app_or in I as [I|[I|[]]]; [|discriminate]. destruct (Y2 I) as (r & R & P). exists r. rewrite !in_app_iff. tauto.
    - destruct (String.eqb o "-").
      + destruct (expr_code A k env ptrs vars it x) as [cx|]; [|discriminate]. cbn [obind]. intros [= <-] l. destruct (IH cx eq_refl l) as [X1 X2].
        split; intros I; apply in_app_or in I as [I|[I|[]]]; try discriminate; auto.
      + destruct (ploc it x) as [l|] eqn:E; [|discriminate]. cbn [obind]. intros H m.
        assert (Q : forall q, In q c -> q = Get m \/ q = Put m -> m = l).
        { intros q I T. destruct (String.eqb o "++"); [|destruct (String.eqb o "p++"); [|destruct (String.eqb o "--"); [|destruct (String.eqb o "p--"); [|discriminate]]]]; injection H as <-;
            cbn in I; repeat (destruct I as [I|I]; [subst q; destruct T as [T|T]; try discriminate T; injection T as T; congruence|]); contradiction. }
        split; intros I; exists x; [assert (m = l) by (apply (Q _ I); now left); subst m; split; [right; now left|assumption]|assert (m = l) by (apply (Q _ I); now right); subst m; split; [now left|assumption]].
    - destruct (ploc it (EArr a b)) as [l|] eqn:E; [|discriminate]. cbn [obind]. intros [= <-] m. split; intros [Q|[]]; [|discriminate]. injection Q as <-. exists (EArr a b). split; [left; now left|assumption].
    - discriminate.
  Qed.
  Definition access_ref (a : assignment) (r : expr) : Prop := r = lvalue a \/ In r (operands (rvalue a)) \/ In r (incremented (rvalue a)).
  Lemma stmt_ops it a c : stmt_code A k env ptrs vars it a = Some c -> forall l,
    (In (Get l) c -> exists r, access_ref a r /\ ploc it r = Some l) /\ (In (Put l) c -> exists r, In r (written_refs a) /\ ploc it r = Some l).
  Proof.
    unfold stmt_code. destruct (expr_code A k env ptrs vars it (rvalue a)) as [d|] eqn:E; [|discriminate]. cbn [obind]. destruct (ploc it (lvalue a)) as [l|] eqn:P; [|discriminate]. cbn [obind].
    intros H m. destruct (expr_ops it _ d E m) as [X1 X2].
    assert (G : exists d', c = d ++ d' /\ (In (Get m) d' -> m = l) /\ (In (Put m) d' -> m = l)).
    { destruct (String.eqb (aop a) "="); [|destruct (compound_operator (aop a)) as [|o [|? ?]]; try discriminate]; injection H as <-; eexists; (split; [reflexivity|]); cbn; split; intros Q;
        decompose [or] Q; try discriminate; try contradiction; congruence. }
    destruct G as (d' & -> & G1 & G2). split; intros I; apply in_app_or in I as [I|I].
    - destruct (X1 I) as (r & R & PR). exists r. split; [right; exact R|assumption].
    - rewrite (G1 I). exists (lvalue a). split; [now left|assumption].
    - destruct (X2 I) as (r & R & PR). exists r. split; [now right|assumption].
    - rewrite (G2 I). exists (lvalue a). split; [now left|assumption].
  Qed.
  Lemma chunk_ops it b l :
    (In (Get l) (chunk b it) -> exists a r, In a b /\ access_ref a r /\ ploc it r = Some l) /\ (In (Put l) (chunk b it) -> exists a r, In a b /\ In r (written_refs a) /\ ploc it r = Some l).
  Proof.
    unfold chunk. destruct (body_code A k env ptrs vars it b) as [c|] eqn:E; [|split; intros []]. revert c E. induction b as [|a b IH]; intros c; cbn [body_code].
    - intros [= <-]. split; intros [].
    - destruct (stmt_code A k env ptrs vars it a) as [d|] eqn:S; [|discriminate]. cbn [obind]. destruct (body_code A k env ptrs vars it b) as [e|]; [|discriminate]. cbn [obind]. intros [= <-].
      destruct (IH e eq_refl) as [H1 H2]. destruct (stmt_ops it a d S l) as [S1 S2]. split; intros I; apply in_app_or in I as [I|I].
      + destruct (S1 I) as (r & R & P). exists a, r. split; [now left|auto].
      + destruct (H1 I) as (a' & r & J & R). exists a', r. split; [now right|auto].
      + destruct (S2 I) as (r & R & P). exists a, r. split; [now left|auto].
      + destruct (H2 I) as (a' & r & J & R). exists a', r. split; [now right|auto].
  Qed.
End Code.

(** ** Parts of a list *)
Lemma merge_map {X Y} (f : X -> Y) parts l : merge parts l -> merge (map (map f) parts) (map f l).
Proof.
  induction 1 as [parts F|parts i x rest l N M IH]; cbn [map].
  - constructor. rewrite Forall_map. apply (Forall_impl _ (P := eq [])); [|assumption]. now intros a <-.
  - apply (merge_cons _ i (f x) (map f rest)); [now rewrite nth_error_map, N|]. replace (set_nth i (map f rest) (map (map f) parts)) with (map (map f) (set_nth i rest parts)); [assumption|].
    unfold set_nth. now rewrite map_app, firstn_map, skipn_map.
Qed.
Lemma merge_in {X} parts (l : list X) : merge parts l -> forall x, In x l <-> exists i p, nth_error parts i = Some p /\ In x p.
Proof.
  induction 1 as [parts F|parts i x rest l N M IH]; intros y.
  - split; [intros []|]. intros (i & p & NP & I). rewrite Forall_forall in F. rewrite <- (F p (nth_error_In _ _ NP)) in I. exact I.
  - assert (LT := nth_lt _ _ _ N). cbn [In]. rewrite IH. split.
    + intros [<-|(j & p & NP & I)]; [exists i, (x :: rest); split; [assumption|now left]|]. destruct (Nat.eq_dec i j) as [<-|NE].
      * rewrite nth_set in NP by assumption. injection NP as <-. exists i, (x :: rest). split; [assumption|now right].
      * rewrite nth_set_other in NP by assumption. eauto.
    + intros (j & p & NP & I). destruct (Nat.eq_dec i j) as [<-|NE].
      * rewrite N in NP. injection NP as <-. destruct I as [<-|I]; [now left|]. right. exists i, rest. split; [now apply nth_set|assumption].
      * right. exists j, p. split; [now rewrite nth_set_other|assumption].
Qed.

(** ** References of the kernel and of the generated function *)
Lemma incremented_operand e r n subs : In r (incremented e) -> reference r = Some (n, subs) -> In r (operands e).
Proof.
  induction e as [m|z|o x IHx y IHy|o x IH|a IHa b IHb|]; cbn [incremented operands]; try easy.
  - intros I R. apply in_or_app. apply in_app_or in I as [I|I]; auto.
  - destruct (String.eqb o "-"); [exact IH|]. intros [<-|[]] R. destruct x; try discriminate; now left.
Qed.
Lemma operand_ref e a i : In (EArr a i) (operands e) -> In (EArr a i) (find_refs e).
Proof.
  induction e as [m|z|o x IHx y IHy|o x IH|b IHb c IHc|]; cbn [operands find_refs]; try easy.
  - intros [H|[]]. discriminate.
  - intros I. apply in_or_app. apply in_app_or in I as [I|I]; auto.
Qed.
Lemma transform_shape dict r r' : transform_ref dict r = Ok r' -> exists n i, r' = EArr (EID n) i.
Proof.
  unfold transform_ref. destruct (unchain r) as [ds base]. destruct base; try discriminate. match goal with |- bind ?x _ = _ -> _ => destruct x as [ts|]; [|discriminate] end. cbn [bind].
  destruct (reduce_bin "+" ts) as [s|]; [|discriminate]. cbn [bind]. intros [= <-]. eauto.
Qed.
Lemma transform_operands dict e : forall e', transform_expr dict e = Ok e' ->
  (forall r', In r' (operands e') -> exists r, In r (operands e) /\ transform_expr dict r = Ok r') /\ (forall r', In r' (incremented e') -> exists r, In r (incremented e) /\ transform_expr dict r = Ok r').
Proof.
  induction e as [m|z|o x IHx y IHy|o x IH|a IHa b IHb|]; intros e' T; cbn [transform_expr] in T.
  - injection T as <-. split; [|intros ? []]. intros r' [<-|[]]. exists (EID m). split; [now left|reflexivity].
  - injection T as <-. split; intros ? [].
  - destruct (transform_expr dict x) as [x'|]; [|discriminate]. cbn [bind] in T. destruct (transform_expr dict y) as [y'|]; [|discriminate]. injection T as <-. cbn [operands incremented].
    destruct (IHx x' eq_refl) as [X1 X2], (IHy y' eq_refl) as [Y1 Y2]. split; intros r' I; apply in_app_or in I as [I|I].
    + destruct (X1 r' I) as (r & J & E). exists r. rewrite in_app_iff. auto.
    + destruct (Y1 r' I) as (r & J & E). exists r. rewrite in_app_iff. auto.
    + destruct (X2 r' I) as (r & J & E). exists r. rewrite in_app_iff. auto.
    + destruct (Y2 r' I) as (r & J & E). exists r. rewrite in_app_iff. auto.
  - destruct (transform_expr dict x) as [x'|] eqn:E; [|discriminate]. injection T as <-. cbn [operands incremented]. destruct (IH x' eq_refl) as [X1 X2]. split; [exact X1|].
    destruct (String.eqb o "-"); [exact X2|]. intros r' [<-|[]]. exists x. split; [now left|assumption].
  - destruct (transform_shape _ _ _ T) as (n & i & ->). cbn [operands incremented]. split; [|intros ? []]. intros r' [<-|[]]. exists (EArr a b). split; [now left|exact T].
  - injection T as <-. split; intros ? [].
Qed.
Lemma mapM_in {X Y} (f : X -> res Y) l : forall ys, mapM f l = Ok ys -> forall y, In y ys -> exists x, In x l /\ f x = Ok y.
Proof.
  induction l as [|x l IH]; cbn [mapM]; intros ys H y I; [injection H as <-; destruct I|]. destruct (f x) as [z|] eqn:E; [|discriminate]. cbn [bind] in H.
  destruct (mapM f l) as [l'|]; [|discriminate]. injection H as <-. destruct I as [<-|I]; [exists x; split; [now left|assumption]|]. destruct (IH l' eq_refl y I) as (w & J & F). exists w. split; [now right|assumption].
Qed.

(** ** A team executes the kernel function. *)
Section Team.
  Context {V : Type} (A : arithmetic V) (k : kernel) (env : ienv) (f : func) (s s' : @memory V) (t : @process V).
  Hypothesis W : well_named k env.
  Hypothesis F : kernel_function k = Ok f.
  Hypothesis SW : forall a b, In (a, b) (swaps k) -> lookup a (arrays k) <> None /\ lookup b (arrays k) <> None.
  Hypothesis U : unswapped k t.
  Hypothesis IS : assigned k s.
  Hypothesis AG : agrees k env everywhere s t.
  Hypothesis R : runs A (source_machine k env) (loops k) (body k) env s s'.
  Context (its : list ienv) (parts : list (list ienv)).
  Hypothesis IT : iterations (loops k) env its.
  Hypothesis M : merge parts its.
  Hypothesis NEP : parts <> [].
  Hypothesis SC : scalars_constant k.
  Hypothesis IND : independent k parts.

  Notation fr := (frame k env).
  Notation ptrs := (identity_pointers k).
  Notation vars := (map fst (scalars k)).
  Notation ploc := (place_location k env ptrs vars).
  Definition cs : list (string * string) := map (fun x => (fst x, fst x)) (scalars k).
  Lemma scalar_cells_frame l : incl l (scalars k) -> scalar_cells fr (locals_in l) = Some (map (fun x => (fst x, fst x)) l).
  Proof.
    induction l as [|[n o] l IH]; intros I; [reflexivity|]. cbn [locals_in map fst scalar_cells]. rewrite (frame_scalar k env W) by (apply (in_map fst _ _ (I _ (or_introl eq_refl)))). cbn [obind].
    fold (locals_in l). rewrite IH by (intros x J; apply I; now right). reflexivity.
  Qed.
  Lemma copy_in_run g l : forall c (u : @process V) st, scalar_cells g l = Some c -> run A (copy_in_code c) (u, st) = let? u' := copy_in g l u in Some (u', st).
  Proof.
    induction l as [|[n p] l IH]; intros c u st; cbn [scalar_cells copy_in]; [intros [= <-]; reflexivity|]. unfold pointed.
    destruct (lookup p g) as [[b|x|z]|]; try discriminate. cbn [obind]. destruct (scalar_cells g l) as [d|] eqn:E; [|discriminate]. cbn [obind]. intros [= <-].
    cbn [copy_in_code flat_map app fst snd run step contents]. destruct (cells u x) as [v|]; [|reflexivity]. cbn [obind run step put]. now apply IH.
  Qed.
  Lemma copy_out_run g l : forall c (u : @process V) st, scalar_cells g l = Some c -> run A (copy_out_code c) (u, st) = let? u' := copy_out g l u in Some (u', st).
  Proof.
    induction l as [|[n p] l IH]; intros c u st; cbn [scalar_cells copy_out]; [intros [= <-]; reflexivity|].
    destruct (lookup p g) as [[b|x|z]|]; try discriminate. cbn [obind]. destruct (scalar_cells g l) as [d|] eqn:E; [|discriminate]. cbn [obind]. intros [= <-].
    cbn [copy_out_code flat_map app fst snd run step contents]. destruct (locals u n) as [v|]; [|reflexivity]. cbn [obind run step put]. now apply IH.
  Qed.

  Lemma iteration_of it : In it its -> iteration k env it.
  Proof. intros I. exact (iterations_extend _ _ _ _ IT I). Qed.
  Lemma all_accessible it a r : In it its -> In a (body k) -> In r (find_refs (lvalue a) ++ find_refs (rvalue a)) -> accessible k env it r.
  Proof. destruct R as (its' & IT' & RR). rewrite (iterations_fun _ _ _ _ IT IT'). intros I J K. exact (repeat_all_accessible A k env _ _ _ _ RR it a r I J K). Qed.
  (** The location a reference of the function accesses is that of the reference it was made from. *)
  Lemma location_source it a r r' l : In it its -> In a (body k) -> (r = lvalue a \/ In r (operands (rvalue a)) \/ In r (incremented (rvalue a))) ->
    transform_expr (array_dimensions k) r = Ok r' -> ploc it r' = Some l ->
    (exists n, r = EID n /\ l = Local n /\ In n vars) \/ (In r (accessed_refs a) /\ exists n zs dims, place_of it r = Some (n, zs) /\ zs <> [] /\ declared k env n = Some dims /\ inside dims zs = true /\ l = Elem n (position dims zs)).
  Proof.
    intros I J AR T P. unfold place_location in P. destruct (place_of it r') as [p|] eqn:PO; [|discriminate]. cbn [obind] in P.
    assert (SH : (exists n, r = EID n) \/ exists x i, r = EArr x i).
    { destruct r as [n|z|o x y|o x|x i|]; eauto; cbn [transform_expr] in T.
      - injection T as <-. discriminate PO.
      - destruct (transform_expr _ x); [|discriminate]. cbn [bind] in T. destruct (transform_expr _ y); [|discriminate]. injection T as <-. discriminate PO.
      - destruct (transform_expr _ x); [|discriminate]. injection T as <-. discriminate PO.
      - injection T as <-. discriminate PO. }
    destruct SH as [(n & ->)|(x & i & ->)].
    - left. exists n. split; [reflexivity|]. cbn [transform_expr] in T. injection T as <-. unfold place_of in PO. cbn [reference] in PO. destruct (lookup n it); [discriminate|]. injection PO as <-.
      unfold location_of in P. cbn [fst snd] in P. destruct (existsb (String.eqb n) vars) eqn:E; [|discriminate]. injection P as <-. split; [reflexivity|].
      apply existsb_exists in E as (m & IM & E). apply String.eqb_eq in E. now subst m.
    - right. assert (AC : In (EArr x i) (accessed_refs a)).
      { destruct AR as [AR|[AR|AR]]; [left; now symmetry|now right|]. right. destruct (reference (EArr x i)) as [[m subs]|] eqn:RF; [now apply (incremented_operand _ _ m subs)|].
        exfalso. cbn [reference] in RF. destruct (transform_shape _ _ _ T) as (m & j & E). unfold transform_expr in T.
        assert (K : accessible k env it (EArr x i)).
        { apply (all_accessible it a); try assumption. apply in_or_app. right. clear - AR. induction (rvalue a) as [n|z|o u IHu v IHv|o u IHu|b IHb c IHc|]; cbn [incremented find_refs] in *; try easy.
          - apply in_or_app. apply in_app_or in AR as [H|H]; auto.
          - destruct (String.eqb o "-"); [auto|]. destruct AR as [->|[]]. now left. }
        destruct K as (n & zs & dims & PL & _). unfold place_of in PL. cbn [reference] in PL. now rewrite RF in PL. }
      split; [assumption|]. assert (K : accessible k env it (EArr x i)).
      { apply (all_accessible it a); try assumption. apply in_or_app. destruct AC as [E|E]; [left; rewrite E; now left|right; now apply operand_ref]. }
      destruct K as (n & zs & dims & PL & NZ & D & IN). exists n, zs, dims. do 4 (split; [assumption|]).
      destruct (transformed_place k env W it _ r' n zs dims (iteration_of it I) T PL NZ D IN) as [_ PL']. rewrite PL' in PO. injection PO as <-.
      unfold location_of in P. cbn [fst snd] in P. rewrite (declared_pointer k env n dims D) in P. cbn [obind] in P. destruct (block_size k env n); [|discriminate]. cbn [obind] in P.
      destruct (_ && _)%bool; [|discriminate]. now injection P as <-.
  Qed.
  Lemma stmt_source a' : In a' (fbody f) -> exists a, In a (body k) /\ transform_expr (array_dimensions k) (lvalue a) = Ok (lvalue a') /\ transform_expr (array_dimensions k) (rvalue a) = Ok (rvalue a').
  Proof.
    intros I. unfold kernel_function in F. destruct (mapM _ (body k)) as [b|] eqn:B; [|discriminate]. injection F as <-. cbn [fbody] in I. destruct (mapM_in _ _ _ B a' I) as (a & J & T).
    exists a. split; [assumption|]. unfold transform_stmt in T. destruct (transform_expr _ (lvalue a)) as [l|]; [|discriminate]. cbn [bind] in T. destruct (transform_expr _ (rvalue a)) as [r|]; [|discriminate].
    injection T as <-. auto.
  Qed.
  Notation bc := (chunk A k env ptrs vars (fbody f)).
  Lemma chunk_get it l : In it its -> In (Get l) (bc it) ->
    (exists n, l = Local n /\ In n vars) \/ exists n zs dims, accesses_place k it (n, zs) /\ zs <> [] /\ declared k env n = Some dims /\ inside dims zs = true /\ l = Elem n (position dims zs).
  Proof.
    intros I G. apply (proj1 (chunk_ops A k env ptrs vars it (fbody f) l)) in G as (a' & r' & IA & AR & P). destruct (stmt_source a' IA) as (a & JA & TL & TR).
    assert (Q : exists r, (r = lvalue a \/ In r (operands (rvalue a)) \/ In r (incremented (rvalue a))) /\ transform_expr (array_dimensions k) r = Ok r').
    { destruct AR as [->|[AR|AR]]; [exists (lvalue a); auto| |].
      - destruct (proj1 (transform_operands _ _ _ TR) r' AR) as (r & J & T). eauto.
      - destruct (proj2 (transform_operands _ _ _ TR) r' AR) as (r & J & T). eauto. }
    destruct Q as (r & Q & T). destruct (location_source it a r r' l I JA Q T P) as [(n & _ & -> & IN)|(AC & n & zs & dims & PL & NZ & D & IN & ->)]; [left; eauto|].
    right. exists n, zs, dims. split; [exists a, r; auto|auto].
  Qed.
  Lemma chunk_put it l : In it its -> In (Put l) (bc it) ->
    exists n zs dims, writes_place k it (n, zs) /\ accesses_place k it (n, zs) /\ zs <> [] /\ declared k env n = Some dims /\ inside dims zs = true /\ l = Elem n (position dims zs).
  Proof.
    intros I G. apply (proj2 (chunk_ops A k env ptrs vars it (fbody f) l)) in G as (a' & r' & IA & AR & P). destruct (stmt_source a' IA) as (a & JA & TL & TR).
    assert (Q : exists r, In r (written_refs a) /\ transform_expr (array_dimensions k) r = Ok r').
    { destruct AR as [<-|AR]; [exists (lvalue a); split; [now left|assumption]|]. destruct (proj2 (transform_operands _ _ _ TR) r' AR) as (r & J & T). exists r. split; [now right|assumption]. }
    destruct Q as (r & Q & T). destruct (location_source it a r r' l I JA) as [(n & -> & _)|(AC & n & zs & dims & PL & NZ & D & IN & ->)]; try assumption.
    - destruct Q as [<-|Q]; auto.
    - destruct (SC a (EID n) n JA Q eq_refl).
    - exists n, zs, dims. split; [exists a, r; auto|]. split; [exists a, r; auto|]. auto.
  Qed.
  Lemma part_in i p it : nth_error parts i = Some p -> In it p -> In it its.
  Proof. intros N I. apply (merge_in parts its M). eauto. Qed.
  Lemma in_chunks (o : op) p : In o (concat (map bc p)) -> exists it, In it p /\ In o (bc it).
  Proof. intros I. apply in_concat in I as (c & I & J). apply in_map_iff in I as (it & <- & I). eauto. Qed.

  Lemma team_same : exists t' cds, agrees k env everywhere s' t' /\ unswapped k t' /\ team_calls A k env f t parts cds
    /\ forall sched, exists t2 ths, interleave A sched t (start cds) = Some (t2, ths) /\ (finished ths -> same_process t2 t').
  Proof.
    destruct (call_same A k env W everywhere f s t s' F U AG IS SW (fun _ _ _ _ _ _ _ _ _ _ _ _ => Logic.I) R) as (t' & (ND & vs & g & t1 & t2 & EA & EB & CI & (its' & IT' & RR) & _ & CO) & AG' & U' & _).
    destruct (function_parts k f F) as (FP & FS & _). destruct (frame_args k env W t U) as (vs' & EA' & EB'). rewrite EA' in EA. injection EA as <-. rewrite FP, EB' in EB. injection EB as <-.
    rewrite (frame_blocks_eq k env) in RR. rewrite (frame_ints_eq k env) in IT'. rewrite FS in RR. unfold locals_in in RR. rewrite map_map in RR. cbn [fst] in RR. change (map (fun x : string * option expr => fst x) (scalars k)) with vars in RR.
    assert (FL : floops f = loops k) by (clear - F; unfold kernel_function in F; destruct (mapM _ (body k)); [injection F as <-; reflexivity|discriminate]). rewrite FL in IT'.
    rewrite (iterations_fun _ _ _ _ IT' IT) in RR. clear IT'.
    assert (BC : forall it, In it its -> body_code A k env ptrs vars it (fbody f) <> None) by (apply (repeat_codes A k env ptrs vars (fbody f) its t1 t2 RR)).
    assert (SCE := scalar_cells_frame (scalars k) (incl_refl _)). fold cs in SCE.
    assert (NDC : NoDup (map fst cs)) by (unfold cs; rewrite map_map; cbn [fst]; destruct W as (N & _); apply nodup_app in N as (_ & N & _); apply nodup_app in N as (_ & N & _); now apply nodup_app in N as (_ & N & _)).
    assert (VC : map fst cs = vars) by (unfold cs; now rewrite map_map).
    assert (LO : forall it o, In it its -> In o (bc it) -> loop_op cs o).
    { intros it o I J. destruct o as [v|l|l|o|o| |]; cbn [loop_op]; try exact Logic.I.
      - destruct (chunk_get it l I J) as [(n & -> & IN)|(n & zs & dims & _ & _ & _ & _ & ->)]; [now rewrite VC|exact Logic.I].
      - destruct (chunk_put it l I J) as (n & zs & dims & _ & _ & _ & _ & _ & ->). exact Logic.I. }
    exists t', (map (fun p => copy_in_code cs ++ concat (map bc p) ++ copy_out_code cs) parts). split; [assumption|]. split; [assumption|]. split.
    - split; [rewrite FP; exact ND || (rewrite FP in ND; exact ND)|]. exists vs', fr. split; [assumption|]. split; [now rewrite FP|].
      assert (H : forall p, In p parts -> thread_code A k env f fr p = Some (copy_in_code cs ++ concat (map bc p) ++ copy_out_code cs)).
      { intros p I. unfold thread_code. rewrite FS, SCE, (frame_blocks_eq k env). cbn [obind]. unfold locals_in. rewrite map_map. cbn [fst]. rewrite loop_chunks; [reflexivity|].
        intros it J. apply BC. apply In_nth_error in I as [i I]. exact (part_in i p it I J). }
      clear - H. induction parts as [|p ps IH]; constructor; [apply H; now left|]. apply IH. intros q I. apply H. now right.
    - intros sched. assert (E : map (fun p => copy_in_code cs ++ concat (map bc p) ++ copy_out_code cs) parts = map (code_of cs) (map (map bc) parts)) by (rewrite map_map; reflexivity).
      rewrite E. apply (parallel_same A cs t NDC (map (map bc) parts) (map bc its) t' []).
      + now apply merge_map.
      + destruct parts; [congruence|discriminate].
      + intros p c I J. apply in_map_iff in I as (q & <- & I). apply in_map_iff in J as (it & <- & J). split; [apply chunk_neutral|]. intros o. apply LO.
        apply In_nth_error in I as [i I]. exact (part_in i q it I J).
      + intros c I o. apply in_map_iff in I as (it & <- & I). now apply LO.
      + intros c I. apply in_map_iff in I as (it & <- & I). apply chunk_neutral.
      + intros i j p q l NE NP NQ WP TQ. rewrite nth_error_map in NP, NQ. destruct (nth_error parts i) as [pi|] eqn:Ni; [|discriminate]. destruct (nth_error parts j) as [pj|] eqn:Nj; [|discriminate].
        injection NP as <-. injection NQ as <-. apply in_chunks in WP as (a & IA & WP). destruct (chunk_put a l (part_in i pi a Ni IA) WP) as (n & zs & dims & WN & _ & NZ & D & IN & ->).
        destruct TQ as (o & IO & T). apply in_chunks in IO as (b & IB & IO).
        assert (Q : exists n' zs' dims', accesses_place k b (n', zs') /\ zs' <> [] /\ declared k env n' = Some dims' /\ inside dims' zs' = true /\ Elem n (position dims zs) = Elem n' (position dims' zs')).
        { destruct T as [->| ->].
          - destruct (chunk_get b _ (part_in j pj b Nj IB) IO) as [(m & H & _)|(m & ys & ds & H)]; [discriminate|]. exists m, ys, ds. exact H.
          - destruct (chunk_put b _ (part_in j pj b Nj IB) IO) as (m & ys & ds & _ & H). exists m, ys, ds. exact H. }
        destruct Q as (n' & zs' & dims' & AN & NZ' & D' & IN' & EQ). injection EQ as <- EQ. rewrite D in D'. injection D' as <-. apply (position_inj dims zs zs' IN IN') in EQ. subst zs'.
        apply (IND i j pi pj a b (n, zs) NE Ni Nj IA IB WN). auto.
      + rewrite run_app, (copy_in_run fr (locals_in (scalars k)) cs t [] SCE). rewrite <- FS, CI. cbn [obind]. rewrite run_app, (repeat_run A k env ptrs vars (fbody f) its BC t1 []), RR. cbn [obind].
        rewrite (copy_out_run fr (locals_in (scalars k)) cs t2 [] SCE), <- FS, CO. reflexivity.
      + intros l WL. apply in_chunks in WL as (it & I & WL). apply (merge_in parts its M) in I as (i & p & N & I). exists i, (map bc p). split; [now rewrite nth_error_map, N|].
        apply in_concat. exists (bc it). split; [now apply in_map|assumption].
      + intros i p l N WL. rewrite nth_error_map in N. destruct (nth_error parts i) as [q|] eqn:Nq; [|discriminate]. injection N as <-. apply in_chunks in WL as (it & I & WL).
        apply in_concat. exists (bc it). split; [apply in_map; exact (part_in i q it Nq I)|assumption].
  Qed.
End Team.
Lemma thread_codes_fun {V} (A : arithmetic V) k env f fr parts : forall a b, Forall2 (fun its c => thread_code A k env f fr its = Some c) parts a ->
  Forall2 (fun its c => thread_code A k env f fr its = Some c) parts b -> a = b.
Proof.
  induction parts as [|p ps IH]; intros a b X Y; inversion X; inversion Y; subst; [reflexivity|]. f_equal; [congruence|]. now apply IH.
Qed.
Lemma team_fun {V} (A : arithmetic V) k env f t parts a b : team_calls A k env f t parts a -> team_calls A k env f t parts b -> a = b.
Proof.
  intros (_ & vs & fr & E1 & E2 & X) (_ & vs' & fr' & E1' & E2' & Y). rewrite E1 in E1'. injection E1' as <-. rewrite E2 in E2'. injection E2' as <-. exact (thread_codes_fun A k env f fr parts a b X Y).
Qed.

(** ** Directives *)
Local Open Scope N_scope.
Lemma words_in p : forall w, In w (words p) -> exists a b, p = (a ++ w ++ b)%list.
Proof.
  assert (G : forall p, (forall w, In w (words p) -> exists a b, p = (a ++ w ++ b)%list) /\ (forall c s w ws, p = c :: s -> blank c = false -> words p = w :: ws -> exists b, p = (w ++ b)%list)).
  { clear p. induction p as [|c s [IH1 IH2]]; [split; [intros w []|discriminate]|]. split.
    - intros w I. cbn [words] in I. destruct (blank c) eqn:B; [destruct (IH1 w I) as (a & b & ->); now exists (c :: a), b|].
      destruct s as [|d s]; [destruct I as [<-|[]]; now exists [], []|]. destruct (blank d) eqn:BD.
      + destruct I as [<-|I]; [now exists [], (d :: s)|]. destruct (IH1 w I) as (a & b & E). exists (c :: a), b. cbn. now rewrite <- E.
      + destruct (words (d :: s)) as [|w' ws] eqn:E; [destruct I as [<-|[]]; now exists [], (d :: s)|]. destruct I as [<-|I].
        * destruct (IH2 d s w' ws eq_refl BD eq_refl) as (b & Q). exists [], b. cbn. now rewrite <- Q.
        * destruct (IH1 w (or_intror I)) as (a & b & Q). exists (c :: a), b. cbn. now rewrite <- Q.
    - intros c' s' w ws [= <- <-] B E. cbn [words] in E. rewrite B in E. destruct s as [|d s]; [injection E as <- <-; now exists []|]. destruct (blank d) eqn:BD; [injection E as <- <-; now exists (d :: s)|].
      destruct (words (d :: s)) as [|w' ws'] eqn:Q; [injection E as <- <-; now exists (d :: s)|]. injection E as <- <-. destruct (IH2 d s w' ws' eq_refl BD eq_refl) as (b & R). exists b. cbn. now rewrite <- R. }
  apply G.
Qed.
Definition nonempty_text (s : text) : bool := match s with [] => false | _ => true end.
Lemma words_split p : ~ In 9 p -> words p = filter nonempty_text (PyText.split 32 p).
Proof.
  induction p as [|c s IH]; intros H; [reflexivity|]. assert (H' : ~ In 9 s) by (intros I; apply H; now right). specialize (IH H').
  assert (NC : c <> 9) by (intros ->; apply H; now left). cbn [words PyText.split]. unfold blank at 1. replace (c =? 9) with false by (symmetry; now apply N.eqb_neq). rewrite orb_false_r.
  destruct (c =? 32) eqn:E; [exact IH|]. destruct s as [|d s]; [reflexivity|]. assert (ND : d <> 9) by (intros ->; apply H; right; now left).
  unfold blank at 1. replace (d =? 9) with false by (symmetry; now apply N.eqb_neq). rewrite orb_false_r. rewrite IH. cbn [PyText.split]. destruct (d =? 32); [reflexivity|].
  now destruct (PyText.split 32 s).
Qed.
Lemma contains_spec p s : contains p s = true <-> exists a b, s = (a ++ p ++ b)%list.
Proof.
  induction s as [|c s IH]; cbn [contains]; rewrite orb_true_iff, PerfProofs.starts_with_spec.
  - split; [intros [[t E]|E]; [now exists [], t|discriminate]|]. intros (a & b & E). left. destruct a; [now exists b|discriminate].
  - rewrite IH. split.
    + intros [[t E]|(a & b & ->)]; [now exists [], t|now exists (c :: a), b].
    + intros ([|x a] & b & E); [left; now exists b|right]. injection E as -> ->. eauto.
Qed.
Lemma starts_sep w : forall q t, ~ In 32 w -> (t = [] \/ exists u, t = 32 :: u) -> PerfModel.starts_with w (q ++ t) = true -> PerfModel.starts_with w q = true.
Proof.
  induction w as [|c w IH]; intros q t NI T; [reflexivity|]. destruct q as [|d q].
  - cbn [app]. destruct T as [->|(u & ->)]; [discriminate|]. cbn [PerfModel.starts_with]. destruct (N.eqb_spec c 32) as [->|]; [destruct NI; now left|discriminate].
  - cbn [app PerfModel.starts_with]. rewrite !andb_true_iff. intros [E H]. split; [assumption|]. apply (IH q t); auto. intros I. apply NI. now right.
Qed.
Definition parallel_word (w : text) : bool := text_eqb w (codes "parallel").
Definition pieces (ps : list text) : text := flat_map (fun q => 32 :: q) ps.
Lemma pieces_head ps : pieces ps = [] \/ exists u, pieces ps = 32 :: u.
Proof. destruct ps; [now left|right; cbn; eauto]. Qed.
Lemma replace_pieces ps : (forall q, In q ps -> ~ In 32 q) -> (forall q x, In q ps -> q = (codes "parallel" ++ x)%list -> x = []) ->
  forall fuel, (List.length (pieces ps) <= fuel)%nat -> PerfModel.replace fuel (codes " parallel") [] (pieces ps) = pieces (filter (fun w => negb (parallel_word w)) ps).
Proof.
  induction ps as [|q ps IH]; intros NS P fuel L; [destruct fuel; reflexivity|]. cbn [filter]. change (pieces (q :: ps)) with ((32 :: q) ++ pieces ps)%list in *.
  assert (NS' : forall q, In q ps -> ~ In 32 q) by (intros r I; apply NS; now right). assert (P' : forall q x, In q ps -> q = (codes "parallel" ++ x)%list -> x = []) by (intros r x I; apply P; now right).
  unfold parallel_word at 1. destruct (text_eqb_spec q (codes "parallel")) as [->|NE]; cbn [negb].
  - change (32 :: codes "parallel") with (codes " parallel") in *. rewrite PerfProofs.replace_hit; [|discriminate|exact L]. cbn [app]. apply IH; try assumption. rewrite app_length in L. cbn [List.length codes] in L. lia.
  - rewrite PerfProofs.replace_pass; [|intros x y E NY|assumption].
    + change (pieces (q :: filter (fun w => negb (parallel_word w)) ps)) with ((32 :: q) ++ pieces (filter (fun w => negb (parallel_word w)) ps))%list. f_equal. apply IH; try assumption.
      rewrite app_length in L. lia.
    + apply not_true_is_false. intros ST. destruct x as [|c x].
      * cbn [app] in E. subst y. cbn [app codes PerfModel.starts_with] in ST. apply andb_true_iff in ST as [_ ST]. apply (starts_sep (codes "parallel") q) in ST.
        -- apply PerfProofs.starts_with_spec in ST as [u ->]. rewrite (P _ u (or_introl eq_refl) eq_refl) in NE. now rewrite app_nil_r in NE.
        -- intros I. cbn in I. repeat (destruct I as [I|I]; [discriminate I|]). exact I.
        -- apply pieces_head.
      * injection E as _ E. destruct y as [|d y]; [congruence|]. cbn [app codes PerfModel.starts_with] in ST. apply andb_true_iff in ST as [ST _]. apply N.eqb_eq in ST.
        apply (NS q (or_introl eq_refl)). rewrite E. apply in_or_app. right. left. symmetry. exact ST.
Qed.
Lemma join_pieces p0 ps : join 32 (p0 :: ps) = (p0 ++ pieces ps)%list.
Proof. revert p0. induction ps as [|q ps IH]; intros p0; [cbn; now rewrite app_nil_r|]. rewrite join_cons by discriminate. rewrite IH. reflexivity. Qed.
Lemma split_pieces p0 ps : (forall q, In q (p0 :: ps) -> ~ In 32 q) -> PyText.split 32 (p0 ++ pieces ps) = p0 :: ps.
Proof. intros H. rewrite <- join_pieces. apply split_join; [discriminate|assumption]. Qed.
Definition directive (p : text) (ws : list text) : Prop := words p = codes "omp" :: ws /\ ~ In 9 p /\ forall w x, In w ws -> w = (codes "parallel" ++ x)%list -> x = [].
Lemma filter_comm {X} (f g : X -> bool) l : filter f (filter g l) = filter g (filter f l).
Proof. induction l as [|x l IH]; [reflexivity|]. cbn [filter]. destruct (g x) eqn:G, (f x) eqn:E; cbn [filter]; rewrite ?G, ?E, IH; reflexivity. Qed.
Lemma filter_all {X} (f : X -> bool) l : (forall x, In x l -> f x = true) -> filter f l = l.
Proof. induction l as [|x l IH]; intros H; [reflexivity|]. cbn [filter]. rewrite (H x (or_introl eq_refl)), IH; [reflexivity|]. intros y I. apply H. now right. Qed.
Lemma without_parallel_words p ws : directive p ws ->
  words (without_parallel p) = filter (fun w => negb (parallel_word w)) (words p) /\ directive (without_parallel p) (filter (fun w => negb (parallel_word w)) ws)
  /\ without_parallel (without_parallel p) = without_parallel p.
Proof.
  intros (WD & NT & PX). assert (WS := words_split p NT). destruct (PyText.split 32 p) as [|p0 ps] eqn:SP; [now apply split_not_nil in SP|].
  assert (FR : forall q, In q (p0 :: ps) -> ~ In 32 q) by (intros q I; apply (split_free 32 p); now rewrite SP).
  assert (EP : p = (p0 ++ pieces ps)%list) by (rewrite <- join_pieces, <- SP; symmetry; apply join_split).
  assert (INW : forall q, In q (p0 :: ps) -> q <> [] -> In q (words p)) by (intros q I NE; rewrite WS; apply filter_In; split; [assumption|now destruct q]).
  assert (PX' : forall q x, In q ps -> q = (codes "parallel" ++ x)%list -> x = []).
  { intros q x I E. assert (J : In q (words p)) by (apply INW; [now right|rewrite E; discriminate]). rewrite WD in J. destruct J as [J|J]; [rewrite <- J in E; discriminate|now apply (PX q)]. }
  assert (G : forall ps, (forall q, In q (p0 :: ps) -> ~ In 32 q) -> (forall q x, In q ps -> q = (codes "parallel" ++ x)%list -> x = []) ->
            without_parallel (p0 ++ pieces ps) = (p0 ++ pieces (filter (fun w => negb (parallel_word w)) ps))%list).
  { intros qs FQ PQ. unfold without_parallel. rewrite PerfProofs.replace_pass; [f_equal; apply replace_pieces; [intros q I; apply FQ; now right|exact PQ|rewrite app_length; lia]| |lia].
    intros x y E NY. destruct y as [|c y]; [congruence|]. cbn [app codes PerfModel.starts_with]. change (Ascii.N_of_ascii " ") with 32. destruct (N.eqb_spec 32 c) as [<-|]; [|reflexivity]. exfalso. apply (FQ p0 (or_introl eq_refl)). rewrite E. apply in_or_app. right. now left. }
  set (qs := filter (fun w => negb (parallel_word w)) ps). assert (EW : without_parallel p = (p0 ++ pieces qs)%list) by (rewrite EP at 1; now apply G).
  assert (FQ : forall q, In q (p0 :: qs) -> ~ In 32 q) by (intros q [<-|I]; [apply FR; now left|]; apply filter_In in I as [I _]; apply FR; now right).
  assert (NT' : ~ In 9 (p0 ++ pieces qs)).
  { intros I. apply NT. rewrite EP. apply in_app_or in I as [I|I]; apply in_or_app; [now left|right]. apply in_flat_map in I as (q & I & J). apply in_flat_map. exists q. apply filter_In in I as [I _]. auto. }
  assert (NP : negb (parallel_word p0) = true).
  { unfold parallel_word. destruct (text_eqb_spec p0 (codes "parallel")) as [->|]; [|reflexivity]. exfalso. rewrite WD in WS. cbn [filter nonempty_text] in WS. discriminate WS. }
  assert (WQ : words (without_parallel p) = filter (fun w => negb (parallel_word w)) (words p)).
  { rewrite EW, (words_split _ NT'), split_pieces by assumption. rewrite WS, filter_comm. cbn [filter]. rewrite NP. reflexivity. }
  split; [exact WQ|]. split.
  - split; [rewrite WQ, WD; reflexivity|]. split; [now rewrite EW|]. intros w x I E. apply filter_In in I as [I _]. now apply (PX w).
  - rewrite EW. rewrite G; [|assumption|intros q x I; apply PX'; apply filter_In in I as [I _]; assumption]. f_equal. f_equal. apply filter_all. intros q I. now apply filter_In in I as [_ I].
Qed.
Lemma not_mentioned p : (forall a b, p <> (a ++ codes "omp" ++ b)%list) -> mentions_omp p = false.
Proof. intros H. apply not_true_is_false. intros M. apply contains_spec in M as (a & b & E). exact (H a b E). Qed.
Lemma divides_first p : divides p = true -> exists a b, p = (a ++ codes "omp" ++ b)%list.
Proof.
  unfold divides. destruct (filter _ (words p)) as [|w1 [|w2 ws]] eqn:E; try discriminate. intros H. apply andb_true_iff in H as [H _]. destruct (text_eqb_spec w1 (codes "omp")) as [->|]; [|discriminate].
  apply words_in. assert (I : In (codes "omp") (filter (fun w => negb (text_eqb w (codes "parallel"))) (words p))) by (rewrite E; now left). now apply filter_In in I as [I _].
Qed.
Lemma worksharing_first p : worksharing p = true -> exists a b, p = (a ++ codes "omp" ++ b)%list.
Proof.
  unfold worksharing. destruct (words p) as [|w1 [|w2 ws]] eqn:E; try discriminate. intros H. apply andb_true_iff in H as [H _]. destruct (text_eqb_spec w1 (codes "omp")) as [->|]; [|discriminate].
  apply words_in. rewrite E. now left.
Qed.
Definition changed_pragma (p : text) : text := if mentions_omp p then without_parallel p else p.
Lemma ordinary_changed p : ordinary p -> worksharing (changed_pragma p) = divides p /\ changed_pragma (changed_pragma p) = changed_pragma p /\ mentions_omp (changed_pragma p) = mentions_omp p
  /\ mentions_omp p = is_omp p.
Proof.
  unfold changed_pragma. intros [(ws & D)|N].
  - assert (MO : mentions_omp p = true) by (apply contains_spec, words_in; rewrite (proj1 D); now left). rewrite MO.
    destruct (without_parallel_words p ws D) as (WQ & D' & ID). split; [|split; [|split]].
    + unfold worksharing, divides. rewrite WQ. reflexivity.
    + now destruct (mentions_omp (without_parallel p)).
    + apply contains_spec, words_in. rewrite (proj1 D'). now left.
    + unfold is_omp. now rewrite (proj1 D).
  - rewrite (not_mentioned p N). split; [|split; [|split]].
    + destruct (worksharing p) eqn:E; [apply worksharing_first in E as (a & b & E); now apply N in E|]. destruct (divides p) eqn:D; [apply divides_first in D as (a & b & E'); now apply N in E'|reflexivity].
    + now rewrite (not_mentioned p N).
    + now apply not_mentioned.
    + unfold is_omp. destruct (words p) as [|w ws] eqn:E; [reflexivity|]. destruct (text_eqb_spec w (codes "omp")) as [->|]; [|reflexivity]. exfalso. destruct (words_in p (codes "omp")) as (a & b & Q); [rewrite E; now left|]. exact (N a b Q).
Qed.
Lemma existsb_map' {X Y} (f : X -> Y) (g : Y -> bool) l : existsb g (map f l) = existsb (fun x => g (f x)) l.
Proof. induction l as [|x l IH]; [reflexivity|]. cbn. now rewrite IH. Qed.
Lemma existsb_in {X} (f g : X -> bool) l : (forall x, In x l -> f x = g x) -> existsb f l = existsb g l.
Proof. induction l as [|x l IH]; intros H; [reflexivity|]. cbn. rewrite (H x (or_introl eq_refl)), IH; [reflexivity|]. intros y I. apply H. now right. Qed.
Lemma shared_changed n : (forall p, In p (pragmas n) -> ordinary p) -> shared_loops (map_pragmas changed_pragma n) = map snd (dividing n).
Proof.
  unfold shared_loops, dividing, pragmas, map_pragmas. destruct n as [ls ip]. cbn [levels inner_pragmas]. intros H.
  assert (H' : forall l p, In l ls -> In p (fst l) -> ordinary p) by (intros l p I J; apply H, in_or_app; left; apply in_flat_map; eauto). clear H.
  induction ls as [|[ps l] ls IH]; [reflexivity|]. cbn [map filter fst snd].
  rewrite existsb_map', (existsb_in (fun x => worksharing (changed_pragma x)) divides) by (intros p I; apply ordinary_changed, (H' (ps, l)); [now left|assumption]).
  assert (IH' := IH (fun l p I => H' l p (or_intror I))). destruct (existsb divides ps); cbn [map snd]; rewrite IH'; reflexivity.
Qed.
Lemma pragmas_map g n : pragmas (map_pragmas g n) = map g (pragmas n).
Proof.
  unfold pragmas, map_pragmas. destruct n as [ls ip]. cbn [levels inner_pragmas]. rewrite map_app. f_equal. induction ls as [|[ps l] ls IH]; [reflexivity|]. cbn. rewrite map_app. now f_equal.
Qed.
Lemma map_pragmas_id g n : (forall p, In p (pragmas n) -> g p = p) -> map_pragmas g n = n.
Proof.
  unfold pragmas, map_pragmas. destruct n as [ls ip]. cbn [levels inner_pragmas]. intros H. f_equal.
  - assert (H' : forall l p, In l ls -> In p (fst l) -> g p = p) by (intros l p I J; apply H, in_or_app; left; apply in_flat_map; eauto). clear H.
    induction ls as [|[ps l] ls IH]; [reflexivity|]. cbn [map fst snd]. f_equal; [|apply IH; intros x p I; apply H'; now right]. f_equal. rewrite <- (map_id ps) at 2. apply map_ext_in. intros p I. apply (H' (ps, l)); [now left|assumption].
  - rewrite <- (map_id ip) at 2. apply map_ext_in. intros p I. apply H, in_or_app. now right.
Qed.
Lemma filter_nil {X} (f : X -> bool) l : filter f l = [] <-> existsb f l = false.
Proof. induction l as [|x l IH]; [now split|]. cbn. destruct (f x); [split; discriminate|exact IH]. Qed.
(** The two cases of [get_kernel_loop_nest] *)
Lemma nest_cases n : levels n <> [] -> (forall p, In p (pragmas n) -> ordinary p) ->
  (existsb is_omp (pragmas n) = false /\ exists ps l ls, levels n = (ps, l) :: ls /\ get_kernel_loop_nest n = Ok (mkNest ((codes "omp for" :: ps, l) :: ls) (inner_pragmas n), n)
     /\ shared_loops (mkNest ((codes "omp for" :: ps, l) :: ls) (inner_pragmas n)) = [l])
  \/ (existsb is_omp (pragmas n) = true /\ get_kernel_loop_nest n = Ok (map_pragmas changed_pragma n, map_pragmas changed_pragma n) /\ shared_loops (map_pragmas changed_pragma n) = map snd (dividing n)).
Proof.
  intros NE O. assert (EO : existsb mentions_omp (pragmas n) = existsb is_omp (pragmas n)) by (apply existsb_in; intros p I; now apply ordinary_changed, O).
  unfold get_kernel_loop_nest. destruct (levels n) as [|[ps l] ls] eqn:L; [congruence|]. destruct (existsb is_omp (pragmas n)) eqn:E.
  - right. split; [reflexivity|]. split; [|now apply shared_changed]. destruct (filter mentions_omp (pragmas n)) eqn:Fm; [apply filter_nil in Fm; congruence|]. reflexivity.
  - left. split; [reflexivity|]. exists ps, l, ls. split; [reflexivity|]. assert (Fm := EO). apply filter_nil in Fm. rewrite Fm.
    assert (NM : forall p, In p (pragmas n) -> mentions_omp p = false).
    { intros p I. apply not_true_is_false. intros M. rewrite <- not_true_iff_false in EO. apply EO. apply existsb_exists. eauto. }
    change (fun p : text => if mentions_omp p then without_parallel p else p) with changed_pragma. rewrite (map_pragmas_id _ n) by (intros p I; unfold changed_pragma; now rewrite (NM p I)). rewrite L. split; [reflexivity|].
    unfold shared_loops. cbn [levels filter fst]. replace (existsb worksharing (codes "omp for" :: ps)) with true by reflexivity. cbn [map snd]. f_equal.
    assert (NW : forall l' p, In l' ls -> In p (fst l') -> worksharing p = false).
    { intros l' p I J. apply not_true_is_false. intros Wp. apply worksharing_first, contains_spec in Wp. assert (K : In p (pragmas n)) by (apply in_or_app; left; apply in_flat_map; exists l'; rewrite L; split; [now right|assumption]).
      unfold mentions_omp in NM. rewrite (NM p K) in Wp. discriminate. }
    clear - NW. induction ls as [|[qs m] ls IH]; [reflexivity|]. cbn [filter fst]. replace (existsb worksharing qs) with false; [apply IH; intros l' p I; apply NW; now right|].
    symmetry. apply not_true_is_false. intros X. apply existsb_exists in X as (p & I & X). rewrite (NW (qs, m) p (or_introl eq_refl) I) in X. discriminate.
Qed.
(** Every element belongs to its owner. *)
Lemma owner_merge {X} (owner : X -> nat) T (l : list X) : (forall x, In x l -> (owner x < T)%nat) -> merge (map (fun t => filter (fun x => Nat.eqb (owner x) t) l) (seq 0 T)) l.
Proof.
  induction l as [|x l IH]; intros H.
  - constructor. apply Forall_forall. intros y I. apply in_map_iff in I as (t & <- & _). reflexivity.
  - assert (LT := H x (or_introl eq_refl)). apply (merge_cons _ (owner x) x (filter (fun y => Nat.eqb (owner y) (owner x)) l)).
    + rewrite nth_error_map. rewrite (nth_error_nth' (seq 0 T) 0%nat) by (now rewrite seq_length). rewrite seq_nth by assumption. cbn [option_map plus filter]. now rewrite Nat.eqb_refl.
    + replace (set_nth (owner x) _ _) with (map (fun t => filter (fun x => Nat.eqb (owner x) t) l) (seq 0 T)); [apply IH; intros y I; apply H; now right|].
      assert (G : forall (a b : list (list X)), List.length a = List.length b -> (forall i, (i < List.length a)%nat -> nth_error a i = nth_error b i) -> a = b).
      { clear. induction a as [|x a IH]; intros [|y b] L E; try discriminate; [reflexivity|]. f_equal; [specialize (E 0%nat ltac:(cbn; lia)); now injection E|].
        apply IH; [now injection L|]. intros i LT. apply (E (S i)). cbn. lia. }
      apply G; [rewrite set_length; rewrite !map_length; [reflexivity|now rewrite seq_length]|]. rewrite map_length, seq_length. intros i LI.
      rewrite nth_error_map, (nth_error_nth' (seq 0 T) 0%nat) by (now rewrite seq_length). rewrite seq_nth by assumption. cbn [option_map plus].
      destruct (Nat.eq_dec (owner x) i) as [<-|NE].
      * rewrite nth_set; [reflexivity|]. now rewrite map_length, seq_length.
      * rewrite nth_set_other; [|assumption|now rewrite map_length, seq_length]. rewrite nth_error_map, (nth_error_nth' (seq 0 T) 0%nat) by (now rewrite seq_length). rewrite seq_nth by assumption.
        cbn [option_map plus filter]. apply Nat.eqb_neq in NE. now rewrite NE.
Qed.
Lemma merge_length {X} parts (l : list X) : merge parts l -> List.length (concat parts) = List.length l.
Proof.
  induction 1 as [parts F|parts i x rest l N M IH].
  - induction F as [|p ps <- F IH]; [reflexivity|exact IH].
  - cbn [List.length]. rewrite <- IH. apply nth_error_split in N as (a & b & -> & <-). unfold set_nth. rewrite firstn_app, Nat.sub_diag, firstn_all. cbn [firstn]. rewrite app_nil_r.
    replace (skipn (S (List.length a)) (a ++ (x :: rest) :: b)) with b; [rewrite !concat_app; cbn [concat app]; rewrite !app_length; cbn [List.length]; rewrite ?app_length; lia|].
    replace (S (List.length a)) with (List.length (a ++ [x :: rest])) by (rewrite app_length; cbn; lia). replace (a ++ (x :: rest) :: b)%list with ((a ++ [x :: rest]) ++ b)%list by (now rewrite <- app_assoc).
    rewrite skipn_app, skipn_all, Nat.sub_diag. reflexivity.
Qed.

(** ** Removed directives *)
Lemma after_newline_line r t : line_free r -> after_newline (r ++ newline :: t) = Some t.
Proof.
  induction r as [|c r IH]; intros H; [reflexivity|]. cbn [app after_newline]. destruct (N.eqb_spec c 10) as [->|N]; [destruct H; now left|]. apply IH. intros I. apply H. now right.
Qed.
Lemma starts_newline w : forall s t, ~ In newline w -> PerfModel.starts_with w (s ++ newline :: t) = true -> PerfModel.starts_with w s = true.
Proof.
  induction w as [|c w IH]; intros s t NI; [reflexivity|]. destruct s as [|d s]; cbn [app PerfModel.starts_with].
  - rewrite andb_true_iff. intros [E _]. apply N.eqb_eq in E. subst c. destruct NI. now left.
  - rewrite !andb_true_iff. intros [E H]. split; [assumption|]. apply (IH s t); [|assumption]. intros I. apply NI. now right.
Qed.
Lemma pragma_no_newline : ~ In newline (codes "#pragma omp").
Proof. intros I. cbn in I. repeat (destruct I as [I|I]; [discriminate I|]). exact I. Qed.
Lemma sub_plain s : line_free s -> (forall a b, s <> (a ++ codes "#pragma omp" ++ b)%list) -> forall fuel t, (List.length (s ++ newline :: t) <= fuel)%nat ->
  exists fuel', (List.length t <= fuel')%nat /\ sub_pragmas fuel (s ++ newline :: t) = (s ++ newline :: sub_pragmas fuel' t)%list.
Proof.
  induction s as [|c s IH]; intros LF NP fuel t L; (destruct fuel as [|fuel]; [cbn in L; lia|]).
  - exists fuel. split; [cbn in L; lia|]. reflexivity.
  - assert (E : PerfModel.starts_with (codes "#pragma omp") ((c :: s) ++ newline :: t) = false).
    { apply not_true_is_false. intros E. apply starts_newline in E; [|exact pragma_no_newline]. apply PerfProofs.starts_with_spec in E as [u E]. exact (NP [] u E). }
    change ((c :: s) ++ newline :: t)%list with (c :: (s ++ newline :: t))%list in *. cbn [sub_pragmas]. rewrite E.
    destruct (IH) with (fuel := fuel) (t := t) as (fuel' & L' & Q); [intros I; apply LF; now right|intros a b ->; exact (NP (c :: a) b eq_refl)|cbn in L; lia|].
    exists fuel'. split; [assumption|]. rewrite Q. reflexivity.
Qed.
Lemma sub_indent i : forall fuel t, (List.length (List.repeat 32%N i ++ t) <= fuel)%nat -> exists fuel', (List.length t <= fuel')%nat /\ sub_pragmas fuel (List.repeat 32%N i ++ t) = (List.repeat 32%N i ++ sub_pragmas fuel' t)%list.
Proof.
  induction i as [|i IH]; intros fuel t L; [exists fuel; auto|]. destruct fuel as [|fuel]; [cbn in L; lia|]. cbn [List.repeat app] in *. cbn [sub_pragmas codes PerfModel.starts_with N_of_ascii].
  destruct (IH fuel t) as (fuel' & L' & Q); [cbn in L; lia|]. exists fuel'. split; [assumption|]. rewrite Q. reflexivity.
Qed.
Lemma sub_directive r t fuel : line_free r -> (List.length (codes "#pragma omp" ++ r ++ newline :: t) <= fuel)%nat ->
  exists fuel', (List.length t <= fuel')%nat /\ sub_pragmas fuel (codes "#pragma omp" ++ r ++ newline :: t) = sub_pragmas fuel' t.
Proof.
  intros LF L. destruct fuel as [|fuel]; [cbn in L; lia|]. exists fuel. split; [rewrite !app_length in L; cbn in L; lia|].
  assert (E : PerfModel.starts_with (codes "#pragma omp") (codes "#pragma omp" ++ r ++ newline :: t) = true) by (apply PerfProofs.starts_with_spec; eauto).
  change (codes "#pragma omp" ++ r ++ newline :: t)%list with (35 :: (codes "pragma omp" ++ r ++ newline :: t))%list in *. cbn [sub_pragmas]. rewrite E.
  change (skipn 11 (35 :: (codes "pragma omp" ++ r ++ newline :: t))) with (r ++ newline :: t)%list. now rewrite after_newline_line.
Qed.
Lemma sub_lines ls : Forall proper_line ls -> forall fuel, (List.length (flat_map line_text ls) <= fuel)%nat -> sub_pragmas fuel (flat_map line_text ls) = flat_map kept ls.
Proof.
  induction 1 as [|l ls P F IH]; intros fuel L; [now destruct fuel|]. cbn [flat_map] in *. destruct l as [i r|s]; cbn [line_text kept proper_line] in *.
  - replace ((List.repeat 32%N i ++ codes "#pragma omp" ++ r ++ [newline]) ++ flat_map line_text ls)%list with (List.repeat 32%N i ++ (codes "#pragma omp" ++ r ++ newline :: flat_map line_text ls))%list in * by (rewrite <- !app_assoc; reflexivity).
    destruct (sub_indent i fuel _ L) as (f1 & L1 & ->). f_equal. destruct (sub_directive r (flat_map line_text ls) f1 P L1) as (f2 & L2 & ->). now apply IH.
  - replace ((s ++ [newline]) ++ flat_map line_text ls)%list with (s ++ newline :: flat_map line_text ls)%list in * by (rewrite <- app_assoc; reflexivity). destruct P as [P1 P2].
    destruct (sub_plain s P1 P2 fuel (flat_map line_text ls) L) as (f2 & L2 & ->). rewrite IH by assumption. now rewrite <- app_assoc.
Qed.
(** No directive is left. *)
Lemma occurs_newline w s t : ~ In newline w -> w <> [] -> (exists a b, (s ++ newline :: t)%list = (a ++ w ++ b)%list) -> (exists a b, s = (a ++ w ++ b)%list) \/ exists a b, t = (a ++ w ++ b)%list.
Proof.
  intros NI NE H. apply contains_spec in H. induction s as [|c s IH].
  - right. cbn [app contains] in H. apply orb_true_iff in H as [H|H]; [|now apply contains_spec]. apply PerfProofs.starts_with_spec in H as [u E]. destruct w as [|d w]; [congruence|]. injection E as <- _. destruct NI. now left.
  - cbn [app contains] in H. apply orb_true_iff in H as [H|H].
    + left. change (c :: s ++ newline :: t)%list with ((c :: s) ++ newline :: t)%list in H. apply starts_newline in H; [|assumption]. apply PerfProofs.starts_with_spec in H as [u ->]. now exists [], u.
    + destruct (IH H) as [(a & b & ->)|K]; [left; now exists (c :: a), b|now right].
Qed.
Lemma occurs_indent i t : (exists a b, (List.repeat 32%N i ++ t)%list = (a ++ codes "#pragma omp" ++ b)%list) -> exists a b, t = (a ++ codes "#pragma omp" ++ b)%list.
Proof.
  intros H. apply contains_spec in H. apply contains_spec. induction i as [|i IH]; [exact H|]. cbn [List.repeat app] in H. cbn [contains] in H. apply orb_true_iff in H as [H|H]; [|auto]. discriminate H.
Qed.
Lemma kept_free ls : Forall proper_line ls -> forall a b, flat_map kept ls <> (a ++ codes "#pragma omp" ++ b)%list.
Proof.
  intros F a b E. assert (H : exists a b, flat_map kept ls = (a ++ codes "#pragma omp" ++ b)%list) by eauto. clear a b E. induction F as [|l ls P F IH]; cbn [flat_map] in H.
  - destruct H as (a & b & E). symmetry in E. apply app_eq_nil in E as [_ E]. discriminate.
  - destruct l as [i r|s]; cbn [kept proper_line] in *; [apply occurs_indent in H; auto|]. rewrite <- app_assoc in H. apply occurs_newline in H; [|exact pragma_no_newline|discriminate].
    destruct H as [(a & b & E)|H]; [|auto]. exact (proj2 P a b E).
Qed.
