(** Proofs for C125 and C136: the levels of the cache simulation. *)
From Coq Require Import String Lia Permutation Lqa.
From Verif Require Import PyBase PyBaseFacts PyNum LoopModel LoopSpec LoopProofs AstModel AstSpec LCModel LCSpec LCProofs FrontModel FrontSpec FrontDistance LruSpec LruProofs LruLink TraceModel TraceSpec TraceProofs SimModel SimSpec SimProofs CsimModel CsimSpec CsimProofs CsimLink
  EvictSpec EvictProofs HierSpec HierProofs.
Local Open Scope list_scope.
Local Open Scope Z_scope.

(** ** Renaming of lines *)
Section Rename.
  Context {X : Type}.
  Variables (f h : X -> line).
  Lemma hit_rename n past x : (forall a b, In a (past ++ [x]) -> In b (past ++ [x]) -> (f a = f b <-> h a = h b)) -> hit n (map f past) (f x) = hit n (map h past) (h x).
  Proof.
    intros E. pose proof (misses_rename f h n [x] past E) as M. cbn [map misses_after] in M. destruct (hit n (map f past) (f x)), (hit n (map h past) (h x)); try reflexivity; lia.
  Qed.
  Lemma missed_rename n future : forall past, (forall x y, In x (past ++ future) -> In y (past ++ future) -> (f x = f y <-> h x = h y)) ->
    exists m, incl m future /\ missed n (map f past) (map f future) = map f m /\ missed n (map h past) (map h future) = map h m.
  Proof.
    induction future as [|x future IH]; intros past E; [exists []; repeat split; easy|]. cbn [map missed].
    destruct (IH (past ++ [x])) as (m & I & A & B); [now rewrite <- app_assoc|]. rewrite map_app in A. rewrite map_app in B. cbn [map] in A, B. rewrite A, B.
    rewrite (hit_rename n past x). 2:{ intros a b Ia Ib. apply E; apply in_or_app; [apply in_app_or in Ia as [Ia|[<-|[]]]|apply in_app_or in Ib as [Ib|[<-|[]]]]; auto; right; now left. }
    destruct (hit n (map h past) (h x)); [exists m|exists (x :: m)]; (split; [|now split]); intros y J; [right; now apply I|]. destruct J as [<-|J]; [now left|right; now apply I].
  Qed.
  Lemma levels_rename n : forall above past future, (forall x y, In x (past ++ future) -> In y (past ++ future) -> (f x = f y <-> h x = h y)) ->
    level_misses above n (map f past) (map f future) = level_misses above n (map h past) (map h future).
  Proof.
    induction above as [|m above IH]; intros past future E; cbn [level_misses]; [now apply misses_rename|].
    destruct (missed_rename m past []) as (p & Ip & Ap & Bp); [intros x y Ix Iy; apply E; apply in_or_app; now left|]. destruct (missed_rename m future past E) as (q & Iq & Aq & Bq).
    cbn [map] in Ap, Bp. rewrite Ap, Bp, Aq, Bq. apply IH. intros x y Ix Iy. apply E; [apply in_app_or in Ix as [J|J]|apply in_app_or in Iy as [J|J]]; apply in_or_app; auto.
  Qed.
End Rename.

(** ** Many lines *)
Lemma level_app above n past a b : level_misses above n past (a ++ b) = level_misses above n past a + level_misses above n (past ++ a) b.
Proof. rewrite !level_sum. apply sum_after_app. Qed.
Section Windows.
  Context (n1 : nat) (above : list nat) (n : nat) (L : Z) (refs : list ref) (s t : Z).
  Hypothesis LP : 0 < L.
  Hypothesis ST : s < t.
  Hypothesis FIT : needed (distances refs) 2 + 2 * Z.of_nat (List.length refs) * (L - 1) <= Z.of_nat n1 * L.
  Hypothesis WARM : forall r v, In r refs -> farthest refs r = Some v -> s <= t - v - L.
  Lemma level_windows m : Z.of_nat m * missing (distances refs) (Z.of_nat (together (n1 :: above) + n) * L + Z.of_nat (List.length refs) * L)
    <= level_misses (n1 :: above) n (LruSpec.trace L refs (positions s t)) (LruSpec.trace L refs (positions t (t + Z.of_nat m * L)))
    <= Z.of_nat m * distinct (filter (fun r => negb (held n L refs r)) refs).
  Proof.
    induction m as [|m IH].
    - change (Z.of_nat 0) with 0. rewrite (Z.mul_0_l L), Z.add_0_r. replace (positions t t) with (@nil Z) by (unfold positions; now rewrite Z.sub_diag). change (LruSpec.trace L refs []) with (@nil line). rewrite level_sum. cbn [sum_after]. rewrite !Z.mul_0_l. lia.
    - set (u := t + Z.of_nat m * L) in *. assert (TU : t <= u) by (unfold u; nia). replace (t + Z.of_nat (S m) * L) with (u + L) by (unfold u; rewrite Nat2Z.inj_succ; ring).
      rewrite (positions_app t u (u + L)) by lia. rewrite trace_app, level_app, <- trace_app, <- positions_app by lia.
      assert (W : forall r v, In r refs -> farthest refs r = Some v -> s <= u - v - L) by (intros r v I F; specialize (WARM r v I F); lia).
      pose proof (hierarchy_missing n1 above n L refs s u LP ltac:(lia) FIT W) as B1. pose proof (hierarchy_upper n1 above n L refs s u LP ltac:(lia) FIT W) as B2.
      rewrite Nat2Z.inj_succ, !Z.mul_succ_l. lia.
  Qed.
End Windows.

(** ** Order of references *)
Lemma maximum_perm l l' : Permutation l l' -> maximum l = maximum l'.
Proof.
  intros P. destruct (maximum l) as [m|] eqn:E; destruct (maximum l') as [m'|] eqn:E'.
  - apply maximum_some in E as [I M]. apply maximum_some in E' as [I' M']. f_equal. apply Z.le_antisymm; [apply M'; exact (Permutation_in _ P I)|apply M; exact (Permutation_in _ (Permutation_sym P) I')].
  - apply maximum_none in E'. subst l'. apply Permutation_sym, Permutation_nil in P. now subst.
  - apply maximum_none in E. subst l. apply Permutation_nil in P. now subst.
  - reflexivity.
Qed.
Lemma farthest_perm refs refs' r : Permutation refs refs' -> farthest refs r = farthest refs' r.
Proof. intros P. unfold farthest. apply maximum_perm. unfold larger. apply Permutation_map. now apply filter_perm. Qed.
Lemma held_perm n L refs refs' r : Permutation refs refs' -> held n L refs r = held n L refs' r.
Proof.
  intros P. unfold held. rewrite (farthest_perm _ _ r P). destruct (farthest refs' r) as [v|]; [|reflexivity]. rewrite (needed_perm _ _ _ (distances_perm _ _ P)), (Permutation_length P). reflexivity.
Qed.
Lemma first_perm refs refs' r : Permutation refs refs' -> first_of_array refs r = first_of_array refs' r.
Proof. intros P. unfold first_of_array. now rewrite (farthest_perm _ _ r P). Qed.

