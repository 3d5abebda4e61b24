(** C135: predicted evictions and caches which write modified lines back when they are replaced. *)
From Coq Require Import String Permutation.
From Verif Require Import PyBase AstModel AstSpec LCModel LCSpec LCProofs LCProps FrontModel FrontSpec FrontDistance FrontProps LruSpec LruProofs LruLink LruProps EvictSpec EvictProofs.
Local Open Scope string_scope.
Local Open Scope list_scope.
Local Open Scope Z_scope.

(** While each stream passes m lines, every written reference which is ahead of the other ones of its array, or whose line was replaced since it was used
    last, causes m lines to be written back. References whose line is still modified in the cache cause none. The n lines of the cache may be modified
    before, or still be there at the end. *)
Theorem C135_evictions : forall n width refs s t m, 0 < width -> s < t -> 0 <= m -> streams_fit n width refs ->
  (forall q r, In q (written refs) -> In r (written refs) -> fst q = fst r -> s <= t - (snd q - snd r)) ->
  m * distinct (filter (fun r => leading refs r || replaced n width refs r)%bool (written refs)) - Z.of_nat n
  <= evictions_after n (wtrace width refs (positions s t)) (wtrace width refs (positions t (t + m * width)))
  <= m * distinct (filter (fun r => negb (kept n width refs r)) (written refs)) + Z.of_nat n.
Proof. exact evictions_windows. Qed.
(** Nothing is written back while all lines fit. *)
Theorem C135_full : forall n past future lines, incl (map fst (past ++ future)) lines -> (List.length lines <= n)%nat -> evictions_after n past future = 0.
Proof. exact fits_nothing. Qed.
(** What is predicted: nothing if all arrays fit, otherwise one line for each written reference. *)
Theorem C135_choice : forall decide ds es w tails total rho size cs c, sound decide -> (forall s, 0 < rho s) ->
  build_level decide ds es w tails total size = Ok cs -> desymbolize rho cs = Ok c -> evicts c = if eval rho total <? size then 0 else w.
Proof. exact level_evicts. Qed.
(** The prediction is correct for kernels which write at most one element of each array: it is the number of lines written back for each line of work,
    up to the n lines in the cache at the beginning and at the end. Missing: the innermost index is used in all referenced arrays, and rows do not end. *)
Theorem C135_prediction_partial : forall less decide k inner incr rest ds w es tails total rho number refs n width size s t m cs c,
  usual k -> NoDup (map fst (variables k)) -> (forall n, uniform (array_references k n)) -> less_sound less -> sound decide -> rev (loops k) = (inner, incr) :: rest ->
  (forall n, array_references k n <> [] -> uses inner (array_references k n)) ->
  (forall n m, In n (map fst (variables k)) -> In m (map fst (variables k)) -> number n = number m -> n = m) ->
  reuse_distances less k = Ok (ds, w) -> (forall s, 0 < rho s) -> one_written k ->
  (forall r, In r (written refs) <-> In r (kernel_writes number rho k (variables k))) ->
  0 < width -> s < t -> 0 <= m -> streams_fit n width refs ->
  build_level decide ds es w tails total size = Ok cs -> desymbolize rho cs = Ok c -> size <= eval rho total ->
  m * evicts c - Z.of_nat n <= evictions_after n (wtrace width refs (positions s t)) (wtrace width refs (positions t (t + m * width))) <= m * evicts c + Z.of_nat n.
Proof.
  intros less decide k inner incr rest ds w es tails total rho number refs n width size s t m cs c U ND UN LS SD R AU INJ RD RP OW WR W ST M FIT B D T.
  rewrite (level_evicts _ _ _ _ _ _ _ _ _ _ SD RP B D). replace (eval rho total <? size) with false by (symmetry; apply Z.ltb_ge; exact T).
  destruct (kernel_result _ _ _ _ _ _ _ U ND UN LS R RD) as [_ C]. rewrite (counted_writes number rho _ _ _ _ _ C AU OW).
  destruct (nodup_fst _ (writes_arrays number rho k (variables k) ND INJ OW)) as [N1 N2].
  rewrite <- (distinct_length _ N1), <- (distinct_same _ _ WR). apply single_evictions; try assumption. intros q r I J. apply N2; now apply WR.
Qed.

(** ** Limits *)
(** for i: [a[i + 1] = b[i]; a[i] = b[i]] *)
Definition pairs : front := mkFront [("i", 1)] [("a", Some [SVar "N"]); ("b", Some [SVar "N"])] [("b", [Some [SVar "i"]])] [("a", [Some [SAdd (SVar "i") (SInt 1)]; Some [SVar "i"]])].
Definition pairs_refs : list wref := [((1%nat, 500), false); ((0%nat, 501), true); ((1%nat, 500), false); ((0%nat, 500), true)].
Definition pairs_number (n : string) : nat := if String.eqb n "a" then 0%nat else 1%nat.
Definition pairs_rho (n : string) : Z := if String.eqb n "N" then 1000 else 500.
(** If two elements of an array are written in an iteration, two lines are predicted to be written back, but it is one. *)
Theorem C135_shared_refuted : exists k less decide ds w tails total rho number refs n width cs c,
  usual k /\ less_sound less /\ sound decide /\ (forall s, 0 < rho s) /\ reuse_distances less k = Ok (ds, w) /\
  (forall r, In r (written refs) <-> In r (kernel_writes number rho k (variables k))) /\ streams_fit n width refs /\ 0 < width /\
  (forall d, In d tails <-> In d (map (scale_dist 8) ds)) /\ build_level decide ds 8 w tails total (8 * (Z.of_nat n * width)) = Ok cs /\ desymbolize rho cs = Ok c /\ evicts c = 2 /\
  forall s t m, s < t -> 0 <= m -> evictions_after n (wtrace width refs (positions s t)) (wtrace width refs (positions t (t + m * width))) <= m + Z.of_nat n.
Proof.
  exists pairs, numbers_only, decide_numbers, [Poly [([], 1)]; Inf; Inf], 2, [Poly [([], 8)]; Inf], [(["N"], 16)], pairs_rho, pairs_number, pairs_refs, 8%nat, 8.
  eexists. eexists. split; [|split; [exact numbers_only_sound|split; [exact decide_numbers_sound|split; [|split; [vm_compute; reflexivity|split; [|split; [vm_compute; discriminate|split; [reflexivity|split; [|split; [vm_compute; reflexivity|split; [vm_compute; reflexivity|split; [reflexivity|]]]]]]]]]]]].
  - split; [repeat constructor; intros []|]. intros n arefs [[= <- <-]|[[= <- <-]|[]]]; right; exists ["N"]; (split; [reflexivity|]); intros a I.
    + destruct I as [<-|[]]. exists [SVar "i"]. split; [reflexivity|]. split; [discriminate|]. split; [reflexivity|]. split; [intros s [<-|[]] [X|[]]; discriminate|]. intros s [<-|[]]. exists (Some "i"), 0. split; [reflexivity|now left].
    + destruct I as [<-|[<-|[]]].
      * exists [SAdd (SVar "i") (SInt 1)]. split; [reflexivity|]. split; [discriminate|]. split; [reflexivity|]. split; [intros s [<-|[]] [X|[]]; discriminate|]. intros s [<-|[]]. exists (Some "i"), 1. split; [reflexivity|now left].
      * exists [SVar "i"]. split; [reflexivity|]. split; [discriminate|]. split; [reflexivity|]. split; [intros s [<-|[]] [X|[]]; discriminate|]. intros s [<-|[]]. exists (Some "i"), 0. split; [reflexivity|now left].
  - intros s. unfold pairs_rho. destruct (String.eqb s "N"); reflexivity.
  - intros r. vm_compute. tauto.
  - intros d. vm_compute. tauto.
  - intros s t m ST M. destruct (C135_evictions 8 8 pairs_refs s t m) as [_ H]; [reflexivity|assumption|assumption|vm_compute; discriminate| |].
    + intros q r I J _. vm_compute in I, J. destruct I as [<-|[<-|[]]], J as [<-|[<-|[]]]; cbn [snd]; lia.
    + replace (distinct (filter (fun r => negb (kept 8 8 pairs_refs r)) (written pairs_refs))) with 1 in H by (vm_compute; reflexivity). lia.
Qed.

Print Assumptions C135_evictions.
Print Assumptions C135_full.
Print Assumptions C135_choice.
Print Assumptions C135_prediction_partial.
Print Assumptions C135_shared_refuted.

(** The stencil of C111 with lines of two elements: one line is written back in two iterations. *)
Definition stencil_wrefs : list wref := map (fun r => (r, Nat.eqb (fst r) 0)) stencil_refs.
Example C135_example : forall lines s t m, In lines [20%nat; 60%nat] -> s < t -> 0 <= m ->
  m - Z.of_nat lines <= evictions_after lines (wtrace 2 stencil_wrefs (positions s t)) (wtrace 2 stencil_wrefs (positions t (t + m * 2))) <= m + Z.of_nat lines.
Proof.
  intros lines s t m I ST M.
  assert (G : forall cs c, jacobi_level (8 * (Z.of_nat lines * 2)) = Ok cs -> desymbolize rows cs = Ok c -> evicts c = 1 -> streams_fit lines 2 stencil_wrefs -> 8 * (Z.of_nat lines * 2) <= 320000 ->
    m - Z.of_nat lines <= evictions_after lines (wtrace 2 stencil_wrefs (positions s t)) (wtrace 2 stencil_wrefs (positions t (t + m * 2))) <= m + Z.of_nat lines).
  { intros cs c B D EV FIT T. rewrite <- (Z.mul_1_r m) at 1 4. rewrite <- EV.
    apply (C135_prediction_partial numbers_only decide_numbers (jacobi five MN) "i" 1 [("j", 1)] jacobi_distances 1 8 (map (scale_dist 8) jacobi_distances) jacobi_total rows numbered stencil_wrefs lines 2 (8 * (Z.of_nat lines * 2)) s t m cs c);
      try assumption; try reflexivity; try exact C68_usual; try exact C111_uniform; try exact numbers_only_sound; try exact decide_numbers_sound; try exact C111_uses.
    - repeat constructor; cbn; intuition discriminate.
    - intros a b [<-|[<-|[<-|[]]]] [<-|[<-|[<-|[]]]] E; vm_compute in E; congruence.
    - intros x. unfold rows. destruct (String.eqb x "N"); reflexivity.
    - intros a dims J. cbn in J. destruct J as [[= <- <-]|[J|[[= <- <-]|[]]]]; [right; eexists; reflexivity|discriminate J|now left]. }
  destruct I as [<-|[<-|[]]]; eapply G; try (vm_compute; reflexivity); vm_compute; discriminate.
Qed.
(** Two places of an array are written, 100 elements apart. In a cache of 16 lines both cause evictions, in one of 80 lines the first one only. *)
Definition apart : list wref := [((0%nat, 100), true); ((0%nat, 0), true)].
Example C135_apart : forall s t m, s <= t - 100 -> 0 <= m ->
  m * 2 - 16 <= evictions_after 16 (wtrace 4 apart (positions s t)) (wtrace 4 apart (positions t (t + m * 4))) <= m * 2 + 16
  /\ m * 1 - 80 <= evictions_after 80 (wtrace 4 apart (positions s t)) (wtrace 4 apart (positions t (t + m * 4))) <= m * 1 + 80.
Proof.
  intros s t m ST M. assert (A : forall q r, In q (written apart) -> In r (written apart) -> fst q = fst r -> s <= t - (snd q - snd r)).
  { intros q r I J _. vm_compute in I, J. destruct I as [<-|[<-|[]]], J as [<-|[<-|[]]]; cbn [snd]; lia. }
  split; [exact (C135_evictions 16 4 apart s t m eq_refl ltac:(lia) M ltac:(vm_compute; discriminate) A)|exact (C135_evictions 80 4 apart s t m eq_refl ltac:(lia) M ltac:(vm_compute; discriminate) A)].
Qed.
Example C135_counted : evictions_after 16 (wtrace 4 apart (positions 0 200)) (wtrace 4 apart (positions 200 (200 + 10 * 4))) = 20
  /\ evictions_after 80 (wtrace 4 apart (positions 0 400)) (wtrace 4 apart (positions 400 (400 + 10 * 4))) = 10.
Proof. vm_compute. split; reflexivity. Qed.
Example C135_fits : evictions_after 3 (wtrace 4 [((0%nat, 0), true)] (positions 0 8)) (wtrace 4 [((0%nat, 0), true)] (positions 4 12)) = 0.
Proof. apply (C135_full 3 _ _ [(0%nat, 0); (0%nat, 1); (0%nat, 2)]); [vm_compute; intuition|reflexivity]. Qed.
Example C135_level : exists cs c, jacobi_level 400000 = Ok cs /\ desymbolize rows cs = Ok c /\ evicts c = 0.
Proof. eexists. eexists. split; [vm_compute; reflexivity|]. split; [vm_compute; reflexivity|]. reflexivity. Qed.
