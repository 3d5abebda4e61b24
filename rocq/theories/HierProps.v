(** C136: predictions for each level of a hierarchy of caches. *)
From Coq Require Import String Permutation.
From Verif Require Import PyBase AstModel AstSpec LCModel LCSpec LCProofs LCProps FrontModel FrontSpec FrontDistance FrontProps LruSpec LruProofs LruLink LruProps EvictSpec EvictProofs HierSpec HierProofs.
Local Open Scope string_scope.
Local Open Scope list_scope.
Local Open Scope Z_scope.

(** ** All accesses *)
(** Whatever is accessed, at no level there are less misses than in one cache of the lines of this level and of those above together. *)
Theorem C136_lower : forall above n past future, misses_after (together above + n) past future <= level_misses above n past future.
Proof. intros above n past future. apply hierarchy_lower. Qed.

(** ** Streams *)
(** While each stream passes one line: misses of the level of n lines. At most each reference misses whose line may be replaced since it was used first. *)
Theorem C136_streams : forall n1 above n width refs s t, 0 < width -> s < t ->
  needed (distances refs) 2 + 2 * Z.of_nat (List.length refs) * (width - 1) <= Z.of_nat n1 * width ->
  (forall r v, In r refs -> farthest refs r = Some v -> s <= t - v - width) ->
  missing (distances refs) (Z.of_nat (together (n1 :: above) + n) * width + Z.of_nat (List.length refs) * width)
  <= level_misses (n1 :: above) n (trace width refs (positions s t)) (trace width refs (positions t (t + width)))
  <= distinct (filter (fun r => negb (held n width refs r)) refs).
Proof. intros n1 above n width refs s t W ST FIT WA. split; [now apply hierarchy_missing|now apply hierarchy_upper]. Qed.
(** If no line may be replaced while it is used, each array causes one miss. *)
Theorem C136_held : forall n1 above n width refs s t, 0 < width -> s < t ->
  needed (distances refs) 2 + 2 * Z.of_nat (List.length refs) * (width - 1) <= Z.of_nat n1 * width ->
  (forall r v, In r refs -> farthest refs r = Some v -> s <= t - v - width) -> (forall q, In q refs -> held n width refs q = true \/ first_of_array refs q = true) ->
  level_misses (n1 :: above) n (trace width refs (positions s t)) (trace width refs (positions t (t + width))) = distinct (filter (first_of_array refs) refs).
Proof. exact hierarchy_exact. Qed.

(** ** Kernels *)
(** Of a level below others, at least the misses are found which are predicted for a cache of the size of all levels up to it and one line for each reference. If
    the cache holds all lines while they are used, exactly those predicted for its own size. Missing: what is predicted if some lines are used again too late
    for the cache, see below, and, as in C111, ends of rows and references which stay in the innermost loop. *)
Theorem C136_prediction_partial : forall less decide k inner incr rest ds w es tails total rho number refs n1 above n width s t,
  usual k -> NoDup (map fst (variables k)) -> (forall n, uniform (array_references k n)) -> less_sound less -> sound decide -> rev (loops k) = (inner, incr) :: rest ->
  (forall n, array_references k n <> [] -> uses inner (array_references k n)) ->
  (forall n m, In n (map fst (variables k)) -> In m (map fst (variables k)) -> number n = number m -> n = m) ->
  reuse_distances less k = Ok (ds, w) -> (forall s, 0 < rho s) -> Forall (not_negative rho) ds -> consistent rho (map (scale_dist es) ds) ->
  0 < es -> (forall d, In d tails <-> In d (map (scale_dist es) ds)) ->
  Permutation refs (kernel_refs number rho k (variables k)) ->
  0 < width -> s < t -> (forall r v, In r refs -> farthest refs r = Some v -> s <= t - v - width) ->
  needed (distances refs) 2 + 2 * Z.of_nat (List.length refs) * (width - 1) <= Z.of_nat n1 * width ->
  (forall cs c, build_level decide ds es w tails total (es * (Z.of_nat (together (n1 :: above) + n) * width + Z.of_nat (List.length refs) * width)) = Ok cs -> desymbolize rho cs = Ok c ->
    misses c <= level_misses (n1 :: above) n (trace width refs (positions s t)) (trace width refs (positions t (t + width)))) /\
  (forall cs c, build_level decide ds es w tails total (es * (Z.of_nat n * width)) = Ok cs -> desymbolize rho cs = Ok c -> es * (Z.of_nat n * width) <= eval rho total ->
    (forall q, In q refs -> held n width refs q = true \/ first_of_array refs q = true) ->
    level_misses (n1 :: above) n (trace width refs (positions s t)) (trace width refs (positions t (t + width))) = misses c).
Proof.
  intros less decide k inner incr rest ds w es tails total rho number refs n1 above n width s t U ND UN LS SD R AU INJ RD RP NN CO ES T PR W ST WA FIT.
  pose proof (kernel_lru less k inner incr rest rho number refs ds w U ND UN LS R AU INJ RD NN PR) as P. split; intros cs c B D.
  - destruct (level_missing _ _ _ _ _ _ _ _ _ _ SD RP ES T CO B D) as [H _]. rewrite (missing_perm _ _ _ P) in H. etransitivity; [exact H|]. now apply hierarchy_missing.
  - intros TO A. destruct (level_missing _ _ _ _ _ _ _ _ _ _ SD RP ES T CO B D) as [_ H]. rewrite (H TO), (missing_perm _ _ _ P). rewrite (hierarchy_exact n1 above n width refs s t W ST FIT WA A). symmetry.
    apply (missing_held n width); [assumption|assumption|nia|nia].
Qed.

(** ** Limits *)
(** for i: [s = a[i] + a[i + 32] + a[i + 48]] with lines of two elements. The first cache holds a[i + 32] since it was loaded as a[i + 48], but not a[i]. *)
Definition ahead_kernel : front := mkFront [("i", 1)] [("a", Some [SVar "N"])] [("a", [Some [SVar "i"]; Some [SAdd (SVar "i") (SInt 32)]; Some [SAdd (SVar "i") (SInt 48)]])] [].
Definition ahead_refs : list ref := [(0%nat, 500); (0%nat, 532); (0%nat, 548)].
Definition ahead_rho (n : string) : Z := if String.eqb n "N" then 1000 else 500.
(** The prediction of a level assumes that it sees all accesses. A cache which is asked only for what misses above does not notice that lines are used
    there, and replaces them although the layer condition is fulfilled: twice the predicted misses, although a cache of the same size which sees all
    accesses has as many as predicted, and although this is predicted for all sizes nearby. *)
Theorem C136_level_refuted : exists k less decide ds w tails total rho refs n1 n2 width s t m,
  usual k /\ less_sound less /\ sound decide /\ (forall s, 0 < rho s) /\ reuse_distances less k = Ok (ds, w) /\ refs = kernel_refs (fun _ => 0%nat) rho k (variables k) /\
  needed (distances refs) 2 + 2 * Z.of_nat (List.length refs) * (width - 1) <= Z.of_nat n1 * width /\ (forall r v, In r refs -> farthest refs r = Some v -> s <= t - v - width) /\
  (forall d, In d tails <-> In d (map (scale_dist 8) ds)) /\
  (forall size, In size [Z.of_nat n2 * width + Z.of_nat (List.length refs) * width; Z.of_nat n2 * width; Z.of_nat n2 * width - Z.of_nat (List.length refs) * (2 * width - 1)] ->
    exists cs c, build_level decide ds 8 w tails total (8 * size) = Ok cs /\ desymbolize rho cs = Ok c /\ misses c = 1) /\
  misses_after n2 (trace width refs (positions s t)) (trace width refs (positions t (t + m * width))) = m * 1 /\
  level_misses [n1] n2 (trace width refs (positions s t)) (trace width refs (positions t (t + m * width))) = m * 2.
Proof.
  exists ahead_kernel, numbers_only, decide_numbers, [Poly [([], 16)]; Poly [([], 32)]; Inf], 0, [Poly [([], 128)]; Poly [([], 256)]; Inf], [(["N"], 8)], ahead_rho, ahead_refs, 29%nat, 45%nat, 2, 0, 150, 10.
  split; [|split; [exact numbers_only_sound|split; [exact decide_numbers_sound|split; [|split; [vm_compute; reflexivity|split; [vm_compute; reflexivity|split; [vm_compute; discriminate|split; [|split; [|split; [|split; [vm_compute; reflexivity|vm_compute; reflexivity]]]]]]]]]]].
  - split; [repeat constructor; intros []|]. intros n arefs [[= <- <-]|[]]; right; exists ["N"]; (split; [reflexivity|]); intros a I.
    destruct I as [<-|[<-|[<-|[]]]]; eexists; (split; [reflexivity|]); (split; [discriminate|]); (split; [reflexivity|]); (split; [intros s [<-|[]] [X|[]]; discriminate|]); intros s [<-|[]].
    + exists (Some "i"), 0. split; [reflexivity|now left].
    + exists (Some "i"), 32. split; [reflexivity|now left].
    + exists (Some "i"), 48. split; [reflexivity|now left].
  - intros s. unfold ahead_rho. destruct (String.eqb s "N"); reflexivity.
  - intros r v I F. destruct I as [<-|[<-|[<-|[]]]]; vm_compute in F; try discriminate; injection F as <-; vm_compute; discriminate.
  - intros d. vm_compute. tauto.
  - intros size [<-|[<-|[<-|[]]]]; eexists; eexists; (split; [vm_compute; reflexivity|]); (split; [vm_compute; reflexivity|]); reflexivity.
Qed.

Print Assumptions C136_lower.
Print Assumptions C136_streams.
Print Assumptions C136_held.
Print Assumptions C136_prediction_partial.
Print Assumptions C136_level_refuted.

(** The stencil of C111 in a hierarchy of 20, 30 and 70 lines of two elements: all lines are held in the last cache, the predicted two misses are found. *)
Lemma stencil_farthest : forall s t, s <= t - 42 -> forall r v, In r stencil_refs -> farthest stencil_refs r = Some v -> s <= t - v - 2.
Proof. intros s t H r v I F. destruct I as [<-|[<-|[<-|[<-|[<-|[]]]]]]; vm_compute in F; try discriminate; injection F as <-; lia. Qed.
Example C136_example : forall s t, s <= t - 42 ->
  2 <= level_misses [20%nat; 30%nat] 40 (trace 2 stencil_refs (positions s t)) (trace 2 stencil_refs (positions t (t + 2))) /\
  level_misses [20%nat; 30%nat] 70 (trace 2 stencil_refs (positions s t)) (trace 2 stencil_refs (positions t (t + 2))) = 2.
Proof.
  intros s t ST. assert (G : forall n, _ /\ _) by (intros n;
    refine (C136_prediction_partial numbers_only decide_numbers (jacobi five MN) "i" 1 [("j", 1)] jacobi_distances 1 8 (map (scale_dist 8) jacobi_distances) jacobi_total rows numbered stencil_refs 20 [30%nat] n 2 s t
      C68_usual _ C111_uniform numbers_only_sound decide_numbers_sound eq_refl C111_uses _ _ _ _ C111_consistent eq_refl _ _ eq_refl _ (stencil_farthest s t ST) _);
    [repeat constructor; cbn; intuition discriminate
    |intros a b [<-|[<-|[<-|[]]]] [<-|[<-|[<-|[]]]] E; vm_compute in E; congruence
    |reflexivity
    |intros x; unfold rows; destruct (String.eqb x "N"); reflexivity
    |repeat constructor; vm_compute; discriminate
    |reflexivity
    |rewrite C111_refs; unfold stencil_refs; apply Permutation_sym, Permutation_cons_append
    |lia
    |vm_compute; discriminate]).
  split.
  - destruct (G 40%nat) as [H _]. eapply Z.le_trans; [|eapply H; vm_compute; reflexivity]. vm_compute. discriminate.
  - destruct (G 70%nat) as [_ H]. etransitivity; [eapply H; [vm_compute; reflexivity|vm_compute; reflexivity|vm_compute; discriminate|]|reflexivity].
    intros q [<-|[<-|[<-|[<-|[<-|[]]]]]]; [left|left|left|right|right]; vm_compute; reflexivity.
Qed.
(** The kernel above: between one and two misses, it is two. With 60 instead of 45 lines it is one. *)
Example C136_between : missing (distances ahead_refs) (Z.of_nat (together [29%nat] + 45) * 2 + 6) = 1 /\ distinct (filter (fun r => negb (held 45 2 ahead_refs r)) ahead_refs) = 2
  /\ (forall s t, s <= t - 50 -> 1 <= level_misses [29%nat] 45 (trace 2 ahead_refs (positions s t)) (trace 2 ahead_refs (positions t (t + 2))) <= 2)
  /\ (forall s t, s <= t - 50 -> level_misses [29%nat] 60 (trace 2 ahead_refs (positions s t)) (trace 2 ahead_refs (positions t (t + 2))) = 1).
Proof.
  assert (W : forall s t, s <= t - 50 -> forall r v, In r ahead_refs -> farthest ahead_refs r = Some v -> s <= t - v - 2).
  { intros s t H r v I F. destruct I as [<-|[<-|[<-|[]]]]; vm_compute in F; try discriminate; injection F as <-; lia. }
  split; [vm_compute; reflexivity|]. split; [vm_compute; reflexivity|]. split; intros s t ST.
  - exact (C136_streams 29 [] 45 2 ahead_refs s t eq_refl ltac:(lia) ltac:(vm_compute; discriminate) (W s t ST)).
  - rewrite (C136_held 29 [] 60 2 ahead_refs s t eq_refl ltac:(lia) ltac:(vm_compute; discriminate) (W s t ST)); [vm_compute; reflexivity|].
    intros q [<-|[<-|[<-|[]]]]; [left|left|right]; vm_compute; reflexivity.
Qed.
Example C136_any : misses_after (together [2%nat; 1%nat] + 2) [(0%nat, 1); (0%nat, 2); (0%nat, 3)] [(0%nat, 1); (1%nat, 0); (0%nat, 2); (0%nat, 4); (0%nat, 1)]
  <= level_misses [2%nat; 1%nat] 2 [(0%nat, 1); (0%nat, 2); (0%nat, 3)] [(0%nat, 1); (1%nat, 0); (0%nat, 2); (0%nat, 4); (0%nat, 1)]
  /\ level_misses [2%nat; 1%nat] 2 [(0%nat, 1); (0%nat, 2); (0%nat, 3)] [(0%nat, 1); (1%nat, 0); (0%nat, 2); (0%nat, 4); (0%nat, 1)] = 5.
Proof. split; [apply C136_lower|vm_compute; reflexivity]. Qed.
