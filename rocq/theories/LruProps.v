(** C111: layer conditions and caches which replace the least recently used line. *)
From Coq Require Import String Permutation.
From Verif Require Import PyBase AstModel AstSpec LCModel LCSpec LCProofs LCProps FrontModel FrontSpec FrontDistance FrontProps LruSpec LruProofs LruLink.
Local Open Scope string_scope.
Local Open Scope list_scope.
Local Open Scope Z_scope.

(** ** Single accesses *)
(** An access hits if all streams up to the reuse distance and 2 (width - 1) elements of each reference fit, whatever positions are left out (ends of rows). *)
Theorem C111_hit : forall n width refs pre r post ts1 ts2 t v, 0 < width -> refs = pre ++ r :: post -> distance refs pre r = Some v ->
  Forall (fun p => t - v <= p < t) ts2 -> needed (distances refs) (v + 1) + 2 * Z.of_nat (List.length refs) * (width - 1) <= Z.of_nat n * width ->
  hit n (trace width refs (ts1 ++ (t - v) :: ts2) ++ map (line_of width t) pre) (line_of width t r) = true.
Proof. intros n width refs pre r post ts1 ts2 t v W E D F H. apply (access_hit n width refs pre r post (ts1 ++ (t - v) :: ts2) t v W E D); [|exact H]. intros _. now exists ts1, ts2. Qed.
(** Accesses to the line of the element before hit if two elements of all streams fit. *)
Theorem C111_neighbour : forall n width refs pre r post ts t, 0 < width -> refs = pre ++ r :: post -> (snd r + t) mod width <> 0 ->
  needed (distances refs) 2 + 2 * Z.of_nat (List.length refs) * (width - 1) <= Z.of_nat n * width ->
  hit n (trace width refs (ts ++ [t - 1]) ++ map (line_of width t) pre) (line_of width t r) = true.
Proof. exact neighbour_hit. Qed.
(** The first element of a line misses if the streams up to the distance less one line are larger than the cache, and if there is no reuse. *)
Theorem C111_miss : forall n width refs pre r post s t, 0 < width -> refs = pre ++ r :: post -> s <= t -> (snd r + t) mod width = 0 ->
  match distance refs pre r with None => True | Some v => width <= v /\ Z.of_nat n * width <= needed (distances refs) (v - width) end ->
  hit n (trace width refs (positions s t) ++ map (line_of width t) pre) (line_of width t r) = false.
Proof. exact access_miss. Qed.
(** If all lines fit, all lines accessed before hit. *)
Theorem C111_full : forall n past lines (l : line), incl past lines -> (List.length lines <= n)%nat -> In l past -> hit n past l = true.
Proof.
  intros n past lines l I N J. destruct (last_access l past J) as (p1 & p2 & E & _). rewrite E. apply (hit_within n p1 l p2 past); [intros x K; rewrite E; apply in_or_app; right; now right|].
  etransitivity; [|exact N]. apply NoDup_incl_length; [apply NoDup_nodup|]. intros x K. apply nodup_In in K. apply I. now destruct K as [<-|K].
Qed.

(** ** Misses while each stream passes one line *)
Theorem C111_misses : forall n width refs s t, 0 < width -> s < t ->
  needed (distances refs) 2 + 2 * Z.of_nat (List.length refs) * (width - 1) <= Z.of_nat n * width -> (forall v, In (Some v) (distances refs) -> s <= t - v) ->
  missing (distances refs) (Z.of_nat n * width + Z.of_nat (List.length refs) * width)
  <= misses_after n (trace width refs (positions s t)) (trace width refs (positions t (t + width)))
  <= missing (distances refs) (Z.of_nat n * width - Z.of_nat (List.length refs) * (2 * width - 1)).
Proof. exact misses_bounds. Qed.

(** ** Kernels *)
(** References move by one element with each iteration of the innermost loop. *)
Theorem C111_iteration : forall k inner incr rest n sizes idx env v t, usual k -> checks k = Ok tt -> rev (loops k) = (inner, incr) :: rest ->
  lookup (variables k) n = Some (Some (map SVar sizes)) -> uniform (array_references k n) -> uses inner (array_references k n) -> In idx (array_references k n) ->
  place (set env inner (v + t)) (map SVar sizes) idx = place (set env inner v) (map SVar sizes) idx + t.
Proof. exact kernel_advances. Qed.
(** The distances found in a kernel are the numbers of iterations since elements were accessed last, in whatever order the references are made. *)
Theorem C111_distances : forall less k inner incr rest rho number refs ds w,
  usual k -> NoDup (map fst (variables k)) -> (forall n, uniform (array_references k n)) -> less_sound less -> rev (loops k) = (inner, incr) :: rest ->
  (forall n, array_references k n <> [] -> uses inner (array_references k n)) ->
  (forall n m, In n (map fst (variables k)) -> In m (map fst (variables k)) -> number n = number m -> n = m) ->
  reuse_distances less k = Ok (ds, w) -> Forall (not_negative rho) ds -> Permutation refs (kernel_refs number rho k (variables k)) ->
  Permutation (map (dist_value rho) ds) (distances refs).
Proof. exact kernel_lru. Qed.
(** Predicted misses of a slightly larger and of a slightly smaller cache enclose those of the cache. *)
Theorem C111_prediction : forall less decide k inner incr rest ds w es tails total rho number refs n width s t cs1 cs2 c1 c2,
  usual k -> NoDup (map fst (variables k)) -> (forall n, uniform (array_references k n)) -> less_sound less -> sound decide -> rev (loops k) = (inner, incr) :: rest ->
  (forall n, array_references k n <> [] -> uses inner (array_references k n)) ->
  (forall n m, In n (map fst (variables k)) -> In m (map fst (variables k)) -> number n = number m -> n = m) ->
  reuse_distances less k = Ok (ds, w) -> (forall s, 0 < rho s) -> Forall (not_negative rho) ds -> consistent rho (map (scale_dist es) ds) ->
  0 < es -> (forall d, In d tails <-> In d (map (scale_dist es) ds)) ->
  Permutation refs (kernel_refs number rho k (variables k)) ->
  0 < width -> s < t -> (forall v, In (Some v) (distances refs) -> s <= t - v) ->
  needed (distances refs) 2 + 2 * Z.of_nat (List.length refs) * (width - 1) <= Z.of_nat n * width ->
  build_level decide ds es w tails total (es * (Z.of_nat n * width + Z.of_nat (List.length refs) * width)) = Ok cs1 -> desymbolize rho cs1 = Ok c1 ->
  build_level decide ds es w tails total (es * (Z.of_nat n * width - Z.of_nat (List.length refs) * (2 * width - 1))) = Ok cs2 -> desymbolize rho cs2 = Ok c2 ->
  es * (Z.of_nat n * width - Z.of_nat (List.length refs) * (2 * width - 1)) <= eval rho total ->
  misses c1 <= misses_after n (trace width refs (positions s t)) (trace width refs (positions t (t + width))) <= misses c2.
Proof.
  intros less decide k inner incr rest ds w es tails total rho number refs n width s t cs1 cs2 c1 c2 U ND UN LS SD R AU INJ RD RP NN CO ES T PR W ST WA FIT B1 D1 B2 D2 TO.
  pose proof (kernel_lru less k inner incr rest rho number refs ds w U ND UN LS R AU INJ RD NN PR) as P. pose proof (misses_bounds n width refs s t W ST FIT WA) as [M1 M2].
  destruct (level_missing _ _ _ _ _ _ _ _ _ _ SD RP ES T CO B1 D1) as [H1 _]. destruct (level_missing _ _ _ _ _ _ _ _ _ _ SD RP ES T CO B2 D2) as [_ H2]. specialize (H2 TO).
  rewrite (missing_perm _ _ _ P) in H1. rewrite (missing_perm _ _ _ P) in H2. split; lia.
Qed.

(** ** Limits *)
Lemma two_lines t : 0 < t -> cache_after 2 (trace 1 [(0%nat, 1); (0%nat, 0)] (positions 0 t)) = [(0%nat, t - 1); (0%nat, t)].
Proof.
  intros P. replace t with (Z.of_nat (S (Z.to_nat (t - 1)))) by lia. generalize (Z.to_nat (t - 1)). induction n as [|n IH]; [reflexivity|].
  replace (Z.of_nat (S (S n))) with (Z.of_nat (S n) + 1) by lia. rewrite positions_snoc, trace_app by lia. unfold cache_after in *. rewrite fold_left_app, IH. set (u := Z.of_nat (S n)). cbn [trace flat_map iteration map fold_left app]. unfold line_of. cbn [fst snd]. rewrite !Z.div_1_r.
  unfold touch, line_eqb. cbn [filter fst snd Nat.eqb andb]. replace (u - 1 =? 1 + u) with false by (symmetry; apply Z.eqb_neq; lia). replace (u =? 1 + u) with false by (symmetry; apply Z.eqb_neq; lia). cbn [negb firstn filter fst snd Nat.eqb andb].
  replace (1 + u =? 0 + u) with false by (symmetry; apply Z.eqb_neq; lia). cbn [negb firstn]. replace (0 + u) with (u + 1 - 1) by lia. replace (1 + u) with (u + 1) by lia. reflexivity.
Qed.
(** The prediction for the size of the cache itself is not exact: a[i+1] and a[i] in a cache of two elements. *)
Theorem C111_exact_refuted : exists ds es tails total n refs c, Permutation (map (dist_value (fun _ => 1)) ds) (distances refs)
  /\ (forall d, In d tails <-> In d (map (scale_dist es) ds))
  /\ (do cs <- build_level decide_numbers ds es 0 tails total (es * Z.of_nat n); desymbolize (fun _ => 1) cs) = Ok c
  /\ misses c = 1 /\ forall t, 0 < t -> misses_after n (trace 1 refs (positions 0 t)) (trace 1 refs (positions t (t + 1))) = 2.
Proof.
  exists [Poly [([], 1)]; Inf], 8, [Poly [([], 8)]; Inf], [([], 8000)], 2%nat, [(0%nat, 1); (0%nat, 0)]. eexists. split; [apply perm_swap|]. split; [intros d; cbn; tauto|]. split; [vm_compute; reflexivity|]. split; [reflexivity|].
  intros t P. rewrite positions_snoc by lia. replace (positions t t) with (@nil Z) by (unfold positions; now rewrite Z.sub_diag). cbn [app trace flat_map iteration map misses_after].
  assert (E := two_lines t P). unfold line_of. cbn [fst snd]. rewrite !Z.div_1_r. unfold hit. unfold cache_after in *. change (flat_map (iteration 1 [(0%nat, 1); (0%nat, 0)]) (positions 0 t)) with (trace 1 [(0%nat, 1); (0%nat, 0)] (positions 0 t)). rewrite fold_left_app, E. cbn [fold_left]. unfold touch, line_eqb. cbn [existsb filter fst snd Nat.eqb andb].
  replace (t - 1 =? 1 + t) with false by (symmetry; apply Z.eqb_neq; lia). replace (t =? 1 + t) with false by (symmetry; apply Z.eqb_neq; lia). replace (1 + t =? t - 1) with false by (symmetry; apply Z.eqb_neq; lia). replace (1 + t =? t) with false by (symmetry; apply Z.eqb_neq; lia).
  cbn [negb firstn existsb fst snd Nat.eqb andb orb]. replace (0 + t =? 1 + t) with false by (symmetry; apply Z.eqb_neq; lia). replace (0 + t =? t - 1) with false by (symmetry; apply Z.eqb_neq; lia). reflexivity.
Qed.
(** Caches with sets may evict lines earlier: three arrays which start in the same set, in a cache with eight sets of two lines. A fully associative cache of
    this size keeps the lines. *)
Theorem C111_sets_refuted : exists sets ways placed width refs r t, 0 < sets /\ needed (distances refs) 2 + 2 * Z.of_nat (List.length refs) * (width - 1) <= sets * Z.of_nat ways * width
  /\ In r refs /\ (snd r + t) mod width <> 0 /\ hit (Z.to_nat sets * ways) (trace width refs (positions 0 t)) (line_of width t r) = true
  /\ hit_in_set sets ways placed (trace width refs (positions 0 t)) (line_of width t r) = false.
Proof.
  exists 8, 2%nat, (fun l => 1000 * Z.of_nat (fst l) + snd l), 2, [(0%nat, 0); (1%nat, 0); (2%nat, 0)], (0%nat, 0), 5. split; [reflexivity|]. split; [vm_compute; discriminate|]. split; [now left|]. split; [discriminate|]. split; reflexivity.
Qed.
Print Assumptions C111_hit.
Print Assumptions C111_neighbour.
Print Assumptions C111_miss.
Print Assumptions C111_full.
Print Assumptions C111_misses.
Print Assumptions C111_iteration.
Print Assumptions C111_distances.
Print Assumptions C111_prediction.
Print Assumptions C111_exact_refuted.
Print Assumptions C111_sets_refuted.

(** The stencil with rows of 20 elements; b has number 0, a number 1. Lines of two elements, elements of 8 bytes. *)
Definition rows (s : string) : Z := if String.eqb s "N" then 20 else 1000.
Definition numbered (n : string) : nat := if String.eqb n "a" then 1%nat else if String.eqb n "b" then 0%nat else 2%nat.
Definition stencil_refs : list ref := [(1%nat, 20999); (1%nat, 21001); (1%nat, 20980); (1%nat, 21020); (0%nat, 21000)].
Definition jacobi_distances : list dist := [Poly [([], -1); (["N"], 1)]; Poly [([], 2)]; Poly [(["N"], 1); ([], -1)]; Inf; Inf].
Definition jacobi_total : poly := [(["M"; "N"], 16)].
Example C111_refs : kernel_refs numbered rows (jacobi five MN) (variables (jacobi five MN)) = [(0%nat, 21000); (1%nat, 20999); (1%nat, 21001); (1%nat, 20980); (1%nat, 21020)].
Proof. vm_compute. reflexivity. Qed.
Example C111_values : distances stencil_refs = [Some 2; Some 19; Some 19; None; None] /\ needed (distances stencil_refs) 19 = 78. Proof. split; reflexivity. Qed.
Lemma no_references n : n <> "a" -> n <> "b" -> array_references (jacobi five MN) n = [].
Proof.
  intros NA NB. unfold array_references, entries, jacobi. cbn [sources destinations lookup]. destruct (String.eqb_spec n "s") as [->|NS]; [reflexivity|]. apply String.eqb_neq in NA, NB, NS. unfold lookup. cbn [find fst option_map]. rewrite ?NA, ?NB, ?NS. reflexivity.
Qed.
Example C111_uniform : forall n, uniform (array_references (jacobi five MN) n).
Proof.
  intros n. destruct (String.eqb_spec n "a") as [->|NA]; [exact C70_uniform|]. destruct (String.eqb_spec n "b") as [->|NB].
  - intros a b p s s' v v' c c' A B N N' S S'. cbn in A, B. destruct A as [<-|[]]; destruct B as [<-|[]]. congruence.
  - rewrite (no_references n NA NB). now intros a b p s s' v v' c c' [].
Qed.
Example C111_uses : forall n, array_references (jacobi five MN) n <> [] -> uses "i" (array_references (jacobi five MN) n).
Proof.
  intros n NE. destruct (String.eqb_spec n "a") as [->|NA]; [exact C70_uses|]. destruct (String.eqb_spec n "b") as [->|NB].
  - exists [SVar "j"; SVar "i"], (SVar "i"), 0. cbn. auto.
  - contradict NE. now apply no_references.
Qed.
Example C111_consistent : consistent rows (map (scale_dist 8) jacobi_distances).
Proof.
  intros a b ka kb Ia Ib Ka Kb. cbn [map scale_dist jacobi_distances In] in Ia, Ib.
  repeat destruct Ia as [<-|Ia]; try contradiction; repeat destruct Ib as [<-|Ib]; try contradiction;
    vm_compute in Ka, Kb; injection Ka as <-; injection Kb as <-; vm_compute; split; intros H;
    try reflexivity; try discriminate; try exact I; try (exfalso; apply H; reflexivity); exact H.
Qed.
(** Caches of 20 and of 60 lines: four and two misses in two iterations. *)
Definition jacobi_level (size : Z) := build_level decide_numbers jacobi_distances 8 1 (map (scale_dist 8) jacobi_distances) jacobi_total size.
Example C111_example : forall lines p, In (lines, p) [(20%nat, 4); (60%nat, 2)] -> forall s t, s <= t - 19 ->
  misses_after lines (trace 2 stencil_refs (positions s t)) (trace 2 stencil_refs (positions t (t + 2))) = p.
Proof.
  intros lines p I s t ST.
  assert (G : forall c1 c2 cs1 cs2, jacobi_level (8 * (Z.of_nat lines * 2 + 5 * 2)) = Ok cs1 -> desymbolize rows cs1 = Ok c1 -> jacobi_level (8 * (Z.of_nat lines * 2 - 5 * (2 * 2 - 1))) = Ok cs2 -> desymbolize rows cs2 = Ok c2 ->
    (10 <= lines <= 100)%nat -> misses c1 = p -> misses c2 = p -> misses_after lines (trace 2 stencil_refs (positions s t)) (trace 2 stencil_refs (positions t (t + 2))) = p).
  { intros c1 c2 cs1 cs2 B1 D1 B2 D2 LN M1 M2. apply Z.le_antisymm; [rewrite <- M2|rewrite <- M1];
    apply (C111_prediction numbers_only decide_numbers (jacobi five MN) "i" 1 [("j", 1)] jacobi_distances 1 8 (map (scale_dist 8) jacobi_distances) jacobi_total rows numbered stencil_refs lines 2 s t cs1 cs2 c1 c2);
      try assumption; try reflexivity; try exact C68_usual; try exact C111_uniform; try exact numbers_only_sound; try exact decide_numbers_sound; try exact C111_uses; try exact C111_consistent.
    all: try (repeat constructor; cbn; intuition discriminate).
    all: try (intros n m [<-|[<-|[<-|[]]]] [<-|[<-|[<-|[]]]] E; vm_compute in E; congruence).
    all: try lia.
    all: try (intros x; unfold rows; destruct (String.eqb x "N"); reflexivity).
    all: try (rewrite C111_refs; unfold stencil_refs; apply Permutation_sym, Permutation_cons_append).
    all: try (intros v J; vm_compute in J; intuition (try discriminate); match goal with H : Some _ = Some v |- _ => injection H as <-; lia end).
    all: try (change (needed (distances stencil_refs) 2) with 10; change (Z.of_nat (List.length stencil_refs)) with 5; lia).
    all: change (Z.of_nat (List.length stencil_refs)) with 5; change (eval rows jacobi_total) with 320000; lia. }
  destruct I as [[= <- <-]|[[= <- <-]|[]]].
  - eapply G; [vm_compute; reflexivity|vm_compute; reflexivity|vm_compute; reflexivity|vm_compute; reflexivity|lia|reflexivity|reflexivity].
  - eapply G; [vm_compute; reflexivity|vm_compute; reflexivity|vm_compute; reflexivity|vm_compute; reflexivity|lia|reflexivity|reflexivity].
Qed.
(** A single access after the end of a row was left out *)
Example C111_access : hit 60 (trace 2 stencil_refs ([3; 4; 6; 7; 8; 9; 10; 11; 12; 13; 14; 15; 16; 17; 21; 22; 23; 24]) ++ map (line_of 2 25) (firstn 1 stencil_refs)) (line_of 2 25 (1%nat, 21001)) = true.
Proof.
  apply (C111_hit 60 2 stencil_refs (firstn 1 stencil_refs) (1%nat, 21001) (skipn 2 stencil_refs) [3; 4] [7; 8; 9; 10; 11; 12; 13; 14; 15; 16; 17; 21; 22; 23; 24] 25 19); try reflexivity; [|vm_compute; discriminate].
  repeat (apply Forall_cons; [lia|]). apply Forall_nil.
Qed.
Example C111_lost : hit 20 (trace 2 stencil_refs (positions 0 25) ++ map (line_of 2 25) (firstn 1 stencil_refs)) (line_of 2 25 (1%nat, 21001)) = false.
Proof. apply (C111_miss 20 2 stencil_refs (firstn 1 stencil_refs) (1%nat, 21001) (skipn 2 stencil_refs) 0 25); try reflexivity; try lia. vm_compute. split; discriminate. Qed.
Example C111_next : hit 10 (trace 2 stencil_refs ([7] ++ [24 - 1]) ++ map (line_of 2 24) (firstn 1 stencil_refs)) (line_of 2 24 (1%nat, 21001)) = true.
Proof. apply (C111_neighbour 10 2 stencil_refs (firstn 1 stencil_refs) (1%nat, 21001) (skipn 2 stencil_refs) [7] 24); try reflexivity; vm_compute; discriminate. Qed.
