(** C138: layer conditions and caches with sets, each of which replaces its least recently used line. *)
From Coq Require Import String Permutation Lia.
From Verif Require Import PyBase AstModel AstSpec AstProofs LCModel LCSpec LCProofs LCProps CodeModel CodeSpec CodeProofs CodeProps FrontModel FrontSpec FrontDistance FrontProps LruSpec LruProofs LruLink LruProps FlowModel FlowSpec FlowProofs FlowLink FlowProps SetsSpec SetsProofs SetsFlow.
Local Open Scope string_scope.
Local Open Scope list_scope.
Local Open Scope Z_scope.

(** ** Single accesses *)
(** An access hits if all streams up to the reuse distance fit while 2 (width - 1) elements and all but one line of a way are set aside for each reference, wherever the
    arrays begin and whatever positions are left out (ends of rows). *)
Theorem C138_hit : forall sets ways base width refs pre r post ts1 ts2 t v, 0 < sets -> 0 < width -> refs = pre ++ r :: post -> distance refs pre r = Some v ->
  Forall (fun p => t - v <= p < t) ts2 -> needed (distances refs) (v + 1) + Z.of_nat (List.length refs) * (2 * (width - 1) + width * (sets - 1)) <= sets * Z.of_nat ways * width ->
  hit_in_set sets ways (in_memory base) (trace width refs (ts1 ++ (t - v) :: ts2) ++ map (line_of width t) pre) (line_of width t r) = true.
Proof. intros sets ways base width refs pre r post ts1 ts2 t v SP W E D F H. apply (sets_hit sets ways base SP width refs pre r post (ts1 ++ (t - v) :: ts2) t v W E D); [|exact H]. intros _. now exists ts1, ts2. Qed.
Print Assumptions C138_hit.
(** Accesses to the line of the element before hit if two elements of all streams fit. *)
Theorem C138_neighbour : forall sets ways base width refs pre r post ts t, 0 < sets -> 0 < width -> refs = pre ++ r :: post -> (snd r + t) mod width <> 0 ->
  needed (distances refs) 2 + Z.of_nat (List.length refs) * (2 * (width - 1) + width * (sets - 1)) <= sets * Z.of_nat ways * width ->
  hit_in_set sets ways (in_memory base) (trace width refs (ts ++ [t - 1]) ++ map (line_of width t) pre) (line_of width t r) = true.
Proof. intros sets ways base width refs pre r post ts t SP. exact (sets_neighbour sets ways base SP width refs pre r post ts t). Qed.
Print Assumptions C138_neighbour.
(** The first element of a line misses if the streams up to the distance less one line are larger than the cache and all but one line of a way for each reference,
    and if there is no reuse. *)
Theorem C138_miss : forall sets ways base width refs pre r post s t, 0 < sets -> 0 < width -> refs = pre ++ r :: post -> s <= t -> (snd r + t) mod width = 0 ->
  match distance refs pre r with
  | None => True
  | Some v => width <= v /\ sets * Z.of_nat ways * width + Z.of_nat (List.length refs) * (width * (sets - 1)) <= needed (distances refs) (v - width)
  end ->
  hit_in_set sets ways (in_memory base) (trace width refs (positions s t) ++ map (line_of width t) pre) (line_of width t r) = false.
Proof. intros sets ways base width refs pre r post s t SP. exact (sets_miss sets ways base SP width refs pre r post s t). Qed.
Print Assumptions C138_miss.

(** ** Misses while each stream passes one line *)
Theorem C138_misses : forall sets ways base width refs s t, 0 < sets -> 0 < width -> s < t ->
  needed (distances refs) 2 + Z.of_nat (List.length refs) * (2 * (width - 1) + width * (sets - 1)) <= sets * Z.of_nat ways * width -> (forall v, In (Some v) (distances refs) -> s <= t - v) ->
  missing (distances refs) (sets * Z.of_nat ways * width + Z.of_nat (List.length refs) * (width * sets))
  <= misses_in_sets sets ways base (trace width refs (positions s t)) (trace width refs (positions t (t + width)))
  <= missing (distances refs) (sets * Z.of_nat ways * width - Z.of_nat (List.length refs) * (width * sets + width - 1)).
Proof. intros sets ways base width refs s t SP. exact (sets_misses_bounds sets ways base SP width refs s t). Qed.
Print Assumptions C138_misses.
(** With a single set it is the cache of C111. *)
Theorem C138_one_set : forall ways base past future, misses_in_sets 1 ways base past future = misses_after ways past future.
Proof.
  intros ways base past future. revert past. induction future as [|l f IH]; intros past; [reflexivity|]. cbn [misses_in_sets misses_after]. rewrite IH. f_equal. unfold hit_in_set.
  replace (filter _ past) with past; [reflexivity|]. symmetry. induction past as [|x past IHp]; [reflexivity|]. cbn [filter]. rewrite IHp. now rewrite !Z.mod_1_r, Z.eqb_refl.
Qed.
Print Assumptions C138_one_set.

(** ** Kernels *)
(** Predicted misses of a cache with one way more and of a cache with one way and one line (less an element) less for each reference enclose those of the cache. *)
Theorem C138_prediction : forall less decide k inner incr rest ds w es tails total rho number refs sets ways base width s t cs1 cs2 c1 c2,
  usual k -> NoDup (map fst (variables k)) -> (forall n, uniform (array_references k n)) -> less_sound less -> sound decide -> rev (loops k) = (inner, incr) :: rest ->
  (forall n, array_references k n <> [] -> uses inner (array_references k n)) ->
  (forall n m, In n (map fst (variables k)) -> In m (map fst (variables k)) -> number n = number m -> n = m) ->
  reuse_distances less k = Ok (ds, w) -> (forall s, 0 < rho s) -> Forall (not_negative rho) ds -> consistent rho (map (scale_dist es) ds) ->
  0 < es -> (forall d, In d tails <-> In d (map (scale_dist es) ds)) ->
  Permutation refs (kernel_refs number rho k (variables k)) ->
  0 < sets -> 0 < width -> s < t -> (forall v, In (Some v) (distances refs) -> s <= t - v) ->
  needed (distances refs) 2 + Z.of_nat (List.length refs) * (2 * (width - 1) + width * (sets - 1)) <= sets * Z.of_nat ways * width ->
  build_level decide ds es w tails total (es * (sets * Z.of_nat ways * width + Z.of_nat (List.length refs) * (width * sets))) = Ok cs1 -> desymbolize rho cs1 = Ok c1 ->
  build_level decide ds es w tails total (es * (sets * Z.of_nat ways * width - Z.of_nat (List.length refs) * (width * sets + width - 1))) = Ok cs2 -> desymbolize rho cs2 = Ok c2 ->
  es * (sets * Z.of_nat ways * width - Z.of_nat (List.length refs) * (width * sets + width - 1)) <= eval rho total ->
  misses c1 <= misses_in_sets sets ways base (trace width refs (positions s t)) (trace width refs (positions t (t + width))) <= misses c2.
Proof.
  intros less decide k inner incr rest ds w es tails total rho number refs sets ways base width s t cs1 cs2 c1 c2 U ND UN LS SD R AU INJ RD RP NN CO ES T PR SP W ST WA FIT B1 D1 B2 D2 TO.
  pose proof (kernel_lru less k inner incr rest rho number refs ds w U ND UN LS R AU INJ RD NN PR) as P. pose proof (sets_misses_bounds sets ways base SP width refs s t W ST FIT WA) as [M1 M2].
  destruct (level_missing _ _ _ _ _ _ _ _ _ _ SD RP ES T CO B1 D1) as [H1 _]. destruct (level_missing _ _ _ _ _ _ _ _ _ _ SD RP ES T CO B2 D2) as [_ H2]. specialize (H2 TO).
  rewrite (missing_perm _ _ _ P) in H1. rewrite (missing_perm _ _ _ P) in H2. split; lia.
Qed.
Print Assumptions C138_prediction.

(** ** Executed code *)
(** At most as many lines are missed while the iterations pass one line as the layer conditions of a smaller cache predict, once the elements which are used again were accessed; after rows
    which were left as well. Missing: as in C118, iterations at ends of rows, evictions. *)
Theorem C138_executed_upper_partial : forall eqb items ds ps s ws ls body k, eqb_sound eqb -> Forall c_tree items ->
  items = map SDecl ds ++ map SPragma ps ++ s :: map swap_call ws -> nest s ls body -> process_code eqb (Some items) = Ok k ->
  forall e sizes rho number order, well_behaved e ds ls body -> stencil (front_of k) sizes -> incl sizes (map fst e) -> constants e rho -> any_order order body ->
  (forall a b, In a ds -> In b ds -> number (dname a) = number (dname b) -> dname a = dname b) ->
  forall less decide dd w es tails total sets ways base width cs c, less_sound less -> sound decide -> reuse_distances less (front_of k) = Ok (dd, w) ->
  Forall (not_negative rho) dd -> consistent rho (map (scale_dist es) dd) -> 0 < es -> 0 < sets -> 0 < width -> (forall d, In d tails <-> In d (map (scale_dist es) dd)) ->
  needed (map (dist_value rho) dd) 2 + Z.of_nat (List.length dd) * (2 * (width - 1) + width * (sets - 1)) <= sets * Z.of_nat ways * width ->
  build_level decide dd es w tails total (es * (sets * Z.of_nat ways * width - Z.of_nat (List.length dd) * (width * sets + width - 1))) = Ok cs -> desymbolize rho cs = Ok c ->
  es * (sets * Z.of_nat ways * width - Z.of_nat (List.length dd) * (width * sets + width - 1)) <= eval rho total ->
  forall before window after t evs e', iterations (stack (kernel_nest k)) e = before ++ window ++ after -> line_by_line (position_of sizes (map index ls)) width t before window ->
  (forall v i, In (Some v) (map (dist_value rho) dd) -> 0 <= i < width -> In (t + i - v) (map (position_of sizes (map index ls)) (before ++ window))) ->
  exec e s evs e' -> no_overrun e ds evs ->
  evs = events body before ++ events body window ++ events body after /\
  misses_in_sets sets ways base (lines width number e ds order (events body before)) (lines width number e ds order (events body window)) <= misses c.
Proof.
  intros eqb items ds ps s ws ls body k ES T E N H e sizes rho number order WB ST SE RHO OR INJ less decide dd w es tails total sets ways base width cs c LS SD RD NN CO EP SP WP TL FIT BL DE TO
    before window after t evs e' IT LB WARM X OV.
  destruct (recorded_of eqb items ds ps s ws ls body k T E N H) as (R & K & DC). assert (ND : NoDup (map dname ds)) by apply WB. specialize (DC ND).
  apply (runs ds ls _ body s e N R WB) in X as [-> ->]. split; [now rewrite IT, !events_app|].
  destruct (level_missing _ _ _ _ _ _ _ _ _ _ SD (proj2 RHO) EP TL CO BL DE) as [_ L]. rewrite (L TO).
  destruct (flow_window eqb ds _ ls _ body _ s e rho number order sizes width ES N R K DC WB ST SE RHO OR INJ before window after t IT less dd w LS RD NN LB OV WARM) as (ts & u & -> & -> & C).
  pose proof (values_perm eqb ds _ ls _ body _ s e rho number sizes N R K DC WB ST SE RHO INJ before window after IT less dd w LS RD NN) as P. pose proof (refs_length eqb ds _ ls _ body _ s e rho number sizes N R K DC WB ST SE RHO INJ before window after IT less dd w LS RD NN) as RL. rewrite (missing_perm _ _ _ P), <- RL. destruct C as [EX|(LA & SO & WA)].
  { rewrite EX. rewrite !trace_nothing. cbn [misses_in_sets]. unfold missing. lia. }
  apply (SetsFlow.window_upper sets ways base width _ _ SP WP (same_refs eqb ds _ ls _ body _ s e rho number order sizes ES N R K DC WB ST SE RHO OR)); try assumption. rewrite RL, <- (needed_perm _ _ 2 P). exact FIT.
Qed.
Print Assumptions C138_executed_upper_partial.

(** At least as many are missed as the layer conditions of a slightly larger cache predict, if the iterations had consecutive positions so far. Missing: as above, later rows. *)
Theorem C138_executed_lower_partial : forall eqb items ds ps s ws ls body k, eqb_sound eqb -> Forall c_tree items ->
  items = map SDecl ds ++ map SPragma ps ++ s :: map swap_call ws -> nest s ls body -> process_code eqb (Some items) = Ok k ->
  forall e sizes rho number order, well_behaved e ds ls body -> stencil (front_of k) sizes -> incl sizes (map fst e) -> constants e rho -> any_order order body ->
  (forall a b, In a ds -> In b ds -> number (dname a) = number (dname b) -> dname a = dname b) ->
  forall less decide dd w es tails total sets ways base width cs c, less_sound less -> sound decide -> reuse_distances less (front_of k) = Ok (dd, w) ->
  Forall (not_negative rho) dd -> consistent rho (map (scale_dist es) dd) -> 0 < es -> 0 < sets -> 0 < width -> (forall d, In d tails <-> In d (map (scale_dist es) dd)) ->
  build_level decide dd es w tails total (es * (sets * Z.of_nat ways * width + Z.of_nat (List.length dd) * (width * sets))) = Ok cs -> desymbolize rho cs = Ok c ->
  forall before window after start t evs e', iterations (stack (kernel_nest k)) e = before ++ window ++ after -> start <= t ->
  map (position_of sizes (map index ls)) before = positions start t -> map (position_of sizes (map index ls)) window = positions t (t + width) ->
  exec e s evs e' ->
  evs = events body before ++ events body window ++ events body after /\
  misses c <= misses_in_sets sets ways base (lines width number e ds order (events body before)) (lines width number e ds order (events body window)).
Proof.
  intros eqb items ds ps s ws ls body k ES T E N H e sizes rho number order WB ST SE RHO OR INJ less decide dd w es tails total sets ways base width cs c LS SD RD NN CO EP SP WP TL BL DE
    before window after start t evs e' IT LE EB EW X.
  destruct (recorded_of eqb items ds ps s ws ls body k T E N H) as (R & K & DC). assert (ND : NoDup (map dname ds)) by apply WB. specialize (DC ND).
  apply (runs ds ls _ body s e N R WB) in X as [-> ->]. split; [now rewrite IT, !events_app|].
  destruct (level_missing _ _ _ _ _ _ _ _ _ _ SD (proj2 RHO) EP TL CO BL DE) as [L _]. etransitivity; [exact L|].
  destruct (flow_consecutive eqb ds _ ls _ body _ s e rho number order sizes width ES N R K DC WB ST SE RHO OR before window after t IT start LE EB EW) as (t0 & u & LU & -> & ->).
  pose proof (values_perm eqb ds _ ls _ body _ s e rho number sizes N R K DC WB ST SE RHO INJ before window after IT less dd w LS RD NN) as P. pose proof (refs_length eqb ds _ ls _ body _ s e rho number sizes N R K DC WB ST SE RHO INJ before window after IT less dd w LS RD NN) as RL. rewrite (missing_perm _ _ _ P), <- RL.
  exact (SetsFlow.window_lower sets ways base width _ _ t0 u SP WP (same_refs eqb ds _ ls _ body _ s e rho number order sizes ES N R K DC WB ST SE RHO OR) LU).
Qed.
Print Assumptions C138_executed_lower_partial.

(** ** Example: the five point stencil of C111, with rows of 20 elements and lines of two elements, in caches of two sets with 10 and with 30 ways: four and two misses in two
    iterations, wherever the arrays begin *)
Example C138_example : forall ways p, In (ways, p) [(10%nat, 4); (30%nat, 2)] -> forall base s t, s <= t - 19 ->
  misses_in_sets 2 ways base (trace 2 stencil_refs (positions s t)) (trace 2 stencil_refs (positions t (t + 2))) = p.
Proof.
  intros ways p I base s t ST.
  assert (G : forall c1 c2 cs1 cs2, jacobi_level (8 * (2 * Z.of_nat ways * 2 + 5 * (2 * 2))) = Ok cs1 -> desymbolize rows cs1 = Ok c1 -> jacobi_level (8 * (2 * Z.of_nat ways * 2 - 5 * (2 * 2 + 2 - 1))) = Ok cs2 -> desymbolize rows cs2 = Ok c2 ->
    (10 <= ways <= 100)%nat -> misses c1 = p -> misses c2 = p -> misses_in_sets 2 ways base (trace 2 stencil_refs (positions s t)) (trace 2 stencil_refs (positions t (t + 2))) = p).
  { intros c1 c2 cs1 cs2 B1 D1 B2 D2 LN M1 M2. apply Z.le_antisymm; [rewrite <- M2|rewrite <- M1];
    apply (C138_prediction numbers_only decide_numbers (jacobi five MN) "i" 1 [("j", 1)] jacobi_distances 1 8 (map (scale_dist 8) jacobi_distances) jacobi_total rows numbered stencil_refs 2 ways base 2 s t cs1 cs2 c1 c2);
      try assumption; try reflexivity; try exact C68_usual; try exact C111_uniform; try exact numbers_only_sound; try exact decide_numbers_sound; try exact C111_uses; try exact C111_consistent.
    all: try (repeat constructor; cbn; intuition discriminate).
    all: try (intros n m [<-|[<-|[<-|[]]]] [<-|[<-|[<-|[]]]] E; vm_compute in E; congruence).
    all: try lia.
    all: try (intros x; unfold rows; destruct (String.eqb x "N"); reflexivity).
    all: try (rewrite C111_refs; unfold stencil_refs; apply Permutation_sym, Permutation_cons_append).
    all: try (intros v J; vm_compute in J; intuition (try discriminate); match goal with H : Some _ = Some v |- _ => injection H as <-; lia end).
    all: try (change (needed (distances stencil_refs) 2) with 10; change (Z.of_nat (List.length stencil_refs)) with 5; lia).
    all: change (Z.of_nat (List.length stencil_refs)) with 5; change (eval rows jacobi_total) with 320000; lia. }
  destruct I as [[= <- <-]|[[= <- <-]|[]]].
  - eapply G; [vm_compute; reflexivity|vm_compute; reflexivity|vm_compute; reflexivity|vm_compute; reflexivity|lia|reflexivity|reflexivity].
  - eapply G; [vm_compute; reflexivity|vm_compute; reflexivity|vm_compute; reflexivity|vm_compute; reflexivity|lia|reflexivity|reflexivity].
Qed.
(** The same code as in C118 while it is executed: the iterations (3, 5) and (3, 6) at positions 65 and 66 in caches of two sets with 40 and with 10 ways *)
Example C138_third_row : forall ways p, In (ways, p) [(40%nat, 2); (10%nat, 4)] -> forall base, forall evs e', exec stencil_env stencil_nest evs e' ->
  evs = events stencil_body (firstn 40 stencil_iterations) ++ events stencil_body (firstn 2 (skipn 40 stencil_iterations)) ++ events stencil_body (skipn 42 stencil_iterations) /\
  misses_in_sets 2 ways base (lines 2 stencil_numbers stencil_env stencil_decls element_refs (events stencil_body (firstn 40 stencil_iterations)))
    (lines 2 stencil_numbers stencil_env stencil_decls element_refs (events stencil_body (firstn 2 (skipn 40 stencil_iterations)))) <= p.
Proof.
  intros ways p IP base evs e' X. destruct C118_code as (T & N & H). destruct C118_constants as (CO & SE & OR & INJ). destruct C118_distances as (RD & NN & CS).
  assert (C : exists cs c, stencil_level (8 * (2 * Z.of_nat ways * 2 - 5 * (2 * 2 + 2 - 1))) = Ok cs /\ desymbolize stencil_sizes cs = Ok c /\ misses c = p).
  { destruct IP as [[= <- <-]|[[= <- <-]|[]]]; do 2 eexists; (split; [vm_compute; reflexivity|]); split; vm_compute; reflexivity. }
  destruct C as (cs & c & B & D & M). rewrite <- M. clear M.
  eapply (C138_executed_upper_partial structural stencil_code stencil_decls [] stencil_nest [] stencil_loops stencil_body stencil_kernel structural_sound T eq_refl N H stencil_env ["M"; "N"] stencil_sizes stencil_numbers element_refs
    C118_behaves C118_stencil SE CO OR INJ numbers_only decide_numbers stencil_distances 1 8 (map (scale_dist 8) stencil_distances) stencil_total 2 ways base 2 cs c numbers_only_sound decide_numbers_sound RD NN CS eq_refl eq_refl eq_refl
    (fun d => conj (fun x => x) (fun x => x))) with (t := 65); try exact X; try exact B; try exact D.
  all: try (match goal with |- _ <= _ => idtac end; destruct IP as [[= <- <-]|[[= <- <-]|[]]]; vm_compute; discriminate).
  all: try (vm_compute; reflexivity). all: try exact (stencil_runs _ _ X).
  all: try (split; [exists (firstn 39 stencil_iterations); eexists; split; vm_compute; reflexivity|vm_compute; reflexivity]).
  all: clear B; intros v i IV B; assert (i = 0 \/ i = 1) as [-> | ->] by lia; vm_compute in IV; cases; try discriminate IV; injection IV as <-; apply (proj1 (existsb_in _ _)); vm_compute; reflexivity.
Qed.
(** In the first row the iterations have consecutive positions: at least four streams miss in a cache of two sets with three ways. *)
Example C138_first_row : forall base evs e', exec stencil_env stencil_nest evs e' ->
  evs = events stencil_body (firstn 4 stencil_iterations) ++ events stencil_body (firstn 2 (skipn 4 stencil_iterations)) ++ events stencil_body (skipn 6 stencil_iterations) /\
  4 <= misses_in_sets 2 3 base (lines 2 stencil_numbers stencil_env stencil_decls element_refs (events stencil_body (firstn 4 stencil_iterations)))
    (lines 2 stencil_numbers stencil_env stencil_decls element_refs (events stencil_body (firstn 2 (skipn 4 stencil_iterations)))).
Proof.
  intros base evs e' X. destruct C118_code as (T & N & H). destruct C118_constants as (CO & SE & OR & INJ). destruct C118_distances as (RD & NN & CS).
  assert (C : exists cs c, stencil_level (8 * (2 * 3 * 2 + 5 * (2 * 2))) = Ok cs /\ desymbolize stencil_sizes cs = Ok c /\ misses c = 4) by (do 2 eexists; split; [vm_compute; reflexivity|split; vm_compute; reflexivity]).
  destruct C as (cs & c & B & D & M). rewrite <- M. clear M.
  eapply (C138_executed_lower_partial structural stencil_code stencil_decls [] stencil_nest [] stencil_loops stencil_body stencil_kernel structural_sound T eq_refl N H stencil_env ["M"; "N"] stencil_sizes stencil_numbers element_refs
    C118_behaves C118_stencil SE CO OR INJ numbers_only decide_numbers stencil_distances 1 8 (map (scale_dist 8) stencil_distances) stencil_total 2 3%nat base 2 cs c numbers_only_sound decide_numbers_sound RD NN CS eq_refl eq_refl eq_refl
    (fun d => conj (fun x => x) (fun x => x))) with (start := 21) (t := 25); try exact X; try exact B; try exact D.
  all: try (match goal with |- _ <= _ => idtac end; vm_compute; discriminate). all: vm_compute; reflexivity.
Qed.
(** Single accesses, after the end of a row was left out *)
Example C138_access : forall base, hit_in_set 2 40 (in_memory base) (trace 2 stencil_refs ([3; 4; 6; 7; 8; 9; 10; 11; 12; 13; 14; 15; 16; 17; 21; 22; 23; 24]) ++ map (line_of 2 25) (firstn 1 stencil_refs))
  (line_of 2 25 (1%nat, 21001)) = true.
Proof.
  intros base. apply (C138_hit 2 40 base 2 stencil_refs (firstn 1 stencil_refs) (1%nat, 21001) (skipn 2 stencil_refs) [3; 4] [7; 8; 9; 10; 11; 12; 13; 14; 15; 16; 17; 21; 22; 23; 24] 25 19); try reflexivity; [|vm_compute; discriminate].
  repeat (apply Forall_cons; [lia|]). apply Forall_nil.
Qed.
Example C138_lost : forall base, hit_in_set 2 10 (in_memory base) (trace 2 stencil_refs (positions 0 25) ++ map (line_of 2 25) (firstn 1 stencil_refs)) (line_of 2 25 (1%nat, 21001)) = false.
Proof. intros base. apply (C138_miss 2 10 base 2 stencil_refs (firstn 1 stencil_refs) (1%nat, 21001) (skipn 2 stencil_refs) 0 25); try reflexivity; try lia. vm_compute. split; discriminate. Qed.
Example C138_next : forall base, hit_in_set 2 10 (in_memory base) (trace 2 stencil_refs ([7] ++ [24 - 1]) ++ map (line_of 2 24) (firstn 1 stencil_refs)) (line_of 2 24 (1%nat, 21001)) = true.
Proof. intros base. apply (C138_neighbour 2 10 base 2 stencil_refs (firstn 1 stencil_refs) (1%nat, 21001) (skipn 2 stencil_refs) [7] 24); try reflexivity; vm_compute; discriminate. Qed.
