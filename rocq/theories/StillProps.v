(** C111 and C135 for kernels with references which stay at the same line in the innermost loop. *)
From Coq Require Import String Permutation.
From Verif Require Import PyBase AstModel AstSpec LCModel LCSpec LCProofs LCProps FrontModel FrontSpec FrontDistance FrontProps LruSpec LruProofs LruLink LruProps EvictSpec EvictProofs StillSpec StillProofs.
Local Open Scope string_scope.
Local Open Scope list_scope.
Local Open Scope Z_scope.

(** References in arrays which do not use the innermost index stay at their element. *)
Theorem C111_stays : forall k x n sizes idx env v, usual k -> In x (map fst (loops k)) -> lookup (variables k) n = Some (Some (map SVar sizes)) -> ~ uses x (array_references k n) -> In idx (array_references k n) ->
  place (set env x v) (map SVar sizes) idx = place env (map SVar sizes) idx.
Proof. exact kernel_stays. Qed.
(** Lines which stay cause no misses, and take their place in the cache. *)
Theorem C111_still_misses : forall n width slots s t, 0 < width -> s < t -> separate slots ->
  let refs := map fst (movers slots) in let left := Z.of_nat n - distinct (stayers slots) in
  needed (distances refs) 2 + 2 * Z.of_nat (List.length refs) * (width - 1) <= left * width -> (forall v, In (Some v) (distances refs) -> s <= t - v) ->
  missing (distances refs) (Z.of_nat n * width + Z.of_nat (List.length refs) * width)
  <= misses_after n (map fst (slot_trace width slots (positions s t))) (map fst (slot_trace width slots (positions t (t + width))))
  <= missing (distances refs) (left * width - Z.of_nat (List.length refs) * (2 * width - 1)).
Proof.
  intros n width slots s t W ST SEP refs left FIT WA. unfold refs in FIT at 2. rewrite map_length in FIT. unfold left in FIT.
  destruct (still_misses n width slots W SEP FIT s t (t + width) ST) as [A B]. fold refs in A, B, FIT.
  assert (F0 : 0 <= distinct (stayers slots)) by (rewrite distinct_nodup; lia).
  destruct (misses_bounds n width refs s t W ST) as [C _]; [unfold refs; rewrite map_length; fold refs; nia|assumption|].
  pose proof (number_left n width slots W FIT) as NL.
  destruct (misses_bounds (n - List.length (nodup line_dec (stayers slots))) width refs s t W ST) as [_ D]; [unfold refs at 2; rewrite map_length, NL; exact FIT|assumption|].
  rewrite NL in D. fold left in D. split; [etransitivity; [exact C|exact A]|etransitivity; [exact B|exact D]].
Qed.
(** Distances of the kernel are those of the references which move. *)
Theorem C111_still_distances : forall less k inner incr rest rho number refs ds w, usual k -> NoDup (map fst (variables k)) -> (forall n, uniform (array_references k n)) -> less_sound less ->
  rev (loops k) = (inner, incr) :: rest -> (forall n m, In n (map fst (variables k)) -> In m (map fst (variables k)) -> number n = number m -> n = m) ->
  reuse_distances less k = Ok (ds, w) -> Forall (not_negative rho) ds -> Permutation refs (kernel_refs number rho k (moving k inner)) -> Permutation (map (dist_value rho) ds) (distances refs).
Proof. exact kernel_moving. Qed.
(** Predicted misses of a slightly larger cache, and of one smaller by the lines which stay and a little more, enclose those of the cache. *)
Theorem C111_still_prediction : forall less decide k inner incr rest ds w es tails total rho number slots n width s t cs1 cs2 c1 c2,
  usual k -> NoDup (map fst (variables k)) -> (forall n, uniform (array_references k n)) -> less_sound less -> sound decide -> rev (loops k) = (inner, incr) :: rest ->
  (forall n m, In n (map fst (variables k)) -> In m (map fst (variables k)) -> number n = number m -> n = m) ->
  reuse_distances less k = Ok (ds, w) -> (forall s, 0 < rho s) -> Forall (not_negative rho) ds -> consistent rho (map (scale_dist es) ds) ->
  0 < es -> (forall d, In d tails <-> In d (map (scale_dist es) ds)) -> slots_of number rho k inner width slots ->
  let refs := map fst (movers slots) in let left := Z.of_nat n - distinct (stayers slots) in
  0 < width -> s < t -> (forall v, In (Some v) (distances refs) -> s <= t - v) ->
  needed (distances refs) 2 + 2 * Z.of_nat (List.length refs) * (width - 1) <= left * width ->
  build_level decide ds es w tails total (es * (Z.of_nat n * width + Z.of_nat (List.length refs) * width)) = Ok cs1 -> desymbolize rho cs1 = Ok c1 ->
  build_level decide ds es w tails total (es * (left * width - Z.of_nat (List.length refs) * (2 * width - 1))) = Ok cs2 -> desymbolize rho cs2 = Ok c2 ->
  es * (left * width - Z.of_nat (List.length refs) * (2 * width - 1)) <= eval rho total ->
  misses c1 <= misses_after n (map fst (slot_trace width slots (positions s t))) (map fst (slot_trace width slots (positions t (t + width)))) <= misses c2.
Proof.
  intros less decide k inner incr rest ds w es tails total rho number slots n width s t cs1 cs2 c1 c2 U ND UN LS SD R INJ RD RP NN CO ES T SL refs left W ST WA FIT B1 D1 B2 D2 TO.
  pose proof (kernel_moving less k inner incr rest rho number refs ds w U ND UN LS R INJ RD NN (proj1 SL)) as P. pose proof (C111_still_misses n width slots s t W ST (kernel_separate _ _ _ _ _ _ INJ SL) FIT WA) as [M1 M2]. fold refs in M1, M2. fold left in M2.
  destruct (level_missing _ _ _ _ _ _ _ _ _ _ SD RP ES T CO B1 D1) as [H1 _]. destruct (level_missing _ _ _ _ _ _ _ _ _ _ SD RP ES T CO B2 D2) as [_ H2]. specialize (H2 TO).
  rewrite (missing_perm _ _ _ P) in H1. rewrite (missing_perm _ _ _ P) in H2. split; lia.
Qed.

(** Lines which stay are not written back in the innermost loop. *)
Theorem C135_still_evictions : forall n width slots s t m, 0 < width -> s < t -> 0 <= m -> separate slots ->
  let refs := movers slots in let left := Z.of_nat n - distinct (stayers slots) in
  needed (distances (map fst refs)) 2 + 2 * Z.of_nat (List.length refs) * (width - 1) <= left * width ->
  (forall q r, In q (written refs) -> In r (written refs) -> fst q = fst r -> s <= t - (snd q - snd r)) ->
  m * distinct (filter (fun r => leading refs r || replaced n width refs r)%bool (written refs)) - Z.of_nat n
  <= evictions_after n (slot_trace width slots (positions s t)) (slot_trace width slots (positions t (t + m * width)))
  <= m * distinct (filter (fun r => negb (kept (Z.to_nat left) width refs r)) (written refs)) + Z.of_nat n + distinct (stayers slots).
Proof.
  intros n width slots s t m W ST M SEP refs left FIT WA. pose proof (still_evictions n width slots W SEP FIT s t m ST M WA) as H. fold refs in H.
  replace (Z.to_nat left) with (n - List.length (nodup line_dec (stayers slots)))%nat; [exact H|]. unfold left. rewrite <- (number_left n width slots W FIT). now rewrite Nat2Z.id.
Qed.
(** The prediction counts the written references which move only, and is correct if at most one element of each of their arrays is written. *)
Theorem C135_still_prediction : forall less decide k inner incr rest ds w es tails total rho number slots n width size s t m cs c,
  usual k -> NoDup (map fst (variables k)) -> (forall n, uniform (array_references k n)) -> less_sound less -> sound decide -> rev (loops k) = (inner, incr) :: rest ->
  (forall n m, In n (map fst (variables k)) -> In m (map fst (variables k)) -> number n = number m -> n = m) ->
  reuse_distances less k = Ok (ds, w) -> (forall s, 0 < rho s) -> slots_of number rho k inner width slots -> writes_of number rho k inner slots -> one_moving_written k inner ->
  0 < width -> s < t -> 0 <= m ->
  needed (distances (map fst (movers slots))) 2 + 2 * Z.of_nat (List.length (movers slots)) * (width - 1) <= (Z.of_nat n - distinct (stayers slots)) * width ->
  build_level decide ds es w tails total size = Ok cs -> desymbolize rho cs = Ok c -> size <= eval rho total ->
  m * evicts c - Z.of_nat n <= evictions_after n (slot_trace width slots (positions s t)) (slot_trace width slots (positions t (t + m * width))) <= m * evicts c + Z.of_nat n + distinct (stayers slots).
Proof.
  intros less decide k inner incr rest ds w es tails total rho number slots n width size s t m cs c U ND UN LS SD R INJ RD RP SL WR OW W ST M FIT B D T.
  rewrite (level_evicts _ _ _ _ _ _ _ _ _ _ SD RP B D). replace (eval rho total <? size) with false by (symmetry; apply Z.ltb_ge; exact T).
  destruct (kernel_result _ _ _ _ _ _ _ U ND UN LS R RD) as [_ C]. rewrite (moving_writes number rho _ _ _ _ _ C OW).
  assert (INJ' : forall a b, In a (map fst (moving k inner)) -> In b (map fst (moving k inner)) -> number a = number b -> a = b).
  { intros a b I J. apply in_map_iff in I as (x & <- & I). apply in_map_iff in J as (y & <- & J). apply filter_In in I as [I _]. apply filter_In in J as [J _]. apply INJ; now apply in_map. }
  destruct (nodup_fst _ (writes_arrays number rho k (moving k inner) (filter_names _ _ ND) INJ' OW)) as [N1 N2].
  fold (moving k inner). rewrite <- (distinct_length _ N1), <- (distinct_same _ _ WR).
  assert (SG : forall q r, In q (written (movers slots)) -> In r (written (movers slots)) -> fst q = fst r -> q = r) by (intros q r I J; apply N2; now apply WR).
  pose proof (still_evictions n width slots W (kernel_separate _ _ _ _ _ _ INJ SL) FIT s t m ST M ltac:(intros q r I J F; rewrite (SG q r I J F); lia)) as [E1 E2].
  rewrite filter_true in E1 by (intros r I; now rewrite (single_leading _ SG r I)). split; [exact E1|]. etransitivity; [exact E2|]. apply Z.add_le_mono_r, Z.add_le_mono_r, Z.mul_le_mono_nonneg_l; [assumption|]. apply distinct_incl. intros x I. now apply filter_In in I as [I _].
Qed.

Print Assumptions C111_stays.
Print Assumptions C111_still_misses.
Print Assumptions C111_still_distances.
Print Assumptions C111_still_prediction.
Print Assumptions C135_still_evictions.
Print Assumptions C135_still_prediction.

(** for j, for i: [c[j][0] = c[j][0] + a[j][i] * b[i]; d[j][i] = a[j][i]]; rows of 20 elements, lines of two elements *)
Definition product : front := mkFront [("j", 1); ("i", 1)] [("a", Some MN); ("b", Some [SVar "N"]); ("c", Some MN); ("d", Some MN)]
  [("c", [Some [SVar "j"; SInt 0]]); ("a", [Some [SVar "j"; SVar "i"]; Some [SVar "j"; SAdd (SVar "i") (SInt 1)]]); ("b", [Some [SVar "i"]])] [("c", [Some [SVar "j"; SInt 0]]); ("d", [Some [SVar "j"; SVar "i"]])].
Definition letters (n : string) : nat := if String.eqb n "a" then 0%nat else if String.eqb n "b" then 1%nat else if String.eqb n "c" then 2%nat else 3%nat.
Definition product_slots : list slot :=
  [(Stays (2%nat, 10000), false); (Moves (0%nat, 21000), false); (Moves (1%nat, 1000), false); (Moves (0%nat, 21001), false); (Stays (2%nat, 10000), true); (Moves (3%nat, 21000), true)].
Definition product_distances : list dist := [Poly [([], 1)]; Inf; Inf; Inf].
Definition product_level (size : Z) := build_level decide_numbers product_distances 8 1 (map (scale_dist 8) product_distances) jacobi_total size.
Example product_analysed : reuse_distances numbers_only product = Ok (product_distances, 1). Proof. vm_compute. reflexivity. Qed.
Example product_usual : usual product.
Proof.
  split; [repeat constructor; cbn; intuition discriminate|]. intros n arefs I. right. cbn in I.
  repeat (destruct I as [[= <- <-]|I]; [eexists; (split; [match goal with |- lookup _ _ = Some (Some (map SVar _)) => cbn; match goal with |- Some (Some ?l) = _ => first [instantiate (1 := ["M"; "N"]); reflexivity|instantiate (1 := ["N"]); reflexivity|instantiate (1 := ["M"]); reflexivity] end end|]);
    intros x J; cbn in J; repeat (destruct J as [<-|J]; [eexists; split; [reflexivity|]; split; [discriminate|]; split; [reflexivity|]; split; [intros s K; cbn in K |- *; intuition (subst; discriminate)|];
      intros s K; cbn in K; repeat (destruct K as [<-|K]; [eexists _, _; split; [reflexivity|cbn; auto]|]); destruct K|]); destruct J|]). destruct I.
Qed.
Example product_uniform : forall n, uniform (array_references product n).
Proof.
  intros n x y p s s' v v' c c' A B E1 E2 S S'. unfold array_references, entries, product in A, B. cbn [sources destinations] in A, B.
  destruct (String.eqb_spec n "a") as [->|NA]; [|destruct (String.eqb_spec n "b") as [->|NB]; [|destruct (String.eqb_spec n "c") as [->|NC]; [|destruct (String.eqb_spec n "d") as [->|ND]]]].
  1-4: vm_compute in A, B; repeat (destruct A as [<-|A]; [|]); try destruct A; repeat (destruct B as [<-|B]; [|]); try destruct B; destruct p as [|[|p]]; cbn in E1, E2; try discriminate E1; try discriminate E2;
    try (injection E1 as <-; injection E2 as <-; vm_compute in S, S'; congruence); destruct p; discriminate.
  apply String.eqb_neq in NA, NB, NC, ND. unfold lookup in A. cbn [find fst option_map] in A. rewrite ?NA, ?NB, ?NC, ?ND in A. cbn in A. rewrite ?NC, ?ND in A. destruct A.
Qed.
Example product_slots_of : slots_of letters rows product "i" 2 product_slots /\ writes_of letters rows product "i" product_slots.
Proof.
  split; [split|].
  - vm_compute. apply perm_skip. apply perm_swap.
  - intros l. vm_compute. tauto.
  - intros r. vm_compute. tauto.
Qed.
Lemma letters_apart : forall n m, In n (map fst (variables product)) -> In m (map fst (variables product)) -> letters n = letters m -> n = m.
Proof. intros n m I J E. cbn in I, J. destruct I as [<-|[<-|[<-|[<-|[]]]]]; destruct J as [<-|[<-|[<-|[<-|[]]]]]; vm_compute in E; congruence. Qed.
Lemma rows_positive : forall s, 0 < rows s.
Proof. intros s. unfold rows. destruct (String.eqb s "N"); reflexivity. Qed.
(** A cache of 20 lines: three misses in two iterations, although the line of c takes one of the places. *)
Example C111_still_example : forall s t, s < t -> misses_after 20 (map fst (slot_trace 2 product_slots (positions s t))) (map fst (slot_trace 2 product_slots (positions t (t + 2)))) = 3.
Proof.
  intros s t ST. assert (G : forall cs1 cs2 c1 c2, product_level (8 * (20 * 2 + 4 * 2)) = Ok cs1 -> desymbolize rows cs1 = Ok c1 -> product_level (8 * (19 * 2 - 4 * (2 * 2 - 1))) = Ok cs2 -> desymbolize rows cs2 = Ok c2 -> misses c1 = 3 -> misses c2 = 3 ->
    misses_after 20 (map fst (slot_trace 2 product_slots (positions s t))) (map fst (slot_trace 2 product_slots (positions t (t + 2)))) = 3).
  { intros cs1 cs2 c1 c2 B1 D1 B2 D2 M1 M2.
    pose proof (C111_still_prediction numbers_only decide_numbers product "i" 1 [("j", 1)] product_distances 1 8 (map (scale_dist 8) product_distances) jacobi_total rows letters product_slots 20 2 s t cs1 cs2 c1 c2 product_usual) as H.
    destruct H as [H1 H2]; [| | | | | | | | | | | | | | | | | | | | | |rewrite M1 in H1; rewrite M2 in H2; apply Z.le_antisymm; assumption].
    - repeat constructor; cbn; intuition discriminate.
    - exact product_uniform.
    - exact numbers_only_sound.
    - exact decide_numbers_sound.
    - reflexivity.
    - exact letters_apart.
    - exact product_analysed.
    - exact rows_positive.
    - repeat constructor; cbn; try lia; exact I.
    - intros a b ka kb Ia Ib Ka Kb. cbn [map scale_dist product_distances In] in Ia, Ib. repeat destruct Ia as [<-|Ia]; try contradiction; repeat destruct Ib as [<-|Ib]; try contradiction;
        vm_compute in Ka, Kb; injection Ka as <-; injection Kb as <-; vm_compute; split; intros H; try reflexivity; try discriminate; try exact I; try (exfalso; apply H; reflexivity); exact H.
    - reflexivity.
    - reflexivity.
    - exact (proj1 product_slots_of).
    - reflexivity.
    - exact ST.
    - intros v J. vm_compute in J. intuition (try discriminate). match goal with H : Some _ = Some v |- _ => injection H as <-; lia end.
    - vm_compute. discriminate.
    - exact B1.
    - exact D1.
    - exact B2.
    - exact D2.
    - vm_compute. discriminate. }
  eapply G; vm_compute; reflexivity.
Qed.
(** One line is written back for each line of work, that of d; c stays in the cache. *)
Example C135_still_example : forall s t m, s < t -> 0 <= m ->
  m * 1 - 20 <= evictions_after 20 (slot_trace 2 product_slots (positions s t)) (slot_trace 2 product_slots (positions t (t + m * 2))) <= m * 1 + 20 + 1.
Proof.
  intros s t m ST M. assert (G : forall cs c, product_level 320 = Ok cs -> desymbolize rows cs = Ok c -> evicts c = 1 ->
    m * 1 - 20 <= evictions_after 20 (slot_trace 2 product_slots (positions s t)) (slot_trace 2 product_slots (positions t (t + m * 2))) <= m * 1 + 20 + 1).
  { intros cs c B D E. replace (m * 1) with (m * evicts c) by now rewrite E.
    apply (C135_still_prediction numbers_only decide_numbers product "i" 1 [("j", 1)] product_distances 1 8 (map (scale_dist 8) product_distances) jacobi_total rows letters product_slots 20 2 320 s t m cs c product_usual); try assumption; try reflexivity.
    - repeat constructor; cbn; intuition discriminate.
    - exact product_uniform.
    - exact numbers_only_sound.
    - exact decide_numbers_sound.
    - exact letters_apart.
    - exact rows_positive.
    - exact (proj1 product_slots_of).
    - exact (proj2 product_slots_of).
    - intros n dims I. vm_compute in I. destruct I as [[= <- <-]|[[= <- <-]|[[= <- <-]|[]]]]; [now left|now left|right; eexists; reflexivity].
    - vm_compute. discriminate.
    - vm_compute. discriminate. }
  eapply G; vm_compute; reflexivity.
Qed.
Example C111_stays_example : place (set rows "i" 7) MN [SVar "j"; SInt 0] = place rows MN [SVar "j"; SInt 0].
Proof.
  apply (C111_stays product "i" "c" ["M"; "N"]); [exact product_usual|right; now left|reflexivity| |now left]. intros (idx & s & c & I & J & E). vm_compute in I. destruct I as [<-|[<-|[]]]; destruct J as [<-|[<-|[]]]; discriminate E.
Qed.
