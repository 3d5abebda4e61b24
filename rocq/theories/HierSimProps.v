(** C125: simulation and layer conditions for the levels of a hierarchy of caches *)
From Coq Require Import String Permutation Lia Lqa.
From Verif Require Import PyBase PyNum LoopModel LoopSpec LoopProofs AstModel AstSpec AstProofs LCModel LCSpec LCProofs LCProps FrontModel FrontSpec FrontDistance FrontProps LruSpec LruProofs LruLink TraceModel TraceSpec TraceProofs TraceProps SimModel SimSpec SimProofs CsimModel CsimSpec CsimProofs CsimLink CsimProps
  EvictSpec EvictProofs HierSpec HierProofs HierLink.
Local Open Scope string_scope.
Local Open Scope list_scope.
Local Open Scope Z_scope.

(** Misses per cache line of work which the simulation of a hierarchy predicts for the caches below the first one, and those which layer conditions predict: at least those of a cache
    of the size of all levels up to this one and one line for each reference, and exactly those of its own size if it holds all lines while they are used. Missing, apart from what is missing
    in C125_agreement_partial: caches which do not hold all lines. *)
Theorem C125_levels_partial : forall depends k st f its, view f k st -> NoDup (map fst (FrontModel.variables f)) -> unit_stack (loops k) -> NoDup (map lvar (loops k)) -> executes (bounds (loops k)) its -> depends_sound k depends ->
  forall es width bits, (forall n e d, In (n, (e, d)) (arrays k) -> e = es /\ forall x, In x d -> 0 < seval (constants k) x) -> 0 < es -> 0 < width -> line_size k = es * width -> 0 <= bits -> line_size k = 2 ^ bits ->
  forall outer inner, map lvar (loops k) = outer ++ [inner] -> usual f -> (forall n, uniform (array_references f n)) -> (forall n, array_references f n <> [] -> uses inner (array_references f n)) ->
  forall rho shift, streaming f k its rho shift -> elements_exist f k its -> (forall s, 0 < rho s) ->
  forall number rs, (forall n m, In n (map fst (FrontModel.variables f)) -> In m (map fst (FrontModel.variables f)) -> number n = number m -> n = m) -> Permutation rs (kernel_refs number rho f (FrontModel.variables f)) -> rs <> [] ->
  forall less decide ds w tails total n1 ns, less_sound less -> sound decide -> reuse_distances less f = Ok (ds, w) -> Forall (not_negative rho) ds -> consistent rho (map (scale_dist es) ds) ->
  (forall d, In d tails <-> In d (map (scale_dist es) ds)) ->
  needed (distances rs) 2 + 2 * Z.of_nat (List.length rs) * (width - 1) <= Z.of_nat n1 * width ->
  forall cache invalid run sts factor warm s e levels qs, hierarchy (n1 :: ns) (line_size k) run -> es <= cache -> 0 < invalid [] -> 100 * warmup_increment es cache + 100000 <= Z.of_nat (List.length its) ->
  forall written types sizes v t rest b, written = v :: rest -> types v = Some t -> sizes t = Some es -> bytes_per_iteration written types sizes (map lincr (loops k)) = Ok b ->
  simulate es (line_size k) bits 1 (iteration_length (loops k)) cache (first_offset depends k st) invalid = Ok (warm, (s, e)) -> (forall r d, In r rs -> farthest rs r = Some d -> d + width <= s) ->
  predict depends k st es bits cache b invalid run = Ok (sts, factor) -> CsimModel.get_misses sts factor levels = Ok qs ->
  forall i n q, nth_error ns i = Some n -> nth_error qs (S i) = Some q ->
  (forall cs c, build_level decide ds es w tails total (es * (Z.of_nat (together (n1 :: firstn (S i) ns)) * width + Z.of_nat (List.length rs) * width)) = Ok cs -> desymbolize rho cs = Ok c -> (inject_Z (misses c) <= q)%Q) /\
  (forall cs c, build_level decide ds es w tails total (es * (Z.of_nat n * width)) = Ok cs -> desymbolize rho cs = Ok c -> es * (Z.of_nat n * width) <= eval rho total ->
    (forall r, In r rs -> held n width rs r = true \/ first_of_array rs r = true) -> (q == inject_Z (misses c))%Q).
Proof.
  intros depends k st f its V NDV US NL X DS es width bits ES EP WP CL BP CB outer inner OI UF UN AU rho shift ST EX RP number rs0 INJ PRM0 RN0 less decide ds w tails total n1 ns LS SD RD NN CO TL FIT0
    cache invalid run sts factor warm s e levels qs HI CA IV LONG written types sizes v t rest b WR TY SZ BI SIM WA0 PR GM i n q NI NQ.
  assert (LN : iteration_length (loops k) = Z.of_nat (List.length its)) by exact (iteration_length_executed _ _ (unit_proper _ US) X).
  assert (RL : rev (loops k) <> []) by (intros Y; apply (f_equal (@rev _)) in Y; rewrite rev_involutive in Y; rewrite Y in OI; now destruct outer).
  destruct (rev (loops k)) as [|lp lps] eqn:RV; [congruence|]. clear RL.
  assert (LP : lincr lp = 1) by (rewrite <- (rev_involutive (loops k)), RV in US; unfold unit_stack in US; rewrite Forall_forall in US; now apply (US lp); apply in_rev; rewrite rev_involutive; left).
  assert (LV : lvar lp = inner) by (assert (Y := f_equal (@rev _) OI); rewrite <- map_rev, RV, rev_app_distr in Y; cbn in Y; now injection Y).
  assert (BE : b = es) by (unfold bytes_per_iteration in BI; rewrite WR, TY, SZ, <- map_rev, RV in BI; cbn [map] in BI; rewrite LP in BI; injection BI as <-; ring). subst b.
  assert (RF : rev (FrontModel.loops f) = (inner, 1) :: map (fun l => (lvar l, lincr l)) lps) by (destruct V as (-> & _); rewrite <- map_rev, RV; cbn [map]; now rewrite LV, LP).
  pose proof (refs_perm k st f rho V number) as PRM. set (rs := refs k st rho number) in *.
  assert (P0 : Permutation rs0 rs) by (rewrite PRM0; now apply Permutation_sym). clear PRM0.
  assert (RN : rs <> []) by (intros Y; rewrite Y in P0; apply RN0; apply Permutation_nil; now apply Permutation_sym).
  assert (FIT : needed (distances rs) 2 + 2 * Z.of_nat (List.length rs) * (width - 1) <= Z.of_nat n1 * width) by (rewrite <- (needed_perm _ _ 2 (distances_perm _ _ P0)), <- (Permutation_length P0); exact FIT0).
  pose proof (kernel_lru less f inner 1 _ rho number rs ds w UF NDV UN LS RF AU INJ RD NN PRM) as P.
  assert (TWO : (2 <= List.length its)%nat).
  { assert (0 < warmup_increment es cache) by (exact (inc_pos es 0 cache EP CA)). lia. }
  assert (DV : (es | line_size k)) by (rewrite CL; apply Z.divide_factor_l).
  unfold predict, iterations_per_cacheline in PR. destruct (Z.eqb_spec es 0) as [|_]; [lia|]. cbn [bind] in PR. unfold inner_step in PR. rewrite RV, LP in PR. cbn [bind] in PR. rewrite SIM in PR. cbn [bind] in PR.
  destruct (mapM (rows_of depends k st) warm) as [before|] eqn:B; cbn [bind] in PR; [|discriminate]. destruct (rows_of depends k st (s, e)) as [during|] eqn:D; cbn [bind] in PR; [|discriminate].
  assert (SI2 := SIM). rewrite LN in SI2. destruct (simulate_front es (Z.of_nat (List.length its)) cache invalid (inc_pos es 0 cache EP CA) (line_size k) bits _ warm s e LONG IV EP BP CB DV SI2) as [IW SP].
  destruct (bench_streams depends k st f its rho shift es width bits V NDV US NL X DS ES EP WP CL BP CB UF ST EX TWO number INJ cache invalid warm s e before during RN SIM B D IW SP) as (m & xs & ys & u & v0 & MP & EM & REN & T1 & T2 & T3 & T4).
  destruct (HI (concat before) during (S i) n NI) as (s0 & RUN & MISS). cbn [firstn] in MISS. rewrite T1, T2, (levels_rename u v0 n _ xs ys REN), T3, T4 in MISS. fold rs in MISS.
  assert (WA : forall r d, In r rs -> farthest rs r = Some d -> shift <= s + shift - d - width).
  { intros r d I F. rewrite <- (farthest_perm _ _ r P0) in F. specialize (WA0 r d (Permutation_in _ (Permutation_sym P0) I) F). lia. }
  replace m with (Z.of_nat (Z.to_nat m)) in MISS by (rewrite Z2Nat.id; lia).
  pose proof (level_windows n1 (firstn i ns) n width rs shift (s + shift) WP ltac:(lia) FIT WA (Z.to_nat m)) as [W1 W2]. rewrite <- MISS in W1, W2. rewrite Z2Nat.id in W1, W2 by lia.
  assert (E1 : run (concat before) during = sts) by congruence. assert (E2 : lines_of_work (fst (s, e)) (snd (s, e)) (inject_Z (line_size k) / inject_Z es) = factor) by congruence. clear PR.
  assert (MQ : (0 < inject_Z m)%Q) by (change 0%Q with (inject_Z 0); now rewrite <- Zlt_Qlt). assert (EQ : (0 < inject_Z es)%Q) by (change 0%Q with (inject_Z 0); now rewrite <- Zlt_Qlt). assert (WQ : (0 < inject_Z width)%Q) by (change 0%Q with (inject_Z 0); now rewrite <- Zlt_Qlt).
  assert (FM : (factor == inject_Z m)%Q).
  { rewrite <- E2. unfold lines_of_work. cbn [fst snd]. rewrite EM, CL, !inject_Z_mult. field. split; lra. }
  assert (FN : ~ (factor == 0)%Q) by (rewrite FM; lra).
  pose proof (scaled_spec (fun s => n_miss (lines s)) sts factor levels FN) as Y. unfold CsimModel.get_misses in GM. rewrite GM in Y. destruct Y as (Y1 & Y2 & Y3).
  assert (LV0 : (S i < levels)%nat) by (rewrite <- Y1; apply nth_error_Some; congruence).
  destruct (Y3 (S i) s0 LV0) as (q' & Q1 & Q2); [now rewrite <- E1|]. rewrite Q1 in NQ. injection NQ as ->. rewrite FM in Q2.
  assert (TG : (together (n1 :: firstn (S i) ns) = together (n1 :: firstn i ns) + n)%nat).
  { clear - NI. cbn [together fold_right]. change (fold_right Nat.add 0%nat) with together. rewrite <- Nat.add_assoc. f_equal. revert i NI. induction ns as [|x ns IH]; intros [|i] NI; try discriminate; cbn [nth_error firstn together fold_right] in *.
    - injection NI as ->. destruct ns; cbn; lia.
    - specialize (IH i NI). unfold together in *. lia. }
  split; intros cs c B1 D1.
  - destruct (level_missing _ _ _ _ _ _ _ _ _ _ SD RP EP TL CO B1 D1) as [H1 _]. rewrite (missing_perm _ _ _ P), TG, (Permutation_length P0) in H1.
    assert (L1 : m * misses c <= n_miss (lines s0)) by nia. rewrite Zle_Qle, inject_Z_mult in L1. rewrite <- Q2 in L1. apply (Qmult_le_l _ _ (inject_Z m) MQ). lra.
  - intros TO A. destruct (level_missing _ _ _ _ _ _ _ _ _ _ SD RP EP TL CO B1 D1) as [_ H1]. specialize (H1 TO). rewrite (missing_perm _ _ _ P) in H1.
    assert (A' : forall r, In r rs -> held n width rs r = true \/ first_of_array rs r = true).
    { intros r I. rewrite <- (held_perm _ _ _ _ r P0), <- (first_perm _ _ r P0). apply A. exact (Permutation_in _ (Permutation_sym P0) I). }
    rewrite (missing_held n width rs (Z.of_nat n * width) WP A') in H1 by nia.
    rewrite (filter_ext_in (fun r => negb (held n width rs r)) (first_of_array rs)) in W2 by (intros r I; now apply all_held).
    pose proof (none_first rs (Z.of_nat (together (n1 :: firstn i ns) + n) * width + Z.of_nat (List.length rs) * width)) as F.
    assert (L1 : n_miss (lines s0) = m * misses c) by nia. rewrite L1, inject_Z_mult in Q2. apply (Qmult_inj_l _ _ (inject_Z m)); [lra|]. lra.
Qed.

Print Assumptions C125_levels_partial.

(** Such simulators exist. *)
Definition simulator (ns : list nat) (line_size : Z) (before during : list row) : list stats :=
  map (fun i => mkStats (mkCounts 0 0 (level_misses (firstn i ns) (nth i ns 0%nat) (touched line_size before) (touched line_size during)) 0 0) (mkCounts 0 0 0 0 0)) (seq 0 (List.length ns)).
Example C125_simulator : forall ns line_size, hierarchy ns line_size (simulator ns line_size).
Proof.
  intros ns line_size before during i n N. assert (L : (i < List.length ns)%nat) by (apply nth_error_Some; congruence). eexists. split.
  - unfold simulator. rewrite nth_error_map. replace (nth_error (seq 0 (List.length ns)) i) with (Some i); [reflexivity|]. symmetry. rewrite nth_error_nth' with (d := 0%nat) by (now rewrite seq_length). now rewrite seq_nth.
  - cbn [lines n_miss]. now rewrite (nth_error_nth ns i 0%nat N).
Qed.
(** Two misses per cache line of work are predicted for a second cache of 40 lines, by both. *)
Definition C125_number (n : string) : nat := if String.eqb n "a" then 0%nat else 1%nat.
Definition C125_refs : list ref := [(0%nat, 0); (0%nat, 2); (1%nat, 1)].
Example C125_second : forall run sts factor levels qs q, hierarchy [16%nat; 40%nat] 64 run -> predict C125_depends C125_kernel C125_state 8 6 1024 8 (fun _ => 1) run = Ok (sts, factor) ->
  CsimModel.get_misses sts factor levels = Ok qs -> nth_error qs 1 = Some q -> (q == 2)%Q.
Proof.
  intros run sts factor levels qs q HI P G NQ. destruct C125_iterations as (its & X & LN).
  assert (ST : streaming C125_front C125_kernel its C125_constants (1 - 1)).
  { apply (C125_single_loop C125_front C125_kernel C125_state (mkloop "i" 1 119999 1)); try reflexivity; try exact X; try exact C125_view; try exact C125_unit; try exact C125_usual; try exact C125_uniform; try exact C125_uses.
    repeat constructor; cbn; intuition discriminate. }
  assert (L1 : exists cs c, C125_level (8 * (40 * 8)) = Ok cs /\ desymbolize C125_constants cs = Ok c /\ misses c = 2) by (eexists; eexists; split; [vm_compute; reflexivity|]; split; vm_compute; reflexivity).
  assert (SM : exists warm, simulate 8 64 6 1 (iteration_length (loops C125_kernel)) 1024 (first_offset C125_depends C125_kernel C125_state) (fun _ => 1) = Ok (warm, (303, 100303))) by (eexists; vm_compute; reflexivity).
  destruct L1 as (cs & c & B1 & D1 & M1). destruct SM as (warm & SM). change 2%Q with (inject_Z 2). rewrite <- M1.
  refine (proj2 (C125_levels_partial C125_depends C125_kernel C125_state C125_front its C125_view _ C125_unit _ X (syntactic_sound C125_kernel) 8 8 6 _ eq_refl eq_refl eq_refl _ eq_refl [] "i" eq_refl C125_usual C125_uniform C125_uses
    C125_constants (1 - 1) ST _ _ C125_number C125_refs _ _ _ numbers_only decide_numbers C125_distances 1 (map (scale_dist 8) C125_distances) [(["N"], 16)] 16 [40%nat] numbers_only_sound decide_numbers_sound C125_found _ C125_consistent _ _
    1024 (fun _ => 1) run sts factor warm 303 100303 levels qs HI _ _ _ ["b"] C124_types C124_sizes "b" "double" [] 8 eq_refl eq_refl eq_refl eq_refl SM _ P G 0%nat 40%nat q eq_refl NQ) cs c B1 D1 _ _); clear SM P G HI B1 D1.
  - repeat constructor; cbn; intuition discriminate.
  - repeat constructor; cbn; intuition discriminate.
  - intros n e d [E|[E|[]]]; injection E as <- <- <-; (split; [reflexivity|]); intros x [<-|[]]; reflexivity.
  - exact (Zle_bool_imp_le 0 6 eq_refl).
  - intros n elem dims idx t A R T. destruct (C125_in its t X T) as (v & -> & V). rewrite C125_references in R.
    destruct A as [A|[A|[]]]; injection A as <- <- <-; cbn in R; repeat destruct R as [<-|R]; try contradiction; cbn; repeat constructor; cbn; unfold in_iteration; cbn; lia.
  - intros x. unfold C125_constants. destruct (String.eqb x "N"); reflexivity.
  - intros a b [<-|[<-|[]]] [<-|[<-|[]]] E; vm_compute in E; congruence.
  - replace (kernel_refs C125_number C125_constants C125_front (FrontModel.variables C125_front)) with C125_refs by (vm_compute; reflexivity). apply Permutation_refl.
  - discriminate.
  - repeat (apply Forall_cons; [first [exact I|intros v [= <-]; vm_compute; discriminate|vm_compute; discriminate]|]). apply Forall_nil.
  - reflexivity.
  - vm_compute. discriminate.
  - exact (Zle_bool_imp_le 8 1024 eq_refl).
  - reflexivity.
  - rewrite LN. vm_compute. discriminate.
  - intros r d [<-|[<-|[<-|[]]]] F; vm_compute in F; try discriminate. injection F as <-. exact (Zle_bool_imp_le 10 303 eq_refl).
  - vm_compute. discriminate.
  - intros r [<-|[<-|[<-|[]]]]; [left|right|right]; vm_compute; reflexivity.
Qed.
