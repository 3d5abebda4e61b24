(** Theorems about the results of the cache simulation: C124, C125, C126 *)
From Coq Require Import String Permutation Lia Lqa.
From Verif Require Import PyBase PyNum UnitModel EcmModel EcmProofs RoofModel RoofSpec RoofProofs RoofProps LoopModel LoopSpec LoopProofs AstModel AstSpec AstProofs LCModel LCSpec LCProofs LCProps FrontModel FrontSpec FrontDistance FrontProps LruSpec LruProofs LruLink TraceModel TraceSpec TraceProofs TraceProps SimModel SimSpec SimProofs CsimModel CsimSpec CsimProofs CsimLink.
Local Open Scope string_scope.
Local Open Scope list_scope.
Local Open Scope Z_scope.

(** ** C124: results are per cache line of work *)
(** Results by kind of event, in lines and in bytes, and the counter of the simulator they are to come from *)
Definition reported : list ((list stats -> Q -> nat -> res (list Q)) * (stats -> Z)) :=
  [(get_loads, fun s => n_load (lines s)); (get_hits, fun s => n_hit (lines s)); (get_misses, fun s => n_miss (lines s)); (get_stores, fun s => n_store (lines s)); (get_evicts, fun s => n_evict (lines s));
   (total_loads, fun s => n_load (bytes s)); (total_hits, fun s => n_hit (bytes s)); (total_misses, fun s => n_miss (bytes s)); (total_stores, fun s => n_store (bytes s)); (total_evicts, fun s => n_evict (bytes s))].
(** The statistics are those of the iterations after the warm-up, in a schedule as in C24. A result times the bytes which these iterations write is the counter times the size of a cache line,
    if each iteration writes [bytes_iteration] bytes. There is a result for each level of the memory hierarchy, unless the simulator has fewer. *)
Theorem C124_per_line : forall depends k st element bits cache bytes_iteration invalid run sts factor, 0 < bytes_iteration -> 0 < line_size k ->
  predict depends k st element bits cache bytes_iteration invalid run = Ok (sts, factor) ->
  exists warmup s e before during, schedule (iteration_length (loops k)) 0 (warmup ++ [(s, e)]) e /\ s < e /\
    mapM (fun r => compile_global_offsets depends k st (positions (fst r) (snd r)) 0) warmup = Ok before /\ compile_global_offsets depends k st (positions s e) 0 = Ok during /\ sts = run (concat before) during /\
    forall get counter, In (get, counter) reported -> forall levels,
      match get sts factor levels with
      | Ok l => length l = levels /\ (levels <= length sts)%nat /\
          forall i x, (i < levels)%nat -> nth_error sts i = Some x ->
          exists q, nth_error l i = Some q /\ (q * (inject_Z (e - s) * inject_Z bytes_iteration) == inject_Z (counter x) * inject_Z (line_size k))%Q
      | Err err => err = IndexError /\ (length sts < levels)%nat
      end.
Proof.
  intros depends k st element bits cache bi invalid run sts factor BP LP H. unfold predict, iterations_per_cacheline in H. destruct (Z.eqb_spec bi 0) as [|NZ]; [lia|]. cbn [bind] in H.
  destruct (inner_step k) as [step|]; cbn [bind] in H; [|discriminate]. destruct (simulate element (line_size k) bits step _ cache _ invalid) as [[warm [s e]]|] eqn:S; cbn [bind] in H; [|discriminate].
  destruct (mapM (rows_of depends k st) warm) as [before|] eqn:B; cbn [bind] in H; [|discriminate]. destruct (rows_of depends k st (s, e)) as [during|] eqn:D; cbn [bind] in H; [|discriminate]. injection H as <- <-.
  exists warm, s, e, before, during. destruct (simulate_inv _ _ _ _ _ _ _ _ _ _ S) as (_ & SE & _). cbn [fst snd] in *. split; [exact (simulate_valid _ _ _ _ _ _ _ _ _ _ S)|]. split; [lia|]. split; [exact B|]. split; [exact D|]. split; [reflexivity|].
  assert (P1 : (0 < inject_Z (e - s))%Q) by (change 0%Q with (inject_Z 0); rewrite <- Zlt_Qlt; lia).
  assert (P2 : (0 < inject_Z (line_size k))%Q) by (change 0%Q with (inject_Z 0); rewrite <- Zlt_Qlt; lia). assert (P3 : (0 < inject_Z bi)%Q) by (change 0%Q with (inject_Z 0); rewrite <- Zlt_Qlt; lia).
  set (F := lines_of_work s e _). assert (FE : (F * inject_Z (line_size k) == inject_Z (e - s) * inject_Z bi)%Q) by (unfold F, lines_of_work; field; split; lra).
  assert (FN : ~ (F == 0)%Q) by (intros Z; rewrite Z in FE; assert (0 < inject_Z (e - s) * inject_Z bi)%Q by (apply Qmult_lt_0_compat; assumption); lra).
  assert (G : forall counter levels, match scaled counter (run (concat before) during) F levels with
      | Ok l => length l = levels /\ (levels <= length (run (concat before) during))%nat /\ forall i x, (i < levels)%nat -> nth_error (run (concat before) during) i = Some x ->
          exists q, nth_error l i = Some q /\ (q * (inject_Z (e - s) * inject_Z bi) == inject_Z (counter x) * inject_Z (line_size k))%Q
      | Err err => err = IndexError /\ (length (run (concat before) during) < levels)%nat end).
  { intros counter levels. pose proof (scaled_spec counter (run (concat before) during) F levels FN) as Y. destruct (scaled counter _ F levels) as [l|err]; [|exact Y]. destruct Y as (Y1 & Y2 & Y3). split; [exact Y1|]. split; [exact Y2|].
    intros i x I N. destruct (Y3 i x I N) as (q & Q1 & Q2). exists q. split; [exact Q1|]. rewrite <- FE, <- Q2. ring. }
  intros get counter I. unfold reported in I. repeat destruct I as [[= <- <-]|I]; try contradiction; intros levels; apply G.
Qed.
Print Assumptions C124_per_line.
Lemma schedule_ranges m p l q : schedule m p l q -> forall r, In r l -> fst r < snd r <= m.
Proof. induction 1 as [p|p b l q A B S IH|b l q A S IH]; intros r I; [destruct I| |]; (destruct I as [<-|I]; [cbn; lia|exact (IH r I)]). Qed.
Lemma rows_exist depends eqb k stmts st r : eqb_sound eqb -> p_assignments eqb stmts empty_state = Ok st -> fst r < snd r <= iteration_length (loops k) ->
  (exists x, rows_of depends k st r = Ok x) <-> (forall n, In (n, []) (flat_map stmt_reads stmts ++ flat_map stmt_writes stmts) -> ~ In n (map fst (arrays k))).
Proof.
  intros S A R. unfold rows_of. destruct (map (fun i => fst r + Z.of_nat i) (seq 0 (Z.to_nat (snd r - fst r)))) as [|g gs] eqn:E.
  - apply (f_equal (@length _)) in E. rewrite map_length, seq_length in E. cbn in E. lia.
  - apply (trace_total _ eqb); [exact S|exact A|]. intros x I. rewrite <- E in I. apply in_map_iff in I as (i & <- & I). apply in_seq in I. lia.
Qed.
(** There are results if the simulation of the schedule does not fail (see C24) and no array is used without subscripts. *)
Theorem C124_total : forall depends eqb k stmts st element bits cache bytes_iteration invalid run outer inner r, eqb_sound eqb -> p_assignments eqb stmts empty_state = Ok st -> 0 < bytes_iteration ->
  loops k = outer ++ [inner] -> simulate element (line_size k) bits (lincr inner) (iteration_length (loops k)) cache (first_offset depends k st) invalid = Ok r ->
  (exists sts factor, predict depends k st element bits cache bytes_iteration invalid run = Ok (sts, factor)) <->
  (forall n, In (n, []) (flat_map stmt_reads stmts ++ flat_map stmt_writes stmts) -> ~ In n (map fst (arrays k))).
Proof.
  intros depends eqb k stmts st element bits cache bi invalid run outer inner [warm [s e]] ES PA BP LE SIM. pose proof (schedule_ranges _ _ _ _ (simulate_valid _ _ _ _ _ _ _ _ _ _ SIM)) as R.
  unfold predict, iterations_per_cacheline. destruct (Z.eqb_spec bi 0) as [|_]; [lia|]. cbn [bind]. assert (RL : rev (loops k) = inner :: rev outer) by (rewrite LE, rev_app_distr; reflexivity). unfold inner_step. rewrite RL. cbn [bind]. rewrite SIM. cbn [bind].
  assert (D := rows_exist depends eqb k stmts st (s, e) ES PA (R (s, e) ltac:(apply in_or_app; right; now left))). split.
  - intros (sts & factor & H). apply D. destruct (mapM _ warm); cbn [bind] in H; [|discriminate]. destruct (rows_of depends k st (s, e)) as [x|]; [now exists x|discriminate].
  - intros NA. assert (W : exists b, mapM (rows_of depends k st) warm = Ok b).
    { assert (RW : forall r, In r warm -> fst r < snd r <= iteration_length (loops k)) by (intros r I; apply R, in_or_app; now left). clear R SIM D. induction warm as [|r warm IH]; [now exists []|].
      destruct (proj2 (rows_exist depends eqb k stmts st r ES PA (RW r (or_introl eq_refl))) NA) as (x & X). destruct IH as (b & B); [intros y I; apply RW; now right|]. exists (x :: b). cbn [mapM]. rewrite X. cbn [bind]. rewrite B. reflexivity. }
    destruct W as (before & ->). destruct (proj2 D NA) as (during & ->). cbn [bind]. eexists. eexists. reflexivity.
Qed.
Print Assumptions C124_total.
(** Bytes written in an iteration: the first variable assigned to decides, and the step of the innermost loop. *)
Theorem C124_bytes : forall written types sizes steps n rest t s outer inner, written = n :: rest -> types n = Some t -> sizes t = Some s -> steps = outer ++ [inner] ->
  bytes_per_iteration written types sizes steps = Ok (s * inner).
Proof. intros written types sizes steps n rest t s outer inner -> T S ->. unfold bytes_per_iteration. rewrite T, S, rev_app_distr. reflexivity. Qed.
Print Assumptions C124_bytes.
(** Refuted in general: this need not be what iterations write. A loop which writes [b[2*i]] and [b[2*i+1]] of eight bytes each: bytes written one after the other, sixteen in each iteration, are
    taken for eight, so that results are for two cache lines of work. *)
Definition C124_pair : list assignment :=
  [mkassign "=" (EArr (EID "b") (EBin "*" (EConst (Some 2)) (EID "i"))) (EArr (EID "a") (EID "i")); mkassign "=" (EArr (EID "b") (EBin "+" (EBin "*" (EConst (Some 2)) (EID "i")) (EConst (Some 1)))) (EConst (Some 1))].
Definition C124_kernel : kernel := mkKernel [("a", (8, [SInt 100])); ("b", (8, [SInt 200]))] [mkloop "i" 0 100 1] (fun _ => 0) 64.
Definition C124_types (n : string) : option string := if String.eqb n "a" then Some "double" else if String.eqb n "b" then Some "double" else None.
Definition C124_sizes (t : string) : option Z := if String.eqb t "double" then Some 8 else None.
Definition C124_depends (n : string) (idx : list sym) : bool := existsb (mentions ["i"]) idx.
Theorem C124_bytes_refuted : exists st b, p_assignments access_none_eqb C124_pair empty_state = Ok st /\
  bytes_per_iteration (map fst (AstModel.destinations st)) C124_types C124_sizes (map lincr (loops C124_kernel)) = Ok b /\ b = 8 /\
  compile_global_offsets C124_depends C124_kernel st [0; 1; 2] 0 = Ok [([0], [832; 840]); ([8], [848; 856]); ([16], [864; 872])].
Proof. eexists. exists 8. split; [vm_compute; reflexivity|]. repeat split; vm_compute; reflexivity. Qed.
Print Assumptions C124_bytes_refuted.

(** ** C125: simulation and layer conditions agree *)
(** Misses in the first cache per cache line of work, as predicted by simulation, lie between those which layer conditions predict for a slightly larger and for a slightly smaller cache.
    Missing: kernels whose iterations skip elements at ends of rows, which are swept completely before the cache is warm or whose elements differ in size; further caches and caches with sets. *)
Theorem C125_agreement_partial : forall depends k st f its, view f k st -> NoDup (map fst (FrontModel.variables f)) -> unit_stack (loops k) -> NoDup (map lvar (loops k)) -> executes (bounds (loops k)) its -> depends_sound k depends ->
  forall es width bits, (forall n e d, In (n, (e, d)) (arrays k) -> e = es /\ forall x, In x d -> 0 < seval (constants k) x) -> 0 < es -> 0 < width -> line_size k = es * width -> 0 <= bits -> line_size k = 2 ^ bits ->
  forall outer inner, map lvar (loops k) = outer ++ [inner] -> usual f -> (forall n, uniform (array_references f n)) -> (forall n, array_references f n <> [] -> uses inner (array_references f n)) ->
  forall rho shift, streaming f k its rho shift -> elements_exist f k its -> (forall s, 0 < rho s) ->
  forall less decide ds w tails total n cs1 cs2 c1 c2, less_sound less -> sound decide -> reuse_distances less f = Ok (ds, w) -> Forall (not_negative rho) ds -> consistent rho (map (scale_dist es) ds) ->
  (forall d, In d tails <-> In d (map (scale_dist es) ds)) -> ds <> [] ->
  needed (map (dist_value rho) ds) 2 + 2 * Z.of_nat (length ds) * (width - 1) <= Z.of_nat n * width ->
  build_level decide ds es w tails total (es * (Z.of_nat n * width + Z.of_nat (length ds) * width)) = Ok cs1 -> desymbolize rho cs1 = Ok c1 ->
  build_level decide ds es w tails total (es * (Z.of_nat n * width - Z.of_nat (length ds) * (2 * width - 1))) = Ok cs2 -> desymbolize rho cs2 = Ok c2 ->
  es * (Z.of_nat n * width - Z.of_nat (length ds) * (2 * width - 1)) <= eval rho total ->
  forall cache invalid run sts factor warm s e l q levels, first_level n (line_size k) run -> es <= cache -> 0 < invalid [] -> 100 * warmup_increment es cache + 100000 <= Z.of_nat (length its) ->
  forall written types sizes v t rest b, written = v :: rest -> types v = Some t -> sizes t = Some es -> bytes_per_iteration written types sizes (map lincr (loops k)) = Ok b ->
  simulate es (line_size k) bits 1 (iteration_length (loops k)) cache (first_offset depends k st) invalid = Ok (warm, (s, e)) -> (forall d, In (Some d) (map (dist_value rho) ds) -> d <= s) ->
  predict depends k st es bits cache b invalid run = Ok (sts, factor) -> get_misses sts factor levels = Ok (q :: l) ->
  (inject_Z (misses c1) <= q <= inject_Z (misses c2))%Q.
Proof.
  intros depends k st f its V NDV US NL X DS es width bits ES EP WP CL BP CB outer inner OI UF UN AU rho shift ST EX RP less decide ds w tails total n cs1 cs2 c1 c2 LS SD RD NN CO TL NE FIT B1 D1 B2 D2 TO
    cache invalid run sts factor warm s e l q levels FL CA IV LONG written types sizes v t rest b WR TY SZ BI SIM WA PR GM.
  assert (LN : iteration_length (loops k) = Z.of_nat (length its)) by exact (iteration_length_executed _ _ (unit_proper _ US) X).
  assert (RL : rev (loops k) <> []) by (intros Y; apply (f_equal (@rev _)) in Y; rewrite rev_involutive in Y; rewrite Y in OI; now destruct outer).
  destruct (rev (loops k)) as [|lp lps] eqn:RV; [congruence|]. clear RL.
  assert (LP : lincr lp = 1) by (rewrite <- (rev_involutive (loops k)), RV in US; unfold unit_stack in US; rewrite Forall_forall in US; now apply (US lp); apply in_rev; rewrite rev_involutive; left).
  assert (LV : lvar lp = inner) by (assert (Y := f_equal (@rev _) OI); rewrite <- map_rev, RV, rev_app_distr in Y; cbn in Y; now injection Y).
  assert (BE : b = es) by (unfold bytes_per_iteration in BI; rewrite WR, TY, SZ, <- map_rev, RV in BI; cbn [map] in BI; rewrite LP in BI; injection BI as <-; ring). subst b.
  destruct (numbering (map fst (FrontModel.variables f))) as (number & INJ).
  assert (RF : rev (FrontModel.loops f) = (inner, 1) :: map (fun l => (lvar l, lincr l)) lps) by (destruct V as (-> & _); rewrite <- map_rev, RV; cbn [map]; now rewrite LV, LP).
  pose proof (refs_perm k st f rho V number) as PRM. set (rs := refs k st rho number) in *.
  pose proof (kernel_lru less f inner 1 _ rho number rs ds w UF NDV UN LS RF AU INJ RD NN PRM) as P.
  assert (LR : length rs = length ds) by (rewrite <- (map_length (dist_value rho) ds), (Permutation_length P); unfold distances; symmetry; apply distances_length).
  assert (RN : rs <> []) by (intros Y; rewrite Y in LR; apply NE; now destruct ds).
  assert (TWO : (2 <= length its)%nat).
  { assert (0 < warmup_increment es cache) by (exact (inc_pos es 0 cache EP CA)). lia. }
  assert (DV : (es | line_size k)) by (rewrite CL; apply Z.divide_factor_l).
  unfold predict, iterations_per_cacheline in PR. destruct (Z.eqb_spec es 0) as [|_]; [lia|]. cbn [bind] in PR. unfold inner_step in PR. rewrite RV, LP in PR. cbn [bind] in PR. rewrite SIM in PR. cbn [bind] in PR.
  destruct (mapM (rows_of depends k st) warm) as [before|] eqn:B; cbn [bind] in PR; [|discriminate]. destruct (rows_of depends k st (s, e)) as [during|] eqn:D; cbn [bind] in PR; [|discriminate].
  assert (SI2 := SIM). rewrite LN in SI2. destruct (simulate_front es (Z.of_nat (length its)) cache invalid (inc_pos es 0 cache EP CA) (line_size k) bits _ warm s e LONG IV EP BP CB DV SI2) as [IW SP].
  destruct (bench_misses depends k st f its rho shift es width bits V NDV US NL X DS ES EP WP CL BP CB UF ST EX TWO number INJ n cache invalid warm s e before during RN SIM B D IW SP) as (m & MP & EM & M1 & M2).
  { intros d I. apply WA. apply (Permutation_in _ (Permutation_sym P)). exact I. }
  { fold rs. rewrite LR, <- (needed_perm _ _ 2 P). exact FIT. }
  fold rs in M1, M2. rewrite LR, <- (missing_perm _ _ _ P) in M1. rewrite LR, <- (missing_perm _ _ _ P) in M2.
  destruct (level_missing _ _ _ _ _ _ _ _ _ _ SD RP EP TL CO B1 D1) as [H1 _]. destruct (level_missing _ _ _ _ _ _ _ _ _ _ SD RP EP TL CO B2 D2) as [_ H2]. specialize (H2 TO).
  destruct (FL (concat before) during) as (s0 & srest & RUN & MISS). assert (E1 : run (concat before) during = sts) by congruence. assert (E2 : lines_of_work (fst (s, e)) (snd (s, e)) (inject_Z (line_size k) / inject_Z es) = factor) by congruence. clear PR.
  assert (MQ : (0 < inject_Z m)%Q) by (change 0%Q with (inject_Z 0); now rewrite <- Zlt_Qlt). assert (EQ : (0 < inject_Z es)%Q) by (change 0%Q with (inject_Z 0); now rewrite <- Zlt_Qlt). assert (WQ : (0 < inject_Z width)%Q) by (change 0%Q with (inject_Z 0); now rewrite <- Zlt_Qlt).
  assert (FM : (factor == inject_Z m)%Q).
  { rewrite <- E2. unfold lines_of_work. cbn [fst snd]. rewrite EM, CL, !inject_Z_mult. field. split; lra. }
  assert (FN : ~ (factor == 0)%Q) by (rewrite FM; lra).
  pose proof (scaled_spec (fun s => n_miss (lines s)) sts factor levels FN) as Y. unfold get_misses in GM. rewrite GM in Y. destruct Y as (Y1 & Y2 & Y3). cbn [length] in Y1. assert (LV0 : (0 < levels)%nat) by lia.
  destruct (Y3 0%nat s0 LV0) as (q' & Q1 & Q2); [now rewrite <- E1, RUN|]. cbn in Q1. injection Q1 as <-. rewrite FM, MISS in Q2.
  assert (L1 : m * misses c1 <= misses_after n (touched (line_size k) (concat before)) (touched (line_size k) during)) by nia.
  assert (L2 : misses_after n (touched (line_size k) (concat before)) (touched (line_size k) during) <= m * misses c2) by nia.
  rewrite Zle_Qle, inject_Z_mult in L1. rewrite Zle_Qle, inject_Z_mult in L2. rewrite <- Q2 in L1, L2. clear -L1 L2 MQ. split.
  - apply (Qmult_le_l _ _ (inject_Z m) MQ). lra.
  - apply (Qmult_le_l _ _ (inject_Z m) MQ). lra.
Qed.
Print Assumptions C125_agreement_partial.
(** Iterations of a single loop access elements one after the other. *)
Theorem C125_single_loop : forall f k st l its, view f k st -> NoDup (map fst (FrontModel.variables f)) -> loops k = [l] -> unit_stack (loops k) -> executes (bounds (loops k)) its -> usual f -> checks f = Ok tt ->
  (forall n, uniform (array_references f n)) -> (forall n, array_references f n <> [] -> uses (lvar l) (array_references f n)) ->
  forall rho, (forall n, n <> lvar l -> rho n = constants k n) -> streaming f k its rho (lstart l - rho (lvar l)).
Proof. exact single_streaming. Qed.
Print Assumptions C125_single_loop.

Definition C125_stmt : assignment := mkassign "=" (EArr (EID "b") (EID "i")) (EBin "+" (EArr (EID "a") (EBin "-" (EID "i") (EConst (Some 1)))) (EArr (EID "a") (EBin "+" (EID "i") (EConst (Some 1))))).
Definition C125_constants (n : string) : Z := if String.eqb n "N" then 120000 else 1.
Definition C125_kernel : kernel := mkKernel [("a", (8, [SVar "N"])); ("b", (8, [SVar "N"]))] [mkloop "i" 1 119999 1] C125_constants 64.
Definition C125_state : kstate := match p_assignments access_none_eqb [C125_stmt] empty_state with Ok st => st | Err _ => empty_state end.
Definition C125_front : front := mkFront [("i", 1)] [("a", Some [SVar "N"]); ("b", Some [SVar "N"])] [("a", [Some [SSub (SVar "i") (SInt 1)]; Some [SAdd (SVar "i") (SInt 1)]])] [("b", [Some [SVar "i"]])].
Definition C125_distances : list dist := [Poly [([], 2)]; Inf; Inf].
Example C125_found : reuse_distances numbers_only C125_front = Ok (C125_distances, 1). Proof. vm_compute. reflexivity. Qed.
Example C125_view : view C125_front C125_kernel C125_state. Proof. repeat split; reflexivity. Qed.
Lemma C125_unit : unit_stack (loops C125_kernel). Proof. repeat constructor. Qed.
Example C125_iterations : exists its, executes (bounds (loops C125_kernel)) its /\ Z.of_nat (length its) = 119998.
Proof. destruct (executes_exists _ (unit_proper _ C125_unit)) as (its & X). exists its. split; [exact X|]. now rewrite <- (iteration_length_executed _ _ (unit_proper _ C125_unit) X). Qed.
Lemma for_values_in a b vs : for_values a b 1 vs -> forall v, In v vs -> a <= v < b.
Proof. remember 1 as c. induction 1 as [|start stop incr vs L H IH]; subst; [now intros v []|]. intros v [<-|I]; [lia|]. specialize (IH eq_refl v I). lia. Qed.
Lemma C125_in its t : executes (bounds (loops C125_kernel)) its -> In t its -> exists v, t = [v] /\ 1 <= v < 119999.
Proof.
  intros (vss & F & ->) I. cbn [bounds map loops C125_kernel] in F. inversion F as [|? vs ? ? FV F2]; subst. inversion F2; subst. cbn [combinations] in I. apply in_flat_map in I as (v & I1 & [<-|[]]). exists v. split; [reflexivity|]. exact (for_values_in _ _ _ FV v I1).
Qed.
Lemma C125_references n : array_references C125_front n = if String.eqb n "a" then [[SSub (SVar "i") (SInt 1)]; [SAdd (SVar "i") (SInt 1)]] else if String.eqb n "b" then [[SVar "i"]] else [].
Proof.
  unfold array_references, entries, C125_front, FrontModel.lookup. cbn [FrontModel.sources FrontModel.destinations find fst option_map].
  destruct (String.eqb_spec n "a") as [->|NA]; [reflexivity|]. destruct (String.eqb_spec n "b") as [->|NB]; reflexivity.
Qed.
Example C125_usual : usual C125_front.
Proof.
  split; [repeat constructor; cbn; intuition discriminate|]. intros n arefs [E|[E|[]]]; injection E as <- <-; right; exists ["N"]; (split; [reflexivity|]).
  - intros a [<-|[<-|[]]]; eexists; (split; [reflexivity|]; split; [discriminate|]); (split; [reflexivity|]; split; [intros s [<-|[]] [H|[]]; discriminate|]); intros s [<-|[]]; eexists; eexists; (split; [reflexivity|]); cbn; auto.
  - intros a [<-|[]]; eexists; (split; [reflexivity|]; split; [discriminate|]); (split; [reflexivity|]; split; [intros s [<-|[]] [H|[]]; discriminate|]); intros s [<-|[]]; eexists; eexists; (split; [reflexivity|]); cbn; auto.
Qed.
Example C125_uniform n : uniform (array_references C125_front n).
Proof.
  rewrite C125_references. intros a b p s s' v v' c c' A B P P' S S'. destruct (String.eqb n "a"); [|destruct (String.eqb n "b")].
  - destruct A as [<-|[<-|[]]]; destruct B as [<-|[<-|[]]]; destruct p as [|[|p]]; cbn in P, P'; try discriminate; injection P as <-; injection P' as <-; cbn in S, S'; congruence.
  - destruct A as [<-|[]]; destruct B as [<-|[]]; destruct p as [|[|p]]; cbn in P, P'; try discriminate; injection P as <-; injection P' as <-; cbn in S, S'; congruence.
  - destruct A.
Qed.
Example C125_uses n : array_references C125_front n <> [] -> uses "i" (array_references C125_front n).
Proof.
  rewrite C125_references. destruct (String.eqb n "a"); [|destruct (String.eqb n "b")]; intros H; [| |congruence]; eexists; eexists; eexists; (split; [left; reflexivity|]); (split; [left; reflexivity|]); reflexivity.
Qed.
Example C125_consistent : consistent C125_constants (map (scale_dist 8) C125_distances).
Proof.
  intros a b ka kb Ia Ib Ka Kb. cbn [map scale_dist C125_distances In] in Ia, Ib.
  repeat destruct Ia as [<-|Ia]; try contradiction; repeat destruct Ib as [<-|Ib]; try contradiction;
    vm_compute in Ka, Kb; injection Ka as <-; injection Kb as <-; vm_compute; split; intros H;
    try reflexivity; try discriminate; try exact I; try (exfalso; apply H; reflexivity); exact H.
Qed.
Definition C125_depends (n : string) (idx : list sym) : bool := existsb (mentions (map lvar (loops C125_kernel))) idx.
Definition C125_level (size : Z) := build_level decide_numbers C125_distances 8 1 (map (scale_dist 8) C125_distances) [(["N"], 16)] size.
(** The simulation does its work, ... *)
Example C125_predicts : forall run, exists sts factor, predict C125_depends C125_kernel C125_state 8 6 1024 8 (fun _ => 1) run = Ok (sts, factor).
Proof.
  intros run. assert (SM : exists r, simulate 8 64 6 1 (iteration_length (loops C125_kernel)) 1024 (first_offset C125_depends C125_kernel C125_state) (fun _ => 1) = Ok r) by (eexists; vm_compute; reflexivity). destruct SM as (r & SM).
  apply (proj2 (C124_total C125_depends access_none_eqb C125_kernel [C125_stmt] C125_state 8 6 1024 8 (fun _ => 1) run [] (mkloop "i" 1 119999 1) r (proj1 C67_case) eq_refl eq_refl eq_refl SM)).
  intros n I. cbn in I. intuition discriminate.
Qed.
(** ... and with a first cache of 16 lines it predicts two misses per cache line of work, as layer conditions do. *)
Example C125_example : forall run sts factor levels q l, first_level 16 64 run -> predict C125_depends C125_kernel C125_state 8 6 1024 8 (fun _ => 1) run = Ok (sts, factor) -> get_misses sts factor levels = Ok (q :: l) -> (q == 2)%Q.
Proof.
  intros run sts factor levels q l FL P G. destruct C125_iterations as (its & X & LN).
  assert (ST : streaming C125_front C125_kernel its C125_constants (1 - 1)).
  { apply (C125_single_loop C125_front C125_kernel C125_state (mkloop "i" 1 119999 1)); try reflexivity; try exact X; try exact C125_view; try exact C125_unit; try exact C125_usual; try exact C125_uniform; try exact C125_uses.
    repeat constructor; cbn; intuition discriminate. }
  assert (L1 : exists cs1 c1, C125_level (8 * (16 * 8 + 3 * 8)) = Ok cs1 /\ desymbolize C125_constants cs1 = Ok c1 /\ misses c1 = 2) by (eexists; eexists; split; [vm_compute; reflexivity|]; split; vm_compute; reflexivity).
  assert (L2 : exists cs2 c2, C125_level (8 * (16 * 8 - 3 * (2 * 8 - 1))) = Ok cs2 /\ desymbolize C125_constants cs2 = Ok c2 /\ misses c2 = 2) by (eexists; eexists; split; [vm_compute; reflexivity|]; split; vm_compute; reflexivity).
  assert (SM : exists warm, simulate 8 64 6 1 (iteration_length (loops C125_kernel)) 1024 (first_offset C125_depends C125_kernel C125_state) (fun _ => 1) = Ok (warm, (303, 100303))) by (eexists; vm_compute; reflexivity).
  destruct L1 as (cs1 & c1 & B1 & D1 & M1). destruct L2 as (cs2 & c2 & B2 & D2 & M2). destruct SM as (warm & SM).
  assert (R : (inject_Z (misses c1) <= q <= inject_Z (misses c2))%Q).
  { apply (C125_agreement_partial C125_depends C125_kernel C125_state C125_front its C125_view) with (es := 8) (width := 8) (bits := 6) (outer := []) (inner := "i") (rho := C125_constants) (shift := 1 - 1) (less := numbers_only) (decide := decide_numbers)
      (ds := C125_distances) (w := 1) (tails := map (scale_dist 8) C125_distances) (total := [(["N"], 16)]) (n := 16%nat) (cs1 := cs1) (cs2 := cs2) (cache := 1024) (invalid := fun _ : list range => 1) (run := run) (sts := sts) (factor := factor) (warm := warm) (s := 303) (e := 100303)
      (l := l) (levels := levels) (written := ["b"]) (types := C124_types) (sizes := C124_sizes) (v := "b") (t := "double") (rest := []) (b := 8);
      try assumption; try reflexivity; try exact C125_unit; try exact C125_usual; try exact C125_uniform; try exact C125_uses; try exact C125_consistent; try exact numbers_only_sound; try exact decide_numbers_sound; try exact (syntactic_sound C125_kernel).
    - repeat constructor; cbn; intuition discriminate.
    - repeat constructor; cbn; intuition discriminate.
    - intros n e d [E|[E|[]]]; injection E as <- <- <-; (split; [reflexivity|]); intros x [<-|[]]; reflexivity.
    - exact (Zle_bool_imp_le 0 6 eq_refl).
    - intros n elem dims idx t A R T. destruct (C125_in its t X T) as (v & -> & V). rewrite C125_references in R.
      destruct A as [A|[A|[]]]; injection A as <- <- <-; cbn in R; repeat destruct R as [<-|R]; try contradiction; cbn; repeat constructor; cbn; unfold in_iteration; cbn; lia.
    - intros x. unfold C125_constants. destruct (String.eqb x "N"); reflexivity.
    - repeat (apply Forall_cons; [first [exact I|intros v [= <-]; vm_compute; discriminate|vm_compute; discriminate]|]). apply Forall_nil.
    - discriminate.
    - vm_compute. discriminate.
    - vm_compute. discriminate.
    - exact (Zle_bool_imp_le 8 1024 eq_refl).
    - rewrite LN. vm_compute. discriminate.
    - intros d J. change (map (dist_value C125_constants) C125_distances) with [Some 2; None; None] in J. destruct J as [[= <-]|[J|[J|[]]]]; [|discriminate J|discriminate J]. exact (Zle_bool_imp_le 2 303 eq_refl). }
  clear SM P G FL B1 B2 D1 D2 ST X.
  rewrite M1, M2 in R. change (inject_Z 2) with 2%Q in R. lra.
Qed.
(** C124 with a simulator which counts accesses only: sixteen loads and eight stores per cache line of work, no result for a second level *)
Definition C124_count (before during : list row) : list stats :=
  let n f := zsum (map (fun r => Z.of_nat (length (f r : list Z))) during) in let c := mkCounts (n fst) 0 0 (n snd) 0 in [mkStats c c].
Definition C124_short : kernel := mkKernel [("a", (8, [SInt 402])); ("b", (8, [SInt 402]))] [mkloop "i" 1 401 1] (fun _ => 0) 64.
Example C124_example : exists sts factor x y, predict C124_depends C124_short C125_state 8 6 1024 8 (fun _ => 1) C124_count = Ok (sts, factor) /\
  get_loads sts factor 1 = Ok [x] /\ get_stores sts factor 1 = Ok [y] /\ (x == 16)%Q /\ (y == 8)%Q /\ get_loads sts factor 2 = Err IndexError.
Proof. do 4 eexists. split; [vm_compute; reflexivity|]. split; [vm_compute; reflexivity|]. split; [vm_compute; reflexivity|]. repeat split; vm_compute; reflexivity. Qed.

(** ** C126: iterations per cache line of work *)
(** The first variable assigned to has elements of the size which the models use. *)
Definition writes_elements (written : list string) (types : string -> option string) (sizes : string -> option Z) (element : Z) : Prop := exists n rest t, written = n :: rest /\ types n = Some t /\ sizes t = Some element.
(** Cycles of data transfers and in the core are for a cache line of work, which are [n] iterations by [iterations_per_cacheline]. Rates are made of them with the number of elements in a line. At each step of
    the innermost loop these rates are those of [n] iterations in so many cycles times the step: ... *)
Theorem C126_rates : forall written types sizes element step outer b line n, writes_elements written types sizes element -> 0 < element -> 0 < step -> (element | line) -> 0 < line ->
  bytes_per_iteration written types sizes (outer ++ [step]) = Ok b -> iterations_per_cacheline line b = Ok n ->
  forall clock flops o f y, unit clock = "Hz" -> base_value clock = Fin f -> ofloat o = Fin y -> (forall q, o = OQ q -> unit q = "cy/CL") -> ~ (y == 0)%Q ->
  forall conv, In conv [data_conv_cy; cpu_conv_cy] -> exists r i, conv clock line element flops o = Ok r /\ base_value (it_s r) = Fin i /\ (i * y == f * n * inject_Z step)%Q.
Proof.
  intros written types sizes element step outer b line n (v & rest & t & -> & TY & SZ) EP SP DV LP B P clock flops o f y UC FC OY UQ YN conv I.
  unfold bytes_per_iteration in B. rewrite TY, SZ, rev_app_distr in B. cbn [rev app] in B. injection B as <-. unfold iterations_per_cacheline in P. destruct (Z.eqb_spec (element * step) 0) as [|_]; [nia|]. injection P as <-.
  destruct DV as (w & ->). assert (WP : 0 < w) by nia. assert (LE : element <= w * element) by nia.
  assert (WE : w * element / element = w) by (apply Z.div_mul; lia).
  assert (EQ : (0 < inject_Z element)%Q) by (change 0%Q with (inject_Z 0); now rewrite <- Zlt_Qlt). assert (SQ : (0 < inject_Z step)%Q) by (change 0%Q with (inject_Z 0); now rewrite <- Zlt_Qlt).
  assert (G : (f * (inject_Z (w * element) / inject_Z (element * step)) * inject_Z step == f * inject_Z w)%Q) by (rewrite !inject_Z_mult; field; split; lra).
  destruct I as [<-|[<-|[]]].
  - destruct (data_conv_ok clock (w * element) element flops o f y UC FC EP LE OY UQ YN) as (r & i & c & p & x & R & I & _ & _ & _ & _ & _ & _ & _ & C1 & C2 & C3 & _). exists r, i. split; [exact R|]. split; [exact I|]. rewrite G, <- C1, C2, WE, <- C3. ring.
  - destruct (cpu_conv_ok clock (w * element) element flops o f y UC FC EP LE OY UQ YN) as (r & i & c & p & x & R & I & _ & _ & _ & _ & _ & _ & _ & C1 & C2 & _). exists r, i. split; [exact R|]. split; [exact I|]. rewrite G, <- C1, C2, WE. reflexivity.
Qed.
Print Assumptions C126_rates.
(** ... as they should be if it is one. *)
Theorem C126_unit_partial : forall written types sizes element outer b line n, writes_elements written types sizes element -> 0 < element -> (element | line) -> 0 < line ->
  bytes_per_iteration written types sizes (outer ++ [1]) = Ok b -> iterations_per_cacheline line b = Ok n ->
  forall clock flops o f y, unit clock = "Hz" -> base_value clock = Fin f -> ofloat o = Fin y -> (forall q, o = OQ q -> unit q = "cy/CL") -> ~ (y == 0)%Q ->
  forall conv, In conv [data_conv_cy; cpu_conv_cy] -> exists r i, conv clock line element flops o = Ok r /\ base_value (it_s r) = Fin i /\ (i * (y / n) == f)%Q.
Proof.
  intros written types sizes element outer b line n WE EP DV LP B P clock flops o f y UC FC OY UQ YN conv I.
  destruct (C126_rates written types sizes element 1 outer b line n WE EP eq_refl DV LP B P clock flops o f y UC FC OY UQ YN conv I) as (r & i & R & RI & E). exists r, i. split; [exact R|]. split; [exact RI|].
  assert (NZ : ~ (n == 0)%Q).
  { destruct WE as (v & rest & t & -> & TY & SZ). unfold bytes_per_iteration in B. rewrite TY, SZ, rev_app_distr in B. cbn [rev app] in B. injection B as <-. unfold iterations_per_cacheline in P. destruct (Z.eqb_spec (element * 1) 0) as [|_]; [lia|]. injection P as <-.
    intros Z. assert (EQ : (0 < inject_Z (element * 1))%Q) by (change 0%Q with (inject_Z 0); rewrite <- Zlt_Qlt; lia). assert (LQ : (0 < inject_Z line)%Q) by (change 0%Q with (inject_Z 0); now rewrite <- Zlt_Qlt).
    assert (Y : (inject_Z line == inject_Z line / inject_Z (element * 1) * inject_Z (element * 1))%Q) by (field; lra). rewrite Z in Y. lra. }
  assert (Y : (i * (y / n) == i * y / n)%Q) by (field; exact NZ). rewrite Y, E. change (inject_Z 1) with 1%Q. field. exact NZ.
Qed.
Print Assumptions C126_unit_partial.
(** Refuted for other steps: [for(int i=0; i<N; i+=2) b[i] = a[i]] with 16 cycles per cache line, which are four iterations, at 2 GHz runs 500 million iterations per second. One billion are reported. *)
Theorem C126_step_refuted : exists b n r i, bytes_per_iteration ["b"] C124_types C124_sizes [2] = Ok b /\ iterations_per_cacheline 64 b = Ok n /\ (n == 4)%Q /\
  data_conv_cy (mkq (Fin 2) "G" "Hz") 64 8 1 (ON (Fin 16)) = Ok r /\ base_value (it_s r) = Fin i /\ (i == 1000000000)%Q /\ (2000000000 / 16 * n == 500000000)%Q.
Proof. exists 16. do 3 eexists. split; [reflexivity|]. split; [vm_compute; reflexivity|]. split; [reflexivity|]. split; [vm_compute; reflexivity|]. split; [vm_compute; reflexivity|]. split; reflexivity. Qed.
Print Assumptions C126_step_refuted.
(** Rates of the roofline models: bytes are those per cache line of work (C124), and the rate is that of [n] iterations in the time it takes to transfer them, times the step. *)
Theorem C126_roofline : forall written types sizes element step outer b line n, writes_elements written types sizes element -> 0 < element -> 0 < step -> (element | line) -> 0 < line ->
  bytes_per_iteration written types sizes (outer ++ [step]) = Ok b -> iterations_per_cacheline line b = Ok n ->
  forall flops f bwf e j l s moved, entry_ok line element flops f bwf e j l s moved -> ~ (moved == 0)%Q -> exists bw x, base_value (bandwidth e) = Fin bw /\ rate e = Fin x /\ (x * moved == bw * n * inject_Z step)%Q.
Proof.
  intros written types sizes element step outer b line n (v & rest & t & -> & TY & SZ) EP SP DV LP B P flops f bwf e j l s moved (_ & _ & _ & (bw & BW & R) & _) MN.
  unfold bytes_per_iteration in B. rewrite TY, SZ, rev_app_distr in B. cbn [rev app] in B. injection B as <-. unfold iterations_per_cacheline in P. destruct (Z.eqb_spec (element * step) 0) as [|_]; [nia|]. injection P as <-.
  destruct R as [[Z _]|(_ & x & RX & E)]; [contradiction|]. exists bw, x. split; [exact BW|]. split; [exact RX|]. destruct DV as (w & ->). rewrite Z.div_mul in E by lia. rewrite E.
  assert (EQ : (0 < inject_Z element)%Q) by (change 0%Q with (inject_Z 0); now rewrite <- Zlt_Qlt). assert (SQ : (0 < inject_Z step)%Q) by (change 0%Q with (inject_Z 0); now rewrite <- Zlt_Qlt).
  rewrite !inject_Z_mult. field. split; lra.
Qed.
Print Assumptions C126_roofline.
Example C126_example : exists b n r i, bytes_per_iteration ["b"] C124_types C124_sizes [1; 1] = Ok b /\ iterations_per_cacheline 64 b = Ok n /\ (n == 8)%Q /\
  data_conv_cy (mkq (Fin 2) "G" "Hz") 64 8 1 (ON (Fin 16)) = Ok r /\ base_value (it_s r) = Fin i /\ (i == 1000000000)%Q /\ (i * (16 / n) == 2000000000)%Q.
Proof. exists 8. do 3 eexists. split; [reflexivity|]. split; [vm_compute; reflexivity|]. split; [reflexivity|]. split; [vm_compute; reflexivity|]. split; [vm_compute; reflexivity|]. split; reflexivity. Qed.
Example C126_elements : writes_elements ["b"] C124_types C124_sizes 8. Proof. exists "b", [], "double". repeat split. Qed.
Example C126_roofs : exists r e l s moved bw x, some_roofs = Ok r /\ nth_error (bottlenecks r) 2 = Some e /\ entry_ok 64 8 1 2000000000 some_bw e 2 l s moved /\ base_value (bandwidth e) = Fin bw /\ rate e = Fin x /\ (x * 192 == bw * 8)%Q.
Proof.
  assert (BW : forall i l s, exists bw b, some_bw i l s = Ok bw /\ base_value bw = Fin b /\ (0 < b)%Q) by (intros i l s; destruct i as [|[|i]]; eexists; eexists; (split; [reflexivity|]); (split; [vm_compute; reflexivity|]); reflexivity).
  assert (FC : exists f, base_value ghz = Fin f /\ f = 2000000000%Q) by (eexists; split; [vm_compute; reflexivity|reflexivity]). destruct FC as (f & FC & F2).
  assert (NL : forall x, In x [0; 2; 2]%Q -> (0 <= x)%Q) by (intros x [<-|[<-|[<-|[]]]]; discriminate). assert (NS : forall x, In x [0; 1; 1]%Q -> (0 <= x)%Q) by (intros x [<-|[<-|[<-|[]]]]; discriminate).
  assert (L1 : (1 <= 3)%nat) by lia. assert (NN : [-1; 0; 1; 2; 3; 4; 5; 6; 7; 8]%Z ++ [100; 101; 102; 103; 104; 105; 106; 107]%Z <> []) by discriminate.
  destruct (C40_slowest ghz 64 8 1 f some_bw eq_refl FC eq_refl ltac:(lia) BW 3%nat _ _ [0; 2; 2]%Q [0; 1; 1]%Q L1 NN (le_n 3) (le_n 3) NL NS) as (r & R & LN & _ & _ & E). clear FC. subst f.
  destruct (nth_error (bottlenecks r) 2) as [e|] eqn:N; [|apply nth_error_None in N; lia]. destruct (E 2%nat e N) as (l & s & moved & OK & L & S & M). injection L as <-. injection S as <-.
    assert (M2 : (moved == 192)%Q) by (rewrite M; reflexivity). assert (MN : ~ (moved == 0)%Q) by (rewrite M2; discriminate).
    destruct (C126_roofline ["b"] C124_types C124_sizes 8 1 [] 8 64 (inject_Z 64 / inject_Z 8)%Q C126_elements eq_refl eq_refl ltac:(exists 8; reflexivity) eq_refl eq_refl eq_refl _ _ _ _ _ _ _ _ OK MN) as (bw & x & B & X & Q).
    exists r, e, 2%Q, 1%Q, moved, bw, x. split; [exact R|]. split; [exact N|]. split; [exact OK|]. split; [exact B|]. split; [exact X|]. rewrite <- M2, Q. change (inject_Z 1) with 1%Q. rewrite Qmult_1_r. apply Qmult_comp; reflexivity.
Qed.
