(** Specification for C124-C126. Caches are those of LruSpec, iterations those of LoopSpec, values of variables those of TraceSpec; of the models syntax and records are used. *)
From Coq Require Import String.
From Verif Require Import PyBase PyNum LoopModel LoopSpec AstModel AstSpec FrontModel FrontSpec LruSpec TraceModel TraceSpec SimModel CsimModel.
Local Open Scope list_scope.
Local Open Scope Z_scope.

(** ** Simulated caches *)
(** Lines touched in simulated iterations: loads first. All memory is one array of lines. *)
Definition memory_line (line_size a : Z) : line := (0%nat, a / line_size).
Definition touched (line_size : Z) (rows : list row) : list line := flat_map (fun r => map (memory_line line_size) (fst r ++ snd r)) rows.
(** The first level of the simulator is a fully associative LRU cache of [n] lines, lines stored to are loaded before, and misses are counted after the warm-up. *)
Definition first_level (n : nat) (line_size : Z) (run : list row -> list row -> list stats) : Prop :=
  forall before during, exists s rest, run before during = s :: rest /\ n_miss (lines s) = misses_after n (touched line_size before) (touched line_size during).
(** Iterations of ranges *)
Definition iterations_of (rs : list range) : list Z := flat_map (fun r => positions (fst r) (snd r)) rs.

(** ** Kernels *)
(** Layer conditions are made for the kernel which is simulated. *)
Definition view (f : front) (k : kernel) (st : kstate) : Prop :=
  FrontModel.loops f = map (fun l => (lvar l, lincr l)) (loops k) /\
  flat_map (fun v => match snd v with Some d => [(fst v, d)] | None => [] end) (FrontModel.variables f) = map (fun a => (fst a, snd (snd a))) (arrays k) /\
  FrontModel.sources f = AstModel.sources st /\ FrontModel.destinations f = AstModel.destinations st.
(** Each iteration accesses elements one further than the one before: those of iteration [g] are [g + shift] elements after those for the values [rho]. *)
Definition streaming (f : front) (k : kernel) (its : list (list Z)) (rho : string -> Z) (shift : Z) : Prop :=
  forall n elem dims idx g t, In (n, (elem, dims)) (arrays k) -> In idx (array_references f n) -> nth_error its g = Some t ->
  place (in_iteration (constants k) (map lvar (loops k)) t) dims idx = place rho dims idx + Z.of_nat g + shift.
(** All elements exist. *)
Definition elements_exist (f : front) (k : kernel) (its : list (list Z)) : Prop :=
  forall n elem dims idx t, In (n, (elem, dims)) (arrays k) -> In idx (array_references f n) -> In t its ->
  in_range (map (seval (constants k)) dims) (map (seval (in_iteration (constants k) (map lvar (loops k)) t)) idx).
