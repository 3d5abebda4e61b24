(** Properties of the arguments of the program *)
From Verif Require Import ArgsModel ArgsSpec ArgsProofs DefineSpec DefineProps.
From Coq Require Import Lia.
Local Open Scope string_scope.
Local Open Scope list_scope.

(** C106: a block is accepted exactly if it is "auto", "manual" or a number; everything else ends the program. *)
Theorem C106_asm_block : forall s,
  (check_asm_block s = Ok Auto <-> s = codes "auto") /\ (check_asm_block s = Ok Manual <-> s = codes "manual")
  /\ (forall z, check_asm_block s = Ok (Number z) <-> py_int s = Some z)
  /\ (check_asm_block s = Err SystemExit <-> s <> codes "auto" /\ s <> codes "manual" /\ py_int s = None)
  /\ (forall e, check_asm_block s = Err e -> e = SystemExit).
Proof.
  intros s. unfold check_asm_block. destruct (text_eqb_spec s (codes "auto")) as [->|A].
  - assert (P : py_int (codes "auto") = None) by reflexivity. rewrite P. do 4 (split; [intuition discriminate|]). intuition discriminate.
  - destruct (text_eqb_spec s (codes "manual")) as [->|M].
    + assert (P : py_int (codes "manual") = None) by reflexivity. rewrite P. do 4 (split; [intuition discriminate|]). intuition discriminate.
    + destruct (py_int s) as [z|].
      * do 2 (split; [intuition congruence|]). split; [intros z'; intuition congruence|]. split; [intuition congruence|]. intuition congruence.
      * do 2 (split; [intuition congruence|]). split; [intros z'; intuition congruence|]. split; [intuition congruence|]. intuition congruence.
Qed.
(** C106: decimal numbers are read as numbers, for the block and for the increment. *)
Theorem C106_numbers : forall z, check_asm_block (show_int z) = Ok (Number z) /\ int_or_str (show_int z) = IsInt z.
Proof.
  intros z. assert (R : py_int (show_int z) = Some z) by apply show_int_read. split; [|unfold int_or_str; now rewrite R].
  now apply (proj1 (proj2 (proj2 (C106_asm_block (show_int z))))).
Qed.
(** C106: a unit that is given is used; otherwise each model that is used on its own, or together with models of the same unit, has its own one. *)
Theorem C106_unit_partial : (forall u models, check_unit (Some u) models = u)
  /\ (forall m models, (forall m', In m' models -> default_unit m' = default_unit m) -> In m models -> check_unit None models = default_unit m).
Proof.
  split; [reflexivity|]. intros m models H I. unfold check_unit. destruct (existsb is_roofline models) eqn:E.
  - apply existsb_exists in E as (m' & I' & R). rewrite <- (H m' I'). destruct m'; try discriminate R; reflexivity.
  - assert (R : is_roofline m = false). { destruct (is_roofline m) eqn:R; [|reflexivity]. rewrite <- E. symmetry. apply existsb_exists. eauto. } destruct m; try discriminate R; reflexivity.
Qed.
(** C106 does not hold for several models: with a roofline model, the others lose their unit. *)
Theorem C106_unit_refuted : forall models m, In RooflineFLOP models -> In m models -> default_unit m = CyPerCL -> check_unit None models <> default_unit m.
Proof.
  intros models m R I D. unfold check_unit. assert (E : existsb is_roofline models = true) by (apply existsb_exists; exists RooflineFLOP; auto). rewrite E, D. discriminate.
Qed.
(** C106: without a choice, the in-core model is the first one of the machine description, when asked from Python. *)
Theorem C106_incore_partial : (forall described m, get_incore_model described (Some m) = Ok m) /\ (forall m described, get_incore_model (m :: described) None = Ok m).
Proof. split; reflexivity. Qed.
(** C106 does not hold for the program: without --incore-model it is OSACA, whatever the description says. *)
Theorem C106_incore_refuted : forall m described, m <> codes "OSACA" -> get_incore_model (m :: described) (incore_option None) <> Ok m.
Proof. intros m described N [= E]. now apply N. Qed.
Example C106_example : check_asm_block (codes " -12 ") = Ok (Number (-12)) /\ check_asm_block (codes "last") = Err SystemExit
  /\ check_unit None [ECM; Benchmark] = CyPerCL /\ check_unit None [RooflineIACA; RooflineFLOP] = FlopPerS /\ check_unit None [ECM; RooflineFLOP] = FlopPerS
  /\ get_incore_model [codes "IACA"; codes "OSACA"] None = Ok (codes "IACA") /\ get_incore_model [codes "IACA"; codes "OSACA"] (incore_option None) = Ok (codes "OSACA").
Proof. vm_compute. do 6 (split; [reflexivity|]). reflexivity. Qed.

(** C107: with the constants of an analysis, all sizes, bounds and indices of accesses only depend on the indices of the loops. *)
Theorem C107_sufficient : forall free k options models l constants model s env env', free_symbols free ->
  run_analyses free k options models = Ok l -> In (constants, model) l -> size_of k s \/ bound_of k s \/ index_of_access k s ->
  respects constants env -> respects constants env' -> (forall n, is_index k n -> In n (symbols s) -> env n = env' n) -> seval env s = seval env' s.
Proof.
  intros free k options models l constants model s env env' [F1 F2] H I C R R' X. apply considered_spec in C. apply F2. intros n Hn.
  destruct (mem n (map l_index (k_loops k))) eqn:M.
  - apply is_index_spec in M. apply X; [exact M|]. now apply F1.
  - destruct (analysed_constants free k options models l constants model H I n) as [v Hv].
    + apply required_spec. split; [eauto|]. rewrite <- is_index_spec. congruence.
    + now rewrite (R n v Hv), (R' n v Hv).
Qed.
(** C107: sizes and bounds in which no index of a loop occurs are numbers. What is missing: sizes and bounds with indices, and steps, see below. *)
Theorem C107_numbers_partial : forall free k options models l constants model s, free_symbols free ->
  run_analyses free k options models = Ok l -> In (constants, model) l -> size_of k s \/ bound_of k s ->
  (forall n, is_index k n -> ~ In n (symbols s)) -> number constants s.
Proof.
  intros free k options models l constants model s F H I C N env env' R R'. apply (C107_sufficient free k options models l constants model); auto; [tauto|].
  intros n Hn Hs. destruct (N n Hn Hs).
Qed.
(** C107: only constants that occur in the kernel are required, each once, and no index of a loop. *)
Theorem C107_no_more : forall free k, free_symbols free -> NoDup (required free k) /\ forall n, In n (required free k) ->
  ~ is_index k n /\ exists s, (size_of k s \/ bound_of k s \/ index_of_access k s) /\ In n (symbols s).
Proof.
  intros free k [F _]. split; [apply required_nodup|]. intros n I. apply required_spec in I as ((s & C & Hn) & N). split; [exact N|].
  exists s. split; [now apply considered_spec|now apply F].
Qed.
(** C107: nothing is analysed if the value of one of the expressions needs a constant that has no value: if the value of the expression changes
    with this constant alone. *)
Theorem C107_missing_is_error : forall free k options models s n env v, free_symbols free ->
  size_of k s \/ bound_of k s \/ index_of_access k s -> seval (fun m => if String.eqb m n then v else env m) s <> seval env s -> ~ is_index k n ->
  (forall vs, ~ In (n, vs) options) -> (forall vs, ~ In (".", vs) options) -> run_analyses free k options models = Err ValueError.
Proof.
  intros free k options models s n env v [F1 F2] C D N O1 O2. apply (proj1 (C43_missing (required free k) options models)). exists n. split; [|auto].
  apply required_spec. split; [|exact N]. exists s. split; [now apply considered_spec|].
  destruct (in_dec string_dec n (free s)) as [I|NI]; [exact I|]. exfalso. apply D. apply F2. intros m Hm. destruct (String.eqb_spec m n) as [->|]; [contradiction|reflexivity].
Qed.
(** C107 does not hold for bounds with the index of an outer loop, sizes with the name of an index, and steps of described kernels: the kernel is
    analysed although they are no numbers. *)
Definition triangle : kernel := mkKernel [("a", Some [SVar "N"; SVar "N"])] [mkLoop "i" (SInt 0) (SVar "N") (SInt 1); mkLoop "j" (SInt 0) (SVar "i") (SInt 1)] [("a", [Some [SVar "i"; SVar "j"]])] [].
Definition stepped : kernel := mkKernel [("a", Some [SVar "N"])] [mkLoop "i" (SInt 0) (SVar "N") (SVar "S")] [("a", [Some [SVar "i"]])] [].
Definition named : kernel := mkKernel [("a", Some [SMul (SInt 2) (SVar "i")])] [mkLoop "i" (SInt 0) (SVar "N") (SInt 1)] [("a", [Some [SVar "i"]])] [].
Lemma not_number : forall constants n, (forall v, ~ In (n, v) constants) -> forall s env, respects constants env ->
  seval (fun m => if String.eqb m n then 5%Z else env m) s <> seval (fun m => if String.eqb m n then 7%Z else env m) s -> ~ number constants s.
Proof.
  intros constants n N s env R D H. apply D, H; intros m v I; (destruct (String.eqb_spec m n) as [->|]; [destruct (N v I)|now apply R]).
Qed.
Theorem C107_numbers_refuted : forall free, free_symbols free -> (forall n, free (SVar n) = [n]) -> (forall z, free (SInt z) = []) -> (forall n, free (SMul (SInt 2) (SVar n)) = [n]) ->
  Forall (fun k => run_analyses free k [("N", [100%Z])] ["ECM"] = Ok [([("N", 100%Z)], "ECM")] /\
    exists s, (size_of k s \/ bound_of k s \/ step_of k s) /\ ~ number [("N", 100%Z)] s) [triangle; named; stepped].
Proof.
  intros free F V ZF M.
  assert (N : forall n, n <> "N" -> forall v : Z, ~ In (n, v) [("N", 100%Z)]) by (intros n Nn v [[= E _]|[]]; congruence).
  assert (R : respects [("N", 100%Z)] (fun _ => 100%Z)) by (intros n v [[= _ <-]|[]]; reflexivity).
  apply Forall_cons; [|apply Forall_cons; [|apply Forall_cons; [|apply Forall_nil]]].
  - split; [unfold run_analyses, required; cbn [considered triangle k_variables k_loops k_sources k_destinations given_lists flat_map snd accessed app l_start l_stop map l_index]; rewrite ?V, ?ZF; vm_compute; reflexivity|].
    exists (SVar "i"). split; [right; left; eexists; split; [right; left; reflexivity|now right]|]. apply (not_number _ "i" (N "i" ltac:(discriminate)) _ (fun _ => 100%Z) R). cbn. discriminate.
  - split; [unfold run_analyses, required; cbn [considered named k_variables k_loops k_sources k_destinations given_lists flat_map snd accessed app l_start l_stop map l_index]; rewrite ?M, ?V, ?ZF; vm_compute; reflexivity|].
    exists (SMul (SInt 2) (SVar "i")). split; [left; eexists _, _; split; [now left|now left]|]. apply (not_number _ "i" (N "i" ltac:(discriminate)) _ (fun _ => 100%Z) R). cbn. discriminate.
  - split; [unfold run_analyses, required; cbn [considered stepped k_variables k_loops k_sources k_destinations given_lists flat_map snd accessed app l_start l_stop map l_index]; rewrite ?V, ?ZF; vm_compute; reflexivity|].
    exists (SVar "S"). split; [right; right; eexists; split; [now left|reflexivity]|]. apply (not_number _ "S" (N "S" ltac:(discriminate)) _ (fun _ => 100%Z) R). cbn. discriminate.
Qed.

(** A kernel with two constants; one more cancels and is not asked for by an algebra system that notices. *)
Definition stencil : kernel :=
  mkKernel [("a", Some [SVar "M"; SVar "N"]); ("b", Some [SVar "M"; SAdd (SSub (SVar "K") (SVar "K")) (SVar "N")]); ("s", None)]
    [mkLoop "j" (SInt 1) (SSub (SVar "M") (SInt 1)) (SInt 1); mkLoop "i" (SInt 1) (SSub (SVar "N") (SInt 1)) (SInt 1)]
    [("a", [Some [SSub (SVar "j") (SInt 1); SVar "i"]; Some [SVar "j"; SAdd (SVar "i") (SVar "D")]]); ("s", [None])] [("b", [Some [SVar "j"; SVar "i"]])].
Example C107_example : free_symbols symbols /\ free_symbols remaining
  /\ required symbols stencil = ["M"; "N"; "K"; "D"] /\ required remaining stencil = ["M"; "N"; "D"]
  /\ run_analyses remaining stencil [("N", [10%Z]); (".", [3%Z])] ["LC"] = Ok [([("D", 3%Z); ("M", 3%Z); ("N", 3%Z)], "LC"); ([("D", 3%Z); ("M", 3%Z); ("N", 10%Z)], "LC")]
  /\ run_analyses remaining stencil [("N", [10%Z]); ("M", [3%Z])] ["LC"] = Err ValueError.
Proof. split; [exact symbols_free|]. split; [exact remaining_free|]. vm_compute. auto. Qed.

Print Assumptions C106_asm_block.
Print Assumptions C106_numbers.
Print Assumptions C106_unit_partial.
Print Assumptions C106_unit_refuted.
Print Assumptions C106_incore_partial.
Print Assumptions C106_incore_refuted.
Print Assumptions C107_sufficient.
Print Assumptions C107_numbers_partial.
Print Assumptions C107_no_more.
Print Assumptions C107_missing_is_error.
Print Assumptions C107_numbers_refuted.
