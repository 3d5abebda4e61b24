(** Constructors of the performance models: models/ecm.py:50-81, 249-289, 416-441, models/roofline.py:25-57, 245-280, models/benchmark.py:286-329 and
    models/standalone_benchmark.py:41-79. Parsed arguments are a namespace, which is true, or None; messages are left out. *)
From Verif Require Export PyBase PyText PyFloat ArgsModel.
From Verif Require Import OmpModel.
Local Open Scope string_scope.
Local Open Scope list_scope.

(** Arguments the models use: kerncraft.py:166-210 and models/benchmark.py:275-284. Value of --asm-block as left by [check_arguments] (kerncraft.py:223-227): a text or a number *)
Record args := mkArgs { a_verbose : Z; a_cores : Z; a_predictor : text; a_asm_block : int_or_text; a_increment : int_or_text; a_incore : text;
                        a_no_phenoecm : bool; a_iterations : Z; a_ignore_warnings : bool }.
(** The two classes of predictors; others can be passed as well (models/ecm.py:50-81). *)
Inductive predictor := SIM | LCP | OtherPredictor (n : nat).

(** ** Transfers of data *)
(** models/ecm.py:68-81 and models/roofline.py:44-57. The predictor is given by its class; that it is made for the kernel and the machine is left out, as
    are errors while it is made. *)
Record data := mkData { d_cores : Z; d_predictor : predictor; d_predictor_cores : Z; d_verbose : Z }.
Definition data_init (given : option args) (cores : Z) (cache_predictor : predictor) (verbose : Z) : res data :=
  match given with
  | Some a =>
      if text_eqb (a_predictor a) (codes "SIM") then Ok (mkData (a_cores a) SIM (a_cores a) (a_verbose a))
      else if text_eqb (a_predictor a) (codes "LC") then Ok (mkData (a_cores a) LCP (a_cores a) (a_verbose a))
      else Err NotImplementedError
  | None => Ok (mkData cores cache_predictor cores verbose)
  end.

(** ** In-core part (models/ecm.py:249-289) *)
Definition is_name (names : list string) (v : int_or_text) : bool := match v with IsText s => existsb (fun n => text_eqb s (codes n)) names | IsInt _ => false end.
(** [int(v)] (models/ecm.py:249-289) *)
Definition int_of (v : int_or_text) : option Z := match v with IsInt z => Some z | IsText s => py_int s end.
(** models/ecm.py:279-283 or 284-289: the number is taken from the parsed arguments, which may be None; so may be the parser. *)
Definition validate (given : option args) (parser : bool) (names : list string) (current : int_or_text) (option_of : args -> int_or_text) : res int_or_text :=
  if is_name names current then Ok current else
  match given with
  | None => Err AttributeError
  | Some a => match int_of (option_of a) with Some z => Ok (IsInt z) | None => Err (if parser then SystemExit else AttributeError) end
  end.
Record cpu := mkCpu { c_asm_block : int_or_text; c_increment : int_or_text; c_verbose : Z }.
Definition block_names := ["auto"; "manual"].
Definition increment_names := ["auto"; "auto_with_manual_fallback"; "manual"].
(** models/ecm.py:249-289 *)
Definition cpu_init (given : option args) (parser : bool) (asm_block increment : int_or_text) (verbose : Z) : res cpu :=
  let '(b, i, v) := match given with Some a => (a_asm_block a, a_increment a, a_verbose a) | None => (asm_block, increment, verbose) end in
  do b <- validate given parser block_names b a_asm_block;
  do i <- validate given parser increment_names i a_increment;
  Ok (mkCpu b i v).
(** models/ecm.py:291-303 and models/roofline.py:286-293: the model the in-core analysis is asked for *)
Definition incore_call (given : option args) (c : cpu) : res (int_or_text * int_or_text * text) :=
  match given with Some a => Ok (c_asm_block c, c_increment c, a_incore a) | None => Err AttributeError end.

(** ** Combined models (models/ecm.py:416-441) *)
Record ecm := mkEcm { e_verbose : Z; e_cpu : cpu; e_data : data }.
(** models/ecm.py:416-441 *)
Definition ecm_init (given : option args) (parser : bool) (asm_block increment : int_or_text) (cores : Z) (cache_predictor : predictor) (verbose : Z) : res ecm :=
  do c <- cpu_init given parser asm_block increment verbose;
  do d <- data_init given cores SIM verbose;
  Ok (mkEcm (match given with Some a => a_verbose a | None => verbose end) c d).
(** models/roofline.py:245-280: the constructor of RooflineFLOP, then the same as in [cpu_init] *)
Definition roofline_asm_init (given : option args) (parser : bool) (asm_block increment : int_or_text) (cores : Z) (predictor : predictor) (verbose : Z) : res (data * cpu) :=
  do d <- data_init given cores predictor verbose;
  do c <- cpu_init given parser asm_block increment (d_verbose d);
  Ok (d, c).

(** ** Measurements *)
(** [machine.current_system()] (C91), and the metrics of the overlapping and non-overlapping model (models/benchmark.py:286-329 and models/standalone_benchmark.py:41-79) *)
Record bench := mkBench { b_no_phenoecm : bool; b_verbose : Z; b_iterations : Z }.
(** models/benchmark.py:315-317: the text it looks for *)
Definition missing_mark := codes "INFORAMTION_REQUIRED".
(** models/benchmark.py:286-329 *)
Definition bench_init (given : option args) (no_phenoecm : bool) (verbose : Z) (overlapping nonoverlapping : text) (current_system : bool) : res bench :=
  match given with
  | None => Err AttributeError
  | Some a =>
      let n := if (Z.ltb 1 (a_cores a) && negb (a_no_phenoecm a))%bool then true
               else if contains missing_mark (overlapping ++ nonoverlapping) then true else a_no_phenoecm a in
      if (current_system || a_ignore_warnings a)%bool then Ok (mkBench n (a_verbose a) (a_iterations a)) else Err SystemExit
  end.
(** models/standalone_benchmark.py:41-79 *)
Definition standalone_init (given : option args) (no_phenoecm : bool) (verbose : Z) (current_system : bool) : res bench :=
  match given with
  | None => Err AttributeError
  | Some a =>
      let n := if (Z.ltb 1 (a_cores a) && negb (a_no_phenoecm a))%bool then true else a_no_phenoecm a in
      if (current_system || a_ignore_warnings a)%bool then Ok (mkBench n (a_verbose a) 10) else Err SystemExit
  end.
