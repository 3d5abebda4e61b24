(** Reports of the models: models/ecm.py:209-236, 373-398 and 567-615, models/roofline.py:185-228 and 341-394, models/layer_condition.py:47-67,
    models/benchmark.py:526-579 and models/standalone_benchmark.py:448-508. *)
From Coq Require Import String.
From Verif Require Export PyBase PyNum PyText PyInt.
From Verif Require Import EcmModel BwModel.
Local Open Scope Q_scope.
Local Open Scope list_scope.

(** ** Formats *)
(** ['{:.1f}'.format(q)], for exact numbers (as used in models/ecm.py:574-607) *)
Definition fixed1 (q : Q) : text :=
  let z := Z.abs (round_even (q * inject_Z 10)) in
  (if Qltb q 0 then [45%N] else []) ++ show_nat (Z.to_N (z / 10)) ++ [46%N] ++ show_nat (Z.to_N (z mod 10)).
(** [sep.join(l)] (as used in models/ecm.py:574-607) *)
Fixpoint glue (sep : text) (l : list text) : text := match l with [] => [] | [x] => x | x :: l' => x ++ sep ++ glue sep l' end.
(** ['{:<n}'.format(s)] (as used in models/ecm.py:603-607) *)
Definition pad (n : nat) (s : text) : text := s ++ repeat 32%N (n - List.length s).

(** ** ECM *)
(** models/ecm.py:453-487: contributions with their names. A level is its name, whether it overlaps and its cycles; [previous] is the name of the level before. *)
Definition item := (text * Q)%type.
Fixpoint named_levels (seen : bool) (previous : text) (levels : list (text * bool * Q)) (ol nol : list item) : res (list item * list item) :=
  match levels with
  | [] => Ok (ol, nol)
  | (name, o, cy) :: levels' =>
      let it := (codes "T_" ++ previous ++ name, cy) in
      if (o : bool) then (if seen then Err ValueError else named_levels seen name levels' (ol ++ [it]) nol)
      else named_levels true name levels' ol (nol ++ [it])
  end.
Definition construction (comp regl1 : Q) (first_name : text) (first : bool) (levels : list (text * bool * Q)) (penalty : Q) : res (list item * list item) :=
  let c := (codes "T_comp", comp) in let r := (codes "T_RegL1", regl1) in
  do x <- (if first then named_levels false first_name levels [c; r] [] else named_levels true first_name levels [c] [r]);
  Ok (fst x, if Qeq_bool penalty 0 then snd x else snd x ++ [(codes "T_penalty", penalty)]).
(** models/ecm.py:574-579 *)
Definition comma := codes ", ".
Definition formula (overlapping serial : list text) : text := codes "max(" ++ glue comma overlapping ++ codes ", sum(" ++ glue comma serial ++ codes ")) cy/CL".
Definition construction_text (x : list item * list item) : text := formula (map fst (fst x)) (map fst (snd x)).
Definition value_text (x : list item * list item) : text := formula (map (fun i => fixed1 (snd i)) (fst x)) (map (fun i => fixed1 (snd i)) (snd x)).
(** models/ecm.py:562-565: the prediction for the number of cores asked for; Python takes negative indices from the end. *)
Definition py_index {A} (l : list A) (i : Z) : res A :=
  let n := Z.of_nat (List.length l) in
  let j := (if i <? 0 then i + n else i)%Z in
  if (0 <=? j)%Z then (match nth_error l (Z.to_nat j) with Some x => Ok x | None => Err IndexError end) else Err IndexError.
Definition multi_core {A} (predictions : list A) (cores : Z) : res (option A) :=
  if (cores =? 0)%Z then Ok None else do x <- py_index predictions (cores - 1)%Z; Ok (Some x).
(** models/ecm.py:521-522 and 551: predictions with their numbers of cores, times as in [EcmModel.scale] *)
Definition predictions (s : scaling) : list (nat * Q) := combine (seq 1 (List.length (scaling_times s))) (scaling_times s).
(** models/ecm.py:603-607. [conv]: the value in the chosen unit, [unit] its name *)
Definition bar := codes " | ".
Definition cores_row (unit : text) (l : list (nat * Q)) : text :=
  codes "cores " ++ repeat 32%N (List.length unit + 2) ++ codes " || " ++ glue bar (map (fun s => pad 5 (show_nat (N.of_nat (fst s)))) l).
Definition performance_row (unit : text) (conv : Q -> Q) (l : list (nat * Q)) : text :=
  codes "perf. (" ++ unit ++ codes ") || " ++ glue bar (map (fun s => pad 5 (fixed1 (conv (snd s)))) l).

(** ** Layer conditions *)
(** The machine, and the bytes of a set of the caches (ways times size of a line). Of the results only the size is kept each condition was made for: its
    conditions are a function of it (C20-C22). [stored] is the content of the intermediate file if it is used (C57, C105) (models/layer_condition.py:58-61). *)
Definition sizes (per_set : string -> Z) (s : simulator) : list (string * Z) := map (fun l => (fst l, per_set (fst l) * snd l)%Z) (sim_levels s).
(** models/layer_condition.py:47-50 and cacheprediction.py:260-283, 419: the number of cores is left at its default. Returned are the results, the simulator
    kept by the machine and the stored file. *)
Definition lc_analyze (per_set : string -> Z) (m : machine) (kept : option simulator) (stored : option (list (string * Z)))
  : res (list (string * Z) * option simulator * option (list (string * Z))) :=
  match stored with
  | Some r => Ok (r, kept, Some r)
  | None => do x <- get_cachesim m kept 1; Ok (sizes per_set (fst x), snd x, Some (sizes per_set (fst x)))
  end.
(** models/layer_condition.py:58-67: name and size (in KB) in the header of each level, and the size its conditions were made for *)
Definition lc_report (per_set : string -> Z) (m : machine) (kept : option simulator) (cores : Z) (results : list (string * Z)) : res (list (string * Z * Z)) :=
  do x <- get_cachesim m kept cores;
  Ok (map (fun p => (fst (fst p), snd (fst p) / 1024, snd (snd p))%Z) (combine (sizes per_set (fst x)) results)).
Definition lc_model per_set m kept stored cores : res (list (string * Z * Z)) :=
  do x <- lc_analyze per_set m kept stored; lc_report per_set m (snd (fst x)) cores (fst (fst x)).

(** ** Where reports go *)
(** The file given to [report], standard output, standard error (as in models/ecm.py:567-609) *)
Inductive target := Given | Stdout | Stderr.
Definition when (b : bool) (l : list target) : list target := if b then l else [].
(** One entry per call of [print]; those to standard error are warnings about complex numbers. *)
(** models/ecm.py:373-398 *)
Definition cpu_report (out : target) (verbose : Z) (complex_flops : bool) : list target :=
  when (2 <? verbose)%Z [out; out; out] ++ when (1 <? verbose)%Z [out; out; out; out; out] ++ [out; out] ++ when complex_flops [Stderr].
(** models/ecm.py:209-236. [levels]: number of levels, [penalty]: is it not 0, [memory]: is there a level with measured bandwidth *)
Definition data_report (out : target) (verbose : Z) (levels : nat) (penalty memory complex_flops : bool) : list target :=
  when (1 <? verbose)%Z [out] ++ repeat out levels ++ when penalty [Stdout] ++ when ((1 <? verbose)%Z && memory) [out]
  ++ when (1 <? verbose)%Z [out; out] ++ when complex_flops [Stderr].
(** models/ecm.py:567-615 *)
Definition ecm_report (out : target) (verbose : Z) (levels : nat) (penalty memory complex_flops : bool) : list target :=
  when (1 <? verbose)%Z (cpu_report Stdout verbose complex_flops ++ data_report Stdout verbose levels penalty memory complex_flops) ++ [out] ++ when complex_flops [Stderr].
(** models/roofline.py:185-228 and 341-394. [infos]: RooflineFLOP prints the information of the predictor, RooflineASM the analysis of the code. *)
Definition roofline_report (out : target) (verbose : Z) (bottlenecks : nat) (cpu_bound asm complex_flops : bool) : list target :=
  when (3 <=? verbose)%Z [out] ++ when (1 <=? verbose)%Z ((if asm then [] else [out]) ++ [out; out; out; out] ++ repeat out bottlenecks ++ [out] ++ (if asm then [out; out] else []))
  ++ (if cpu_bound then [out] else [out; out; out]) ++ when complex_flops [Stderr].
(** models/layer_condition.py:52-67. [conditions]: number of conditions of each level *)
Definition lc_targets (out : target) (verbose : Z) (conditions : list nat) : list target :=
  when (2 <? verbose)%Z [Stdout; Stdout] ++ flat_map (fun n => [Stdout; Stdout] ++ repeat Stdout n ++ [Stdout]) conditions.
(** models/benchmark.py:526-579. [rows]: number of metrics printed for each level *)
Definition bench_report (out : target) (verbose : Z) (no_phenoecm : bool) (caches : nat) : list target :=
  when (1 <? verbose)%Z [Stdout] ++ when (0 <? verbose)%Z [out; out] ++ [out; out; out; out; out] ++ when (0 <? verbose)%Z [out] ++ [out]
  ++ when (negb no_phenoecm) ([Stdout; Stdout] ++ repeat Stdout 4 ++ [Stdout] ++ flat_map (fun _ => [Stdout] ++ repeat Stdout 4 ++ [Stdout]) (repeat tt caches) ++ [Stdout] ++ [out; out]).

(** ** Tables of data transfers *)
(** Metrics of a level: names and printed values, in the order of the dict (models/benchmark.py:559-570) *)
Definition metrics := list (string * string).
Definition by_name {A} (a b : string * A) : bool := String.leb (fst a) (fst b).
Fixpoint sget {A} (k : string) (d : list (string * A)) : option A := match d with [] => None | (x, v) :: d' => if String.eqb k x then Some v else sget k d' end.
(** models/benchmark.py:559-570: heads of the columns and rows (without the layout of the cells). Names of levels are different, so [sorted] compares only them. *)
Definition bench_columns : list string := ["loads"; "misses"; "stores"; "evicts"]%string.
Definition bench_table (transfers : list (string * metrics)) : list string * list (string * list string) :=
  (bench_columns, map (fun r => (fst r, map (fun n => match sget n (snd r) with Some v => v | None => "-"%string end) bench_columns)) (sort_with by_name transfers)).
(** models/standalone_benchmark.py:488-499 *)
Definition standalone_table (transfers : list (string * metrics)) : list string * list (string * list string) :=
  (match transfers with [] => [] | (_, first) :: _ => map fst (sort_with by_name first) end,
   map (fun r => (fst r, map snd (sort_with by_name (snd r)))) (sort_with by_name transfers)).
