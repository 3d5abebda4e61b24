(** The stand-alone benchmark, [/repo/kerncraft/models/standalone_benchmark.py]: output of likwid-perfctr with regions (119-177), regions
    that are analysed (264-281), counters of regions (333-344, 361-367), results of a region (350-356, 419-446); the phenomenological ECM
    model of both benchmarks, (323-329, 369-413) and [/repo/kerncraft/models/benchmark.py] 404-416, 449-491.
    Simplifications: texts are ASCII; floating point numbers are exact (PyNum.v); printed warnings are left out. *)
From Verif Require Import CtrModel LoopModel PerfModel BenchModel.
From Verif Require Export PyDict PyFloat.
Local Open Scope N_scope.
Local Open Scope list_scope.

(** ** Output with regions: models/standalone_benchmark.py:119-160 *)
(** The values of a region; Nothing is None (models/standalone_benchmark.py:119-160). *)
Inductive entry := Number (x : num) | Label (s : text) | Counts (d : tdict Z) | Nothing.
(** [results] is a defaultdict(dict) (models/standalone_benchmark.py:119-160). *)
Definition results := tdict (tdict entry).
Definition dict_of (r : text) (res : results) : tdict entry := match tget r res with Some d => d | None => [] end.
Definition put (r k : text) (x : entry) (res : results) : results := tset r (tset k x (dict_of r res)) res.
(** The results, current_region and benchmarked_regions, a set (models/standalone_benchmark.py:119-160) *)
Record state := mkState { s_results : results; s_current : text; s_found : list text }.
Definition set_add (r : text) (l : list text) : list text := if existsb (text_eqb r) l then l else l ++ [r].
Definition with_results (st : state) (res : results) : state := mkState res (s_current st) (s_found st).
(** models/standalone_benchmark.py:125-128; [line[1]] of a line without comma is an IndexError. *)
Definition enter (st : state) (cells : list text) : res state :=
  match cells with
  | k :: rest =>
      if text_eqb k (codes "TABLE") then
        match rest with
        | [] => Err IndexError
        | v :: _ => if starts_with (codes "Region ") v
                    then Ok (mkState (s_results st) (skipn 7 v) (set_add (skipn 7 v) (s_found st)))
                    else Ok st
        end
      else Ok st
  | [] => Ok st
  end.
(** models/standalone_benchmark.py:146, [re.fullmatch(r'[A-Z0-9]+', line[1])] *)
Definition is_plain_register (s : text) : bool := some_of name_char s.
(** models/standalone_benchmark.py:153-160 *)
Definition remaining (st : state) (k v : text) (rest : list text) : state :=
  let res := s_results st in
  let cur := s_current st in
  let res := if text_eqb k (codes "call count") then put cur k (if text_eqb cur [] then Nothing else Label v) res else res in
  let res := if ends_with_colon k && match rest with [[]] => true | _ => false end then put [] k (Label v) res else res in
  with_results st res.
(** models/standalone_benchmark.py:130-160. Setting an entry in something that is no dictionary is a TypeError, which is not caught. *)
Definition read_cells (st : state) (cells : list text) : res state :=
  match cells with
  | k :: v :: rest =>
      match py_float v with
      | Some x => Ok (with_results st (put (s_current st) k (Number x) (s_results st)))
      | None =>
          match rest with
          | [] => Ok (remaining st k v rest)
          | c :: _ =>
              match counter_value c with
              | None => Ok (remaining st k v rest)
              | Some n =>
                  if is_event_name k && is_plain_register v then
                    match tget k (dict_of (s_current st) (s_results st)) with
                    | None => Ok (with_results st (put (s_current st) k (Counts [(v, n)]) (s_results st)))
                    | Some (Counts d) => Ok (with_results st (put (s_current st) k (Counts (tset v n d)) (s_results st)))
                    | Some _ => Err TypeError
                    end
                  else Ok (remaining st k v rest)
              end
          end
      end
  | _ => Ok st
  end.
Definition read_line (st : state) (line : text) : res state := do st1 <- enter st (PyText.split 44 line); read_cells st1 (PyText.split 44 line).
Fixpoint read_lines (st : state) (lines : list text) : res state :=
  match lines with
  | [] => Ok st
  | l :: lines' => do st1 <- read_line st l; read_lines st1 lines'
  end.
(** ** One run: models/standalone_benchmark.py:119-177. [found] are the regions of earlier runs. The frequency has to be in the output. *)
Definition check_clock (clock : Q) (ignore_warnings : bool) (rs : results) : res unit :=
  match tget (codes "CPU clock:") (dict_of [] rs) with
  | None => Err KeyError
  | Some (Label s) =>
      match py_float (without_unit s) with
      | None => Err ValueError
      | Some x =>
          let current := nmul x (Fin (inject_Z 1000000000)) in
          if ngtb (nabs (nsub current (Fin clock))) (Fin (clock * (1 # 100))%Q) && negb ignore_warnings then Err SystemExit else Ok tt
      end
  | Some _ => Err AttributeError
  end.
Definition perfctr (clock : Q) (ignore_warnings : bool) (found : list text) (output : text) : res (results * list text) :=
  do st <- read_lines (mkState [] [] found) (PyText.split 10 output);
  do _ <- check_clock clock ignore_warnings (s_results st);
  Ok (s_results st, match s_found st with [] => [[]] | l => l end).

(** ** Regions: models/standalone_benchmark.py:264-278 *)
(** [regions] of the kernel; [] if none was given. The check of the kernel (269) is modelled in PhenoModel.v. *)
Definition choose_regions (regions : list text) (rs : results) : res (list text) :=
  match regions with
  | [] => let l := map fst rs in Ok (if (1 <? List.length l)%nat then filter (fun r => negb (text_eqb r [])) l else l)
  | _ => if forallb (fun r => existsb (text_eqb r) (map fst rs)) regions then Ok regions else Err SystemExit
  end.
Definition runtime_name : text := codes "Runtime (RDTSC) [s]".
(** models/standalone_benchmark.py:280-281. The name is that of no event and has no colon, so there is no other entry than a number. *)
Definition runtime_of (rs : results) (r : text) : res num :=
  match tget runtime_name (dict_of r rs) with Some (Number x) => Ok x | Some _ => Err TypeError | None => Err KeyError end.

(** ** Counters: models/standalone_benchmark.py:333-344 and 361-367 *)
Definition measured (runs : list results) (r : text) : tdict entry := fold_left tupdate (map (dict_of r) runs) [].
(** models/standalone_benchmark.py:366-367 *)
Definition measured_value (m : tdict entry) (event : text) (r : option text) : res (option Z) :=
  match tget event m with
  | None => Err KeyError
  | Some (Counts d) => Ok (match r with Some r => tget r d | None => None end)
  | Some _ => Err TypeError
  end.
Fixpoint last_match (m : tdict entry) (event : text) (regs : list (option text)) (found : option Z) : res (option Z) :=
  match regs with
  | [] => Ok found
  | r :: regs' =>
      do v <- measured_value m event r;
      last_match m event regs' (match v with Some n => Some n | None => found end)
  end.
(** models/standalone_benchmark.py:363-367 for one symbol: the parameters are not used. *)
Definition match_symbol (m : tdict entry) (ctr : event) : res (option Z) :=
  let '(event, descr, parameters) := ctr in
  let g := register_options descr in
  do v <- last_match m event (fst g) None;
  match snd g with Some e => Err e | None => Ok v end.

(** ** Phenomenological ECM model *)
(** A level with the values of its metrics and the first part of its upstream throughput, in B/cy, or a text. Simplifications: all symbols of
    the metrics have values and can be parsed (a SyntaxError switches this model off, benchmark.py:417-420); the quantity of the throughput
    counts with its base value. [l_metrics] is None if the level has no performance counter metrics, which is a KeyError. *)
Inductive throughput := Rate (q : Q) | Words (s : text).
Record level := mkLevel { l_name : text; l_metrics : option (tdict Q); l_throughput : throughput }.
(** [cache_metric_results[cache][metric]] of a defaultdict: a later level with the same name replaces values (models/standalone_benchmark.py:369-413 and models/benchmark.py:449-491). *)
Fixpoint metric (levels : list level) (cache name : text) : option Q :=
  match levels with
  | [] => None
  | l :: rest => match metric rest cache name with
                 | Some q => Some q
                 | None => if text_eqb cache (l_name l) then match l_metrics l with Some d => tget name d | None => None end else None
                 end
  end.
Definition get (levels : list level) (cache name : string) : res Q :=
  match metric levels (codes cache) (codes name) with Some q => Ok q | None => Err KeyError end.
Definition has_metrics (l : level) : bool := match l_metrics l with Some _ => true | None => false end.
Definition throughput_of (levels : list level) (i : nat) : res Q :=
  match nth_error levels i with
  | None => Err IndexError
  | Some l => match l_throughput l with
              | Words _ => Err TypeError
              | Rate q => if Qeq_bool q 0 then Err ZeroDivisionError else Ok q
              end
  end.
Record ecm := mkEcm { t_nol : Q; t_l1l2 : Q; t_l2l3 : Q; t_mem : Q }.
(** [bandwidth] is MachineModel.get_bandwidth(-1, misses, evicts, 1), in B/s. Numbers of cache lines that are zero give infinity or nan in
    sympy; here they are errors (models/standalone_benchmark.py:369-413). *)
Section Ecm.
Variable levels : list level.
Variable cl_size clock total_cachelines : Q.
Variable bandwidth : Q -> Q -> res Q.
Local Open Scope Q_scope.
Definition memory_bandwidth (used : list level) : res Q :=
  do m <- get used "L3" "misses";
  do e <- get used "L3" "evicts";
  do b <- bandwidth m e;
  if Qeq_bool b 0 then Err ZeroDivisionError else Ok b.
(** benchmark.py:404-416 and 449-491, with the metrics of all levels *)
Definition benchmark_ecm : res ecm :=
  if negb (forallb has_metrics levels) then Err KeyError else
  if Qeq_bool total_cachelines 0 then Err ZeroDivisionError else
  do loads <- get levels "L1" "loads";
  do _ <- get levels "L1" "stores";
  do b <- memory_bandwidth levels;
  do l2 <- get levels "L2" "loads"; do s2 <- get levels "L2" "stores"; do t1 <- throughput_of levels 1;
  do l3 <- get levels "L3" "loads"; do s3 <- get levels "L3" "stores"; do t2 <- throughput_of levels 2;
  do lm <- get levels "MEM" "loads"; do sm <- get levels "MEM" "stores";
  Ok (mkEcm (loads / total_cachelines * (1 # 2))
            ((l2 + s2) / total_cachelines * cl_size / t1)
            ((l3 + s3) / total_cachelines * cl_size / t2)
            ((lm + sm) * cl_size / total_cachelines / b * clock)).
(** standalone_benchmark.py:323-329 and 369-413, with the metrics of all levels but the last (line 324) *)
Definition standalone_ecm : res ecm :=
  let caches := removelast levels in
  if negb (forallb has_metrics caches) then Err KeyError else
  if Qeq_bool total_cachelines 0 then Err ZeroDivisionError else
  do accesses <- get caches "L1" "accesses";
  do b <- memory_bandwidth caches;
  do m1 <- get caches "L1" "misses"; do e1 <- get caches "L1" "evicts"; do t1 <- throughput_of levels 1;
  do m2 <- get caches "L2" "misses"; do e2 <- get caches "L2" "evicts"; do t2 <- throughput_of levels 2;
  do m3 <- get caches "L3" "misses"; do e3 <- get caches "L3" "evicts";
  Ok (mkEcm (accesses / total_cachelines * (1 # 2))
            ((m1 + e1) / total_cachelines * cl_size / t1)
            ((m2 + e2) / total_cachelines * cl_size / t2)
            ((m3 + e3) * cl_size / total_cachelines / b * clock)).
End Ecm.

(** ** Results of a region: models/standalone_benchmark.py:350-356 and 419-446 *)
(** [region_iterations] is in LoopModel.v. The size of an element times the step of the innermost loop (kernel.py:2006-2014) is [bytes]. *)
Definition region_rates (loops : list loop) (cacheline bytes clock : Q) (flops : Z) (time : Q) (repetitions : Z) (volume : option Q) : res rates :=
  let its := inject_Z (region_iterations loops) in
  if Qeq_bool bytes 0 || Qeq_bool its 0 || Qeq_bool time 0 || (repetitions =? 0)%Z then Err ZeroDivisionError
  else
    Ok (mkRates (time * clock / its * (cacheline / bytes))
                (inject_Z flops / (time / its) / inject_Z 1000000)
                (its / time / inject_Z 1000000)
                (its / time / inject_Z 1000000)
                (match volume with Some v => Some (v * inject_Z 1000000000 / inject_Z repetitions) | None => None end))%Q.

(** ** All runs: models/standalone_benchmark.py:248-281 and 333-344 *)
(** [run values i] are the runtimes of the i-th run with these arguments (260-262, 280-281); the list of arguments of all runs is kept. The result: the
    variables, the runtimes of the last run, and the arguments of all runs. Compare BenchModel.measure_loop. *)
Fixpoint session (run : list Q -> nat -> list (text * Q)) (fuel i : nat) (runtimes : list (text * Q)) (vars : list var) (done : list (list Q))
  : res (list var * list (text * Q) * list (list Q)) :=
  do m <- min_runtime runtimes;
  if Qle_bool (3 # 2) m then Ok (vars, runtimes, done)
  else match fuel with
       | O => Err OutOfFuel
       | S fuel' =>
           do (vars', adjustable) <- (if Qeq_bool m 0 then Ok (vars, true) else adjust_variables runtimes vars);
           if adjustable : bool
           then session run fuel' (S i) (run (map v_value vars') i) vars' (done ++ [map v_value vars'])
           else Ok (vars', runtimes, done)
       end.
(** models/standalone_benchmark.py:260 and 338-340: the runs for the counters get the same arguments. *)
Definition analyze (run : list Q -> nat -> list (text * Q)) (fuel : nat) (vars : list var) (counter_runs : nat)
  : res (list var * list (text * Q) * list (list Q) * list (list Q)) :=
  do (x, done) <- session run fuel O [([], 0%Q)] vars [];
  Ok (x, done, repeat (last done []) counter_runs).
