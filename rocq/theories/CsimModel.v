(** Results of the cache simulation: cacheprediction.py:510-728, [CacheSimulationPredictor], without the schedule of the simulation (SimModel) and its cache
    on disk (LockModel); kernel.py:652-664, [bytes_per_iteration].
    Simplifications: the simulator (pycachesim) is a parameter; floats are exact. *)
From Coq Require Import String.
From Verif Require Import PyBase PyNum LoopModel AstModel TraceModel SimModel.
Local Open Scope list_scope.
Local Open Scope Z_scope.

(** Addresses loaded and stored in an iteration (kernel.py:643-650) *)
Definition row := (list Z * list Z)%type.
(** One entry of [csim.stats()], lines and bytes (cacheprediction.py:641 and 716-725) *)
Record counts := mkCounts { n_load : Z; n_hit : Z; n_miss : Z; n_store : Z; n_evict : Z }.
Record stats := mkStats { lines : counts; bytes : counts }.

(** kernel.py:652-664. [written] are the names of the destinations in order, [types] the types of the variables, [sizes] the sizes of types, [steps] those of the loops, outermost first. *)
Definition bytes_per_iteration (written : list string) (types : string -> option string) (sizes : string -> option Z) (steps : list Z) : res Z :=
  match written with
  | [] => Err IndexError
  | n :: _ =>
      match types n with
      | None => Err KeyError
      | Some t => match sizes t with
                  | None => Err KeyError
                  | Some s => match rev steps with [] => Err IndexError | step :: _ => Ok (s * step) end
                  end
      end
  end.
(** cacheprediction.py:549-550, models/ecm.py:100-101, models/benchmark.py:400-401. sympy's division by zero gives [zoo], which is left out (no loop has step 0). *)
Definition iterations_per_cacheline (line_size bytes_iteration : Z) : res Q :=
  if bytes_iteration =? 0 then Err ZeroDivisionError else Ok (inject_Z line_size / inject_Z bytes_iteration)%Q.
(** cacheprediction.py:627, [float((bench_iteration - warmup_iteration) / iterations_per_cacheline)]; the caller makes sure that the divisor is not 0. *)
Definition lines_of_work (warmup bench : Z) (per_line : Q) : Q := (inject_Z (bench - warmup) / per_line)%Q.
(** cacheprediction.py:683-684 and its like: a counter of each level, divided by the number of cache lines of work *)
Definition scaled (counter : stats -> Z) (st : list stats) (factor : Q) (levels : nat) : res (list Q) :=
  mapM (fun i => match nth_error st i with
                 | None => Err IndexError
                 | Some s => if Qeq_bool factor 0 then Err ZeroDivisionError else Ok (inject_Z (counter s) / factor)%Q
                 end) (seq 0 levels).
(** cacheprediction.py:681-684, 686-689, 691-694, 696-699, 701-704 *)
Definition get_loads := scaled (fun s => n_load (lines s)).
Definition get_hits := scaled (fun s => n_hit (lines s)).
Definition get_misses := scaled (fun s => n_miss (lines s)).
Definition get_stores := scaled (fun s => n_store (lines s)).
Definition get_evicts := scaled (fun s => n_evict (lines s)).
(** cacheprediction.py:712-727, of the entries the numbers in bytes; those in lines are as above *)
Definition total_loads := scaled (fun s => n_load (bytes s)).
Definition total_hits := scaled (fun s => n_hit (bytes s)).
Definition total_misses := scaled (fun s => n_miss (bytes s)).
Definition total_stores := scaled (fun s => n_store (bytes s)).
Definition total_evicts := scaled (fun s => n_evict (bytes s)).

Section Predictor.
  (** As in TraceModel (kernel.py:594-595 and 608-609) *)
  Variable depends : string -> list sym -> bool.
  Variables (k : kernel) (st : kstate).
  (** Offsets of ranges of iterations (cacheprediction.py:578-579, 601-602, 616-617 and 634-635); [spacing] is 0 (kernel.py:535). *)
  Definition rows_of (r : range) : res (list row) := compile_global_offsets depends k st (map (fun i => fst r + Z.of_nat i) (seq 0 (Z.to_nat (snd r - fst r)))) 0.
  (** cacheprediction.py:663-669: smallest offset written in an iteration, or read if there is none. The offsets of an iteration which does not exist, or of a kernel without
      accesses, are not used (SimModel). *)
  Definition smallest (l : list Z) : Z := match l with [] => 0 | a :: l' => fold_left Z.min l' a end.
  Definition first_offset (g : Z) : Z :=
    match compile_global_offsets depends k st [g] 0 with
    | Ok ((loads, stores) :: _) => match stores with [] => smallest loads | _ => smallest stores end
    | _ => 0
    end.
  (** cacheprediction.py:540-647: [element] is the size of elements, [bits] the logarithm of the line size in the simulator, [cache] the size of all caches, [invalid] counts invalid entries after some
      ranges were simulated, and [run] gives the statistics of iterations after others. The result is the statistics and the number of cache lines of work. *)
  Variables (element bits cache bytes_iteration : Z) (invalid : list range -> Z) (run : list row -> list row -> list stats).
  Definition inner_step : res Z := match rev (loops k) with [] => Err IndexError | l :: _ => Ok (lincr l) end.
  Definition predict : res (list stats * Q) :=
    do per_line <- iterations_per_cacheline (line_size k) bytes_iteration;
    do step <- inner_step;
    do s <- simulate element (line_size k) bits step (iteration_length (loops k)) cache first_offset invalid;
    let '(warmup, bench) := s in
    do before <- mapM rows_of warmup;
    do during <- rows_of bench;
    Ok (run (concat before) during, lines_of_work (fst bench) (snd bench) per_line).
End Predictor.
