(** Model of the schedule of the cache simulation, [/repo/kerncraft/cacheprediction.py]: warm-up and
    benchmark 540-647 and alignment with cache lines 650-679; check of iterations in
    [/repo/kerncraft/kernel.py] 564-571.
    Simplifications: the simulator itself is the parameter [invalid], the number of invalid cache
    entries after the given ranges of iterations have been simulated; [offset] gives the smallest
    offset written (or read, if nothing is written) in an iteration; warnings and statistics are left
    out. *)
From Verif Require Import PyBase.
Local Open Scope Z_scope.

(** [range(a, b)] (as used in cacheprediction.py:540-647) *)
Definition range := (Z * Z)%type.

(** cacheprediction.py:20-21 *)
Definition ceildiv (a b : Z) : Z := - ((- a) / b).

Section Simulation.
  (** sizes of an element and a cache line, exponent of the cache line size of the simulator, step of
      the inner loop, number of iterations (557), size of all caches (558) *)
  Variables (element_size cacheline_size cl_bits inner_increment max_iterations max_cache_size : Z).
  Variable offset : Z -> Z.
  Variable invalid : list range -> Z.

  (** kernel.py:564-571 for a range: [iteration.max()] fails if there is none, and has to be less than
      the number of iterations. *)
  Definition simulate_range (done : list range) (a b : Z) : res (list range) :=
    if b <=? a then Err ValueError
    else if b - 1 <? max_iterations then Ok (done ++ [(a, b)])
    else Err AssertionError.

  (** cacheprediction.py:650-679 *)
  Definition align (iteration : Z) (subtract : bool) : res Z :=
    if negb (iteration <? max_iterations) then Err AssertionError            (* kernel.py:568 *)
    else
      let elements_per_cacheline := cacheline_size / element_size in
      let first_offset := offset iteration in
      let diff := first_offset - Z.shiftl (Z.shiftr first_offset cl_bits) cl_bits in
      if diff =? 0 then Ok iteration
      else if subtract then Ok (iteration - (diff / element_size) / inner_increment)
      else Ok (iteration + (elements_per_cacheline - diff / element_size) / inner_increment).

  (** cacheprediction.py:564-565 *)
  Definition max_steps : Z := 100.
  Definition warmup_increment : Z := ceildiv (max_cache_size / element_size) (max_steps / 2).

  (** Phase 1, cacheprediction.py:566-586; [steps] is what is left of [max_steps]. The result is the list of ranges,
      the position and whether the sweep is complete. *)
  Fixpoint phase1 (steps : nat) (done : list range) (warmup : Z) (complete : bool)
      : res (list range * Z * bool) :=
    match steps with
    | O => Ok (done, warmup, complete)
    | S steps' =>
        if (negb (0 <? invalid done) || complete)%bool then Ok (done, warmup, complete)
        else
          let next := warmup + warmup_increment in
          let '(next, complete) := if max_iterations <? next then (max_iterations, true) else (next, complete) in
          do done <- simulate_range done warmup next;
          phase1 steps' done next complete
    end.

  (** Phase 2, cacheprediction.py:589-608 *)
  Definition phase2 (s : list range * Z * bool) : res (list range * Z) :=
    let '(done, warmup, complete) := s in
    if complete : bool then Ok (done, 0)
    else if max_iterations - 100000 <? warmup then
      do done <- simulate_range done warmup max_iterations; Ok (done, 0)
    else Ok (done, warmup).

  (** Phase 3, cacheprediction.py:612-618 *)
  Definition phase3 (s : list range * Z) : res (list range * Z) :=
    let '(done, warmup) := s in
    do next <- align warmup false;
    if next =? warmup then Ok (done, next)
    else do done <- simulate_range done warmup next; Ok (done, next).

  (** Benchmark, cacheprediction.py:620-637: ranges of the warm-up and range of the benchmark *)
  Definition simulate : res (list range * range) :=
    do s1 <- phase1 (Z.to_nat max_steps) [] 0 false;
    do s2 <- phase2 s1;
    do s3 <- phase3 s2;
    let '(done, warmup) := s3 in
    do bench <- align (Z.min (warmup + 100000) (max_iterations - 1)) true;
    do all <- simulate_range done warmup bench;
    Ok (done, (warmup, bench)).
End Simulation.
