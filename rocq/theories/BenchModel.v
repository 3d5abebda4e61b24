(** Benchmarks: environment (models/benchmark.py:41-59), adaptation of the number of repetitions (models/benchmark.py:363-390),
    adaptation of variables and repetitions of binaries (models/standalone_benchmark.py:180-293). *)
From Coq Require Export Qround.
From Verif Require Export PyText PyNum.
Local Open Scope Z_scope.
Local Open Scope list_scope.

(** ** Environment (models/benchmark.py:41-59) *)
Definition env := text -> option text.
Definition env_set (e : env) (n : text) (v : option text) : env := fun m => if text_eqb m n then v else e m.
(** [os.environ[name] = value]: names that are empty or contain '=' or NUL, and values that contain NUL, raise an exception
    (standard library: posixmodule.c, putenv) (models/benchmark.py:47, 56). *)
Definition putenv (e : env) (n v : text) : res env :=
  if match n with [] => true | _ => false end || existsb (fun c => (c =? 61) || (c =? 0))%N n || existsb (fun c => c =? 0)%N v then Err ValueError
  else Ok (env_set e n (Some v)).
(** models/benchmark.py:41-59 [with fix_env_variable(name, value): body]. The body changes the environment and ends with a
    value or an exception. *)
Definition fix_env_variable {A} (name : text) (value : option text) (body : env -> env * res A) (e : env) : env * res A :=
  let orig := e name in
  match (match value with
         | Some v => putenv e name v
         | None => Ok (match e name with Some _ => env_set e name None | None => e end)
         end) with
  | Err x => (e, Err x)
  | Ok e1 =>
      let (e2, r) := body e1 in
      match orig with
      | Some o => match putenv e2 name o with Ok e3 => (e3, r) | Err x => (e2, Err x) end
      | None => (match e2 name with Some _ => env_set e2 name None | None => e2 end, r)
      end
  end.

(** ** Repetitions: models/benchmark.py:363-390 *)
(** [runtime i n] is the time of the i-th run, with n repetitions. Numbers are exact; in floating point [2.0 // (2.0 / 10.0)]
    is 9.0, so the first number of repetitions is a parameter. The number of repetitions stays a whole number (models/benchmark.py:363-390). *)
Section Repetitions.
  Variable runtime : nat -> Z -> Q.
  (** models/benchmark.py:382-386 *)
  Definition next_repetitions (tpr : Q) (repetitions : Z) : Z :=
    if Qeq_bool tpr 0 then repetitions * 10 else Qfloor (2 / tpr).
  (** [last]: runtime of the last run. Returns number of repetitions, time per repetition and number of runs (models/benchmark.py:363-390). *)
  Fixpoint adapt (fuel : nat) (i : nat) (last tpr : Q) (repetitions : Z) : res (Z * Q * nat) :=
    if Qle_bool (3 # 2) last then Ok (repetitions, tpr, i)
    else match fuel with
         | O => Err OutOfFuel
         | S fuel' =>
             let repetitions := next_repetitions tpr repetitions in
             if repetitions =? 0 then Err ZeroDivisionError
             else adapt fuel' (S i) (runtime i repetitions) (runtime i repetitions / inject_Z repetitions) repetitions
         end.
  (** The first pass of the loop, with [first] repetitions (models/benchmark.py:363-390) *)
  Definition repetitions (fuel : nat) (first : Z) : res (Z * Q * nat) :=
    adapt fuel 1 (runtime O first) (runtime O first / inject_Z first) first.
End Repetitions.

(** ** Variables of binaries: models/standalone_benchmark.py:180-220 *)
Inductive scale := Lin | Log.
Record var := mkVar { v_adjustable : bool; v_regions : list text; v_scale : scale; v_value : Q; v_stop : Q }.
Definition with_value (v : var) (x : Q) : var := mkVar (v_adjustable v) (v_regions v) (v_scale v) x (v_stop v).
Definition qmin (a b : Q) : Q := if Qltb b a then b else a.
Definition qmax (a b : Q) : Q := if Qltb a b then b else a.
(** models/standalone_benchmark.py:204-218 for one variable: the new value if it is adjusted. *)
Definition adjusted (runtime : Q) (v : var) : option var :=
  let factor := Qceiling (2 / runtime) in
  match v_scale v with
  | Lin => if Qltb (v_value v) (v_stop v) then Some (with_value v (qmin (v_value v * inject_Z factor) (v_stop v))) else None
  | Log => if Qltb (v_stop v) (v_value v) then Some (with_value v (qmax (v_value v * (1 / inject_Z (10 ^ factor))) (v_stop v))) else None
  end.
(** models/standalone_benchmark.py:202-218: the first variable of the region that can be adjusted. Division by a runtime of zero is an exception
    if it is reached (it is not, see line 250). The ends of loops (adjust_loop) are not modelled here. *)
Fixpoint adjust_region (region : text) (runtime : Q) (vars : list var) : res (list var * bool) :=
  match vars with
  | [] => Ok ([], false)
  | v :: vars' =>
      if v_adjustable v && existsb (text_eqb region) (v_regions v) then
        if Qeq_bool runtime 0 then Err ZeroDivisionError
        else match adjusted runtime v with
             | Some v' => Ok (v' :: vars', true)
             | None => do (l, b) <- adjust_region region runtime vars'; Ok (v :: l, b)
             end
      else do (l, b) <- adjust_region region runtime vars'; Ok (v :: l, b)
  end.
Fixpoint adjust_variables (runtimes : list (text * Q)) (vars : list var) : res (list var * bool) :=
  match runtimes with
  | [] => Ok (vars, false)
  | (region, t) :: rest =>
      if Qltb t (3 # 2) then
        do (vars1, b1) <- adjust_region region t vars;
        do (vars2, b2) <- adjust_variables rest vars1; Ok (vars2, b1 || b2)
      else adjust_variables rest vars
  end.
(** [min(runtimes.values())]; an empty dict is a ValueError (models/standalone_benchmark.py:248, 250). *)
Fixpoint min_runtime (l : list (text * Q)) : res Q :=
  match l with
  | [] => Err ValueError
  | [(_, t)] => Ok t
  | (_, t) :: l' => do m <- min_runtime l'; Ok (qmin t m)
  end.
(** models/standalone_benchmark.py:248-293. [run vars i] are the measured runtimes of the regions in the i-th run. Returns the variables and whether the
    runtimes are long enough (otherwise a warning was printed, lines 255-258). *)
Fixpoint measure_loop (run : list var -> nat -> list (text * Q)) (fuel i : nat) (runtimes : list (text * Q)) (vars : list var)
  : res (list var * bool) :=
  do m <- min_runtime runtimes;
  if Qle_bool (3 # 2) m then Ok (vars, true)
  else match fuel with
       | O => Err OutOfFuel
       | S fuel' =>
           do (vars', adjustable) <- (if Qeq_bool m 0 then Ok (vars, true) else adjust_variables runtimes vars);
           if adjustable : bool then measure_loop run fuel' (S i) (run vars' i) vars' else Ok (vars', false)
       end.
Definition adapt_variables (run : list var -> nat -> list (text * Q)) (fuel : nat) (vars : list var) : res (list var * bool) :=
  measure_loop run fuel O [([], 0%Q)] vars.

(** ** Repetitions of regions: kernel.py:1921-1942, 1970-1971 and models/standalone_benchmark.py:283-293 *)
(** How the number of repetitions of a region is known: from the marker, from a variable, or a number (kernel.py:1922-1942, as used in models/standalone_benchmark.py:283-290). *)
Inductive source := Marker | Variable_ (name : text) | Fixed (n : Z).
Record rep := mkRep { rep_source : source; rep_value : option Z }.
(** Regions that are not configured share the object of the region '' (kernel.py:1971): [config] are the configured regions,
    [target] is the region whose object is used. SystemExit if there is none. *)
Fixpoint has (r : text) (config : list (text * rep)) : bool :=
  match config with [] => false | (x, _) :: c => text_eqb r x || has r c end.
Definition target (config : list (text * rep)) (r : text) : res text :=
  if has r config then Ok r else if has [] config then Ok [] else Err SystemExit.
Fixpoint find_rep (r : text) (config : list (text * rep)) : res rep :=
  match config with [] => Err KeyError | (x, p) :: c => if text_eqb r x then Ok p else find_rep r c end.
Fixpoint set_value (r : text) (n : Z) (config : list (text * rep)) : list (text * rep) :=
  match config with
  | [] => []
  | (x, p) :: c => if text_eqb r x then (x, mkRep (rep_source p) (Some n)) :: c else (x, p) :: set_value r n c
  end.
(** models/standalone_benchmark.py:283-290. [calls r] is the call count of region r, [define x] the value of variable x. A value of
    zero or None is left as it is (line 284). *)
Fixpoint update_repetitions (calls : text -> Z) (define : text -> Z) (regions : list text) (config : list (text * rep))
  : res (list (text * rep)) :=
  match regions with
  | [] => Ok config
  | r :: regions' =>
      do t <- target config r;
      do p <- find_rep t config;
      update_repetitions calls define regions'
        (match rep_source p with
         | Marker => set_value t (calls r) config
         | Variable_ x => set_value t (define x) config
         | Fixed n => set_value t n config
         end)
  end.
(** models/standalone_benchmark.py:292-293: [runtimes[r] / float(repetitions[r]['value'])] *)
Definition time_per_repetition (config : list (text * rep)) (runtime : text -> Q) (r : text) : res Q :=
  do t <- target config r;
  do p <- find_rep t config;
  match rep_value p with
  | None => Err TypeError
  | Some n => if n =? 0 then Err ZeroDivisionError else Ok (runtime r / inject_Z n)%Q
  end.
Definition times_per_repetition (calls : text -> Z) (define : text -> Z) (regions : list text) (config : list (text * rep)) (runtime : text -> Q)
  : res (list (text * Q)) :=
  do c <- update_repetitions calls define regions config;
  mapM (fun r => do t <- time_per_repetition c runtime r; Ok (r, t)) regions.
