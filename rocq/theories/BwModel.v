(** Model of [/repo/kerncraft/machinemodel.py]: choice of bandwidths 444-508 and cache simulator 419-442.
    Simplifications: bandwidths and numbers of bytes are exact rationals; the measurements of a cache
    level are given as a function of the level name and the number of threads per core. *)
From Coq Require Import String.
From Verif Require Import PyNum.
Local Open Scope Z_scope.

(** Entry of [benchmarks: kernels] in a machine file: streams and bytes that are read, written, or
    both (as used in machinemodel.py:444-508) *)
Record kernel_info := mkInfo
  { reads : Z; writes : Z; read_writes : Z; read_bytes : Q; write_bytes : Q; read_write_bytes : Q }.
(** Entry of [benchmarks: measurements] (as used in machinemodel.py:419-508) *)
Record measurement := mkMeasurement
  { m_threads : Z; m_cores : list Z; m_results : list (string * list Q) }.
Record cache := mkCache { level : string; cores_per_group : Z; sets : Z }.
Record machine := mkMachine
  { hierarchy : list cache; cores_per_numa : Z; kernels : list (string * kernel_info);
    measurements : string -> Z -> res measurement }.

(** Dictionary access (as used in machinemodel.py:444-508) *)
Fixpoint get {A} (k : string) (d : list (string * A)) : res A :=
  match d with
  | [] => Err KeyError
  | (k', v) :: d' => if String.eqb k k' then Ok v else get k d'
  end.

(** machinemodel.py:457-460 and 465-471: a division by zero is infinity. *)
Definition ratio (a b : Q) : num := match ndiv (Fin a) (Fin b) with Ok x => x | Err _ => PInf end.
Definition kernel_ratio (i : kernel_info) : num :=
  ratio (inject_Z (reads i + writes i - read_writes i)) (inject_Z (writes i)).

(** machinemodel.py:473-476 *)
Definition closer (target : num) (best : string * kernel_info * num) (k : string * kernel_info) :=
  let r := kernel_ratio (snd k) in
  if nltb (nabs (nsub r target)) (nabs (nsub (snd best) target)) then (k, r) else best.
Definition name_leb (a b : string * kernel_info) : bool := String.leb (fst a) (fst b).
(** machinemodel.py:457-476; names are unique, so the order of the items is that of the names. *)
Definition closest (ks : list (string * kernel_info)) (target : num) : res (string * kernel_info) :=
  do load <- get "load" ks;
  Ok (fst (fold_left (closer target) (sort_with name_leb ks) ("load"%string, load, PInf))).

(** [max] of a list (as used in machinemodel.py:493) *)
Definition qmax (l : list Q) : res Q :=
  match l with
  | [] => Err ValueError
  | x :: l' => Ok (fold_left (fun a b => if Qltb a b then b else a) l' x)
  end.
(** [l.index(x)] (as used in machinemodel.py:486) *)
Fixpoint index (x : Z) (l : list Z) : res nat :=
  match l with
  | [] => Err ValueError
  | y :: l' => if y =? x then Ok O else do n <- index x l'; Ok (S n)
  end.
Definition nth_res {A} (l : list A) (n : nat) : res A :=
  match nth_error l n with Some x => Ok x | None => Err IndexError end.

(** machinemodel.py:497-506 *)
Definition factor (cache_level : nat) (i : kernel_info) : res Q :=
  match cache_level with
  | O => Ok 1%Q
  | _ => if Qeq_bool (read_bytes i + write_bytes i) 0 then Err ZeroDivisionError
         else Ok ((read_bytes i + 2 * write_bytes i - read_write_bytes i) / (read_bytes i + write_bytes i))%Q
  end.

(** machinemodel.py:444-508 *)
Definition get_bandwidth (m : machine) (cache_level : nat) (read_streams write_streams : Q)
    (threads_per_core : Z) (cores : option Z) : res (Q * string) :=
  do k <- closest (kernels m) (ratio read_streams write_streams);
  do c <- nth_res (hierarchy m) cache_level;
  do b <- measurements m (level c) threads_per_core;
  if negb (threads_per_core =? m_threads b) then Err AssertionError
  else
    do bw <- match cores with
             | Some n =>
                 do run <- index n (m_cores b);
                 do r <- get (fst k) (m_results b);
                 nth_res r run
             | None =>
                 let max_cores := Z.min (cores_per_group c) (cores_per_numa m) in
                 do r <- get (fst k) (m_results b);
                 qmax (firstn (Z.to_nat max_cores) r)
             end;
    do f <- factor cache_level (snd k);
    Ok ((bw * f)%Q, fst k).

(** ** Cache simulator (419-442) *)
(** A simulator: the sets of each level, and whether it holds data or statistics (machinemodel.py:419-442) *)
Record simulator := mkSim { sim_levels : list (string * Z); sim_used : bool }.
(** machinemodel.py:432-440; [hierarchy] holds caches only here, main memory is skipped. *)
Definition build_sim (m : machine) (cores : Z) : res simulator :=
  do l <- mapM (fun c =>
    if 1 <? cores_per_group c then
      if Z.min cores (cores_per_numa m) =? 0 then Err ZeroDivisionError
      else Ok (level c, sets c / Z.min cores (cores_per_numa m))
    else Ok (level c, sets c)) (hierarchy m);
  Ok (mkSim l false).
(** machinemodel.py:425-442: the attribute [_cachesimulator] is kept in the machine object. *)
Definition get_cachesim (m : machine) (kept : option simulator) (cores : Z) : res (simulator * option simulator) :=
  match kept with
  | Some s => let s' := mkSim (sim_levels s) false in Ok (s', Some s')
  | None => do s <- build_sim m cores; Ok (s, Some s)
  end.

(** What happens to a machine object: a simulator is requested for a number of cores, or the one that
    was returned last is used (calls of machinemodel.py:419-442). *)
Inductive event := Get (cores : Z) | Use.
Definition step (m : machine) (kept : option simulator) (e : event) : option simulator :=
  match e with
  | Get cores => match get_cachesim m kept cores with Ok (_, k) => k | Err _ => kept end
  | Use => match kept with Some s => Some (mkSim (sim_levels s) true) | None => None end
  end.
Definition history (m : machine) (l : list event) : option simulator := fold_left (step m) l None.
