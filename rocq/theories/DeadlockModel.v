(** Model of the nesting of locks on intermediate files, [/repo/kerncraft/kernel.py]:
    [lock_intermediate] 810-850, [release_exclusive_lock] 852-863, [get_kernel_header] 1367-1390,
    [get_kernel_code] 1392-1458, [get_main_code] 1517-1578, [assemble_to_object] 1581-1615,
    [compile_kernel] 1617-1679, [incore_analysis] 1682-1752, [build_executable] 1754-1816; the lock
    is also used by cacheprediction.py:258-283 and 512-538 and models/benchmark.py:357-437.

    Any number of processes, any number of files. The outcome of each freshness check is arbitrary
    (for its meaning see LockModel.v). *)
From Verif Require Import PyBase.
Local Open Scope Z_scope.

Inductive kind :=
  Header | Code | Assembly | Object | MainCode | Marked | MarkedObject | Analysis | Executable
| LayerConditions | CacheSimulation.
(** An intermediate file: its name and the rest of its path (kernel, machine, compiler, other
    dependencies, OpenMP) (kernel.py:762-797). *)
Record file := mkFile { kind_of : kind; variant : Z }.
Definition kind_eq_dec (a b : kind) : {a = b} + {a <> b}.
Proof. decide equality. Defined.
Definition file_eq_dec (a b : file) : {a = b} + {a <> b}.
Proof. decide equality; [apply Z.eq_dec|apply kind_eq_dec]. Defined.
Definition file_eqb (a b : file) : bool := if file_eq_dec a b then true else false.

Inductive mode := SH | EX.
Definition locks := list (file * mode).

(** What a process still has to do (kernel.py:810-863). *)
Inductive cmd :=
| Lock (f : file) (w r : list cmd)     (* lock_intermediate: wait for the shared lock (829);
                                          continue with [w] if the result is LOCK_EX, else [r] *)
| Check (f : file) (w r : list cmd)    (* 836-840 with the shared lock *)
| WantEx (f : file) (w r : list cmd)   (* 842 *)
| Check2 (f : file) (w r : list cmd)   (* 844-850 with the exclusive lock *)
| Convert (f : file)                   (* 846, 859 *)
| Reacquire (f : file)                 (* second half of a non atomic conversion, see flock(2) *)
| CloseLock (f : file)                 (* lock_fp.close() *)
| Use (f : file)                       (* content is read, by kerncraft or a compiler *)
| Make (f : file).                     (* content is written *)

(** Processes with the locks they hold: kernel.py:810-863 *)
Record proc := mkProc { todo : list cmd; holds : locks }.

Definition drop (f : file) (h : locks) : locks := filter (fun x => negb (file_eqb f (fst x))) h.
Definition has_any (f : file) (h : locks) : bool := existsb (fun x => file_eqb f (fst x)) h.
Definition has_ex (f : file) (h : locks) : bool :=
  existsb (fun x => (file_eqb f (fst x) && match snd x with EX => true | SH => false end)%bool) h.

Fixpoint set_nth {A} (l : list A) (i : nat) (x : A) : list A :=
  match l, i with
  | [], _ => []
  | _ :: l', O => x :: l'
  | y :: l', S i' => y :: set_nth l' i' x
  end.

(** [Step p b]: process [p] makes its next step; [b] is the outcome of a freshness check, or whether
    a conversion is atomic. A step is impossible if a lock is not available; locks of the same
    process on other file descriptors conflict as well. [Die p]: the process ends (kernel.py:799-863). *)
Inductive action := Step (p : nat) (b : bool) | Die (p : nat).

Definition step_proc (all : list proc) (x : proc) (b : bool) : option proc :=
  let h := holds x in
  match todo x with
  | Lock f w r :: k => if existsb (fun y => has_ex f (holds y)) all then None
                       else Some (mkProc (Check f w r :: k) ((f, SH) :: h))
  | Check f w r :: k => if b then Some (mkProc (r ++ k) h) else Some (mkProc (WantEx f w r :: k) (drop f h))
  | WantEx f w r :: k => if existsb (fun y => has_any f (holds y)) all then None
                         else Some (mkProc (Check2 f w r :: k) ((f, EX) :: h))
  | Check2 f w r :: k => if b then Some (mkProc (Convert f :: r ++ k) h) else Some (mkProc (w ++ k) h)
  | Convert f :: k => if b then Some (mkProc k ((f, SH) :: drop f h))
                      else Some (mkProc (Reacquire f :: k) (drop f h))
  | Reacquire f :: k => if existsb (fun y => has_ex f (holds y)) all then None
                        else Some (mkProc k ((f, SH) :: h))
  | CloseLock f :: k => Some (mkProc k (drop f h))
  | Use _ :: k | Make _ :: k => Some (mkProc k h)
  | [] => match h with [] => None | _ => Some (mkProc [] []) end   (* locks vanish with the process *)
  end.

(** Processes one after the other, as the system lets them call kernel.py:810-863 *)
Definition exec (s : list proc) (a : action) : option (list proc) :=
  match a with
  | Step p b =>
      match nth_error s p with
      | Some x => match step_proc s x b with Some x' => Some (set_nth s p x') | None => None end
      | None => None
      end
  | Die p =>
      match nth_error s p with
      | Some x => match todo x with [] => None | _ => Some (set_nth s p (mkProc [] [])) end
      | None => None
      end
  end.
Fixpoint run (s : list proc) (l : list action) : option (list proc) :=
  match l with
  | [] => Some s
  | a :: l' => match exec s a with Some s' => run s' l' | None => None end
  end.

(** ** The functions that lock files. [v] stands for the part of the path given by kernel, machine
    and compiler, [o] for OpenMP. *)

(** [get_kernel_header], kernel.py:1373-1390: the code is read or made; the lock is returned. *)
Definition get_kernel_header (v : Z) : list cmd :=
  let f := mkFile Header v in [Lock f [Make f; Convert f] [Use f]].
(** [get_kernel_code], kernel.py:1407-1458 *)
Definition get_kernel_code (v o : Z) : list cmd :=
  let f := mkFile Code (2 * v + o) in [Lock f [Make f; Convert f] [Use f]].
(** [get_main_code], kernel.py:1527-1578 *)
Definition get_main_code (v : Z) : list cmd :=
  let f := mkFile MainCode v in [Lock f [Make f; Convert f] [Use f]].
(** [compile_kernel], kernel.py:1633-1679 *)
Definition compile_kernel (assembly : bool) (v o : Z) : list cmd :=
  let out := mkFile (if assembly then Assembly else Object) (2 * v + o) in
  let header := mkFile Header v in
  let code := mkFile Code (2 * v + o) in
  [Lock out (get_kernel_header v ++ get_kernel_code v o
             ++ [Use code; Use header; Make out; CloseLock code; CloseLock header; Convert out]) []].
(** [assemble_to_object], kernel.py:1589-1615 of the marked assembly *)
Definition assemble_to_object (m v : Z) : list cmd :=
  let out := mkFile MarkedObject v in [Lock out [Use (mkFile Marked m); Make out; Convert out] []].
(** [incore_analysis], kernel.py:1701-1752; [a] is the path of the analysis, [m] that of the marked assembly *)
Definition incore_analysis (iaca : bool) (a m v : Z) : list cmd :=
  let analysis := mkFile Analysis a in
  let marked := mkFile Marked m in
  let asm := mkFile Assembly (2 * v + 0) in
  [Lock analysis
     ([Lock marked (compile_kernel true v 0 ++ [Use asm; Make marked; CloseLock asm; Convert marked]) [Use marked]]
      ++ (if iaca then assemble_to_object m v ++ [Use (mkFile MarkedObject v); CloseLock (mkFile MarkedObject v)]
          else [Use marked])
      ++ [Make analysis; CloseLock analysis; CloseLock marked])
     [Use analysis; CloseLock analysis]].
(** [build_executable], 1761-1816. The compiler run (1797-1808) also reads kernel.h, which main.c
    includes (1472): [reads_header]. *)
Definition build_executable (reads_header : bool) (v o : Z) : list cmd :=
  let out := mkFile Executable (2 * v + o) in
  let main := mkFile MainCode v in
  let obj := mkFile Object (2 * v + o) in
  [Lock out (get_main_code v ++ compile_kernel false v o
             ++ [Use main; Use obj] ++ (if reads_header then [Use (mkFile Header v)] else [])
             ++ [Make out; CloseLock main; CloseLock obj; Convert out]) []].
(** [Benchmark.analyze], models/benchmark.py:359-437: runs the executable, then closes the lock. *)
Definition benchmark (reads_header : bool) (v o : Z) : list cmd :=
  let exe := mkFile Executable (2 * v + o) in
  build_executable reads_header v o ++ [Use exe; CloseLock exe].
(** [LayerConditionPredictor.__init__] and [CacheSimulationPredictor.__init__] (cacheprediction.py:260-283 and 512-538) *)
Definition predictor (f : file) : list cmd :=
  [Lock f [Make f; CloseLock f] [Use f; CloseLock f]].

(** The uses of intermediate files by the models: one of these after the other (kernel.py:1367-1816 and cacheprediction.py:260-283, 512-538). *)
Inductive call :=
| CIncore (iaca : bool) (a m v : Z)
| CBenchmark (v o : Z)
| CLayerConditions (v : Z)
| CCacheSimulation (v : Z).
Definition call_code (header : bool) (c : call) : list cmd :=
  match c with
  | CIncore iaca a m v => incore_analysis iaca a m v
  | CBenchmark v o => benchmark header v o
  | CLayerConditions v => predictor (mkFile LayerConditions v)
  | CCacheSimulation v => predictor (mkFile CacheSimulation v)
  end.
Definition program (header : bool) (l : list call) : list cmd := flat_map (call_code header) l.
Definition start (header : bool) (ps : list (list call)) : list proc :=
  map (fun l => mkProc (program header l) []) ps.
