(** Model of the protocol for intermediate files ([/repo/kerncraft/kernel.py]): [_check_freshness]
    799-808, [lock_intermediate] 810-850, [release_exclusive_lock] 852-863, and of the way they are
    used by [get_kernel_header] 1376-1388, [get_kernel_code] 1409-1456, [compile_kernel] 1634-1677,
    [incore_analysis] 1703-1752, [LayerConditionPredictor] (cacheprediction.py:268-277) and
    [CacheSimulationPredictor] (cacheprediction.py:521-535).

    Any number of processes work on one intermediate file and its lock file. Every system call is
    one atomic step, steps of different processes interleave arbitrarily.
    Simplification: one file at a time (several files: see DeadlockModel.v); the content of a file
    is represented by whether it is completely written and by the version of the inputs it was
    generated from. *)
From Verif Require Import PyBase.
Local Open Scope Z_scope.

(** The inputs of [_check_freshness]: machine file, kerncraft itself, kernel source (kernel.py:799-808). *)
Inductive input := Machine | Kerncraft | Source.
Definition input_eqb (a b : input) : bool :=
  match a, b with
  | Machine, Machine | Kerncraft, Kerncraft | Source, Source => true
  | _, _ => false
  end.

Record file := mkFile { mtime : Z; complete : bool; src : Z }.

Inductive mode := SH | EX.

Inductive pc :=
| Start      (* kernel not yet read *)
| Loaded     (* kernel read (constructor of KernelCode), no lock file open *)
| Opened     (* line 826: lock file opened *)
| Shared     (* line 829: shared lock acquired *)
| NotFresh   (* line 836: file missing or old *)
| Unlocked   (* line 840: shared lock released *)
| Exclusive  (* line 842: exclusive lock acquired *)
| Degrade    (* lines 846, 859: about to replace the exclusive lock by a shared one *)
| Waiting    (* exclusive lock given up, shared lock not yet acquired, see [AcquireAgain] *)
| Reading    (* returned LOCK_SH: read access *)
| ToWrite    (* returned LOCK_EX: must create the file *)
| Writing    (* file opened for writing *)
| Written    (* file closed *)
| Dead.

(** A process: program counter, inode of its lock file, lock held on it and version of the inputs
    it has loaded (kernel.py:810-863). *)
Record proc := mkProc { at_ : pc; fd : Z; held : option mode; ver : Z }.

Record state := mkState {
  procs : list proc;
  disk : option file;      (* the intermediate file *)
  lockfile : option Z;     (* inode behind the path of the lock file *)
  next_inode : Z;
  now : Z;
  inputs : input -> Z;     (* time of last modification *)
  version : Z }.           (* number of modifications of the inputs *)

(** What the environment may do (to kernel.py:810-863). *)
Record config := mkConfig {
  locking : bool;          (* the file system supports flock *)
  crash_writing : bool;    (* processes may die while writing *)
  removal : bool;          (* files are removed: --clean-intermediates (kernel.py:778-780) or the
                              error exit of incore_analysis (1720-1724) *)
  modify_busy : bool }.    (* inputs are modified while processes are running *)

(** [_check_freshness], kernel.py:799-808 *)
Definition fresh (s : state) : bool :=
  match disk s with
  | None => false
  | Some f => (mtime f >? inputs s Machine) && (mtime f >? inputs s Kerncraft)
              && (mtime f >? inputs s Source)
  end%bool.

Fixpoint set_nth {A} (l : list A) (i : nat) (x : A) : list A :=
  match l, i with
  | [], _ => []
  | _ :: l', O => x :: l'
  | y :: l', S i' => y :: set_nth l' i' x
  end.

(** [flock]: locks of other processes on the same inode (as used in kernel.py:810-863). *)
Definition conflicts (s : state) (p : nat) (ino : Z) (bad : option mode -> bool) : bool :=
  existsb (fun q => match nth_error (procs s) q with
                    | Some x => (negb (q =? p)%nat && (fd x =? ino) && bad (held x))%bool
                    | None => false
                    end) (seq 0 (length (procs s))).
Definition is_ex (m : option mode) : bool := match m with Some EX => true | _ => false end.
Definition is_any (m : option mode) : bool := match m with Some _ => true | None => false end.

Definition with_proc (s : state) (p : nat) (x : proc) : state :=
  mkState (set_nth (procs s) p x) (disk s) (lockfile s) (next_inode s) (now s) (inputs s) (version s).
Definition with_disk (s : state) (f : option file) : state :=
  mkState (procs s) f (lockfile s) (next_inode s) (now s) (inputs s) (version s).
Definition goto (x : proc) (l : pc) (h : option mode) : proc := mkProc l (fd x) h (ver x).

Definition idle (x : proc) : bool := match at_ x with Start | Dead => true | _ => false end.

Inductive action :=
| Load (p : nat)          (* read kernel and machine file *)
| Open (p : nat)          (* 826 *)
| LockShared (p : nat)    (* 828-834 *)
| Check (p : nat)         (* 836, 844 *)
| Unlock (p : nat)        (* 840 *)
| LockExclusive (p : nat) (* 842 *)
| Convert (p : nat)       (* 846, 859: lock replaced at once *)
| GiveUp (p : nat)        (* 846, 859: flock may release the lock first, see flock(2) *)
| AcquireAgain (p : nat)  (* ... and then waits for the shared lock *)
| OpenWrite (p : nat)     (* open(file_path, 'w') *)
| Write (p : nat)         (* write part of the content *)
| CloseWrite (p : nat)    (* content is complete *)
| Release (p : nat)       (* release_exclusive_lock: continue with Convert or GiveUp *)
| Close (p : nat)         (* lock_fp.close() *)
| Crash (p : nat)         (* the process ends; its locks are released *)
| Remove (p : nat)        (* rmtree at exit, 778-780 *)
| Unlink (p : nat)        (* 1720-1724 *)
| Tick (d : Z)            (* time passes *)
| Modify (i : input).     (* an input is changed *)

(** Steps of processes (kernel.py:810-863) and of the environment *)
Definition exec (c : config) (s : state) (a : action) : option state :=
  let run p (k : proc -> option state) :=
    match nth_error (procs s) p with Some x => k x | None => None end in
  match a with
  | Load p => run p (fun x => match at_ x with
      | Start => Some (with_proc s p (mkProc Loaded (fd x) None (version s)))
      | _ => None end)
  | Open p => run p (fun x => match at_ x with
      | Loaded =>
          match lockfile s with
          | Some ino => Some (with_proc s p (mkProc Opened ino None (ver x)))
          | None =>
              let s' := with_proc s p (mkProc Opened (next_inode s) None (ver x)) in
              Some (mkState (procs s') (disk s) (Some (next_inode s)) (next_inode s + 1) (now s) (inputs s) (version s))
          end
      | _ => None end)
  | LockShared p => run p (fun x => match at_ x with
      | Opened =>
          if locking c
          then if conflicts s p (fd x) is_ex then None else Some (with_proc s p (goto x Shared (Some SH)))
          else Some (with_proc s p (goto x ToWrite None))     (* lines 830-834 *)
      | _ => None end)
  | Check p => run p (fun x => match at_ x with
      | Shared => Some (with_proc s p (goto x (if fresh s then Reading else NotFresh) (held x)))
      | Exclusive => Some (with_proc s p (goto x (if fresh s then Degrade else ToWrite) (held x)))
      | _ => None end)
  | Unlock p => run p (fun x => match at_ x with
      | NotFresh => Some (with_proc s p (goto x Unlocked None))
      | _ => None end)
  | LockExclusive p => run p (fun x => match at_ x with
      | Unlocked => if conflicts s p (fd x) is_any then None
                    else Some (with_proc s p (goto x Exclusive (Some EX)))
      | _ => None end)
  | Convert p => run p (fun x => match at_ x with
      | Degrade => Some (with_proc s p (goto x Reading (if locking c then Some SH else None)))
      | _ => None end)
  | GiveUp p => run p (fun x => match at_ x with
      | Degrade => Some (with_proc s p (goto x Waiting None))
      | _ => None end)
  | AcquireAgain p => run p (fun x => match at_ x with
      | Waiting => if conflicts s p (fd x) is_ex then None
                   else Some (with_proc s p (goto x Reading (Some SH)))
      | _ => None end)
  | OpenWrite p => run p (fun x => match at_ x with
      | ToWrite => Some (with_disk (with_proc s p (goto x Writing (held x)))
                           (Some (mkFile (now s) false (ver x))))
      | _ => None end)
  | Write p => run p (fun x => match at_ x with
      | Writing => Some (with_disk s (Some (mkFile (now s) false (ver x))))
      | _ => None end)
  | CloseWrite p => run p (fun x => match at_ x with
      | Writing => Some (with_disk (with_proc s p (goto x Written (held x)))
                           (Some (mkFile (now s) true (ver x))))
      | _ => None end)
  | Release p => run p (fun x => match at_ x with
      | Written => Some (with_proc s p (goto x Degrade (held x)))
      | _ => None end)
  | Close p => run p (fun x => match at_ x with
      | Reading | Written => Some (with_proc s p (goto x Loaded None))
      | _ => None end)
  | Crash p => run p (fun x => match at_ x with
      | Writing => if crash_writing c then Some (with_proc s p (goto x Dead None)) else None
      | _ => Some (with_proc s p (goto x Dead None)) end)
  | Remove p => run p (fun x => match at_ x with
      | Loaded =>
          if removal c then
            let s' := with_proc s p (goto x Dead None) in
            Some (mkState (procs s') None None (next_inode s) (now s) (inputs s) (version s))
          else None
      | _ => None end)
  | Unlink p => run p (fun x => match at_ x with
      | Reading => if removal c then Some (with_disk (with_proc s p (goto x Dead None)) None) else None
      | _ => None end)
  | Tick d => if 0 <=? d then Some (mkState (procs s) (disk s) (lockfile s) (next_inode s) (now s + d) (inputs s) (version s))
              else None
  | Modify i => if (modify_busy c || forallb idle (procs s))%bool
                then Some (mkState (procs s) (disk s) (lockfile s) (next_inode s) (now s)
                             (fun j => if input_eqb j i then now s else inputs s j) (version s + 1))
                else None
  end.

(** A schedule is a list of actions; [None] if one of them is not possible (kernel.py:810-863). *)
Fixpoint run (c : config) (s : state) (l : list action) : option state :=
  match l with
  | [] => Some s
  | a :: l' => match exec c s a with Some s' => run c s' l' | None => None end
  end.
