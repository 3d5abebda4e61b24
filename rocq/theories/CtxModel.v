(** Changes of the interpreter and of the file system for the time of a block: the recursion limit (kernel.py:42-49), the order of sorting in pprint
    (models/benchmark.py:20-38) and temporary directories (iaca_get.py:33-39). *)
From Verif Require Import PyBase.
Local Open Scope Z_scope.

(** What the blocks change: the limit of Python, the class in [pprint._safe_key] (models/benchmark.py:34), and the existing temporary directories.
    [made] is the number of the next new directory ([mkdtemp] gives names that are not in use, iaca_get.py:35). *)
Inductive key_class := SafeKey | SympySafeKey.
(** See above (kernel.py:44, models/benchmark.py:34, iaca_get.py:35). [shown]: the order used by each call of pprint so far (models/benchmark.py:529) *)
Record state := mkState { limit : Z; key : key_class; dirs : list Z; made : Z; shown : list key_class }.
(** Changes of one part of the state (kernel.py:45 and 49) *)
Definition set_limit (s : state) (n : Z) : state := mkState n (key s) (dirs s) (made s) (shown s).
(** models/benchmark.py:34 and 38 *)
Definition set_key (s : state) (k : key_class) : state := mkState (limit s) k (dirs s) (made s) (shown s).
(** iaca_get.py:35 *)
Definition make_dir (s : state) : state := mkState (limit s) (key s) (dirs s ++ [made s]) (made s + 1) (shown s).
(** iaca_get.py:39 *)
Definition remove_dir (s : state) (d : Z) : state := mkState (limit s) (key s) (filter (fun x => negb (x =? d)) (dirs s)) (made s) (shown s).
(** [pprint.pprint] (models/benchmark.py:530) *)
Definition show (s : state) : state := mkState (limit s) (key s) (dirs s) (made s) (shown s ++ [key s]).

(** Programs which use the blocks (kernel.py:1268, 1420 and 1446). [Call]: a function is called, e.g. by deepcopy or CGenerator for a deeper node.
    [Temp removable p]: can the directory be removed after [p]. *)
Inductive prog :=
| Skip | Show | Fail (e : exn) | Call (p : prog) | Seq (p q : prog) | Try (p q : prog)
| Limit (n : Z) (p : prog) | NoSort (p : prog) | Temp (removable : bool) (p : prog).

(** State and exception at the end, for a program which is run at [depth] of the stack. Calls at the limit raise RecursionError, which is a
    RuntimeError. [Limit]: kernel.py:43-49; [NoSort]: models/benchmark.py:32-38; [Temp]: iaca_get.py:33-39, where an exception of rmtree replaces that
    of the block. Simplification: frames of the blocks themselves are not counted. *)
Fixpoint exec (depth : Z) (p : prog) (s : state) : state * option exn :=
  match p with
  | Skip => (s, None)
  | Show => (show s, None)
  | Fail e => (s, Some e)
  | Call q => if depth + 1 <=? limit s then exec (depth + 1) q s else (s, Some RuntimeError)
  | Seq q r => match exec depth q s with (s', None) => exec depth r s' | x => x end
  | Try q r => match exec depth q s with (s', Some _) => exec depth r s' | x => x end
  | Limit n q =>
      let old_limit := limit s in
      if n <? 1 then (s, Some ValueError)
      else let (s', e) := exec depth q (set_limit s n) in (set_limit s' old_limit, e)
  | NoSort q =>
      let orig := key s in
      let (s', e) := exec depth q (set_key s SympySafeKey) in (set_key s' orig, e)
  | Temp removable q =>
      let tempdir := made s in
      let (s', e) := exec depth q (make_dir s) in
      if removable then (remove_dir s' tempdir, e) else (s', Some OSError)
  end.

(** The two halves of a block of [pprint_nosort] as steps of thread [i] (models/benchmark.py:32-38); [saved] are their local variables. *)
Inductive step := Enter (i : nat) | Leave (i : nat).
(** models/benchmark.py:34 and 38 *)
Fixpoint steps (l : list step) (saved : nat -> key_class) (k : key_class) : key_class :=
  match l with
  | [] => k
  | Enter i :: l' => steps l' (fun j => if Nat.eqb j i then k else saved j) SympySafeKey
  | Leave i :: l' => steps l' saved (saved i)
  end.
