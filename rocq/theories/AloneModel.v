(** The stand-alone benchmark from its arguments to the stored results: standalone_pheno.py:247-260, 325-395, kernel.py:2026-2040 and models/standalone_benchmark.py:180-220, 248-281. *)
From Coq Require Import QArith.
From Verif Require Import PyBase PyNum PyText PyDict StoreModel BenchModel.
Local Open Scope list_scope.

(** ** Constants *)
(** Variables given on the command line in their order (standalone_pheno.py:356, kernel.py:1907). Values are floats (standalone_pheno.py:58). *)
Definition define := list (text * var).
Definition constants := tdict Q.
(** kernel.py:2026-2040; symbols are known by their names, values are floats so that the assertions hold. In contrast to Kernel.set_constant (248-264) the constants are not sorted. *)
Definition set_constant (n : text) (x : Q) (cs : constants) : constants := tset n x cs.
(** standalone_pheno.py:352-357 *)
Definition initial_constants (d : define) : constants := fold_left (fun cs x => set_constant (fst x) (v_value (snd x)) cs) d [].
(** models/standalone_benchmark.py:202-218, as BenchModel.adjust_region, with the constants which are set (208, 215) *)
Fixpoint adjust_region (region : text) (runtime : Q) (d : define) (cs : constants) : res (define * constants * bool) :=
  match d with
  | [] => Ok ([], cs, false)
  | (n, v) :: d' =>
      if (v_adjustable v && existsb (text_eqb region) (v_regions v))%bool then
        if Qeq_bool runtime 0 then Err ZeroDivisionError
        else match adjusted runtime v with
             | Some v' => Ok ((n, v') :: d', set_constant n (v_value v') cs, true)
             | None => do x <- adjust_region region runtime d' cs; Ok ((n, v) :: fst (fst x), snd (fst x), snd x)
             end
      else do x <- adjust_region region runtime d' cs; Ok ((n, v) :: fst (fst x), snd (fst x), snd x)
  end.
(** models/standalone_benchmark.py:192-220 *)
Fixpoint adjust_variables (runtimes : list (text * Q)) (d : define) (cs : constants) : res (define * constants * bool) :=
  match runtimes with
  | [] => Ok (d, cs, false)
  | (region, t) :: rest =>
      if Qltb t (3 # 2) then
        do x <- adjust_region region t d cs;
        do y <- adjust_variables rest (fst (fst x)) (snd (fst x)); Ok (fst (fst y), snd (fst y), (snd x || snd y)%bool)
      else adjust_variables rest d cs
  end.
(** models/standalone_benchmark.py:248-281, as RegionModel.session: [run values i] are the runtimes of the i-th run with these arguments, or the exception which ends it (262-278). The result: the
    variables, the constants, the runtimes of the last run and the arguments of all runs. *)
Fixpoint session (run : list Q -> nat -> res (list (text * Q))) (fuel i : nat) (runtimes : list (text * Q)) (d : define) (cs : constants) (done : list (list Q))
  : res (define * constants * list (text * Q) * list (list Q)) :=
  do m <- min_runtime runtimes;
  if Qle_bool (3 # 2) m then Ok (d, cs, runtimes, done)
  else match fuel with
       | O => Err OutOfFuel
       | S fuel' =>
           do x <- (if Qeq_bool m 0 then Ok (d, cs, true) else adjust_variables runtimes d cs);
           let d' := fst (fst x) in
           let values := map (fun v => v_value (snd v)) d' in
           if snd x : bool
           then do ts <- run values i; session run fuel' (S i) ts d' (snd (fst x)) (done ++ [values])
           else Ok (d', snd (fst x), runtimes, done)
       end.

(** ** Options *)
(** standalone_pheno.py:251-260 and the default in 317: whether markers are used, and the regions *)
Definition parse_marker (given : option (option text)) : bool * list text :=
  match given with
  | None => (false, [[]])
  | Some None | Some (Some []) => (true, [])
  | Some (Some v) => (true, PyText.split 44 v)
  end.
(** The set of regions at the beginning (kernel.py:1911, 1951-1952); the order has no meaning. *)
Definition distinct (l : list text) : list text := fold_left (fun acc r => if existsb (text_eqb r) acc then acc else acc ++ [r]) l [].
Definition initial_regions (given : option (option text)) : list text :=
  let l := distinct (snd (parse_marker given)) in
  if (2 <=? Z.of_nat (List.length l))%Z then filter (fun r => negb (text_eqb r [])) l else l.

(** ** Storage *)
Section Storage.
  (** Results of a model (models/standalone_benchmark.py:55), not looked at here *)
  Variable R : Type.
  (** Equality of tuples of names and floats (standalone_pheno.py:384) *)
  Fixpoint key_eqb (a b : constants) : bool :=
    match a, b with
    | [], [] => true
    | (n, x) :: a', (m, y) :: b' => (text_eqb n m && Qeq_bool x y && key_eqb a' b')%bool
    | _, _ => false
    end.
  (** Dictionaries with such tuples as keys (standalone_pheno.py:384-386) *)
  Definition kdict := list (constants * tdict R).
  Fixpoint kget (k : constants) (d : kdict) : option (tdict R) := match d with [] => None | (x, v) :: d' => if key_eqb k x then Some v else kget k d' end.
  Fixpoint kset (k : constants) (v : tdict R) (d : kdict) : kdict := match d with [] => [(k, v)] | (x, w) :: d' => if key_eqb k x then (x, v) :: d' else (x, w) :: kset k v d' end.
  (** standalone_pheno.py:335, 382-386 *)
  Definition storage := tdict kdict.
  (** os.path.split(p)[1] (standalone_pheno.py:381): what follows the last slash *)
  Definition base_name (p : text) : text := last (PyText.split 47 p) [].
  (** standalone_pheno.py:381-386 *)
  Definition add_result (s : storage) (binary : text) (cs : constants) (model : text) (r : R) : storage :=
    let b := base_name binary in
    let s1 := match tget b s with Some _ => s | None => tset b [] s end in
    let d := match tget b s1 with Some d => d | None => [] end in
    let d1 := match kget cs d with Some _ => d | None => kset cs [] d end in
    let e := match kget cs d1 with Some e => e | None => [] end in
    tset b (kset cs (tset model r e) d1) s1.

  (** What pickle.load finds (standalone_pheno.py:338-341) *)
  Inductive found := Found (s : storage) | Empty | Unreadable.
  Variable pickle : storage -> list N.
  Variable unpickle : list N -> found.
  (** Opening with mode a+b creates the file (standalone_pheno.py:282). *)
  Definition opened (f : files) : files := mkFiles (Some (match store f with Some t => t | None => [] end)) (temp f).
  (** standalone_pheno.py:335-342. Other exceptions than EOFError end the program. *)
  Definition load_store (f : files) : res storage :=
    match store f with
    | None => Ok []
    | Some t => match unpickle t with Found s => Ok s | Empty => Ok [] | Unreadable => Err RuntimeError end
    end.
  (** standalone_pheno.py:392-395 *)
  Definition save (s : storage) : list step := OpenTemp :: map WriteTemp (pickle s) ++ [Move].
  (** models/standalone_benchmark.py:27 *)
  Definition model_name : text := codes "stand-alone benchmark".
  (** A call: the binary, its variables, the machine description and the cores (standalone_pheno.py:271-290) *)
  Record call := mkCall { c_binary : text; c_define : define; c_machine : text; c_cores : Z }.
  (** Runs of a binary with arguments on a machine description and cores, and results made from the runtimes of the last one (models/standalone_benchmark.py:248-281, 294-446). They may fail. *)
  Variable execute : text -> text -> Z -> list Q -> nat -> res (list (text * Q)).
  Variable evaluate : text -> text -> Z -> list (text * Q) -> res R.
  (** standalone_pheno.py:344-362: the constants and results of a call *)
  Definition measure (fuel : nat) (c : call) : res (constants * R) :=
    do x <- session (execute (c_binary c) (c_machine c) (c_cores c)) fuel O [([], 0%Q)] (c_define c) (initial_constants (c_define c)) [];
    do r <- evaluate (c_binary c) (c_machine c) (c_cores c) (snd (fst x)); Ok (snd (fst (fst x)), r).
  (** standalone_pheno.py:332-395 with the option --store, after the file has been opened (282): the changes of files at the end *)
  Definition run (fuel : nat) (f : files) (c : call) : res (list step) :=
    do s <- load_store f; do x <- measure fuel c; Ok (save (add_result s (c_binary c) (fst x) model_name (snd x))).
End Storage.
