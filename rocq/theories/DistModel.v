(** Functions of a kernel which list references, flattened references, and distances between them (kernel.py:358-375 and 408-470). *)
From Coq Require Import String.
From Verif Require Import PyBase.
Local Open Scope Z_scope.

(** Expressions of sympy, as far as indices and sizes of arrays use them (kernel.py:358-375). Simplification: sympy brings expressions into a
    normal form at once; here this is left to [simplify] of [distances]. *)
Inductive expr := Num (z : Z) | Sym (s : string) | Add (a b : expr) | Sub (a b : expr) | Mul (a b : expr).
(** [expr.free_symbols] (kernel.py:425), as a list. Simplification: symbols that cancel are still listed. *)
Fixpoint free_symbols (e : expr) : list string :=
  match e with Num _ => [] | Sym s => [s] | Add a b | Sub a b | Mul a b => free_symbols a ++ free_symbols b end.
(** A reference to an array has one index for each dimension; None is a reference to a scalar (kernel.py:441 and 446). Sources and destinations
    (kernel.py:233-234) in the order in which iterating over them gives the references. Sizes of the arrays (kernel.py:366); types are left
    out, and scalars, which have references None only, have no sizes. *)
Definition references := list (string * list (option (list expr))).
(** Sizes of the arrays, for each variable (kernel.py:366) *)
Definition sizes_of := list (string * list expr).
(** Look-up in a dictionary (kernel.py:364-366, 440 and 445) *)
Fixpoint find_key {A} (k : string) (d : list (string * A)) : option A :=
  match d with [] => None | (k', v) :: d' => if String.eqb k k' then Some v else find_key k d' end.

(** [reduce(operator.mul, l, sympy.Integer(1))] (kernel.py:371) *)
Definition product (l : list expr) : expr := fold_left Mul l (Num 1).
(** The loop in kernel.py:370-373; [dims] are the sizes from the current dimension on. *)
Fixpoint flatten (dims access : list expr) (e : expr) : expr :=
  match access with
  | [] => e
  | a :: access' => flatten (tl dims) access' (Add e (Mul (product (tl dims)) a))
  end.
(** kernel.py:358-375 *)
Definition access_to_sympy (variables : sizes_of) (name : string) (access : list expr) : res expr :=
  match find_key name variables with
  | None => Err ValueError
  | Some base_sizes => Ok (flatten base_sizes access (Num 0))
  end.

(** [if r is None: continue] (kernel.py:441-442 and 446-447) *)
Definition present {A} (l : list (option A)) : list A := flat_map (fun r => match r with Some a => [a] | None => [] end) l.
(** [self.sources.get(var_name, [])] (kernel.py:440 and 445) *)
Definition get (d : references) (name : string) : list (option (list expr)) := match find_key name d with Some l => l | None => [] end.
(** kernel.py:430-450. Variables without references to elements have no entry. *)
Fixpoint compile_loop (all : sizes_of) (names : list string) (srcs dsts : references) (sources destinations : bool) : res (list (string * list expr)) :=
  match names with
  | [] => Ok []
  | n :: names' =>
      do l <- mapM (access_to_sympy all n) ((if sources then present (get srcs n) else []) ++ (if destinations then present (get dsts n) else []));
      do rest <- compile_loop all names' srcs dsts sources destinations;
      Ok (match l with [] => rest | _ => (n, l) :: rest end)
  end.
(** kernel.py:430-450: the loop is over all variables. *)
Definition compile_sympy_accesses (variables : sizes_of) (srcs dsts : references) (sources destinations : bool) : res (list (string * list expr)) :=
  compile_loop variables (map fst variables) srcs dsts sources destinations.

(** The loop in kernel.py:467-468. [simplify]: method of sympy *)
Fixpoint distances (simplify : expr -> expr) (l : list expr) : list expr :=
  match l with
  | a :: (b :: _) as l' => simplify (Sub a b) :: distances simplify l'
  | _ => []
  end.
(** kernel.py:452-470. Variables with one access have no entry. *)
Definition compile_relative_distances (simplify : expr -> expr) (accesses : list (string * list expr)) : list (string * list expr) :=
  flat_map (fun p => match distances simplify (snd p) with [] => [] | d => [(fst p, d)] end) accesses.

(** kernel.py:408-428 *)
Definition index_order (srcs dsts : references) (sources destinations : bool) : list (list (list string)) :=
  let arefs := (if sources then flat_map snd srcs else []) ++ (if destinations then flat_map snd dsts else []) in
  map (fun a => map free_symbols a) (present arefs).
