(** Model of the constants of a kernel, [/repo/kerncraft/kernel.py]: [set_constant] 248-264,
    [clear_state] 283-288, [subs_consts] 290-296, and of the way they reach the benchmark program:
    [_build_const_declartions] 1177-1205 and models/benchmark.py:364, 388.
    Simplifications: names of constants are strings (not symbols given by the caller); expressions
    are built from integers, symbols, sums and products; [subs] does not simplify. *)
From Coq Require Import String.
From Verif Require Import PyBase.
Local Open Scope Z_scope.

Definition consts := list (string * Z).

(** [self.constants[name] = value]: an existing key keeps its place (kernel.py:259-261). *)
Fixpoint assign (cs : consts) (name : string) (v : Z) : consts :=
  match cs with
  | [] => [(name, v)]
  | (n, w) :: cs' => if String.eqb n name then (n, v) :: cs' else (n, w) :: assign cs' name v
  end.
(** kernel.py:258-264: assignment, then sorted by name. *)
Definition by_name (a b : string * Z) : bool := String.leb (fst a) (fst b).
Definition set_constant (cs : consts) (name : string) (v : Z) : consts :=
  sort_with by_name (assign cs name v).

Fixpoint get (cs : consts) (name : string) : option Z :=
  match cs with
  | [] => None
  | (n, v) :: cs' => if String.eqb n name then Some v else get cs' name
  end.

Inductive expr := Num (z : Z) | Sym (s : string) | Add (a b : expr) | Mul (a b : expr).
Fixpoint expr_eqb (a b : expr) : bool :=
  match a, b with
  | Num x, Num y => x =? y
  | Sym x, Sym y => String.eqb x y
  | Add x1 x2, Add y1 y2 | Mul x1 x2, Mul y1 y2 => (expr_eqb x1 y1 && expr_eqb x2 y2)%bool
  | _, _ => false
  end.
(** [expr.subs(self.constants)] (kernel.py:296) *)
Fixpoint subs (cs : consts) (e : expr) : expr :=
  match e with
  | Num z => Num z
  | Sym s => match get cs s with Some v => Num v | None => Sym s end
  | Add a b => Add (subs cs a) (subs cs b)
  | Mul a b => Mul (subs cs a) (subs cs b)
  end.

(** [functools.lru_cache(40)] on a method: one cache for all kernels, keys are kernel and
    expression, most recently used entry first. *)
Definition cache := list ((nat * expr) * expr).
Definition key_eqb (a b : nat * expr) : bool := (Nat.eqb (fst a) (fst b) && expr_eqb (snd a) (snd b))%bool.
Fixpoint lookup (k : nat * expr) (c : cache) : option expr :=
  match c with
  | [] => None
  | (k', r) :: c' => if key_eqb k k' then Some r else lookup k c'
  end.
Definition evict (k : nat * expr) (c : cache) : cache := filter (fun x => negb (key_eqb k (fst x))) c.

(** State: constants of each kernel and the cache (kernel.py:237, 248-296). *)
Record state := mkState { kernels : nat -> consts; lru : cache }.
Definition init : state := mkState (fun _ => []) [].
Definition upd (f : nat -> consts) (k : nat) (cs : consts) : nat -> consts :=
  fun i => if Nat.eqb i k then cs else f i.

Inductive op :=
| SetC (k : nat) (name : string) (v : Z)
| Clear (k : nat)
| Subs (k : nat) (e : expr).

Definition subs_consts (st : state) (k : nat) (e : expr) : expr * state :=
  match lookup (k, e) (lru st) with
  | Some r => (r, mkState (kernels st) (((k, e), r) :: evict (k, e) (lru st)))
  | None => let r := subs (kernels st k) e in
            (r, mkState (kernels st) (firstn 40 (((k, e), r) :: lru st)))
  end.
Definition step (st : state) (o : op) : state :=
  match o with
  | SetC k name v => mkState (upd (kernels st) k (set_constant (kernels st k) name v)) (lru st)
  | Clear k => mkState (upd (kernels st) k []) []
  | Subs k e => snd (subs_consts st k e)
  end.
Definition exec (h : list op) : state := fold_left step h init.

(** ** Passing constants to the benchmark program *)

(** kernel.py:1188-1205: constant and subscript of [argv], starting with 2. *)
Fixpoint declarations_from (i : Z) (cs : consts) : list (string * Z) :=
  match cs with
  | [] => []
  | (n, _) :: cs' => (n, i) :: declarations_from (i + 1) cs'
  end.
Definition const_declarations (cs : consts) : list (string * Z) := declarations_from 2 cs.

(** models/benchmark.py:364 and 388: arguments of the program; numbers instead of their decimal
    representation. *)
Definition argv (executable repetitions : Z) (cs : consts) : list Z :=
  [executable; repetitions] ++ map snd cs.
(** C's [atoi] (glibc): the value as a 32 bit integer (called by the code made in kernel.py:1177-1205). *)
Definition atoi (z : Z) : Z := (z + 2^31) mod 2^32 - 2^31.
(** Value of the variable [name] in a program generated with constants [generated] and run with
    constants [used]; [None] if it is not declared or the argument is missing (kernel.py:1177-1205 and models/benchmark.py:364, 388). *)
Fixpoint assoc (l : list (string * Z)) (name : string) : option Z :=
  match l with
  | [] => None
  | (n, v) :: l' => if String.eqb n name then Some v else assoc l' name
  end.
Definition program_value (generated used : consts) (name : string) : option Z :=
  match assoc (const_declarations generated) name with
  | Some i => match nth_error (argv 0 1 used) (Z.to_nat i) with Some z => Some (atoi z) | None => None end
  | None => None
  end.
