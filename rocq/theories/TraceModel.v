(** Virtual addresses of the accesses of each iteration: kernel.py:535-650, [compile_global_offsets] *)
From Coq Require Import String.
From Verif Require Import PyBase LoopModel AstModel.
Local Open Scope string_scope.
Local Open Scope list_scope.
Local Open Scope Z_scope.

(** Number of a sympy expression ([subs], [lambdify]) (kernel.py:535-650) *)
Fixpoint number (env : string -> Z) (s : sym) : Z :=
  match s with
  | SVar n => env n | SInt z => z
  | SMul a b => number env a * number env b | SAdd a b => number env a + number env b | SSub a b => number env a - number env b
  end.
(** A kernel: arrays in the order of their declarations with size of the elements in bytes and dimensions (scalars are left out, kernel.py:312-314), loops, values of
    constants, size of cache lines. *)
Record kernel := mkKernel { arrays : list (string * (Z * list sym)); loops : list loop; constants : string -> Z; line_size : Z }.
Definition dimensions (k : kernel) (dims : list sym) : list Z := map (number (constants k)) dims.
(** kernel.py:573-587 *)
Definition bases (k : kernel) (spacing : Z) : list (string * Z * Z) :=
  layout (line_size k) spacing (map (fun a => (fst a, array_bytes (fst (snd a)) (dimensions k (snd (snd a))))) (arrays k)).
Fixpoint base_of (l : list (string * Z * Z)) (n : string) : Z :=
  match l with [] => 0 | (n', b, _) :: l' => if String.eqb n n' then b else base_of l' n end.
(** [sources.get(var_name, \[\])] (kernel.py:535-650) *)
Fixpoint accesses_of (d : list (string * list access)) (n : string) : list access :=
  match d with [] => [] | (n', l) :: d' => if String.eqb n n' then l else accesses_of d' n end.
(** Values of loop variables and constants (kernel.py:535-650) *)
Definition environment (k : kernel) (counters : list (string * Z)) (n : string) : Z :=
  if existsb (fun c => String.eqb n (fst c)) counters then LoopModel.lookup counters n else constants k n.
Section Trace.
  (** kernel.py:594-595 and 608-609: whether a loop variable is among the free symbols of the linearised access (after simplification by sympy), by array and indices *)
  Variable depends : string -> list sym -> bool.
  (** A function of the counters, by array, element size, dimensions and indices: kernel.py:591-617 *)
  Definition offset := (string * Z * list sym * list sym)%type.
  Fixpoint offsets_of (n : string) (elem : Z) (dims : list sym) (l : list access) : res (list offset) :=
    match l with
    | [] => Ok []
    | None :: _ => Err TypeError
    | Some idx :: l' => do r <- offsets_of n elem dims l'; Ok (if depends n idx then (n, elem, dims, idx) :: r else r)
    end.
  (** Simplification: loads and stores are collected separately here, so if both raise an error, the kind of error is the same (kernel.py:591-617). *)
  Fixpoint gather (arrays : list (string * (Z * list sym))) (d : list (string * list access)) : res (list offset) :=
    match arrays with
    | [] => Ok []
    | (n, (elem, dims)) :: arrays' => do a <- offsets_of n elem dims (accesses_of d n); do b <- gather arrays' d; Ok (a ++ b)
    end.
  Definition address (k : kernel) (spacing : Z) (counters : list (string * Z)) (o : offset) : Z :=
    let '(n, elem, dims, idx) := o in
    byte_offset (base_of (bases k spacing) n) elem (dimensions k dims) (map (number (environment k counters)) idx).
  (** kernel.py:552-650. Numbers are unbounded. Without any access there is no row at all (lines 643-647); the maximum of no iterations raises ValueError. *)
  Definition compile_global_offsets (k : kernel) (st : kstate) (iterations : list Z) (spacing : Z) : res (list (list Z * list Z)) :=
    match iterations with
    | [] => Err ValueError
    | g :: gs =>
        if iteration_length (loops k) <=? fold_left Z.max gs g then Err AssertionError else
        do l <- gather (arrays k) (sources st);
        do s <- gather (arrays k) (destinations st);
        match l, s with
        | [], [] => Ok []
        | _, _ => Ok (map (fun g => let counters := global_iterator_to_indices (loops k) g in
                                    (map (address k spacing counters) l, map (address k spacing counters) s)) iterations)
        end
    end.
End Trace.
