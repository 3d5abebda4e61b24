(** Addresses of the references of a program. Of the models, only syntax, [ceval] (C semantics of index expressions) and the layout of arrays (see C13) are used. *)
From Coq Require Import String.
From Verif Require Import PyBase LoopModel LoopSpec AstModel AstSpec TraceModel.
Local Open Scope list_scope.
Local Open Scope Z_scope.

(** Name, address, element size and dimensions of the arrays *)
Definition memory := list (string * Z * Z * list Z).
(** The address of a reference while the variables have the values [env] *)
Definition reference_address (mem : memory) (env : string -> Z) (r : string * list expr) (address : Z) : Prop :=
  exists base elem dims indices position, In (fst r, base, elem, dims) mem /\ snd r <> [] /\
    Forall2 (fun e v => ceval env e = Some v) (snd r) indices /\ nth_error (row_major dims) position = Some indices /\ address = base + elem * Z.of_nat position.
(** The reference stays inside of its array. *)
Definition inside (mem : memory) (env : string -> Z) (r : string * list expr) : Prop :=
  forall base elem dims indices, In (fst r, base, elem, dims) mem -> Forall2 (fun e v => ceval env e = Some v) (snd r) indices -> in_range dims indices.
(** Values of the variables in the iteration [tuple] of loops over [names] *)
Fixpoint in_iteration (constants : string -> Z) (names : list string) (tuple : list Z) (n : string) : Z :=
  match names, tuple with x :: names', v :: tuple' => if String.eqb n x then v else in_iteration constants names' tuple' n | _, _ => constants n end.
(** The reference goes to the same element in all iterations. *)
Definition fixed (constants : string -> Z) (names : list string) (its : list (list Z)) (r : string * list expr) : Prop :=
  forall t t' vs vs', In t its -> In t' its ->
  Forall2 (fun e v => ceval (in_iteration constants names t) e = Some v) (snd r) vs ->
  Forall2 (fun e v => ceval (in_iteration constants names t') e = Some v) (snd r) vs' -> vs = vs'.
(** The arrays of a kernel are where the layout of C13 puts them. *)
Definition laid_out (k : kernel) (spacing : Z) (mem : memory) : Prop :=
  forall n base elem dims, In (n, base, elem, dims) mem <->
    exists sizes, In (n, (elem, sizes)) (arrays k) /\ dims = map (seval (constants k)) sizes /\
      exists bytes, In (n, base, bytes) (layout (line_size k) spacing (map (fun a => (fst a, fst (snd a) * zprod (map (seval (constants k)) (snd (snd a))))) (arrays k))).
(** sympy only leaves out loop variables which have no influence on the linearised access. *)
Definition depends_sound (k : kernel) (depends : string -> list sym -> bool) : Prop :=
  forall n elem sizes idx t t', In (n, (elem, sizes)) (arrays k) -> depends n idx = false ->
  access_to_sympy (map (seval (constants k)) sizes) (map (seval (in_iteration (constants k) (map lvar (loops k)) t)) idx) =
  access_to_sympy (map (seval (constants k)) sizes) (map (seval (in_iteration (constants k) (map lvar (loops k)) t')) idx).
