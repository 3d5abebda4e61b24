(** Specification for C118: cache lines which the execution of kernel code touches. Of the models only syntax is used; execution is that of CodeSpec, caches are those
    of LruSpec. *)
From Coq Require Import String Permutation.
From Verif Require Import PyBase AstModel AstSpec CodeModel CodeSpec FrontModel FrontSpec LruSpec.
Local Open Scope list_scope.
Local Open Scope Z_scope.

(** ** Elements of arrays in memory *)
(** Number of an element in an array with these dimensions: the last index is the fastest one. *)
Definition row_major (dims zs : list Z) : Z := fold_left (fun acc p => acc * fst p + snd p) (combine dims zs) 0.
Definition in_bounds (dims zs : list Z) : Prop := Forall2 (fun d z => 0 <= z < d) dims zs.
(** Dimensions of an array as it was declared *)
Definition extent (e : env) (d : option cexpr) : Z := match d with Some x => match cvalue e x with Some z => z | None => 0 end | None => 0 end.
Definition extents (e : env) (ds : list decl) (n : string) : list Z :=
  match find (fun d => String.eqb n (dname d)) ds with Some d => map (extent e) (dimensions (dtype d)) | None => [] end.
Definition index_values (e : env) (subs : list expr) : list Z := map (fun s => match subscript_value e s with Some z => z | None => 0 end) subs.

(** ** Lines touched *)
(** References in a statement: elements of arrays, scalars are in registers *)
Definition is_element (r : string * list expr) : bool := match snd r with [] => false | _ => true end.
Definition element_refs (a : cassign) : list (string * list expr) := filter is_element (stmt_reads (statement a) ++ stmt_writes (statement a)).
(** In which order they are accessed is left to the compiler. *)
Definition any_order (order : cassign -> list (string * list expr)) (body : list cassign) : Prop := forall a, In a body -> Permutation (order a) (element_refs a).
(** Line of an element in the iteration with these integers, [e] are those at the declarations; arrays are numbered, lines have [width] elements. *)
Definition line_touched (width : Z) (number : string -> nat) (e : env) (ds : list decl) (it : env) (r : string * list expr) : line :=
  (number (fst r), row_major (extents e ds (fst r)) (index_values it (snd r)) / width).
(** Lines touched by executed assignments *)
Definition lines (width : Z) (number : string -> nat) (e : env) (ds : list decl) (order : cassign -> list (string * list expr)) (evs : list event) : list line :=
  flat_map (fun ev => map (line_touched width number e ds (fst ev)) (order (snd ev))) evs.
(** All elements accessed exist. *)
Definition no_overrun (e : env) (ds : list decl) (evs : list event) : Prop :=
  forall ev r, In ev evs -> In r (element_refs (snd ev)) -> in_bounds (extents e ds (fst r)) (index_values (fst ev) (snd r)).
(** Assignments of these iterations *)
Definition events (body : list cassign) (its : list env) : list event := flat_map (fun it => map (pair it) body) its.

(** ** Stencils *)
(** Each reference has one subscript per loop, which is the index of this loop with an offset; the arrays have the same dimensions, apart from the first one. *)
Definition stencil (k : front) (sizes : list string) : Prop :=
  NoDup (map fst (loops k)) /\ length sizes = length (loops k) /\ (forall s, In s sizes -> ~ In s (map fst (loops k))) /\
  forall n arefs, In (n, arefs) (sources k ++ destinations k) -> arefs = [None] \/
    exists first, FrontModel.lookup (variables k) n = Some (Some (map SVar (first :: tl sizes))) /\ ~ In first (map fst (loops k)) /\
      forall a, In a arefs -> exists idx, a = Some idx /\ Forall2 (fun x s => exists c, shape s = Some (Some x, c)) (map fst (loops k)) idx.
(** Position of an iteration: number of the element which belongs to the indices *)
Definition position_of (sizes : list string) (indices : list string) (it : env) : Z := row_major (map (environment it) sizes) (map (environment it) indices).
(** Dimensions use known constants. *)
Definition known_dimensions (known : list string) (ds : list decl) : Prop :=
  forall d x, In d ds -> In (Some x) (dimensions (dtype d)) -> Forall plain (literals x) /\ incl (names x) known.
(** Code whose execution is determined by its loops: loops with decimal literals, positive steps and known bounds, no assignments to integers, known constants and indices in
    subscripts and dimensions, each name declared once *)
Definition well_behaved (e : env) (ds : list decl) (ls : list cloop) (body : list cassign) : Prop :=
  Forall plain_loop ls /\ Forall advances ls /\ well_scoped (map fst e) ls /\ keeps_integers (map fst e) ls body /\ readable_body body /\ known_subscripts (map fst e) ls body
  /\ NoDup (map dname ds) /\ known_dimensions (map fst e) ds.
(** Values of constants, all positive, for the names in layer conditions *)
Definition constants (e : env) (rho : string -> Z) : Prop := (forall m z, CodeSpec.lookup m e = Some z -> rho m = z) /\ forall m, 0 < rho m.
(** Iterations at consecutive positions from [t], one for each element of a line, after that at [t - 1] *)
Definition line_by_line (position : env -> Z) (width t : Z) (before window : list env) : Prop :=
  (exists others last, before = others ++ [last] /\ position last = t - 1) /\ map position window = positions t (t + width).
