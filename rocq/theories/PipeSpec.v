(** Specification for C83 and C84: what a call should answer, without any files. *)
From Coq Require Import String.
From Verif Require Import PyBase PyText MarkModel PathModel PathSpec PipeModel.
Local Open Scope list_scope.

Section W.
Context (w : world).
Definition kernel_of (r : request) : list string * string := (components (kernel_dir r), kernel_file r).
Definition compiled (assembly omp : bool) (r : request) : res text :=
  let (d, f) := kernel_of r in of_option (compile w (compiler r) (flags r) assembly (header w d f) (code w d f omp)).
(** The assembly is marked at the block and with the increment that were asked for. *)
Definition marked (r : request) : res (text * Z) :=
  do s <- compiled true false r;
  match instrument w (asm_block r) (pointer_increment r) (isa w (machine_dir r) (machine_file r)) s with inl x => Ok x | inr (e, _) => Err e end.
Definition analysed (r : request) (t : text) : res text :=
  let m := incore_model r in
  if String.eqb m "OSACA" || String.eqb m "LLVM-MCA" then analyse w m (model_parameter r) (isa w (machine_dir r) (machine_file r)) t
  else if String.eqb m "IACA" then do o <- of_option (assemble w (compiler r) (flags r) t); analyse w m (model_parameter r) [] o
  else Err ValueError.
Definition built (env : option text) (omp : bool) (r : request) : res text :=
  let (d, f) := kernel_of r in
  match env with
  | None => Err SystemExit
  | Some e => do o <- compiled false omp r; of_option (link w (compiler r) (flags r) e o (main w d f))
  end.
Definition answer (c : call) (r : request) : res (text * option Z) :=
  match c with
  | Assembly omp => do t <- compiled true omp r; Ok (t, None)
  | Object omp => do t <- compiled false omp r; Ok (t, None)
  | Incore => do x <- marked r; do a <- analysed r (fst x); Ok (a, Some (snd x))
  | Build env omp => do t <- built env omp r; Ok (t, None)
  end.

(** Histories in which nothing is asked for in two ways: for the same kernel, compiler and flags always the same block and increment;
    machine files of the same name have the same instruction set; always the same environment for the executable. *)
Definition consistent (h : list (call * request)) : Prop :=
  (forall c a c' b, In (c, a) h -> In (c', b) h -> machine_file a = machine_file b -> isa w (machine_dir a) (machine_file a) = isa w (machine_dir b) (machine_file b))
  /\ (forall c a c' b, In (c, a) h -> In (c', b) h -> kernel_of a = kernel_of b -> same_compilation a b ->
       asm_block a = asm_block b /\ pointer_increment a = pointer_increment b)
  /\ (forall e e' o o' a b, In (Build e o, a) h -> In (Build e' o', b) h -> e = e').
(** Marking finds block and increment, and the increment is found in the marked assembly; or it fails and removes the file. *)
Definition markable (r : request) : Prop :=
  forall s, compiled true false r = Ok s ->
  match instrument w (asm_block r) (pointer_increment r) (isa w (machine_dir r) (machine_file r)) s with
  | inl (t, z) => search_increment t = Some z
  | inr (_, removed) => removed = true
  end.
End W.
