(** Generated benchmark code: [/repo/kerncraft/kernel.py] 98-189 and 1177-1563. Syntax trees are modelled as in [AstModel]; printing them as
    text (pycparser's CGenerator), types, alignment and pragmas are not modelled. *)
From Coq Require Import String.
From Verif Require Export PyBase AstModel.
Local Open Scope string_scope.
Local Open Scope list_scope.
Local Open Scope Z_scope.

(** [for(int index = start; index < bound; index += step)] as accepted by kernel.py:1020-1097 ([_p_for]) *)
Record cloop := mkCloop { cindex : string; cstart : expr; cbound : expr; cstep : Z }.
(** Kernel code as accepted by kernel.py:893-952 ([_process_code]): declarations of arrays with their dimensions and of scalars with their
    initial values, if any, a loop nest with assignments in the innermost loop, and calls of swap. The names of constants are those of
    [self.constants], sorted. *)
Record kernel := mkKernel {
  arrays : list (string * list expr);
  scalars : list (string * option expr);
  constants : list string;
  loops : list cloop;
  body : list assignment;
  swaps : list (string * string)
}.

(** kernel.py:1231-1248 and 98-117: [dict(array_dict)]; the last declaration of a name counts. *)
Fixpoint find_array (n : string) (l : list (string * list expr)) : option (list expr) :=
  match l with
  | [] => None
  | (m, dims) :: l' => match find_array n l' with Some d => Some d | None => if String.eqb n m then Some dims else None end
  end.
Definition array_dimensions (k : kernel) (n : string) : option (list expr) := find_array n (arrays k).
(** kernel.py:98-117 and 146-176: name and number of elements of the allocated memory, [sizeof(type) * dim] bytes *)
Definition array_allocations (k : kernel) : list (string * option expr) := map (fun a => (fst a, transform_decl (snd a))) (arrays k).

(** kernel.py:179-189, [find_node_type(e, c_ast.ArrayRef)]: references are not searched for references inside them. *)
Fixpoint find_refs (e : expr) : list expr :=
  match e with
  | EArr _ _ => [e]
  | EBin _ l r => find_refs l ++ find_refs r
  | EUn _ e' => find_refs e'
  | EID _ | EConst _ | EOther => []
  end.
(** kernel.py:1422-1425: all references are changed in place. Loop bounds have no references (lines 1041-1049). *)
Fixpoint transform_expr (dict : string -> option (list expr)) (e : expr) : res expr :=
  match e with
  | EArr _ _ => transform_ref dict e
  | EBin op l r => do l' <- transform_expr dict l; do r' <- transform_expr dict r; Ok (EBin op l' r')
  | EUn op e1 => do e2 <- transform_expr dict e1; Ok (EUn op e2)
  | EID _ | EConst _ | EOther => Ok e
  end.
Definition transform_stmt (dict : string -> option (list expr)) (s : assignment) : res assignment :=
  do l <- transform_expr dict (lvalue s); do r <- transform_expr dict (rvalue s); Ok (mkassign (aop s) l r).

(** ** The kernel function: kernel.py:1314-1325 and 1392-1458 *)
Inductive param := PArray (n : string) | PScalar (n : string) | PConst (n : string).
Definition param_name (p : param) : string := match p with PArray n | PScalar n | PConst n => n end.
(** kernel.py:1314-1325, [_build_kernel_function_declaration]: pointers to arrays, pointers to scalars with suffix, constants *)
Definition scalar_pointer (n : string) : string := n ++ "_".
Definition kernel_params (k : kernel) : list param :=
  map (fun a => PArray (fst a)) (arrays k) ++ map (fun s => PScalar (scalar_pointer (fst s))) (scalars k) ++ map PConst (constants k).
(** kernel.py:1426-1437: local variables, each with the pointer it is copied from and to, and the loop nest with transformed references *)
Record func := mkFunc {
  params : list param;
  statics : list (string * string);
  floops : list cloop;
  fbody : list assignment;
  fswaps : list (string * string)
}.
Definition kernel_function (k : kernel) : res func :=
  do b <- mapM (transform_stmt (array_dimensions k)) (body k);
  Ok (mkFunc (kernel_params k) (map (fun s => (fst s, scalar_pointer (fst s))) (scalars k)) (loops k) b (swaps k)).
(** kernel.py:1460-1466, [_build_kernel_call] *)
Inductive arg := AVar (n : string) | AAddr (n : string).
Definition kernel_args (k : kernel) : list arg :=
  map (fun a => AVar (fst a)) (arrays k) ++ map (fun s => AAddr (fst s)) (scalars k) ++ map AVar (constants k).

(** ** The main program: kernel.py:1468-1578 *)
(** kernel.py:1260-1285, [_build_array_initializations]: the same loops; every reference of the innermost statements gets a number. *)
Record initialization := mkInit { iloops : list cloop; ibody : list assignment; iswaps : list (string * string) }.
Definition array_initialization (k : kernel) : res initialization :=
  do b <- mapM (fun r => do r' <- transform_ref (array_dimensions k) r; Ok (mkassign "=" r' (EConst None)))
            (flat_map (fun s => find_refs (lvalue s) ++ find_refs (rvalue s)) (body k));
  Ok (mkInit (loops k) b (swaps k)).
(** kernel.py:1353-1365, [_build_scalar_initializations]: every type that lines 222-225 and 266-281 allow begins with double or float, so all
    scalars are initialized with a random number, also those with an initial value. *)
Definition scalar_initialization (k : kernel) : list (string * expr) := map (fun s => (fst s, EConst None)) (scalars k).

(** kernel.py:1468-1515, CODE_TEMPLATE: what happens between declarations and the end. DUMMY_CALLS do nothing, since var_false is 0
    (headers/dummy.c). One thread: the parallel region is executed once. *)
Inductive action := InitArrays | KernelCall | StartRegion | StopRegion.
Inductive iexpr := INum (z : Z) | IArgv1 | IMinus1 (x : string).
Inductive icond := IGe (x : string) (z : Z) | IGt (x : string) (z : Z) | IEq (x : string) (z : Z).
Inductive command :=
| Act (a : action)
| SetInt (x : string) (e : iexpr)
| Seq (c d : command)
| If (b : icond) (c : command)
| While (b : icond) (c : command).
Definition main_template : command :=
  Seq (Act InitArrays)
  (Seq (Seq (SetInt "warmup" (INum 1))
         (While (IGe "warmup" 0)
           (Seq (Seq (SetInt "repeat" (INum 2))
                (Seq (If (IEq "warmup" 0) (Seq (SetInt "repeat" IArgv1) (Act StartRegion)))
                     (While (IGt "repeat" 0) (Seq (Act KernelCall) (SetInt "repeat" (IMinus1 "repeat"))))))
                (SetInt "warmup" (IMinus1 "warmup")))))
  (Act StopRegion)).
