(** Model of the template of the benchmark program: [replace_id] of [/repo/kerncraft/pycparser_utils.py] and [get_main_code],
    [_build_dummy_calls], [_build_kernel_call] and [_build_kernel_function_declaration] of [/repo/kerncraft/kernel.py]. *)
From Coq Require Import String.
From Verif Require Import PyBase.
Local Open Scope string_scope.
Local Open Scope list_scope.

(** Nodes of pycparser: identifiers, and all others with their class, their attributes which are texts, the attributes which are nodes
    and the one which is a list of nodes (no class has two lists of which both are used here). A list that was put in place of a single
    node is a node of class "list".
    Simplification: trees instead of objects; a node that was inserted twice is replaced in both places independently (as in pycparser_utils.py:57-86). *)
Inductive node := Id (n : string) | Node (kind : string) (texts : list string) (ones : list node) (items : list node).
(** What is put in: a node, or a list (pycparser_utils.py:57-86) *)
Inductive replacement := Single (x : node) | Inject (l : list node).
Definition as_node (r : replacement) : node := match r with Single x => x | Inject l => Node "list" [] [] l end.

Section Replace.
  Variables (id : string) (r : replacement).
  (** pycparser_utils.py:65 *)
  Definition matches (a : node) : bool := match a with Id n => String.eqb n id | _ => false end.
  (** pycparser_utils.py:64-86 for the elements of a list attribute: the list is iterated by position while lines 76-84 change it. After an
      injection the iteration goes on with the second node injected, or, if nothing was injected, with the one after the next. *)
  Fixpoint walk (recurse : node -> res node) (fuel : nat) (done todo : list node) : res (list node) :=
    match todo with
    | [] => Ok done
    | a :: rest =>
        match fuel with
        | O => Err OutOfFuel
        | S f =>
            if matches a then
              match r with
              | Single x => walk recurse f (done ++ [x]) rest
              | Inject [] => match rest with [] => Ok done | b :: rest' => walk recurse f (done ++ [b]) rest' end
              | Inject (x :: xs) => walk recurse f (done ++ [x]) (xs ++ rest)
              end
            else do a' <- recurse a; walk recurse f (done ++ [a']) rest
        end
    end.
  (** pycparser_utils.py:57-86, [replace_id]. Single attributes are replaced by whatever is given (lines 73-74). The elements of a bare list
      are visited, but no attribute refers to them. *)
  Fixpoint replace_id (fuel : nat) (ast : node) : res node :=
    match fuel with
    | O => Err OutOfFuel
    | S f =>
        match ast with
        | Id n => Ok (Id n)
        | Node k ts ones items =>
            let one a := if matches a then Ok (as_node r) else replace_id f a in
            do ones' <- mapM one ones;
            do items' <- (if String.eqb k "list" then mapM (fun a => if matches a then Ok a else replace_id f a) items
                          else walk (replace_id f) f [] items);
            Ok (Node k ts ones' items')
        end
    end.
End Replace.

(** ** Pieces (kernel.py:1287-1325 and 1460-1578) *)
Definition leaf (k : string) (ts : list string) : node := Node k ts [] [].
Definition call (f : string) (args : list node) : node := Node "FuncCall" [] [Id f; Node "ExprList" [] [] args] [].
(** A declaration of the kernel at top level: name and whether it is an array; [TypeDecl] or anything else (as used in kernel.py:1287-1325 and 1460-1466) *)
Inductive dkind := KArray | KScalar | KOther.
Definition decls := list (string * dkind).
Definition is_array (d : string * dkind) : bool := match snd d with KArray => true | _ => false end.
Definition is_scalar (d : string * dkind) : bool := match snd d with KScalar => true | _ => false end.
Definition address (n : string) : node := Node "UnaryOp" ["&"] [Id n] [].
(** kernel.py:1287-1312, [_build_dummy_calls] *)
Definition build_dummy_calls (ds : decls) : node :=
  Node "If" [] [Id "var_false"; Node "Compound" [] [] (map (fun d => call "dummy" [if is_array d then Id (fst d) else address (fst d)]) ds)] [].
(** kernel.py:1460-1466, [_build_kernel_call]; arrays are selected in lines 1209-1210, scalars in lines 1333-1334, [consts] are the names of
    the constants. *)
Definition build_kernel_call (name : string) (ds : decls) (consts : list string) : node :=
  call name (map (fun d => Id (fst d)) (filter is_array ds) ++ map (fun d => address (fst d)) (filter is_scalar ds) ++ map Id consts).
(** kernel.py:1314-1325, [_build_kernel_function_declaration]: names of the parameters, and whether they are pointers (arrays become pointers,
    kernel.py:146-176; scalars get the suffix and a pointer, lines 1339-1343) *)
Definition kernel_parameters (ds : decls) (consts : list string) : list (string * bool) :=
  map (fun d => (fst d, true)) (filter is_array ds) ++ map (fun d => ((fst d ++ "_")%string, true)) (filter is_scalar ds) ++ map (fun c => (c, false)) consts.

(** ** The template *)
(** kernel.py:1468-1515, [CODE_TEMPLATE] as pycparser reads it (includes and comments are removed before, lines 1538-1539). Types are left out. *)
Definition main_block : list node :=
  [Id "DECLARE_CONSTS"; Id "DECLARE_ARRAYS"; Id "DECLARE_INIT_SCALARS";
   call "likwid_markerInit" []; leaf "Pragma" ["omp parallel"];
   Node "Compound" [] []
     [call "likwid_markerRegisterRegion" [leaf "Constant" ["""loop"""]]; leaf "Pragma" ["omp barrier"];
      Id "INIT_ARRAYS"; Id "DUMMY_CALLS";
      Node "For" []
        [Node "DeclList" [] [] [Node "Decl" ["warmup"] [leaf "TypeDecl" ["int"]; leaf "Constant" ["1"]] []];
         Node "BinaryOp" [">="] [Id "warmup"; leaf "Constant" ["0"]] []; Node "UnaryOp" ["--"] [Id "warmup"] [];
         Node "Compound" [] []
           [Node "Decl" ["repeat"] [leaf "TypeDecl" ["int"]; leaf "Constant" ["2"]] [];
            Node "If" [] [Node "BinaryOp" ["=="] [Id "warmup"; leaf "Constant" ["0"]] [];
                          Node "Compound" [] []
                            [Node "Assignment" ["="] [Id "repeat"; call "atoi" [Node "ArrayRef" [] [Id "argv"; leaf "Constant" ["1"]] []]] [];
                             call "likwid_markerStartRegion" [leaf "Constant" ["""loop"""]]]] [];
            Node "For" [] [Node "BinaryOp" [">"] [Id "repeat"; leaf "Constant" ["0"]] []; Node "UnaryOp" ["--"] [Id "repeat"] [];
                           Node "Compound" [] [] [Id "KERNEL_CALL"; Id "DUMMY_CALLS"]] []]] [];
      call "likwid_markerStopRegion" [leaf "Constant" ["""loop"""]]];
   call "likwid_markerClose" []; Node "Return" [] [leaf "Constant" ["0"]] []].
Definition template : node :=
  Node "FileAST" [] []
    [Node "Decl" ["dummy"] [leaf "FuncDecl" ["void *"]] []; Node "Decl" ["extern"; "var_false"] [leaf "TypeDecl" ["int"]] [];
     Node "FuncDef" ["main"] [leaf "FuncDecl" ["argc"; "argv"]; Node "Compound" [] [] main_block] []].

(** What the builders return for a kernel: declarations of constants, arrays and scalars, and the loops that initialize the arrays. The latter
    three are given, since only the identifiers in them matter here (kernel.py:1517-1578). *)
Record pieces := mkPieces {
  top : decls; constants : list string;
  const_decls : list node; array_decls : list node; scalar_decls : list node; array_inits : list node }.
(** kernel.py:1542-1564: the six replacements in their order. The call is built with the default name (line 1561). *)
Definition steps (p : pieces) : list (string * replacement) :=
  [("DECLARE_CONSTS", Inject (const_decls p)); ("DECLARE_ARRAYS", Inject (array_decls p)); ("DECLARE_INIT_SCALARS", Inject (scalar_decls p));
   ("DUMMY_CALLS", Single (build_dummy_calls (top p))); ("KERNEL_CALL", Single (build_kernel_call "kernel" (top p) (constants p)));
   ("INIT_ARRAYS", Inject (array_inits p))].
Fixpoint replace_all (fuel : nat) (l : list (string * replacement)) (ast : node) : res node :=
  match l with [] => Ok ast | (id, r) :: l' => do ast' <- replace_id id r fuel ast; replace_all fuel l' ast' end.
Definition main_ast (fuel : nat) (p : pieces) : res node := replace_all fuel (steps p) template.
(** kernel.py:1177-1205, [_build_const_declartions(with_init=True)]: the constants are read from the arguments of the program, the second one first *)
Fixpoint build_const_decls (index_type : list string) (i : nat) (show : nat -> string) (consts : list string) : list node :=
  match consts with
  | [] => []
  | c :: cs => Node "Decl" ["const"; c] [leaf "TypeDecl" index_type; call "atoi" [Node "ArrayRef" [] [Id "argv"; leaf "Constant" [show i]] []]] []
               :: build_const_decls index_type (S i) show cs
  end.
