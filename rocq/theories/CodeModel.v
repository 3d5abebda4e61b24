(** Model of how kernel code is accepted: [/repo/kerncraft/kernel.py], [KernelCode._process_code], [_p_for] and
    [get_index_type], [_find_inner_most_loop], on the syntax trees of pycparser with literals as they were written. *)
From Coq Require Import String.
From Verif Require Import PyBase PyFloat AstModel.
Local Open Scope string_scope.
Local Open Scope list_scope.
Local Open Scope Z_scope.

(** pycparser expressions: [ID], [Constant] with the text of the literal, [BinaryOp], [UnaryOp], [ArrayRef] and any other
    node ([COther]: calls, casts, ...) (as inspected by kernel.py:954-1097). *)
Inductive cexpr :=
| CId (name : string)
| CConst (literal : text)
| CBin (op : string) (left right : cexpr)
| CUn (op : string) (e : cexpr)
| CArr (name subscript : cexpr)
| COther.
(** pycparser types: [TypeDecl] of an [IdentifierType], [ArrayDecl], [PtrDecl] and anything else (structures, functions) (as inspected by kernel.py:893-952) *)
Inductive ctype := TBase (names : list string) | TArray (dim : option cexpr) (t : ctype) | TPtr (t : ctype) | TOther.
(** [Decl] (as inspected by kernel.py:893-952) *)
Record decl := mkDecl { dname : string; dtype : ctype; dinit : option cexpr }.
(** First and third part of the head of a loop: [DeclList], or anything else; [UnaryOp], [Assignment], or anything else (as inspected by kernel.py:1020-1097) *)
Inductive cinit := IDecls (ds : list decl) | IOther.
Inductive cnext := NUn (op : string) (e : cexpr) | NAssign (op : string) (l r : cexpr) | NOther.
(** Statements: [For] (the condition may be missing), [Compound] ([block_items] is None for empty braces), [Assignment], [Pragma],
    [Decl], [FuncCall] and anything else (as inspected by kernel.py:893-952 and 1020-1125) *)
Inductive stmt :=
| SFor (init : cinit) (cond : option cexpr) (next : cnext) (body : stmt)
| SCompound (items : option (list stmt))
| SAssign (op : string) (l r : cexpr)
| SPragma (content : string)
| SDecl (d : decl)
| SCall (f : cexpr) (args : list cexpr)
| SOther.

(** What [AstModel] keeps of an expression. [sympy.Integer(text)] reads a literal as [int(text)] does (kernel.py:962-963). *)
Fixpoint abstract (e : cexpr) : expr :=
  match e with
  | CId n => EID n
  | CConst t => EConst (py_int t)
  | CBin op l r => EBin op (abstract l) (abstract r)
  | CUn op e => EUn op (abstract e)
  | CArr a s => EArr (abstract a) (abstract s)
  | COther => EOther
  end.
(** kernel.py:954-973, [conv_ast_to_sym]; None has no attribute [op] (line 971). *)
Definition convert (e : option cexpr) : res sym := match e with Some e => conv_ast_to_sym (abstract e) | None => Err AttributeError end.

(** ** Sections of the code (kernel.py:893-952) *)
Inductive section := InDeclarations | InLoopNest | InSwaps.
(** kernel.py:905-934: the loop over all statements; lines 932-934 are never reached. A call of anything which is no name makes
    line 926 fail with AttributeError, apart from array elements ([ArrayRef.name] exists and differs from 'swap'). *)
Fixpoint sections (sec : section) (items : list stmt) : res (list decl * list stmt * list stmt) :=
  match items with
  | [] => Ok ([], [], [])
  | s :: rest =>
      match sec, s with
      | InDeclarations, SDecl d => do r <- sections InDeclarations rest; let '(ds, ls, ws) := r in Ok (d :: ds, ls, ws)
      | InDeclarations, SPragma _ | InLoopNest, SPragma _ => do r <- sections InLoopNest rest; let '(ds, ls, ws) := r in Ok (ds, s :: ls, ws)
      | InDeclarations, SFor _ _ _ _ | InLoopNest, SFor _ _ _ _ => do r <- sections InSwaps rest; let '(ds, ls, ws) := r in Ok (ds, s :: ls, ws)
      | InDeclarations, _ | InLoopNest, _ => Err ValueError
      | InSwaps, SCall f _ =>
          match f with
          | CId n => if String.eqb n "swap" then do r <- sections InSwaps rest; let '(ds, ls, ws) := r in Ok (ds, ls, s :: ws) else Err ValueError
          | CArr _ _ => Err ValueError
          | _ => Err AttributeError
          end
      | InSwaps, _ => Err ValueError
      end
  end.

(** ** Declarations *)
(** [variables]: name, type and dimensions (None for scalars); [datatype] (kernel.py:227-239) *)
Definition variable := (list string * option (list sym))%type.
Record declared := mkDeclared { datatype : option (list string); variables : list (string * variable) }.
(** kernel.py:222-225 *)
Definition datatypes : list (list string) := [["double"; "_Complex"]; ["float"; "_Complex"]; ["double"]; ["float"]].
Fixpoint names_eqb (a b : list string) : bool :=
  match a, b with [], [] => true | x :: a, y :: b => (String.eqb x y && names_eqb a b)%bool | _, _ => false end.
(** [d[k] = v] of a dictionary in order of insertion (kernel.py:281) *)
Fixpoint vset (d : list (string * variable)) (k : string) (v : variable) : list (string * variable) :=
  match d with [] => [(k, v)] | (k', v') :: d' => if String.eqb k k' then (k, v) :: d' else (k', v') :: vset d' k v end.
(** kernel.py:266-281, [set_variable]; the size is always a tuple or None (line 280). *)
Definition set_variable (n : string) (t : list string) (size : option (list sym)) (st : declared) : res declared :=
  if existsb (names_eqb t) datatypes then
    match datatype st with
    | None => Ok (mkDeclared (Some t) (vset (variables st) n (t, size)))
    | Some t' => if names_eqb t t' then Ok (mkDeclared (datatype st) (vset (variables st) n (t, size))) else Err AssertionError
    end
  else Err AssertionError.
(** kernel.py:940-944: dimensions, outermost first, and the type of the elements *)
Fixpoint array_dims (t : ctype) : res (list sym * ctype) :=
  match t with
  | TArray dim t' => do d <- convert dim; do r <- array_dims t'; Ok (d :: fst r, snd r)
  | _ => Ok ([], t)
  end.
(** [t.type.names]: only a [TypeDecl] of an [IdentifierType] has it (kernel.py:893-952). *)
Definition type_names (t : ctype) : res (list string) := match t with TBase ns => Ok ns | _ => Err AttributeError end.
(** kernel.py:936-949 for one declaration *)
Definition declare (d : decl) (st : declared) : res declared :=
  match dtype d with
  | TArray _ _ => do r <- array_dims (dtype d); do t <- type_names (snd r); set_variable (dname d) t (Some (fst r)) st
  | t => do t <- type_names t; set_variable (dname d) t None st
  end.
Fixpoint declare_all (ds : list decl) (st : declared) : res declared :=
  match ds with [] => Ok st | d :: ds' => do st' <- declare d st; declare_all ds' st' end.

(** ** Loops *)
(** Entries of [_loop_stack]: index, minimum, maximum, step (kernel.py:1020-1097) *)
Definition entry := (string * sym * sym * Z)%type.
Definition assertion (b : bool) : res unit := if b then Ok tt else Err AssertionError.
(** kernel.py:1025-1027 *)
Definition check_init (i : cinit) : res decl := match i with IDecls [d] => Ok d | _ => Err AssertionError end.
(** kernel.py:1028-1031. A condition without operator (or no condition at all) raises AttributeError; no operator of one operand is '<'. *)
Definition check_cond (c : option cexpr) : res (string * cexpr) :=
  match c with
  | Some (CBin op l r) =>
      do _ <- assertion (String.eqb op "<");
      match l with
      | CId n => match r with CConst _ | CId _ | CBin _ _ _ => Ok (n, r) | _ => Err AssertionError end
      | _ => Err AssertionError
      end
  | Some (CUn _ _) => Err AssertionError
  | _ => Err AttributeError
  end.
(** kernel.py:1032-1034 *)
Definition check_next (n : cnext) : res unit :=
  match n with
  | NUn op _ | NAssign op _ _ => assertion (String.eqb op "++" || String.eqb op "p++" || String.eqb op "+=")%bool
  | NOther => Err AssertionError
  end.
(** kernel.py:1035-1036 *)
Definition check_body (b : stmt) : res unit :=
  match b with SCompound _ | SAssign _ _ _ | SFor _ _ _ _ => Ok tt | _ => Err AssertionError end.
(** kernel.py:1038-1047. [bop.op in '+-*'] is a search in a text; of the operators of C only these three are found. *)
Definition loop_max (r : cexpr) : res sym :=
  match r with
  | CBin op _ _ => do _ <- assertion (String.eqb op "+" || String.eqb op "-" || String.eqb op "*")%bool; convert (Some r)
  | _ => convert (Some r)
  end.
(** kernel.py:1051-1071. [int(text)] raises ValueError. Lines 1070-1071 are never reached because of line 1034. *)
Definition loop_step (n : cnext) (cond_name init_name : string) : res Z :=
  match n with
  | NAssign _ l r =>
      match l with
      | CId x =>
          match r with
          | CConst t =>
              do _ <- assertion (String.eqb x cond_name && String.eqb cond_name init_name)%bool;
              match py_int t with Some z => Ok z | None => Err ValueError end
          | _ => Err AssertionError
          end
      | _ => Err AssertionError
      end
  | NUn op e =>
      match e with
      | CId x =>
          do _ <- assertion (String.eqb x cond_name && String.eqb cond_name init_name)%bool;
          if (String.eqb op "++" || String.eqb op "p++")%bool then Ok 1
          else if (String.eqb op "--" || String.eqb op "p--")%bool then Ok (-1) else Err AssertionError
      | _ => Err AssertionError
      end
  | NOther => Err AttributeError
  end.
(** kernel.py:1020-1077: checks of the head of a loop, and the entry for the stack *)
Definition head (i : cinit) (c : option cexpr) (n : cnext) (body : stmt) : res entry :=
  do d <- check_init i;
  do lr <- check_cond c;
  do _ <- check_next n;
  do _ <- check_body body;
  do mx <- loop_max (snd lr);
  do mn <- convert (dinit d);
  do st <- loop_step n (fst lr) (dname d);
  Ok (dname d, mn, mx, st).

Definition is_pragma (s : stmt) : bool := match s with SPragma _ => true | _ => false end.
Definition is_for (s : stmt) : bool := match s with SFor _ _ _ _ => true | _ => false end.
Definition assignment_of (op : string) (l r : cexpr) : assignment := mkassign op (abstract l) (abstract r).
(** State of the object: [_loop_stack] and sources, destinations and operations (kernel.py:227-239) *)
Record parsed := mkParsed { stack : list entry; accesses : kstate }.

Section Parse.
  (** Equality of accesses, as in [AstModel] (kernel.py:1115, 1121 and 1140) *)
  Variable access_eqb : access -> access -> bool.

  (** kernel.py:1088-1097 *)
  Fixpoint p_statements (items : list stmt) (st : parsed) : res parsed :=
    match items with
    | [] => Ok st
    | SPragma _ :: rest => p_statements rest st
    | SAssign op l r :: rest => do k <- p_assignment access_eqb (assignment_of op l r) (accesses st); p_statements rest (mkParsed (stack st) k)
    | _ :: _ => Err ValueError
    end.

  (** kernel.py:1020-1097, [_p_for]. [p_last] is [_p_for(block_items[-1])], and [block_items[-1]] raises TypeError or IndexError
      for empty braces. *)
  Fixpoint p_for (s : stmt) (st : parsed) {struct s} : res parsed :=
    match s with
    | SFor i c n body =>
        do e <- head i c n body;
        let st := mkParsed (stack st ++ [e]) (accesses st) in
        match body with
        | SFor _ _ _ _ => p_for body st
        | SAssign op l r => do k <- p_assignment access_eqb (assignment_of op l r) (accesses st); Ok (mkParsed (stack st) k)
        | SCompound None => Err TypeError
        | SCompound (Some items) =>
            match rev items with
            | [] => Err IndexError
            | last :: before =>
                if (is_for last && forallb is_pragma before)%bool
                then (fix p_last (l : list stmt) : res parsed :=
                        match l with [] => Err IndexError | x :: l' => match l' with [] => p_for x st | _ => p_last l' end end) items
                else p_statements items st
            end
        | _ => Err AssertionError
        end
    | _ => Err AssertionError
    end.

  (** What the constructor leaves in the object (kernel.py:732-760) *)
  Record kernel := mkKernel { kernel_variables : declared; kernel_nest : parsed; kernel_swaps : list stmt }.
  (** kernel.py:893-952, [_process_code], with the body of the function, and kernel.py:744-760: [clear_state] before and [check]
      (lines 241-244) after it. [check] cannot fail: [set_variable] accepts one type only. *)
  Definition process_code (block_items : option (list stmt)) : res kernel :=
    match block_items with
    | None => Err TypeError
    | Some items =>
        do r <- sections InDeclarations items;
        let '(ds, ls, ws) := r in
        do v <- declare_all ds (mkDeclared None []);
        match rev ls with
        | [] => Err IndexError
        | l :: _ => do p <- p_for l (mkParsed [] empty_state); Ok (mkKernel v p ws)
        end
    end.
  (** kernel.py:241-244, [check] *)
  Definition check (k : kernel) : res unit :=
    match variables (kernel_variables k) with
    | [] => Ok tt
    | (_, (t, _)) :: vs => assertion (forallb (fun v => names_eqb t (fst (snd v))) vs)
    end.
End Parse.

(** ** Functions which look into the nest again *)
(** [s.init.decls[0].type.type.names] (kernel.py:1170) *)
Definition index_names (i : cinit) : res (list string) :=
  match i with IDecls (d :: _) => type_names (dtype d) | IDecls [] => Err IndexError | IOther => Err AttributeError end.
(** kernel.py:1153-1175, [get_index_type(loop_nest)] for a statement: a loop stands for the list of it (lines 1161-1162), braces are
    iterated over (empty ones have no elements). The result is None without a loop. *)
Fixpoint get_index_type (s : stmt) : res (option (list string)) :=
  match s with
  | SFor i _ _ body =>
      do other <- match body with SFor _ _ _ _ | SCompound _ => get_index_type body | _ => Ok None end;
      do ns <- index_names i;
      match other with
      | None => Ok (Some ns)
      | Some o => if names_eqb ns o then Ok (Some ns) else Err ValueError
      end
  | SCompound (Some items) =>
      (fix first (l : list stmt) : res (option (list string)) :=
         match l with [] => Ok None | x :: l' => match x with SFor _ _ _ _ => get_index_type x | _ => first l' end end) items
  | _ => Ok None
  end.
(** [get_index_type()] for the statements of the kernel: declarations, which [get_kernel_loop_nest] (kernel.py:1216-1229) leaves out, are no loops *)
Fixpoint get_index_type_all (l : list stmt) : res (option (list string)) :=
  match l with [] => Ok None | x :: l' => match x with SFor _ _ _ _ => get_index_type x | _ => get_index_type_all l' end end.

(** kernel.py:1250-1258, [_find_inner_most_loop]. Iterating over a node gives its children: of a loop the parts of its head, which
    contain no loops, and its body. *)
Fixpoint find_inner (s : stmt) : option stmt :=
  match s with
  | SFor _ _ _ body => if is_for body then match find_inner body with Some f => Some f | None => Some body end else find_inner body
  | SCompound (Some items) =>
      (fix go (l : list stmt) (r : option stmt) : option stmt :=
         match l with
         | [] => r
         | x :: l' => if is_for x then match find_inner x with Some f => Some f | None => Some x end
                      else go l' (match r with Some _ => r | None => find_inner x end)
         end) items None
  | _ => None
  end.
Fixpoint find_inner_most_loop (l : list stmt) (r : option stmt) : option stmt :=
  match l with
  | [] => r
  | x :: l' => if is_for x then match find_inner x with Some f => Some f | None => Some x end
               else find_inner_most_loop l' (match r with Some _ => r | None => find_inner x end)
  end.
