(** Specification: what kernel code may look like, and what it does when it is executed. Of the model only the syntax is used. *)
From Coq Require Import String.
From Verif Require Import PyBase PyFloat AstModel AstSpec CodeModel.
Local Open Scope string_scope.
Local Open Scope list_scope.
Local Open Scope Z_scope.

(** ** Integers of C *)
(** Literals (C11 6.4.4.1), without suffixes: hexadecimal, octal, decimal *)
Definition digit_value (c : N) : option Z :=
  let z := Z.of_N c in
  if (48 <=? z) && (z <=? 57) then Some (z - 48) else if (97 <=? z) && (z <=? 102) then Some (z - 87) else if (65 <=? z) && (z <=? 70) then Some (z - 55) else None.
Fixpoint number_from (base acc : Z) (t : text) : option Z :=
  match t with
  | [] => Some acc
  | c :: t' => match digit_value c with Some d => if d <? base then number_from base (base * acc + d) t' else None | None => None end
  end.
Definition number (base : Z) (t : text) : option Z := match t with [] => None | _ => number_from base 0 t end.
Definition c_integer (t : text) : option Z :=
  match t with
  | 48%N :: x :: h => if (N.eqb x 120 || N.eqb x 88)%bool then number 16 h else number 8 (x :: h)
  | _ => number 10 t
  end.
Definition leading_zero (t : text) : Prop := exists x h, t = 48%N :: x :: h.

(** Values of the visible integer variables, innermost scope first *)
Definition env := list (string * Z).
Fixpoint lookup (n : string) (e : env) : option Z := match e with [] => None | (m, z) :: e' => if String.eqb n m then Some z else lookup n e' end.
Fixpoint update (n : string) (z : Z) (e : env) : env := match e with [] => [] | (m, y) :: e' => if String.eqb n m then (m, z) :: e' else (m, y) :: update n z e' end.
Fixpoint cvalue (e : env) (x : cexpr) : option Z :=
  match x with
  | CId n => lookup n e
  | CConst t => c_integer t
  | CBin op l r =>
      match cvalue e l, cvalue e r with
      | Some a, Some b => if String.eqb op "+" then Some (a + b) else if String.eqb op "-" then Some (a - b) else if String.eqb op "*" then Some (a * b) else None
      | _, _ => None
      end
  | CUn op y => match cvalue e y with Some a => if String.eqb op "-" then Some (- a) else None | None => None end
  | _ => None
  end.
Definition condition (e : env) (c : option cexpr) : option bool :=
  match c with
  | Some (CBin op l r) =>
      match cvalue e l, cvalue e r with
      | Some a, Some b => if String.eqb op "<" then Some (a <? b) else if String.eqb op "<=" then Some (a <=? b) else if String.eqb op ">" then Some (b <? a) else None
      | _, _ => None
      end
  | _ => None
  end.
Definition advance (e : env) (n : cnext) : option env :=
  match n with
  | NUn op (CId x) =>
      match lookup x e with
      | Some z => if (String.eqb op "++" || String.eqb op "p++")%bool then Some (update x (z + 1) e)
                  else if (String.eqb op "--" || String.eqb op "p--")%bool then Some (update x (z - 1) e) else None
      | None => None
      end
  | NAssign op (CId x) r =>
      match lookup x e, cvalue e r with
      | Some z, Some d => if String.eqb op "+=" then Some (update x (z + d) e) else if String.eqb op "-=" then Some (update x (z - d) e) else None
      | _, _ => None
      end
  | _ => None
  end.

(** ** Execution of statements *)
(** An assignment as it was written *)
Record cassign := mkAssign { operator : string; left_side : cexpr; right_side : cexpr }.
(** Variables which it may change: the one assigned, and those incremented or decremented in it *)
Definition variable_of (x : cexpr) : list string := match x with CId n => [n] | _ => [] end.
Fixpoint incremented (x : cexpr) : list string :=
  match x with
  | CUn op y => (if String.eqb op "-" then [] else variable_of y) ++ incremented y
  | CBin _ l r => incremented l ++ incremented r
  | CArr a s => incremented a ++ incremented s
  | _ => []
  end.
Definition modified (a : cassign) : list string := variable_of (left_side a) ++ incremented (left_side a) ++ incremented (right_side a).
(** Integers after an assignment: any value for what it modifies, all others as before *)
Definition assigned (a : cassign) (e e' : env) : Prop :=
  Forall2 (fun p q => fst q = fst p /\ (In (fst p) (modified a) \/ snd q = snd p)) e e'.
(** Assignments executed, with the integers at that time *)
Definition event := (env * cassign)%type.
Inductive exec : env -> stmt -> list event -> env -> Prop :=
| exec_pragma e c : exec e (SPragma c) [] e
| exec_assign e op l r e' : assigned (mkAssign op l r) e e' -> exec e (SAssign op l r) [(e, mkAssign op l r)] e'
| exec_braces e : exec e (SCompound None) [] e
| exec_block e items evs e' : exec_all e items evs e' -> exec e (SCompound (Some items)) evs e'
| exec_for e x t first z c n body evs z' e' :
    cvalue e first = Some z -> loop ((x, z) :: e) c n body evs ((x, z') :: e') -> exec e (SFor (IDecls [mkDecl x t (Some first)]) c n body) evs e'
with exec_all : env -> list stmt -> list event -> env -> Prop :=
| exec_nil e : exec_all e [] [] e
| exec_cons e s evs e1 rest evs' e2 : exec e s evs e1 -> exec_all e1 rest evs' e2 -> exec_all e (s :: rest) (evs ++ evs') e2
with loop : env -> option cexpr -> cnext -> stmt -> list event -> env -> Prop :=
| loop_end e c n body : condition e c = Some false -> loop e c n body [] e
| loop_again e c n body evs e1 e2 evs' e3 :
    condition e c = Some true -> exec e body evs e1 -> advance e1 n = Some e2 -> loop e2 c n body evs' e3 -> loop e c n body (evs ++ evs') e3.

(** ** Structure of kernel code *)
(** A loop: index, type of the index, first value, bound, and text of the increment (None for ++) *)
Record cloop := mkLoop { index : string; index_type : ctype; first : cexpr; bound : cexpr; increment : option text }.
Definition loop_of (l : cloop) (body : stmt) (s : stmt) : Prop :=
  exists n, s = SFor (IDecls [mkDecl (index l) (index_type l) (Some (first l))]) (Some (CBin "<" (CId (index l)) (bound l))) n body
    /\ match increment l with
       | None => n = NUn "++" (CId (index l)) \/ n = NUn "p++" (CId (index l))
       | Some t => n = NAssign "+=" (CId (index l)) (CConst t)
       end.
(** Trees the parser builds: the operator of an assignment is never ++. *)
Fixpoint c_tree (s : stmt) : Prop :=
  match s with
  | SFor _ _ n body => match n with NAssign op _ _ => ~ In op ["++"; "p++"] | _ => True end /\ c_tree body
  | SCompound (Some items) => (fix all (l : list stmt) : Prop := match l with [] => True | x :: l' => c_tree x /\ all l' end) items
  | _ => True
  end.
(** Assignments, with pragmas in between *)
Inductive assignments : list stmt -> list cassign -> Prop :=
| as_nil : assignments [] []
| as_pragma c items l : assignments items l -> assignments (SPragma c :: items) l
| as_assign op x y items l : assignments items l -> assignments (SAssign op x y :: items) (mkAssign op x y :: l).
(** A perfect nest of loops (outermost first) around assignments *)
Inductive nest : stmt -> list cloop -> list cassign -> Prop :=
| nest_single l op x y s : loop_of l (SAssign op x y) s -> nest s [l] [mkAssign op x y]
| nest_block l items body s : loop_of l (SCompound (Some items)) s -> items <> [] -> assignments items body -> nest s [l] body
| nest_loop l inner s ls body : loop_of l inner s -> nest inner ls body -> nest s (l :: ls) body
| nest_loop_block l ps inner s ls body :
    loop_of l (SCompound (Some (map SPragma ps ++ [inner]))) s -> nest inner ls body -> nest s (l :: ls) body.
(** Declarations, pragmas, one nest of loops, calls of swap *)
Definition swap_call (args : list cexpr) : stmt := SCall (CId "swap") args.
Definition kernel_code (items : list stmt) (ds : list decl) (ls : list cloop) (body : list cassign) (ws : list (list cexpr)) : Prop :=
  exists ps s, items = map SDecl ds ++ map SPragma ps ++ s :: map swap_call ws /\ nest s ls body.

(** ** Loops as recorded *)
Definition environment (e : env) (n : string) : Z := match lookup n e with Some z => z | None => 0 end.
(** [z, z + step, ...] below the bound *)
Definition ticks (lo hi step : Z) : list Z := map (fun i => lo + step * Z.of_nat i) (List.seq 0 (Z.to_nat ((hi - lo + step - 1) / step))).
(** Integers for all iterations of the recorded loops (outermost first), in order *)
Fixpoint iterations (st : list entry) (e : env) : list env :=
  match st with
  | [] => [e]
  | (x, mn, mx, step) :: st' => flat_map (fun z => iterations st' ((x, z) :: e)) (ticks (seval (environment e) mn) (seval (environment e) mx) step)
  end.
Definition step_text (l : cloop) : option Z := match increment l with None => Some 1 | Some t => c_integer t end.

(** ** Well-behaved code *)
(** Sums, differences and products of names and literals *)
Inductive arithmetic (ok : text -> Prop) : cexpr -> Prop :=
| ar_id n : arithmetic ok (CId n)
| ar_const t : ok t -> arithmetic ok (CConst t)
| ar_bin op l r : In op ["+"; "-"; "*"] -> arithmetic ok l -> arithmetic ok r -> arithmetic ok (CBin op l r).
Fixpoint literals (x : cexpr) : list text :=
  match x with CConst t => [t] | CBin _ l r => literals l ++ literals r | CUn _ y => literals y | CArr a s => literals a ++ literals s | _ => [] end.
Fixpoint names (x : cexpr) : list string :=
  match x with CId n => [n] | CBin _ l r => names l ++ names r | CUn _ y => names y | CArr a s => names a ++ names s | _ => [] end.
(** A literal of C which is no octal one *)
Definition plain (t : text) : Prop := c_integer t <> None /\ ~ leading_zero t.
Definition plain_loop (l : cloop) : Prop :=
  Forall plain (literals (first l) ++ literals (bound l) ++ match increment l with Some t => [t] | None => [] end).
(** Only known integers in the heads of the loops, and never the index of the same loop *)
Fixpoint well_scoped (known : list string) (ls : list cloop) : Prop :=
  match ls with
  | [] => True
  | l :: ls' => incl (names (first l) ++ names (bound l)) known /\ ~ In (index l) (names (first l) ++ names (bound l)) /\ well_scoped (index l :: known) ls'
  end.
Definition advances (l : cloop) : Prop := match step_text l with Some z => 0 < z | None => False end.
(** The assignments change no index and no known integer. *)
Definition keeps_integers (known : list string) (ls : list cloop) (body : list cassign) : Prop :=
  forall a n, In a body -> In n (modified a) -> ~ In n (known ++ map index ls).

(** ** Elements touched *)
(** What an expression means in C: the syntax of [AstModel], with the values of the integer literals *)
Fixpoint meaning (x : cexpr) : expr :=
  match x with
  | CId n => EID n
  | CConst t => EConst (c_integer t)
  | CBin op l r => EBin op (meaning l) (meaning r)
  | CUn op y => EUn op (meaning y)
  | CArr a s => EArr (meaning a) (meaning s)
  | COther => EOther
  end.
Definition statement (a : cassign) : assignment := mkassign (operator a) (meaning (left_side a)) (meaning (right_side a)).
(** Value of a subscript *)
Fixpoint subscript_value (e : env) (x : expr) : option Z :=
  match x with
  | EID n => lookup n e
  | EConst z => z
  | EBin op l r =>
      match subscript_value e l, subscript_value e r with
      | Some a, Some b => if String.eqb op "+" then Some (a + b) else if String.eqb op "-" then Some (a - b) else if String.eqb op "*" then Some (a * b) else None
      | _, _ => None
      end
  | _ => None
  end.
(** Elements a statement reads and writes ([stmt_reads], [stmt_writes] of AstSpec.v are the references in it) for given integers *)
Definition position (e : env) (subs : list expr) (zs : list Z) : Prop := Forall2 (fun s z => subscript_value e s = Some z) subs zs.
Definition reads_element (ev : event) (n : string) (zs : list Z) : Prop := exists subs, In (n, subs) (stmt_reads (statement (snd ev))) /\ position (fst ev) subs zs.
Definition writes_element (ev : event) (n : string) (zs : list Z) : Prop := exists subs, In (n, subs) (stmt_writes (statement (snd ev))) /\ position (fst ev) subs zs.
(** Elements an access of the record stands for *)
Definition access_at (a : access) (e : env) (zs : list Z) : Prop := match a with None => zs = [] | Some idx => idx <> [] /\ zs = map (seval (environment e)) idx end.
(** No octal or hexadecimal numbers in the assignments (other numbers need not be integers) *)
Definition readable (t : text) : Prop := plain t \/ (c_integer t = None /\ py_int t = None).
Definition readable_body (body : list cassign) : Prop := forall a t, In a body -> In t (literals (left_side a) ++ literals (right_side a)) -> readable t.
(** Only indices and known integers in subscripts *)
Fixpoint expr_names (x : expr) : list string :=
  match x with EID n => [n] | EBin _ l r => expr_names l ++ expr_names r | EUn _ y => expr_names y | EArr a s => expr_names a ++ expr_names s | _ => [] end.
Definition known_subscripts (known : list string) (ls : list cloop) (body : list cassign) : Prop :=
  forall a n subs s, In a body -> In (n, subs) (stmt_reads (statement a) ++ stmt_writes (statement a)) -> In s subs -> incl (expr_names s) (known ++ map index ls).

(** ** Declarations *)
Definition supported (t : list string) : Prop := In t [["double"]; ["float"]; ["double"; "_Complex"]; ["float"; "_Complex"]].
Fixpoint dimensions (t : ctype) : list (option cexpr) := match t with TArray d t' => d :: dimensions t' | _ => [] end.
Fixpoint element_type (t : ctype) : ctype := match t with TArray _ t' => element_type t' | _ => t end.
(** A dimension as written and as recorded have the same value whatever the constants are. *)
Definition same_dimension (d : option cexpr) (s : sym) : Prop :=
  exists x, d = Some x /\ (Forall plain (literals x) -> forall e, incl (names x) (map fst e) -> cvalue e x = Some (seval (environment e) s)).
(** One of the four types for all variables, and dimensions the program can read *)
Definition integer_text (t : text) : Prop := py_int t <> None.
Definition declarations_ok (ds : list decl) : Prop :=
  exists t, supported t /\ Forall (fun d => element_type (dtype d) = TBase t /\ Forall (fun x => exists y, x = Some y /\ arithmetic integer_text y) (dimensions (dtype d))) ds.
(** What is recorded for a declaration *)
Definition declares (d : decl) (v : string * variable) : Prop :=
  fst v = dname d /\ element_type (dtype d) = TBase (fst (snd v))
  /\ match snd (snd v) with None => dimensions (dtype d) = [] | Some syms => dimensions (dtype d) <> [] /\ Forall2 same_dimension (dimensions (dtype d)) syms end.
(** Heads of loops and assignments the program can read *)
Definition loop_ok (l : cloop) : Prop :=
  arithmetic integer_text (first l) /\ arithmetic integer_text (bound l) /\ match increment l with Some t => integer_text t | None => True end.
Inductive reference_ok : cexpr -> Prop :=
| ref_id n : reference_ok (CId n)
| ref_array a s : reference_ok a -> arithmetic integer_text s -> reference_ok (CArr a s).
Inductive operand_ok : cexpr -> Prop :=
| op_ref x : reference_ok x -> operand_ok x
| op_const t : operand_ok (CConst t)
| op_bin op l r : operand_ok l -> operand_ok r -> operand_ok (CBin op l r)
| op_un op x : In op ["-"; "--"; "++"; "p++"; "p--"] -> operand_ok x -> operand_ok (CUn op x).
Definition assignment_ok (a : cassign) : Prop := reference_ok (left_side a) /\ operand_ok (right_side a).
