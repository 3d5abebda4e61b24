(** Model of the kernel-code analysis and index rewriting of [/repo/kerncraft/kernel.py].
    The C syntax trees of pycparser are modelled by the subset the code inspects. *)
From Coq Require Import String Ascii.
From Verif Require Import PyBase.
Local Open Scope string_scope.
Local Open Scope list_scope.
Local Open Scope Z_scope.

(** pycparser expressions.  [EConst (Some z)] is an integer literal, [EConst None] any other
    constant (e.g. a floating point literal); [EOther] stands for every other node type (function
    calls, casts, ...) (as inspected by kernel.py:954-1018 and 1099-1151). *)
Inductive expr :=
| EID (name : string)
| EConst (v : option Z)
| EBin (op : string) (left right : expr)
| EUn (op : string) (e : expr)
| EArr (name subscript : expr)
| EOther.

(** sympy integer expressions over positive integer symbols (as made by kernel.py:954-973). *)
Inductive sym :=
| SVar (n : string)
| SInt (z : Z)
| SMul (a b : sym)
| SAdd (a b : sym)
| SSub (a b : sym).

(** kernel.py:954-973, [conv_ast_to_sym].  The operator dictionary is consulted before the operands
    are visited; nodes without the attributes [op] or [left] raise AttributeError. *)
Fixpoint conv_ast_to_sym (e : expr) : res sym :=
  match e with
  | EID n => Ok (SVar n)
  | EConst (Some z) => Ok (SInt z)
  | EConst None => Err ValueError
  | EBin op l r =>
      if String.eqb op "*" then
        do a <- conv_ast_to_sym l; do b <- conv_ast_to_sym r; Ok (SMul a b)
      else if String.eqb op "+" then
        do a <- conv_ast_to_sym l; do b <- conv_ast_to_sym r; Ok (SAdd a b)
      else if String.eqb op "-" then
        do a <- conv_ast_to_sym l; do b <- conv_ast_to_sym r; Ok (SSub a b)
      else Err KeyError
  | EUn op _ =>
      if (String.eqb op "*" || String.eqb op "+" || String.eqb op "-")%bool
      then Err AttributeError else Err KeyError
  | EArr _ _ | EOther => Err AttributeError
  end.

(** kernel.py:984-1004, the recursive part of [_get_offsets]: indices innermost (last) first;
    the reversal at [dim == 0] is in [get_offsets]. *)
Fixpoint get_offsets_rev (e : expr) : res (list sym) :=
  match e with
  | EArr name subscript =>
      match name with
      | EArr _ _ | EID _ =>                                   (* assertion line 988 *)
          match subscript with
          | EID _ | EConst _ | EBin _ _ _ =>                  (* assertion line 990 *)
              do s <- conv_ast_to_sym subscript;
              match name with
              | EArr _ _ => do rest <- get_offsets_rev name; Ok (s :: rest)
              | _ => Ok [s]
              end
          | _ => Err AssertionError
          end
      | _ => Err AssertionError
      end
  | _ => Err AttributeError
  end.

(** kernel.py:975-1004, [_get_offsets(aref)] with [dim=0]: [None] for plain variables. *)
Definition get_offsets (e : expr) : res (option (list sym)) :=
  match e with
  | EID _ => Ok None
  | _ => do l <- get_offsets_rev e; Ok (Some (rev l))
  end.

(** kernel.py:1006-1018, [_get_basename].  Every other node as the array (call, cast, ...) makes
    [_p_assignment]/[_p_sources] fail, here or in [_get_offsets]; which exception is not modelled. *)
Fixpoint get_basename (e : expr) : res string :=
  match e with
  | EID n => Ok n
  | EArr name _ =>
      match name with
      | EArr _ _ => get_basename name
      | EID n => Ok n
      | _ => Err AssertionError
      end
  | _ => Err AttributeError
  end.

(** Access: [None] for a scalar, otherwise the index expressions, outermost dimension first (as made by kernel.py:975-1004). *)
Definition access := option (list sym).

(** The part of the [Kernel] object which [_p_assignment] and [_p_sources] update:
    dictionaries in insertion order (kernel.py:227-239). *)
Record kstate := mkstate {
  flops : list (string * Z);
  sources : list (string * list access);
  destinations : list (string * list access)
}.
Definition empty_state : kstate := mkstate [] [] [].

(** [d.get(k, 0)] and [d[k] = v] (as used in kernel.py:1110, 1146 and 1149) *)
Fixpoint dget (d : list (string * Z)) (k : string) : Z :=
  match d with
  | [] => 0
  | (k', v) :: d' => if String.eqb k k' then v else dget d' k
  end.
Fixpoint dset (d : list (string * Z)) (k : string) (v : Z) : list (string * Z) :=
  match d with
  | [] => [(k, v)]
  | (k', v') :: d' => if String.eqb k k' then (k, v) :: d' else (k', v') :: dset d' k v
  end.

(** Python's [str.strip('=')] on an assignment operator (kernel.py:1109). *)
Fixpoint lstrip_eq (s : string) : string :=
  match s with
  | String c s' => if Ascii.eqb c "="%char then lstrip_eq s' else s
  | EmptyString => EmptyString
  end.
Fixpoint rstrip_eq (s : string) : string :=
  match s with
  | String c s' =>
      match rstrip_eq s' with
      | EmptyString => if Ascii.eqb c "="%char then EmptyString else String c EmptyString
      | r => String c r
      end
  | EmptyString => EmptyString
  end.
Definition strip_eq (s : string) : string := rstrip_eq (lstrip_eq s).

(** [op[-1]], the last character as a string (kernel.py:1149). *)
Fixpoint last_char (s : string) : string :=
  match s with
  | EmptyString => EmptyString
  | String c EmptyString => String c EmptyString
  | String _ s' => last_char s'
  end.

Section Analysis.
  (** Equality of sympy tuples as used by Python sets. It is a parameter: sympy identifies
      expressions with equal canonical form, e.g. [i+1] and [1+i] (kernel.py:1115, 1121 and 1140). *)
  Variable access_eqb : access -> access -> bool.

  (** [s.add(a)] on a set (modelled by a list) (kernel.py:1115, 1121 and 1140). *)
  Definition set_add (s : list access) (a : access) : list access :=
    if existsb (access_eqb a) s then s else s ++ [a].

  (** [d.setdefault(k, set()); d[k].add(a)] (kernel.py:1114-1116, 1120-1122 and 1139-1140) *)
  Fixpoint acc_add (d : list (string * list access)) (k : string) (a : access) :=
    match d with
    | [] => [(k, [a])]
    | (k', s) :: d' =>
        if String.eqb k k' then (k', set_add s a) :: d' else (k', s) :: acc_add d' k a
    end.

  Definition add_flop (st : kstate) (op : string) (n : Z) : kstate :=
    mkstate (dset (flops st) op n) (sources st) (destinations st).
  Definition add_source (st : kstate) (k : string) (a : access) : kstate :=
    mkstate (flops st) (acc_add (sources st) k a) (destinations st).
  Definition add_dest (st : kstate) (k : string) (a : access) : kstate :=
    mkstate (flops st) (sources st) (acc_add (destinations st) k a).

  Definition allowed_unary (op : string) : bool :=
    (String.eqb op "-" || String.eqb op "--" || String.eqb op "++"
     || String.eqb op "p++" || String.eqb op "p--")%bool.

  (** kernel.py:1127-1151, [_p_sources]. *)
  Fixpoint p_sources (e : expr) (st : kstate) : res kstate :=
    match e with
    | EID _ | EArr _ _ =>
        do n <- get_basename e;
        do a <- get_offsets e;
        Ok (add_source st n a)
    | EConst _ => Ok st
    | EBin op l r =>
        do st1 <- p_sources l st;
        do st2 <- p_sources r st1;
        Ok (add_flop st2 op (dget (flops st2) op + 1))
    | EUn op e' =>
        if allowed_unary op then
          do st1 <- p_sources e' st;
          (* line 1149: reads the counter of op[-1] but writes the counter of op *)
          Ok (add_flop st1 op (dget (flops st1) (last_char op) + 1))
        else Err AssertionError
    | EOther => Err AssertionError
    end.

  (** An assignment statement [lvalue op rvalue]; [op] is "=", "+=", .. (kernel.py:1099-1125). *)
  Record assignment := mkassign { aop : string; lvalue : expr; rvalue : expr }.

  (** kernel.py:1099-1125, [_p_assignment]. *)
  Definition p_assignment (s : assignment) (st : kstate) : res kstate :=
    match lvalue s with
    | EArr _ _ | EID _ =>
        let write_and_read := negb (String.eqb (aop s) "=") in
        let st1 := if write_and_read
                   then add_flop st (strip_eq (aop s)) (dget (flops st) (strip_eq (aop s)) + 1)
                   else st in
        do n <- get_basename (lvalue s);
        do a <- get_offsets (lvalue s);
        let st2 := add_dest st1 n a in
        let st3 := if write_and_read then add_source st2 n a else st2 in
        p_sources (rvalue s) st3
    | _ => Err AssertionError
    end.

  (** kernel.py:1088-1097: the statements of the innermost loop body (pragmas dropped). *)
  Fixpoint p_assignments (l : list assignment) (st : kstate) : res kstate :=
    match l with
    | [] => Ok st
    | s :: l' => do st' <- p_assignment s st; p_assignments l' st'
    end.
End Analysis.

(** ** Rewriting to one dimension *)

(** kernel.py:126-130: the chain of subscripts, last (innermost) subscript first, and the base. *)
Fixpoint unchain (e : expr) : list expr * expr :=
  match e with
  | EArr name subscript => let (ds, b) := unchain name in (subscript :: ds, b)
  | _ => ([], e)
  end.

(** [functools.reduce(lambda l, r: c_ast.BinaryOp(op, l, r), l)] (kernel.py:114, 137, 141) *)
Definition reduce_bin (op : string) (l : list expr) : res expr :=
  match l with
  | [] => Err TypeError
  | x :: l' => Ok (fold_left (EBin op) l' x)
  end.

(** kernel.py:132-139: the list of summands; [dims] are the declared dimensions
    ([dimension_dict[name]], outermost first) and [dims[-1:-i-1:-1]] is [firstn i (rev dims)]. *)
Fixpoint summands (dims : list expr) (i : nat) (ds : list expr) : res (list expr) :=
  match ds with
  | [] => Ok []
  | d :: ds' =>
      do t <- match i with
              | O => Ok d
              | S _ => do f <- reduce_bin "*" (firstn i (rev dims)); Ok (EBin "*" d f)
              end;
      do ts <- summands dims (S i) ds';
      Ok (t :: ts)
  end.

(** kernel.py:120-143, [transform_multidim_to_1d_ref]; [dict name] looks up the dimensions
    ([None] = missing key).  Line 139 is evaluated for [i > 0] only. *)
Definition transform_ref (dict : string -> option (list expr)) (aref : expr) : res expr :=
  let (ds, base) := unchain aref in
  match base with
  | EID n =>
      do ts <- match dict n with
               | Some dims => summands dims 0 ds
               | None => match ds with [d] => Ok [d] | _ => Err KeyError end
               end;
      do s <- reduce_bin "+" ts;
      Ok (EArr (EID n) s)
  | _ => Err AttributeError
  end.

(** kernel.py:98-117, [transform_multidim_to_1d_decl]: the new dimension of an array with the given
    dimension expressions (no change for scalars). *)
Definition transform_decl (dims : list expr) : option expr :=
  match dims with
  | [] => None
  | d :: ds => Some (fold_left (EBin "*") ds d)
  end.
