(** Specification for kernel statements, independent of the analysis. *)
From Coq Require Import String Ascii.
From Verif Require Import PyBase AstModel.
(** Of the model only the syntax ([expr], [assignment], [sym]) is used here. *)
Local Open Scope string_scope.
Local Open Scope list_scope.
Local Open Scope Z_scope.

(** C semantics of integer index expressions (mathematical integers: overflow is excluded in C). *)
Fixpoint ceval (env : string -> Z) (e : expr) : option Z :=
  match e with
  | EID n => Some (env n)
  | EConst v => v
  | EBin op l r =>
      match ceval env l, ceval env r with
      | Some a, Some b =>
          if String.eqb op "*" then Some (a * b)
          else if String.eqb op "+" then Some (a + b)
          else if String.eqb op "-" then Some (a - b)
          else None
      | _, _ => None
      end
  | _ => None
  end.

(** Value of a sympy expression. *)
Fixpoint seval (env : string -> Z) (s : sym) : Z :=
  match s with
  | SVar n => env n
  | SInt z => z
  | SMul a b => seval env a * seval env b
  | SAdd a b => seval env a + seval env b
  | SSub a b => seval env a - seval env b
  end.

(** An index expression and its symbolic form have the same value for all loop indices/constants. *)
Definition same_index (e : expr) (s : sym) : Prop := forall env, ceval env e = Some (seval env s).

(** Variable and subscripts (in source order) of a reference [x] or [x[s0][s1]...]. *)
Fixpoint reference (e : expr) : option (string * list expr) :=
  match e with
  | EID n => Some (n, [])
  | EArr a s => match reference a with Some (n, l) => Some (n, (l ++ [s])%list) | None => None end
  | _ => None
  end.

(** References read by an expression; subscripts only contain index variables and constants and are
    no data accesses. *)
Fixpoint reads (e : expr) : list (string * list expr) :=
  match e with
  | EID _ | EArr _ _ => match reference e with Some r => [r] | None => [] end
  | EBin _ l r => (reads l ++ reads r)%list
  | EUn _ e' => reads e'
  | EConst _ | EOther => []
  end.

Definition opt_list {A} (o : option A) : list A := match o with Some a => [a] | None => [] end.

(** References read and written by a statement; [x op= e] also reads [x]. *)
Definition stmt_reads (s : assignment) : list (string * list expr) :=
  ((if String.eqb (aop s) "=" then [] else opt_list (reference (lvalue s))) ++ reads (rvalue s))%list.
Definition stmt_writes (s : assignment) : list (string * list expr) :=
  opt_list (reference (lvalue s)).

(** References written by increment/decrement operators inside an expression. *)
Fixpoint side_writes (e : expr) : list (string * list expr) :=
  match e with
  | EBin _ l r => (side_writes l ++ side_writes r)%list
  | EUn op e' =>
      ((if String.eqb op "-" then [] else opt_list (reference e')) ++ side_writes e')%list
  | _ => []
  end.

(** A listed access describes a reference. *)
Definition describes (a : access) (subs : list expr) : Prop :=
  match a with
  | None => subs = []
  | Some idx => subs <> [] /\ Forall2 same_index subs idx
  end.

(** The access [a] is listed for variable [n]. *)
Definition listed (d : list (string * list access)) (n : string) (a : access) : Prop :=
  exists s, In (n, s) d /\ In a s.

(** Operators of an expression outside of subscripts, and of a statement. *)
Fixpoint operators (e : expr) : list string :=
  match e with
  | EBin op l r => op :: (operators l ++ operators r)%list
  | EUn op e' => op :: operators e'
  | _ => []
  end.
Definition compound_operator (op : string) : list string :=
  if String.eqb op "=" then []
  else if String.eqb op "+=" then ["+"]
  else if String.eqb op "-=" then ["-"]
  else if String.eqb op "*=" then ["*"]
  else if String.eqb op "/=" then ["/"]
  else ["?"].
Definition stmt_operators (s : assignment) : list string :=
  (compound_operator (aop s) ++ operators (rvalue s))%list.
Definition arithmetic_assignment (op : string) : Prop :=
  In op ["="; "+="; "-="; "*="; "/="].

Definition occurrences (op : string) (l : list string) : Z :=
  Z.of_nat (count_occ string_dec l op).

(** No increment or decrement operator. *)
Definition no_incdec (l : list string) : Prop :=
  forall op, In op l -> ~ In op ["++"; "--"; "p++"; "p--"].
