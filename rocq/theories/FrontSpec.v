(** Specification of references, of the kernels layer conditions are made for, and of reuse distances. Of the models, the syntax, values of symbolic expressions
    ([seval], AstSpec; [eval], LCModel) and the number of an element ([access_to_sympy], see C09) are used. *)
From Coq Require Import String Permutation.
From Verif Require Import PyBase LoopModel AstModel AstSpec LCModel FrontModel.
Local Open Scope string_scope.
Local Open Scope list_scope.
Local Open Scope Z_scope.

Definition set (env : string -> Z) (x : string) (v : Z) (n : string) : Z := if String.eqb n x then v else env n.
(** Number of the element of an array with the given dimensions *)
Definition place (env : string -> Z) (dims idx : list sym) : Z := access_to_sympy (map (seval env) dims) (map (seval env) idx).
(** The expression is affine in the variable. *)
Definition affine_in (x : string) (s : sym) : Prop := forall env, exists a b, forall v, seval (set env x v) s = a + b * v.
Definition independent_of (x : string) (s : sym) : Prop := forall env v, seval (set env x v) s = seval env s.

(** Usual index expressions: a variable with an offset, or a number *)
Definition shape (s : sym) : option (option string * Z) :=
  match s with
  | SVar v => Some (Some v, 0) | SInt c => Some (None, c)
  | SAdd (SVar v) (SInt c) | SAdd (SInt c) (SVar v) => Some (Some v, c)
  | SSub (SVar v) (SInt c) => Some (Some v, - c)
  | _ => None
  end.
(** A reference to an array with dimensions given by names of constants, and usual index expressions of loop variables *)
Definition usual_reference (loops : list string) (sizes : list string) (idx : list sym) : Prop :=
  length idx = length sizes /\ (forall s, In s sizes -> ~ In s loops) /\
  forall s, In s idx -> exists v c, shape s = Some (v, c) /\ match v with Some n => In n loops | None => True end.
(** The variable of each index is that of the loop at the same place, counted from the innermost. *)
Definition ordered (loops : list string) (idx : list sym) : Prop :=
  forall p s v c, nth_error (rev idx) p = Some s -> shape s = Some (Some v, c) -> nth_error (rev loops) p = Some v.
(** All references of the kernel are usual ones. *)
Definition usual (k : front) : Prop :=
  NoDup (map fst (loops k)) /\
  forall n arefs, In (n, arefs) (sources k ++ destinations k) ->
    arefs = [None] \/
    exists sizes, lookup (variables k) n = Some (Some (map SVar sizes)) /\
      forall a, In a arefs -> exists idx, a = Some idx /\ idx <> [] /\ usual_reference (map fst (loops k)) sizes idx.
(** In each dimension all references of an array have the same variable. *)
Definition uniform (refs : list (list sym)) : Prop :=
  forall a b p s s' v v' c c', In a refs -> In b refs -> nth_error a p = Some s -> nth_error b p = Some s' ->
  shape s = Some (v, c) -> shape s' = Some (v', c') -> v = v'.

(** Differences of neighbours *)
Fixpoint gaps (l : list Z) : list Z := match l with a :: (b :: _) as l' => (a - b) :: gaps l' | _ => [] end.
(** sympy decides comparisons correctly, ... *)
Definition less_sound (less : poly -> poly -> option bool) : Prop :=
  forall p q b, less p q = Some b -> forall rho, (forall s, 0 < rho s) -> (eval rho p < eval rho q <-> b = true).
(** ... and it decides them whenever the difference is a number after expansion. *)
Definition less_numbers (less : poly -> poly -> option bool) : Prop :=
  forall p q z, same (psub p q) [([], z)] = true -> exists b, less p q = Some b.
(** A decision procedure with both properties, used in the examples *)
Definition numbers_only (p q : poly) : option bool := match normal (psub p q) with [] => Some false | [([], c)] => Some (c <? 0) | _ => None end.
(** References with subscripts to an array *)
Definition subscripts (l : list access) : list (list sym) := flat_map (fun a => match a with Some idx => [idx] | None => [] end) l.
Definition entries (l : list (string * list access)) (n : string) : list access := match lookup l n with Some r => r | None => [] end.
Definition array_references (k : front) (n : string) : list (list sym) := subscripts (entries (sources k) n ++ entries (destinations k) n).
(** The index of the loop is used in one of the references. *)
Definition uses (x : string) (refs : list (list sym)) : Prop := exists idx s c, In idx refs /\ In s idx /\ shape s = Some (Some x, c).
(** Offsets of a reference, and their order: the first dimension in which they differ decides. *)
Definition offsets (idx : list sym) : list Z := map (fun s => match shape s with Some (_, c) => c | None => 0 end) idx.
Fixpoint not_below (a b : list Z) : Prop := match a, b with x :: a', y :: b' => y < x \/ (x = y /\ not_below a' b') | _, _ => True end.
(** Number of references to arrays in which the index is used, and number of written ones *)
Inductive counted (k : front) (x : string) : list (string * option (list sym)) -> Z -> Z -> Prop :=
| co_nil : counted k x [] 0 0
| co_scalar n vars a b : counted k x vars a b -> counted k x ((n, None) :: vars) a b
| co_unused n dims vars a b : ~ uses x (array_references k n) -> counted k x vars a b -> counted k x ((n, Some dims) :: vars) a b
| co_used n dims vars a b : uses x (array_references k n) -> counted k x vars a b ->
    counted k x ((n, Some dims) :: vars) (Z.of_nat (length (array_references k n)) + a) (Z.of_nat (length (entries (destinations k) n)) + b).
