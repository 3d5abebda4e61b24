(** First part of the layer condition analysis, from array references to reuse distances: cacheprediction.py:125-181 [split_sympy_access_in_dim_offset], 293-401
    [build_symbolic_LCs], kernel.py:358-375 [access_to_sympy] and 430-450 [compile_sympy_accesses].
    Simplification: sympy expressions are kept as polynomials, and they are equal if the expanded polynomials are. Expressions which sympy does not expand by itself,
    like [(i+1)*(j+2)], may differ for sympy where they are equal here: then the code raises ValueError, and the model goes on. *)
From Coq Require Import String.
From Verif Require Import PyBase AstModel LCModel.
Local Open Scope string_scope.
Local Open Scope list_scope.
Local Open Scope Z_scope.

(** ** Polynomials (as sympy's expressions in cacheprediction.py:125-401) *)
Fixpoint names_eqb (a b : list string) : bool :=
  match a, b with [], [] => true | x :: a', y :: b' => (String.eqb x y && names_eqb a' b')%bool | _, _ => false end.
Definition sort_names : list string -> list string := sort_with String.leb.
Fixpoint add_term (m : list string) (c : Z) (p : poly) : poly :=
  match p with [] => [(m, c)] | (m', c') :: p' => if names_eqb m m' then (m', c + c') :: p' else (m', c') :: add_term m c p' end.
(** Terms of the expanded expression ([expand().as_ordered_terms()], in another order; the number 0 has no terms here and one in sympy, which has no effect below) (cacheprediction.py:160-162, 314) *)
Definition collect (p : poly) : poly := fold_right (fun t q => add_term (sort_names (fst t)) (snd t) q) [] p.
Definition normal (p : poly) : poly := filter (fun t => negb (snd t =? 0)) (collect p).
Definition pmul (p q : poly) : poly := flat_map (fun a => map (fun b => (fst a ++ fst b, snd a * snd b)) q) p.
Definition psub (p q : poly) : poly := p ++ scale (-1) q.
Definition same (p q : poly) : bool := match normal (psub p q) with [] => true | _ => false end.
Fixpoint expand (s : sym) : poly :=
  match s with
  | SVar n => [([n], 1)] | SInt z => [([], z)]
  | SMul a b => pmul (expand a) (expand b) | SAdd a b => expand a ++ expand b | SSub a b => psub (expand a) (expand b)
  end.

(** kernel.py:371 *)
Definition product (dims : list sym) : poly := fold_right (fun d p => pmul (expand d) p) [([], 1)] dims.
(** kernel.py:358-375 *)
Fixpoint linear (dims access : list sym) : poly :=
  match access with [] => [] | a :: access' => pmul (product (tl dims)) (expand a) ++ linear (tl dims) access' end.

(** ** Splitting of accesses: cacheprediction.py:125-181 *)
(** Factors of a term as sympy sees them: powers of symbols, and the coefficient, without its sign, which counts on its own ([args_cnc]) (cacheprediction.py:166-173) *)
Inductive arg := Number (z : Z) | Power (s : string) (n : nat).
Definition arg_eqb (a b : arg) : bool :=
  match a, b with Number x, Number y => x =? y | Power s n, Power s' n' => (String.eqb s s' && Nat.eqb n n')%bool | _, _ => false end.
Definition occurs (s : string) (m : list string) : nat := length (filter (String.eqb s) m).
Definition number_args (c : Z) : list Z := if c =? 1 then [] else if c =? -1 then [-1] else if c <? 0 then [-1; - c] else [c].
Definition args (t : list string * Z) : list arg :=
  map Number (number_args (snd t)) ++ map (fun s => Power s (occurs s (fst t))) (nodup string_dec (fst t)).
(** [term.coeff(factor)] for terms, [None] is 0: sympy/core/expr.py. *)
Definition coeff_of (t f : list string * Z) : option (list string * Z) :=
  if snd f =? 0 then None
  else if (names_eqb (fst t) (fst f) && (snd t =? snd f))%bool then Some ([], 1)
  else if (names_eqb (fst f) [] && (snd f =? 1))%bool then (if snd t =? 1 then Some t else None)
  else if forallb (fun a => existsb (arg_eqb a) (args t)) (args f)
  then Some (filter (fun s => negb (existsb (String.eqb s) (fst f))) (fst t), zprod (filter (fun z => negb (existsb (Z.eqb z) (number_args (snd f)))) (number_args (snd t))))
  else None.
(** cacheprediction.py:165-169: the coefficient of integers is found for the factor 1. Expressions which are no single term do not divide any term. *)
Definition term_coeff (t : list string * Z) (factor : poly) : option (list string * Z) :=
  match normal factor with
  | [f] => if (names_eqb (fst t) [] && names_eqb (fst f) [] && (snd f =? 1))%bool then Some t else coeff_of t f
  | _ => None
  end.
(** cacheprediction.py:162-172 *)
Fixpoint assign (t : list string * Z) (factors : list poly) (coefficients : list poly) : list poly :=
  match factors, coefficients with
  | f :: factors', c :: coefficients' => match term_coeff t f with Some x => (c ++ [x]) :: coefficients' | None => c :: assign t factors' coefficients' end
  | _, _ => coefficients
  end.
Fixpoint reassemble (coefficients factors : list poly) : poly :=
  match coefficients, factors with c :: coefficients', f :: factors' => pmul c f ++ reassemble coefficients' factors' | _, _ => [] end.
Definition split_access (expr : poly) (factors : list poly) : res (list poly) :=
  let coefficients := fold_left (fun cs t => assign t factors cs) (normal expr) (map (fun _ => []) factors) in
  if same expr (reassemble coefficients factors) then Ok coefficients else Err ValueError.

(** ** Conditions on kernels: cacheprediction.py:294-356 *)
(** Loops from outer to inner with increment; arrays (scalars without dimensions), sets of accesses (cacheprediction.py:296, 305 and 365-369). *)
Record front := mkFront { loops : list (string * Z); variables : list (string * option (list sym));
                          sources : list (string * list access); destinations : list (string * list access) }.
Definition lookup {A} (l : list (string * A)) (n : string) : option A := option_map snd (find (fun x => String.eqb n (fst x)) l).
(** kernel.py:358-375 with its errors *)
Definition access_expr (k : front) (n : string) (a : access) : res poly :=
  match lookup (variables k) n with
  | None => Err ValueError
  | Some dims =>
      match a with
      | None => Err TypeError
      | Some [] => Ok []
      | Some idx => match dims with None => Err TypeError | Some d => Ok (linear d idx) end
      end
  end.
(** cacheprediction.py:313-341: a term *)
Definition check_term (loops : list (string * Z)) (t : list string * Z) : res unit :=
  match nodup string_dec (filter (fun s => existsb (fun l => String.eqb s (fst l)) loops) (fst t)) with
  | [] => Ok tt
  | [i] =>
      let stride := (length (filter (fun s => negb (String.eqb s i)) (fst t)) + (if Z.eqb (snd t) 1 then 0 else 1))%nat in
      match nth_error (rev loops) stride with
      | Some l => if String.eqb (fst l) i then Ok tt else Err ValueError
      | None => Err ValueError
      end
  | _ => Err ValueError
  end.
Fixpoint all_ok {A} (f : A -> res unit) (l : list A) : res unit := match l with [] => Ok tt | x :: l' => do _ <- f x; all_ok f l' end.
(** cacheprediction.py:304-341 *)
Definition check_array (k : front) (v : string * list access) : res unit :=
  match snd v with
  | [] | None :: _ => Ok tt
  | arefs => do es <- mapM (access_expr k (fst v)) arefs; all_ok (fun e => all_ok (check_term (loops k)) (normal e)) es
  end.
(** cacheprediction.py:343-356: [expr.subs(inner_index, v)] *)
Definition subst (x : string) (v : Z) (p : poly) : poly :=
  map (fun t => (filter (fun s => negb (String.eqb x s)) (fst t), snd t * v ^ Z.of_nat (occurs x (fst t)))) p.
Definition check_index (inner : string) (increment : Z) (s : sym) : res unit :=
  let diff := psub (subst inner (1 + increment) (expand s)) (subst inner 1 (expand s)) in
  if (same diff [] || same diff [([], 1)])%bool then Ok tt else Err ValueError.
Definition check_reference (inner : string) (increment : Z) (a : access) : res unit :=
  match a with None => Ok tt | Some idx => all_ok (check_index inner increment) idx end.
Definition checks (k : front) : res unit :=
  if existsb (fun l => negb (snd l =? 1)) (loops k) then Err ValueError else
  do _ <- all_ok (check_array k) (sources k ++ destinations k);
  match rev (loops k) with
  | [] => Err IndexError
  | (inner, increment) :: _ =>
      all_ok (check_reference inner increment) (flat_map snd (sources k) ++ flat_map snd (destinations k))
  end.

(** ** Distances: 358-401 *)
Section Distances.
  (** sympy's [a < b]; [None] if it cannot be decided (cacheprediction.py:393-394) *)
  Variable less : poly -> poly -> option bool.
  (** Comparison of tuples (cacheprediction.py:393-394) *)
  Fixpoint tuple_less (a b : list poly) : res bool :=
    match a, b with
    | x :: a', y :: b' => if same x y then tuple_less a' b' else match less x y with Some r => Ok r | None => Err TypeError end
    | [], _ :: _ => Ok true
    | _, _ => Ok false
    end.
  (** [sort(reverse=True)]. Simplification: which pairs are compared depends on Python's algorithm, and so does which pairs have to be comparable (cacheprediction.py:393-394). *)
  Fixpoint insert_access (x : list poly) (l : list (list poly)) : res (list (list poly)) :=
    match l with
    | [] => Ok [x]
    | y :: l' => do b <- tuple_less x y; if b : bool then do r <- insert_access x l'; Ok (y :: r) else Ok (x :: l)
    end.
  Fixpoint sort_accesses (l : list (list poly)) : res (list (list poly)) :=
    match l with [] => Ok [] | x :: l' => do r <- sort_accesses l'; insert_access x r end.
  Fixpoint differences (l : list poly) : list dist :=
    match l with a :: (b :: _) as l' => Poly (normal (psub a b)) :: differences l' | _ => [] end.
  Fixpoint dimension_factors (dims : list sym) : list poly := match dims with [] => [] | _ :: dims' => product dims' :: dimension_factors dims' end.
  Definition has_inner (inner : string) (p : poly) : bool := existsb (fun t => match coeff_of t ([inner], 1) with Some _ => true | None => false end) (normal p).
  (** kernel.py:430-450 for one variable; accesses without subscripts are left out. *)
  Definition references (k : front) (n : string) : list access :=
    filter (fun a => match a with None => false | Some _ => true end)
           (match lookup (sources k) n with Some l => l | None => [] end ++ match lookup (destinations k) n with Some l => l | None => [] end).
  (** Distances and number of destinations of one array (cacheprediction.py:365-401) *)
  Definition array_distances (k : front) (inner : string) (n : string) (dims : list sym) : res (list dist * Z) :=
    do exprs <- mapM (access_expr k n) (references k n);
    do os <- mapM (fun e => split_access e (dimension_factors dims)) exprs;
    if negb (existsb (has_inner inner) (concat os)) then Ok ([], 0) else
    let ds := match lookup (destinations k) n with Some l => l | None => [] end in
    if existsb (fun a => match a with None => true | Some _ => false end) ds then Err TypeError else
    do sorted <- sort_accesses os;
    Ok (differences (map (fun o => reassemble o (dimension_factors dims)) sorted) ++ [Inf], Z.of_nat (length ds)).
  Fixpoint all_distances (k : front) (inner : string) (vars : list (string * option (list sym))) : res (list dist * Z) :=
    match vars with
    | [] => Ok ([], 0)
    | (_, None) :: vars' => all_distances k inner vars'
    | (n, Some dims) :: vars' => do a <- array_distances k inner n dims; do b <- all_distances k inner vars'; Ok (fst a ++ fst b, snd a + snd b)
    end.
  (** cacheprediction.py:294-401: distances, and the number of written references *)
  Definition reuse_distances (k : front) : res (list dist * Z) :=
    do _ <- checks k;
    match rev (loops k) with
    | [] => Err IndexError
    | (inner, _) :: _ => all_distances k inner (sort_with (fun a b => String.leb (fst a) (fst b)) (variables k))
    end.
End Distances.
