(** Model of the layer condition analysis, [/repo/kerncraft/cacheprediction.py]: sort key of symbolic
    distances 38-88, options of a cache level 417-476, evaluation 285-291 and results 480-503.
    Simplifications: sympy expressions are expanded polynomials with integer coefficients in the size
    constants; sympy's decision whether a relation holds for all values of the constants is the
    parameter [decide]; the iteration order of the set of distances is the parameter [tails];
    [canonical_relational] 184-213 replaces a relation by an equivalent one and is left out. *)
From Coq Require Import String.
From Verif Require Import PyBase.
Local Open Scope Z_scope.

(** A monomial is a list of symbols and a coefficient (as in cacheprediction.py:38-88 and 403-476). *)
Definition poly := list (list string * Z).
Definition monomial (rho : string -> Z) (m : list string * Z) : Z := snd m * zprod (map rho (fst m)).
Definition eval (rho : string -> Z) (p : poly) : Z := zsum (map (monomial rho) p).
Definition scale (k : Z) (p : poly) : poly := map (fun m => (fst m, k * snd m)) p.
(** Number as polynomial (as in cacheprediction.py:403-476) *)
Definition const (z : Z) : poly := [([], z)].

(** A distance: an expression or infinity (cacheprediction.py:403-476). *)
Inductive dist := Inf | Poly (p : poly).

(** ** Sort key (38-88) *)
Definition is_integer (p : poly) : bool := forallb (fun m => match fst m with [] => true | _ => false end) p.
(** cacheprediction.py:55-62: all symbols are replaced by one, equal powers are collected. Coefficient of the
    given power and largest power that occurs. *)
Definition coeff (p : poly) (e : nat) : Z :=
  zsum (map snd (filter (fun m => Nat.eqb (length (fst m)) e) p)).
Definition max_power (p : poly) : nat := fold_right (fun m n => Nat.max (length (fst m)) n) O p.
(** [e, e-1, ..., 0] (cacheprediction.py:79-86) *)
Fixpoint down (e : nat) : list nat := match e with O => [O] | S e' => e :: down e' end.
(** cacheprediction.py:64-77: exponents and coefficients of the terms, decreasing *)
Definition terms (p : poly) : list (nat * Z) :=
  filter (fun t => negb (snd t =? 0)) (map (fun e => (e, coeff p e)) (down (max_power p))).
(** cacheprediction.py:79-86: missing powers get coefficient 0. *)
Fixpoint fill (e : nat) (l : list (nat * Z)) : list (nat * Z) :=
  let '(x, rest) := match l with
                    | t :: l' => if Nat.eqb (fst t) e then (t, l') else ((e, 0), l)
                    | [] => ((e, 0), l)
                    end in
  match e with O => x :: rest | S e' => x :: fill e' rest end.

Inductive key := KInf | KFin (l : list (nat * Z)).
Definition distance_key (d : dist) : res key :=
  match d with
  | Inf => Ok KInf                                                        (* 51-52 *)
  | Poly p =>
      if is_integer p then Ok (KFin [(O, Z.abs (coeff p 0))])             (* 47-48 *)
      else match terms p with
           | (S e, c) :: l => Ok (KFin (fill (S e) ((S e, c) :: l)))
           | _ => Err AssertionError                                      (* 67: symbols cancel *)
           end
  end.

(** Python's order of tuples (as used for cacheprediction.py:38-88) *)
Definition pair_ltb (a b : nat * Z) : bool := (Nat.ltb (fst a) (fst b) || (Nat.eqb (fst a) (fst b) && (snd a <? snd b)))%bool.
Definition pair_eqb (a b : nat * Z) : bool := (Nat.eqb (fst a) (fst b) && (snd a =? snd b))%bool.
Fixpoint list_leb (a b : list (nat * Z)) : bool :=
  match a, b with
  | [], _ => true
  | _, [] => false
  | x :: a', y :: b' => if pair_eqb x y then list_leb a' b' else pair_ltb x y
  end.
Definition key_leb (a b : key) : bool :=
  match a, b with
  | KFin x, KFin y => list_leb x y
  | _, KInf => true
  | KInf, KFin _ => false
  end.

(** ** Options of a cache level (417-476) *)
Inductive rel := Rel (strict : bool) (lhs rhs : poly).      (* lhs < rhs or lhs <= rhs *)
(** Decision of sympy, as used in cacheprediction.py:417-476 *)
Definition holds (rho : string -> Z) (r : rel) : bool :=
  match r with Rel s l r => if s : bool then eval rho l <? eval rho r else eval rho l <=? eval rho r end.
(** A condition: decided, or to be evaluated later (cacheprediction.py:417-476) *)
Inductive cond := Decided (b : bool) | Open (r : rel).
Definition relational (decide : rel -> option bool) (r : rel) : cond :=
  match decide r with Some b => Decided b | None => Open r end.
Definition is_true (c : cond) : bool := match c with Decided b => b | Open _ => false end.

Record choice := mkChoice { condition : cond; hits : Z; misses : Z; evicts : Z; tail : dist }.

(** Distances in bytes with their keys (cacheprediction.py:403-445) *)
Definition keyed := list (key * dist).
Definition count (f : key -> bool) (l : keyed) : Z := Z.of_nat (length (filter (fun x => f (fst x)) l)).
(** cacheprediction.py:437-445; the sum of polynomials is their concatenation. *)
Definition body (d : dist) : poly := match d with Poly p => p | Inf => [] end.
Definition requirement (l : keyed) (k : key) (t : poly) : poly :=
  flat_map (fun x => body (snd x)) (filter (fun x => key_leb (fst x) k) l)
  ++ scale (count (fun k' => negb (key_leb k' k)) l) t.

Section Level.
  Variables (decide : rel -> option bool) (l : keyed) (destinations : Z) (size : Z).

  (** cacheprediction.py:431-465, tails in decreasing order. *)
  Fixpoint tail_choices (tails : keyed) : list choice :=
    match tails with
    | [] => []
    | (_, Inf) :: rest => tail_choices rest
    | (k, Poly t) :: rest =>
        let c := mkChoice (relational decide (Rel false (requirement l k t) (const size)))
                          (count (fun k' => key_leb k' k) l) (count (fun k' => negb (key_leb k' k)) l)
                          destinations (Poly t) in
        if is_true (condition c) then [c] else c :: tail_choices rest
    end.

  (** cacheprediction.py:417-476 *)
  Definition level_choices (tails : keyed) (total : poly) : list choice :=
    let full := mkChoice (relational decide (Rel true total (const size))) (Z.of_nat (length l)) 0 0 Inf in
    let opts := full :: tail_choices tails in
    if is_true (condition (last opts full)) then opts
    else opts ++ [mkChoice (Decided true) 0 (Z.of_nat (length l)) destinations (Poly [])].
End Level.

(** cacheprediction.py:403-476 for one cache level; [distances] are in elements, [tails] is the set of distances in
    bytes in iteration order, [total] the sum of the sizes of all arrays in bytes. *)
Definition scale_dist (es : Z) (d : dist) : dist := match d with Poly p => Poly (scale es p) | Inf => Inf end.
Definition with_key (d : dist) : res (key * dist) := do k <- distance_key d; Ok (k, d).
Definition by_key_reverse (a b : key * dist) : bool := key_leb (fst b) (fst a).
Definition build_level (decide : rel -> option bool) (distances : list dist) (element_size destinations : Z)
    (tails : list dist) (total : poly) (size : Z) : res (list choice) :=
  do l <- mapM with_key (map (scale_dist element_size) distances);
  do ts <- mapM with_key tails;
  Ok (level_choices decide l destinations size (sort_with by_key_reverse ts) total).

(** cacheprediction.py:285-291 for one level: the first choice whose condition is true; a level without one stays
    a list, and every later access fails. *)
Definition cond_holds (rho : string -> Z) (c : cond) : bool :=
  match c with Decided b => b | Open r => holds rho r end.
Definition desymbolize (rho : string -> Z) (cs : list choice) : res choice :=
  match find (fun c => cond_holds rho (condition c)) cs with Some c => Ok c | None => Err TypeError end.

(** cacheprediction.py:480-503: results for all levels, memory last; [None] is nan. *)
Definition get_loads (cs : list choice) : list (option Z) := None :: map (fun c => Some (misses c)) cs.
Definition get_hits (cs : list choice) : res (list Z) :=
  match rev cs with
  | [] => Err IndexError
  | c :: _ => Ok (map hits cs ++ [misses c])
  end.
Definition get_misses (cs : list choice) : list Z := map misses cs ++ [0].
Definition get_stores (cs : list choice) : list (option Z) := None :: map (fun c => Some (evicts c)) cs.
Definition get_evicts (cs : list choice) : list Z := map evicts cs ++ [0].
