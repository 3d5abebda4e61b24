(** Specification of layer conditions on numbers. Of the model, only distances ([dist]), their values
    ([eval]) and the record of results are used. *)
From Coq Require Import String.
From Verif Require Import PyBase LCModel.
Local Open Scope Z_scope.

(** Value of a distance; [None] is infinity. *)
Definition dist_value (rho : string -> Z) (d : dist) : option Z :=
  match d with Inf => None | Poly p => Some (eval rho p) end.
Definition value_le (a b : option Z) : Prop :=
  match a, b with _, None => True | None, Some _ => False | Some x, Some y => x <= y end.

(** [t] bytes of every access stream are kept in the cache; a stream whose reuse distance is smaller
    needs the distance only. *)
Definition needed (vs : list (option Z)) (t : Z) : Z :=
  zsum (map (fun v => match v with Some x => Z.min x t | None => t end) vs).
(** Number of accesses that are reused within [t] bytes *)
Definition reused (vs : list (option Z)) (t : Z) : Z :=
  Z.of_nat (length (filter (fun v => match v with Some x => x <=? t | None => false end) vs)).

(** [classified vs total size h]: a cache of [size] bytes gives [h] hits. *)
Inductive classified (vs : list (option Z)) (total size : Z) : Z -> Prop :=
| cl_full : total < size -> classified vs total size (Z.of_nat (length vs))
| cl_tail t : size <= total -> In (Some t) vs -> needed vs t <= size ->
    (forall t', In (Some t') vs -> needed vs t' <= size -> t' <= t) -> classified vs total size (reused vs t)
| cl_none : size <= total -> (forall t, In (Some t) vs -> size < needed vs t) -> classified vs total size 0.

(** sympy decides correctly. *)
Definition sound (decide : rel -> option bool) : Prop :=
  forall r b, decide r = Some b -> forall rho, (forall s, 0 < rho s) -> holds rho r = b.

(** The order by keys agrees with the order of the values. *)
Definition consistent (rho : string -> Z) (ds : list dist) : Prop :=
  forall a b ka kb, In a ds -> In b ds -> distance_key a = Ok ka -> distance_key b = Ok kb ->
  (key_leb ka kb = true <-> value_le (dist_value rho a) (dist_value rho b)).

(** A distance that does not become negative for large problems: a number that is not negative, or an
    expression whose highest power has a positive coefficient. *)
Definition grows (d : dist) : Prop :=
  match d with
  | Inf => True
  | Poly p => if is_integer p then 0 <= coeff p 0
              else exists e, 0 < coeff p e /\ forall e', (e < e')%nat -> coeff p e' = 0
  end.
