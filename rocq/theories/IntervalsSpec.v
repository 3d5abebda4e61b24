(** Specification of interval sets, independent of the model. *)
From Coq Require Import Permutation.
From Verif Require Import PyBase.

(** [x] lies in one of the half-open ranges. *)
Definition covered (rs : list (Z * Z)) (x : Z) : Prop :=
  exists lo hi, In (lo, hi) rs /\ lo <= x < hi.

(** Exactly [n] integers satisfy [P]. *)
Definition counts (P : Z -> Prop) (n : Z) : Prop :=
  exists l, NoDup l /\ (forall x, In x l <-> P x) /\ n = Z.of_nat (length l).

(** Two ranges overlap or are adjacent. *)
Definition touch (a b : Z * Z) : Prop := fst a <= snd b /\ fst b <= snd a.

(** The non-empty ranges of a list. *)
Definition nonempty_ranges (rs : list (Z * Z)) : list (Z * Z) :=
  filter (fun d => fst d <? snd d) rs.

(** No range (among the non-empty ones) touches two others. *)
Definition at_most_pairs_touch (rs : list (Z * Z)) : Prop :=
  forall a b c rest,
    Permutation (nonempty_ranges rs) (a :: b :: c :: rest) -> ~ (touch a b /\ touch b c).

(** No two different entries of the list (among the non-empty ones) touch. *)
Definition none_touch (rs : list (Z * Z)) : Prop :=
  forall a b rest, Permutation (nonempty_ranges rs) (a :: b :: rest) -> ~ touch a b.
