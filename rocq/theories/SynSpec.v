(** Versions and syntax: independent of the code. *)
From Verif Require Import PyBase PyText PyInt.
Local Open Scope list_scope.

(** The version number with the given parts, for example 0.7.1 *)
Definition written_version (parts : list Z) : text := join 46%N (map show_int parts).
(** [parts] is not before [ref]: where all parts before are the same, the next part is there and not smaller. *)
Definition not_before (parts ref : list Z) : Prop :=
  forall k y, (forall j, (j < k)%nat -> nth_error parts j = nth_error ref j) -> nth_error ref k = Some y -> exists x, nth_error parts k = Some x /\ (y <= x)%Z.

(** Names of a syntax for the parser and for the markers *)
Definition same_name (for_parser for_marker : text) : Prop :=
  for_parser = codes "intel" /\ for_marker = codes "INTEL" \/ for_parser = codes "att" /\ for_marker = codes "ATT".
