(** Which analyses options are to ask for *)
From Coq Require Export String Sorted Permutation.
From Verif Require Export PyBase.
Local Open Scope string_scope.
Local Open Scope Z_scope.
Local Open Scope list_scope.

(** Lists of numbers in lexicographic order *)
Inductive lex_le : list Z -> list Z -> Prop :=
| lex_nil b : lex_le [] b
| lex_lt x y a b : x < y -> lex_le (x :: a) (y :: b)
| lex_eq x a b : lex_le a b -> lex_le (x :: a) (x :: b).

Definition values_given (options : list (string * list Z)) (n : string) (v : Z) : Prop := exists vs, In (n, vs) options /\ In v vs.
(** The default values which count: of several defaults the largest *)
Definition default_given (options : list (string * list Z)) (vs : list Z) : Prop :=
  In (".", vs) options /\ forall vs', In (".", vs') options -> lex_le vs' vs.
Definition requested (options : list (string * list Z)) (n : string) (v : Z) : Prop :=
  values_given options n v \/ exists vs, default_given options vs /\ In v vs.

(** The constants of a kernel, in the order of their names, with a value for each *)
Definition assignment (required : list string) (f : string -> Z) (constants : list (string * Z)) : Prop :=
  Permutation (map fst constants) required /\ StronglySorted (fun a b => String.leb a b = true) (map fst constants) /\
  forall n v, In (n, v) constants -> v = f n.

(** The values given for one constant, with repetitions *)
Definition all_given (options : list (string * list Z)) (n : string) : list Z :=
  concat (map snd (filter (fun o => String.eqb (fst o) n) options)).
