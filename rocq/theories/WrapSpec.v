(** Specification for the text that is parsed: numbers of lines, and texts with matching braces. *)
From Coq Require Import Ascii String.
From Verif Require Import PyBase CleanModel.
Local Open Scope char_scope.
Local Open Scope Z_scope.

(** The number in a line "#line n" (as the preprocessor of C understands it): the next line has this number. *)
Fixpoint strip_prefix (p l : text) : option text :=
  match p, l with
  | [], _ => Some l
  | c :: p', d :: l' => if Ascii.eqb c d then strip_prefix p' l' else None
  | _, [] => None
  end.
Fixpoint digits (acc : Z) (l : text) : Z :=
  match l with
  | c :: l' => let d := Z.of_nat (nat_of_ascii c) - 48 in if (0 <=? d) && (d <=? 9) then digits (10 * acc + d) l' else acc
  | [] => acc
  end.
Definition directive (l : text) : option Z := option_map (digits 0) (strip_prefix (list_ascii_of_string "#line ") l).
(** Lines with the numbers a parser gives in its messages *)
Fixpoint reported (n : Z) (l : list text) : list (Z * text) :=
  match l with [] => [] | x :: l' => match directive x with Some m => reported m l' | None => (n, x) :: reported (n + 1) l' end end.
(** Lines numbered from [n] *)
Fixpoint count_from (n : Z) (l : list text) : list (Z * text) := match l with [] => [] | x :: l' => (n, x) :: count_from (n + 1) l' end.

(** Braces match *)
Inductive balanced : text -> Prop :=
| bal_nil : balanced []
| bal_char c t : c <> "{" -> c <> "}" -> balanced t -> balanced (c :: t)
| bal_block a t : balanced a -> balanced t -> balanced ("{" :: a ++ "}" :: t).
