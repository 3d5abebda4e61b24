(** Model of [/repo/kerncraft/prefixedunit.py]. *)
From Coq Require Import String Ascii Decimal DecimalString.
From Verif Require Import PyBase PyNum.
Local Open Scope string_scope.
Local Open Scope Z_scope.

(** prefixedunit.py:8-9, [PREFIXES] in insertion order. *)
Definition PREFIXES : list (string * Z) :=
  [("k", 10^3); ("M", 10^6); ("G", 10^9); ("T", 10^13); ("P", 10^16); ("E", 10^19);
   ("Z", 10^21); ("Y", 10^24); ("", 1)].

Fixpoint find_prefix (l : list (string * Z)) (k : string) : option Z :=
  match l with
  | [] => None
  | (k', v) :: l' => if String.eqb k k' then Some v else find_prefix l' k
  end.
Definition factor (k : string) : option Z := find_prefix PREFIXES k.

Record quantity := mkq { value : num; prefix : string; unit : string }.

(** prefixedunit.py:43-47: constructor with three arguments. *)
Definition make3 (v : num) (p u : string) : res quantity :=
  match factor p with Some _ => Ok (mkq v p u) | None => Err AssertionError end.

Definition is_parse_prefix (c : ascii) : bool :=
  (Ascii.eqb c "k" || Ascii.eqb c "M" || Ascii.eqb c "G" || Ascii.eqb c "T" || Ascii.eqb c "P")%char%bool.

Definition newline : ascii := "010"%char.
Fixpoint has_newline (s : string) : bool :=
  match s with
  | EmptyString => false
  | String c s' => (Ascii.eqb c newline || has_newline s')%bool
  end.
(** [.*$]: a text without newline, possibly followed by one final newline (prefixedunit.py:25-47). *)
Fixpoint drop_final_newline (s : string) : string :=
  match s with
  | EmptyString => EmptyString
  | String c EmptyString => if Ascii.eqb c newline then EmptyString else s
  | String c s' => String c (drop_final_newline s')
  end.
Definition dot_star_end (s : string) : option string :=
  let s' := drop_final_newline s in if has_newline s' then None else Some s'.

(** The end of the regular expression of prefixedunit.py:29: optional prefix character, then [.*] up
    to the end. *)
Definition split_prefix_star (s : string) : option (string * string) :=
  match s with
  | String c s' =>
      if is_parse_prefix c
      then match dot_star_end s' with Some u => Some (String c EmptyString, u) | None => None end
      else match dot_star_end s with Some u => Some ("", u) | None => None end
  | EmptyString => Some ("", "")
  end.

(** [^(?P<prefix>[kMGTP])?(?P<unit>.+)$] (prefixedunit.py:38): at least one unit character, so a
    text of only one prefix character is a unit. *)
Definition split_prefix_plus (s : string) : option (string * string) :=
  match dot_star_end s with
  | None => None
  | Some EmptyString => None
  | Some (String c EmptyString) => Some ("", String c EmptyString)
  | Some (String c u) => if is_parse_prefix c then Some (String c EmptyString, u)
                         else Some ("", String c u)
  end.

(** prefixedunit.py:37-47: constructor with two arguments. *)
Definition make2 (v : num) (u : string) : res quantity :=
  match split_prefix_plus u with
  | Some (p, u') => make3 v p u'
  | None => Err AssertionError
  end.

(** prefixedunit.py:34-35: constructor with one number. *)
Definition make1 (v : num) : res quantity := make3 v "" "".

(** ** Parsing (prefixedunit.py:26-33) *)
Definition digit (c : ascii) : option Z :=
  let n := Z.of_nat (nat_of_ascii c) in
  if (48 <=? n) && (n <=? 57) then Some (n - 48) else None.

(** Greedy [[0-9]*]: value with accumulator, number of digits and rest (prefixedunit.py:25-47). *)
Fixpoint read_digits (acc : Z) (s : string) : Z * nat * string :=
  match s with
  | String c s' =>
      match digit c with
      | Some d => let '(v, n, r) := read_digits (10 * acc + d) s' in (v, S n, r)
      | None => (acc, O, s)
      end
  | EmptyString => (acc, O, s)
  end.

(** [[0-9]+(\.[0-9]+)?|inf] followed by one space; the number part has no other match before a space (prefixedunit.py:25-47). *)
Definition read_number (s : string) : option (num * string) :=
  match read_digits 0 s with
  | (v, S _, String c r) =>
      if Ascii.eqb c "."%char then
        match read_digits 0 r with
        | (f, S n, String c2 r2) =>
            if Ascii.eqb c2 " "%char
            then Some (Fin (inject_Z v + inject_Z f / inject_Z (10 ^ Z.of_nat (S n)))%Q, r2)
            else None
        | _ => None
        end
      else if Ascii.eqb c " "%char then Some (Fin (inject_Z v), r) else None
  | (_, O, String "i" (String "n" (String "f" (String c r)))) =>
      if Ascii.eqb c " "%char then Some (PInf, r) else None
  | _ => None
  end.

(** Constructor with one string (prefixedunit.py:25-47). *)
Definition parse (s : string) : res quantity :=
  match read_number s with
  | Some (v, r) =>
      match split_prefix_star r with
      | Some (p, u) => make3 v p u
      | None => Err AssertionError
      end
  | None => Err AssertionError
  end.

(** ** Values *)
(** prefixedunit.py:49-53 *)
Definition base_value (q : quantity) : num :=
  match factor (prefix q) with
  | Some f => nmul (value q) (Fin (inject_Z f))
  | None => NaN (* excluded by the constructor's assertion *)
  end.

(** prefixedunit.py:58-91: one pass of the loop; [max_error] is a float, [round_length] is 2
    (no caller passes another value). [None] for [max_prefix] is Python's None. *)
Definition prefix_step (max_error : Q) (bv : num) (max_prefix : option string) (good : string)
    (kv : string * Z) : res string :=
  let (k, v) := kv in
  do too_large <- match max_prefix with
                  | None => Ok false
                  | Some m => match factor m with
                              | Some fm => Ok (fm <? v)
                              | None => Err KeyError
                              end
                  end;
  if too_large : bool then Ok good else
  do x <- ndiv bv (Fin (inject_Z v));
  let r := nround2 x in
  if ngtb (nabs (nsub (nmul r (Fin (inject_Z v))) bv)) (nmul bv (Fin max_error)) then Ok good else
  if nltb (nabs r) (Fin (9 # 10)) then Ok good else
  match factor good with
  | None => Err KeyError
  | Some g => if v <? g then Ok good else Ok k
  end.

Fixpoint prefix_loop (max_error : Q) (bv : num) (max_prefix : option string) (good : string)
    (l : list (string * Z)) : res string :=
  match l with
  | [] => Ok good
  | kv :: l' => do g <- prefix_step max_error bv max_prefix good kv;
                prefix_loop max_error bv max_prefix g l'
  end.

Definition good_prefix (q : quantity) (max_error : Q) (min_prefix : string)
    (max_prefix : option string) : res string :=
  prefix_loop max_error (base_value q) max_prefix min_prefix PREFIXES.

(** prefixedunit.py:93-95 *)
Definition with_prefix (q : quantity) (p : string) : res quantity :=
  match factor p with
  | None => Err KeyError
  | Some f => do v <- ndiv (base_value q) (Fin (inject_Z f)); make3 v p (unit q)
  end.

(** prefixedunit.py:97-98 *)
Definition reduced (q : quantity) : res quantity :=
  do p <- good_prefix q 0 "" None; with_prefix q p.

(** ** Printing (prefixedunit.py:100-105) *)
Definition digits_of (z : Z) : string := NilEmpty.string_of_uint (N.to_uint (Z.to_N z)).
Definition two_digits (z : Z) : string := digits_of (z / 10) ++ digits_of (z mod 10).

(** ['{0:.2f}'.format(v)] (prefixedunit.py:100-105) *)
Definition format_2f (v : num) : string :=
  match v with
  | Fin q => let z := Z.abs (round_even (q * inject_Z 100)) in
             (if Qltb q 0 then "-" else "") ++ digits_of (z / 100) ++ "." ++ two_digits (z mod 100)
  | PInf => "inf" | NInf => "-inf" | NaN => "nan"
  end.

(** [str.strip()] for ASCII white space (as used in prefixedunit.py:100-105). *)
Definition is_space (c : ascii) : bool :=
  let n := Z.of_nat (nat_of_ascii c) in ((9 <=? n) && (n <=? 13)) || ((28 <=? n) && (n <=? 32)).
Fixpoint lstrip (s : string) : string :=
  match s with
  | String c s' => if is_space c then lstrip s' else s
  | EmptyString => EmptyString
  end.
Fixpoint rstrip (s : string) : string :=
  match s with
  | String c s' =>
      match rstrip s' with
      | EmptyString => if is_space c then EmptyString else String c EmptyString
      | r => String c r
      end
  | EmptyString => EmptyString
  end.
Definition strip (s : string) : string := rstrip (lstrip s).

(** [__str__]: the recursion is bounded by [fuel] (prefixedunit.py:100-105). *)
Fixpoint to_string (fuel : nat) (q : quantity) : res string :=
  do g <- good_prefix q (1 # 100) "" None;
  if String.eqb (prefix q) g then Ok (strip (format_2f (value q) ++ " " ++ prefix q ++ unit q))
  else match fuel with
       | O => Err OutOfFuel
       | S fuel' => do q' <- with_prefix q g; to_string fuel' q'
       end.

(** ** Arithmetic (prefixedunit.py:111-178); the other operand is a quantity or a plain number. *)
Inductive operand := OQ (q : quantity) | ON (v : num).
Definition ofloat (o : operand) : num := match o with OQ q => base_value q | ON v => v end.

Definition q_mul (a : quantity) (o : operand) : res quantity :=
  let u := match o with OQ b => unit a ++ unit b | ON _ => unit a end in
  do v <- make2 (nmul (base_value a) (ofloat o)) u; reduced v.
Definition q_div (a : quantity) (o : operand) : res quantity :=
  let u := match o with OQ b => unit a ++ "/" ++ unit b | ON _ => unit a end in
  do x <- ndiv (base_value a) (ofloat o);
  do v <- make2 x u; reduced v.
Definition matching_unit (a : quantity) (o : operand) : bool :=
  match o with OQ b => String.eqb (unit a) (unit b) | ON _ => true end.
Definition q_add (a : quantity) (o : operand) : res quantity :=
  if matching_unit a o
  then do v <- make2 (nadd (base_value a) (ofloat o)) (unit a); reduced v
  else Err ValueError.
Definition q_sub (a : quantity) (o : operand) : res quantity :=
  if matching_unit a o
  then do v <- make2 (nsub (base_value a) (ofloat o)) (unit a); reduced v
  else Err ValueError.
Definition q_abs (a : quantity) : res quantity :=
  do v <- make2 (nabs (base_value a)) (unit a); reduced v.

(** prefixedunit.py:180-202: comparisons use base values only. *)
Definition q_lt (a : quantity) (o : operand) : bool := nltb (base_value a) (ofloat o).
Definition q_eq (a : quantity) (o : operand) : bool := neqb (base_value a) (ofloat o).
Definition q_gt (a : quantity) (o : operand) : bool := ngtb (base_value a) (ofloat o).
Definition q_le (a : quantity) (o : operand) : bool := nleb (base_value a) (ofloat o).
Definition q_ge (a : quantity) (o : operand) : bool := ngeb (base_value a) (ofloat o).
Definition q_ne (a : quantity) (o : operand) : bool := negb (neqb (base_value a) (ofloat o)).

(** Python's float [//] and [%] (prefixedunit.py:131-138 and 168-178). *)
Definition nfloordiv (a b : num) : res num :=
  match a, b with
  | _, Fin y => if Qeq_bool y 0 then Err ZeroDivisionError
                else match a with Fin x => Ok (Fin (inject_Z (Qfloor (x / y)))) | _ => Ok NaN end
  | Fin x, PInf => Ok (Fin (if Qltb x 0 then -1 else 0))
  | Fin x, NInf => Ok (Fin (if Qltb 0 x then -1 else 0))
  | _, _ => Ok NaN
  end.
Definition nmod (a b : num) : res num :=
  match a, b with
  | _, Fin y => if Qeq_bool y 0 then Err ZeroDivisionError
                else match a with Fin x => Ok (Fin (x - y * inject_Z (Qfloor (x / y)))) | _ => Ok NaN end
  | Fin x, PInf => Ok (if Qltb x 0 then PInf else Fin x)
  | Fin x, NInf => Ok (if Qltb 0 x then NInf else Fin x)
  | _, _ => Ok NaN
  end.
(** prefixedunit.py:132-139, 169-178 *)
Definition q_floordiv (a : quantity) (o : operand) : res quantity :=
  let u := match o with OQ b => unit a ++ "/" ++ unit b | ON _ => unit a end in
  do x <- nfloordiv (base_value a) (ofloat o);
  do v <- make2 x u; reduced v.
Definition q_mod (a : quantity) (o : operand) : res quantity :=
  if matching_unit a o
  then do x <- nmod (base_value a) (ofloat o);
       do v <- make2 x (unit a); reduced v
  else Err ValueError.
