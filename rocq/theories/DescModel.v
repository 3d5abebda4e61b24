(** Kernel descriptions: kernel.py:1819-1871 [KernelDescription] and 60-76 [string_to_sympy], with [set_variable] (266-281) and [check] (241-244). A description is what the YAML parser gives
    (kerncraft.py:329-333).
    Simplification: of the expressions which sympy's [parse_expr] reads, those made of names, decimal integers, parentheses, blanks, + and - (with one or two operands) and * are modelled; on all others, which
    includes **, /, calls, numbers with a fraction and other notations of integers, the model gives an error. *)
From Coq Require Import String Ascii.
From Verif Require Import PyBase PyVal AstModel CodeModel.
Local Open Scope string_scope.
Local Open Scope list_scope.
Local Open Scope Z_scope.

(** ** Texts to tokens (Python's tokenizer as used by [parse_expr], kernel.py:72 and 76) *)
Definition code (c : ascii) : Z := Z.of_N (N_of_ascii c).
Definition is_digit (c : ascii) : bool := ((48 <=? code c) && (code c <=? 57))%bool.
Definition is_letter (c : ascii) : bool := (((65 <=? code c) && (code c <=? 90)) || ((97 <=? code c) && (code c <=? 122)))%bool.
Definition is_word (c : ascii) : bool := (is_digit c || is_letter c || (code c =? 95))%bool.
Definition is_blank (c : ascii) : bool := ((code c =? 32) || (code c =? 9))%bool.
(** Words and other characters (kernel.py:72 and 76) *)
Inductive raw := Word (w : list ascii) | Other (c : ascii).
Fixpoint raws (t : list ascii) : list raw :=
  match t with
  | [] => []
  | c :: t' =>
      if is_blank c then raws t'
      else if is_word c then
        match t' with
        | c' :: _ => if is_word c' then match raws t' with Word w :: l => Word (c :: w) :: l | l => Word [c] :: l end else Word [c] :: raws t'
        | [] => [Word [c]]
        end
      else Other c :: raws t'
  end.
Inductive token := TName (n : string) | TNumber (z : Z) | TPlus | TMinus | TTimes | TOpen | TClose.
(** Value of decimal digits (kernel.py:72 and 76) *)
Definition digits_value (w : list ascii) : Z := fold_left (fun a c => 10 * a + (code c - 48)) w 0.
(** A word is a name or a number; numbers other than 0 do not begin with 0 (SyntaxError, which is a kind of ValueError here) (kernel.py:72 and 76). *)
Definition classify (r : raw) : res token :=
  match r with
  | Word [] => Err ValueError
  | Word (c :: w) =>
      if is_digit c then
        if forallb is_digit w then if ((code c =? 48) && negb (forallb (fun d => code d =? 48) w))%bool then Err ValueError else Ok (TNumber (digits_value (c :: w))) else Err ValueError
      else Ok (TName (string_of_list_ascii (c :: w)))
  | Other c =>
      if code c =? 43 then Ok TPlus else if code c =? 45 then Ok TMinus else if code c =? 42 then Ok TTimes else if code c =? 40 then Ok TOpen else if code c =? 41 then Ok TClose else Err ValueError
  end.
Definition tokens (s : string) : res (list token) := mapM classify (raws (list_ascii_of_string s)).

(** ** Tokens to expressions (Python's grammar, kernel.py:72 and 76). Each function returns the expression it has read and what follows. *)
Fixpoint p_sum (fuel : nat) (ts : list token) : res (sym * list token) :=
  match fuel with O => Err OutOfFuel | S f => do x <- p_product f ts; sum_rest f (fst x) (snd x) end
with sum_rest (fuel : nat) (a : sym) (ts : list token) : res (sym * list token) :=
  match fuel with
  | O => Err OutOfFuel
  | S f => match ts with
           | TPlus :: r => do x <- p_product f r; sum_rest f (SAdd a (fst x)) (snd x)
           | TMinus :: r => do x <- p_product f r; sum_rest f (SSub a (fst x)) (snd x)
           | _ => Ok (a, ts)
           end
  end
with p_product (fuel : nat) (ts : list token) : res (sym * list token) :=
  match fuel with O => Err OutOfFuel | S f => do x <- p_factor f ts; product_rest f (fst x) (snd x) end
with product_rest (fuel : nat) (a : sym) (ts : list token) : res (sym * list token) :=
  match fuel with
  | O => Err OutOfFuel
  | S f => match ts with
           | TTimes :: r => do x <- p_factor f r; product_rest f (SMul a (fst x)) (snd x)
           | _ => Ok (a, ts)
           end
  end
with p_factor (fuel : nat) (ts : list token) : res (sym * list token) :=
  match fuel with
  | O => Err OutOfFuel
  | S f => match ts with
           | TName n :: r => Ok (SVar n, r)
           | TNumber z :: r => Ok (SInt z, r)
           | TPlus :: r => p_factor f r
           | TMinus :: r => do x <- p_factor f r; Ok (SMul (SInt (-1)) (fst x), snd x)
           | TOpen :: r => do x <- p_sum f r; match snd x with TClose :: r' => Ok (fst x, r') | _ => Err ValueError end
           | _ => Err ValueError
           end
  end.
(** Enough for each token to be looked at by all functions (kernel.py:72 and 76) *)
Definition parse_tokens (ts : list token) : res sym :=
  do x <- p_sum (6 * length ts + 6) ts; match snd x with [] => Ok (fst x) | _ => Err ValueError end.

(** ** kernel.py:60-76 *)
(** Results: expressions, tuples, None (kernel.py:63-76) *)
Inductive entry := EExpr (s : sym) | ETuple (l : list entry) | ENone.
Section Description.
  (** Names [parse_expr] has a meaning for: keywords of Python and names of the sympy package, like [pi] or [beta]. Names of one letter are redefined (kernel.py:70). *)
  Variable known : string -> bool.
  (** kernel.py:70-76. Simplification: an expression with such a name is an error here. In fact [pi] is taken as the number, and functions and keywords lead to various errors. *)
  Definition one_letter (n : string) : bool := match n with String c EmptyString => is_letter c | _ => false end.
  Definition understood (t : token) : bool := match t with TName n => (one_letter n || negb (known n))%bool | _ => true end.
  Definition parse_expr (s : string) : res sym :=
    do ts <- tokens s; if forallb understood ts then parse_tokens ts else Err TypeError.
  (** kernel.py:60-76. Other objects are not iterable, or nothing [parse_expr] can read. A bool is an int. *)
  Fixpoint string_to_sympy (v : value) : res entry :=
    match v with
    | VInt z => Ok (EExpr (SInt z))
    | VBool b => Ok (EExpr (SInt (if b then 1 else 0)))
    | VList l => do l' <- (fix go l := match l with [] => Ok [] | x :: l' => do y <- string_to_sympy x; do ys <- go l'; Ok (y :: ys) end) l; Ok (ETuple l')
    | VNone => Ok ENone
    | VStr s => do e <- parse_expr s; Ok (EExpr e)
    | _ => Err TypeError
    end.

  (** ** The constructor *)
  (** [d[k]] for a text [k] (kernel.py:1844-1869) *)
  Definition subscript (d : value) (k : string) : res value :=
    match d with VDict l => match find (fun p => key_eqb (fst p) (VStr k)) l with Some p => Ok (snd p) | None => Err KeyError end | _ => Err TypeError end.
  (** [d.items()] (kernel.py:1850, 1859 and 1865) *)
  Definition items (d : value) : res (list (value * value)) := match d with VDict l => Ok l | _ => Err AttributeError end.
  (** Iterating over an object (kernel.py:1846, 1858 and 1864) *)
  Definition iterate (v : value) : res (list value) :=
    match v with
    | VList l | VTuple l => Ok l
    | VDict l => Ok (map fst l)
    | VStr s => Ok (map (fun c => VStr (String c EmptyString)) (list_ascii_of_string s))
    | _ => Err TypeError
    end.
  (** kernel.py:1843-1847 *)
  Record described_loop := mkLoopEntry { loop_index : value; loop_start : entry; loop_stop : entry; loop_step : entry }.
  Definition describe_loop (l : value) : res described_loop :=
    do i <- subscript l "index";
    do a <- subscript l "start"; do start <- string_to_sympy a;
    do b <- subscript l "stop"; do stop <- string_to_sympy b;
    do c <- subscript l "step"; do step <- string_to_sympy c;
    Ok (mkLoopEntry i start stop step).
  (** Variables with type and size (kernel.py:266-281) *)
  Definition variable_entry := (value * (list string * option (list entry)))%type.
  (** Whether an object is a key of [datatypes_size] (kernel.py:222-225 and 274): lists and dictionaries cannot be looked up. *)
  Definition texts (l : list value) : option (list string) :=
    fold_right (fun v r => match v, r with VStr s, Some l => Some (s :: l) | _, _ => None end) (Some []) l.
  Definition type_key (t : value) : res (list string) :=
    match t with
    | VList _ | VDict _ => Err TypeError
    | VTuple l => match texts l with Some ns => if existsb (names_eqb ns) datatypes then Ok ns else Err AssertionError | None => if hashableb t then Err AssertionError else Err TypeError end
    | _ => Err AssertionError
    end.
  (** kernel.py:274-281. The first type is that of all. *)
  Definition describe_variable (first : option (list string)) (p : value * value) : res variable_entry :=
    do t <- subscript (snd p) "type";
    do d <- subscript (snd p) "dimension"; do size <- string_to_sympy d;
    do ns <- type_key t;
    do _ <- match first with None => Ok tt | Some ns' => if names_eqb ns ns' then Ok tt else Err AssertionError end;
    match size with
    | ETuple l => Ok (fst p, (ns, Some l))
    | ENone => Ok (fst p, (ns, None))
    | EExpr _ => Err AssertionError
    end.
  (** kernel.py:1849-1851 *)
  Fixpoint describe_variables (first : option (list string)) (l : list (value * value)) : res (list variable_entry) :=
    match l with
    | [] => Ok []
    | p :: l' => do v <- describe_variable first p; do vs <- describe_variables (Some (match first with Some ns => ns | None => fst (snd v) end)) l'; Ok (v :: vs)
    end.
  (** kernel.py:1857-1866. Sets are lists here: neither order nor repeated elements matter. *)
  Definition describe_accesses (p : value * value) : res (value * list entry) :=
    do l <- iterate (snd p); do es <- mapM string_to_sympy l; Ok (fst p, es).
  (** kernel.py:1834-1871; [check] (line 1871) cannot fail, since all types are equal. *)
  Record description := mkDescription {
    described_loops : list described_loop; described_variables : list variable_entry; described_type : list string;
    described_sources : list (value * list entry); described_destinations : list (value * list entry); described_flops : value }.
  Definition describe (d : value) : res description :=
    do ls <- subscript d "loops"; do ls <- iterate ls; do loops <- mapM describe_loop ls;
    do vs <- subscript d "arrays"; do vs <- items vs; do variables <- describe_variables None vs;
    do t <- match variables with [] => Err IndexError | v :: _ => Ok (fst (snd v)) end;
    do ss <- subscript d "data sources"; do ss <- items ss; do sources <- mapM describe_accesses ss;
    do ts <- subscript d "data destinations"; do ts <- items ts; do destinations <- mapM describe_accesses ts;
    do flops <- subscript d "flops";
    Ok (mkDescription loops variables t sources destinations flops).
End Description.
(** kernel.py:1827-1832: neither in-core analysis nor executables. *)
Definition incore_analysis {A} : res A := Err NotImplementedError.
Definition build_executable {A} : res A := Err NotImplementedError.
