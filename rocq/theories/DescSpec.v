(** Specification: what the texts of a kernel description say. Of the model only the tokens and the syntax of symbolic expressions are used. *)
From Coq Require Import String Ascii.
From Verif Require Import PyBase PyVal AstModel AstSpec CodeModel CodeSpec DescModel.
Local Open Scope string_scope.
Local Open Scope list_scope.
Local Open Scope Z_scope.

(** ** Tokens *)
Definition digits : list ascii := list_ascii_of_string "0123456789".
Definition letters : list ascii := list_ascii_of_string "ABCDEFGHIJKLMNOPQRSTUVWXYZabcdefghijklmnopqrstuvwxyz".
Definition word_character (c : ascii) : Prop := In c digits \/ In c letters \/ c = "_"%char.
Definition blank (c : ascii) : Prop := c = " "%char \/ c = "009"%char.
(** Digits and the number they stand for *)
Inductive decimal : list ascii -> Z -> Prop :=
| dec_nil : decimal [] 0
| dec_snoc w z c d : decimal w z -> nth_error digits d = Some c -> decimal (w ++ [c]) (10 * z + Z.of_nat d).
(** A number is 0 or does not begin with 0. *)
Definition spells_number (w : list ascii) (z : Z) : Prop := w <> [] /\ decimal w z /\ (hd "0"%char w = "0"%char -> z = 0).
(** A name begins with a letter or an underscore. *)
Definition spells_name (w : list ascii) (n : string) : Prop := n = string_of_list_ascii w /\ w <> [] /\ Forall word_character w /\ ~ In (hd "0"%char w) digits.
Definition sign (c : ascii) (t : token) : Prop := In (c, t) [("+"%char, TPlus); ("-"%char, TMinus); ("*"%char, TTimes); ("("%char, TOpen); (")"%char, TClose)].
(** Nothing that would make a word longer *)
Definition word_ends (t : list ascii) : Prop := match t with [] => True | c :: _ => ~ word_character c end.
Inductive lexed : list ascii -> list token -> Prop :=
| lex_end : lexed [] []
| lex_blank c t l : blank c -> lexed t l -> lexed (c :: t) l
| lex_sign c k t l : sign c k -> lexed t l -> lexed (c :: t) (k :: l)
| lex_name w n t l : spells_name w n -> word_ends t -> lexed t l -> lexed (w ++ t) (TName n :: l)
| lex_number w z t l : spells_number w z -> word_ends t -> lexed t l -> lexed (w ++ t) (TNumber z :: l).

(** ** Expressions: sums of products of factors; operators of the same kind are applied from left to right *)
Inductive is_sum : list token -> sym -> Prop :=
| sum_one ts s : is_product ts s -> is_sum ts s
| sum_plus ts a us b : is_sum ts a -> is_product us b -> is_sum (ts ++ TPlus :: us) (SAdd a b)
| sum_minus ts a us b : is_sum ts a -> is_product us b -> is_sum (ts ++ TMinus :: us) (SSub a b)
with is_product : list token -> sym -> Prop :=
| product_one ts s : is_factor ts s -> is_product ts s
| product_times ts a us b : is_product ts a -> is_factor us b -> is_product (ts ++ TTimes :: us) (SMul a b)
with is_factor : list token -> sym -> Prop :=
| factor_name n : is_factor [TName n] (SVar n)
| factor_number z : is_factor [TNumber z] (SInt z)
| factor_plus ts s : is_factor ts s -> is_factor (TPlus :: ts) s
| factor_minus ts s : is_factor ts s -> is_factor (TMinus :: ts) (SMul (SInt (-1)) s)
| factor_braces ts s : is_sum ts s -> is_factor (TOpen :: ts ++ [TClose]) s.
Definition reads (t : string) (s : sym) : Prop := exists ts, lexed (list_ascii_of_string t) ts /\ is_sum ts s.

(** ** Values in descriptions *)
(** Names of an expression *)
Fixpoint names_of (s : sym) : list string := match s with SVar n => [n] | SInt _ => [] | SMul a b | SAdd a b | SSub a b => names_of a ++ names_of b end.
Definition single_letter (n : string) : Prop := exists c, In c letters /\ n = String c EmptyString.
(** No name sympy has another meaning for *)
Definition free_names (known : string -> bool) (s : sym) : Prop := forall n, In n (names_of s) -> single_letter n \/ known n = false.
(** Integers, texts, lists of them (which may be nested), and null *)
Inductive means (known : string -> bool) : value -> DescModel.entry -> Prop :=
| means_int z : means known (VInt z) (EExpr (SInt z))
| means_false : means known (VBool false) (EExpr (SInt 0))
| means_true : means known (VBool true) (EExpr (SInt 1))
| means_null : means known VNone ENone
| means_text t s : reads t s -> free_names known s -> means known (VStr t) (EExpr s)
| means_list vs es : all_mean known vs es -> means known (VList vs) (ETuple es)
with all_mean (known : string -> bool) : list value -> list DescModel.entry -> Prop :=
| all_nil : all_mean known [] []
| all_cons v vs e es : means known v e -> all_mean known vs es -> all_mean known (v :: vs) (e :: es).

(** ** Dictionaries *)
(** The entry of a dictionary for a text *)
Definition field (d : value) (k : string) (v : value) : Prop := exists l1 l2, d = VDict (l1 ++ (VStr k, v) :: l2) /\ ~ In (VStr k) (map fst l1).
(** Objects with elements *)
Inductive elements : value -> list value -> Prop :=
| in_list l : elements (VList l) l
| in_tuple l : elements (VTuple l) l
| in_dict l : elements (VDict l) (map fst l)
| in_text t : elements (VStr t) (map (fun c => VStr (String c EmptyString)) (list_ascii_of_string t)).
Definition loop_says (known : string -> bool) (v : value) (l : described_loop) : Prop :=
  field v "index" (loop_index l) /\ exists a b c, field v "start" a /\ means known a (loop_start l) /\ field v "stop" b /\ means known b (loop_stop l) /\ field v "step" c /\ means known c (DescModel.loop_step l).
(** Variables of the type [t] *)
Definition variable_says (known : string -> bool) (t : list string) (p : value * value) (x : variable_entry) : Prop :=
  fst x = fst p /\ fst (snd x) = t /\ field (snd p) "type" (VTuple (map VStr t)) /\
  exists d, field (snd p) "dimension" d /\ means known d (match snd (snd x) with Some l => ETuple l | None => ENone end).
Definition accesses_say (known : string -> bool) (p : value * value) (x : value * list DescModel.entry) : Prop :=
  fst x = fst p /\ exists l, elements (snd p) l /\ all_mean known l (snd x).
(** What a description says *)
Definition says (known : string -> bool) (v : value) (d : description) : Prop :=
  (exists ls vs, field v "loops" ls /\ elements ls vs /\ Forall2 (loop_says known) vs (described_loops d)) /\
  (exists vs, field v "arrays" (VDict vs) /\ vs <> [] /\ supported (described_type d) /\ Forall2 (variable_says known (described_type d)) vs (described_variables d)) /\
  (exists ss, field v "data sources" (VDict ss) /\ Forall2 (accesses_say known) ss (described_sources d)) /\
  (exists ts, field v "data destinations" (VDict ts) /\ Forall2 (accesses_say known) ts (described_destinations d)) /\
  field v "flops" (described_flops d).

(** ** Descriptions of code *)
(** The same value for all integers *)
Definition same_value (x : cexpr) (s : sym) : Prop := forall e, incl (names x) (map fst e) -> cvalue e x = Some (seval (environment e) s).
Definition describes_loop (l : cloop) (d : described_loop) : Prop :=
  DescModel.loop_index d = VStr (index l) /\
  exists a b c z, loop_start d = EExpr a /\ same_value (first l) a /\ loop_stop d = EExpr b /\ same_value (bound l) b /\ DescModel.loop_step d = EExpr c /\ step_text l = Some z /\ forall en, seval en c = z.
(** Iterations of the loops of a description, outermost first *)
Fixpoint described_iterations (ls : list described_loop) (e : env) : list env :=
  match ls with
  | [] => [e]
  | mkLoopEntry (VStr x) (EExpr a) (EExpr b) (EExpr c) :: ls' =>
      flat_map (fun z => described_iterations ls' ((x, z) :: e)) (ticks (seval (environment e) a) (seval (environment e) b) (seval (environment e) c))
  | _ => []
  end.
(** An access as an entry *)
Definition access_entry (a : access) : DescModel.entry := match a with Some l => ETuple (map EExpr l) | None => ENone end.
Definition described_access (l : list (value * list DescModel.entry)) (n : string) (a : access) : Prop := exists es, In (VStr n, es) l /\ In (access_entry a) es.
(** All references, and nothing else *)
Definition describes_references (l : list (value * list DescModel.entry)) (refs : list (string * list expr)) : Prop :=
  (forall n subs, In (n, subs) refs -> exists a, described_access l n a /\ describes a subs) /\
  (forall n a, described_access l n a -> exists subs, In (n, subs) refs /\ describes a subs).
Definition describes_size (d : decl) (x : variable_entry) : Prop :=
  fst x = VStr (dname d) /\ element_type (dtype d) = TBase (fst (snd x)) /\
  match snd (snd x) with
  | None => dimensions (dtype d) = []
  | Some l => dimensions (dtype d) <> [] /\ exists ss, l = map EExpr ss /\ Forall2 (fun o s => exists y, o = Some y /\ same_value y s) (dimensions (dtype d)) ss
  end.
(** A description with the loops and references of a nest of loops *)
Definition describes_nest (known : string -> bool) (v : value) (ls : list cloop) (body : list cassign) : Prop :=
  (exists lv vs, field v "loops" lv /\ elements lv vs /\ Forall2 (fun l x => exists d, loop_says known x d /\ describes_loop l d) ls vs) /\
  (exists ss xs, field v "data sources" (VDict ss) /\ Forall2 (accesses_say known) ss xs /\ describes_references xs (flat_map (fun a => stmt_reads (statement a)) body)) /\
  (exists ss xs, field v "data destinations" (VDict ss) /\ Forall2 (accesses_say known) ss xs /\ describes_references xs (flat_map (fun a => stmt_writes (statement a)) body)).
