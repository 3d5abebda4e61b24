(** Properties C127-C129: what kernel descriptions say, that they give the same as the code they describe, and which of them are accepted. *)
From Coq Require Import String Ascii Lia.
From Verif Require Import PyBase PyFloat PyVal AstModel AstSpec AstProofs CodeModel CodeSpec CodeProofs CodeProps DescModel DescSpec DescProofs.
Local Open Scope string_scope.
Local Open Scope list_scope.
Local Open Scope Z_scope.

(** ** C127: texts in descriptions mean what they say. *)
(** A text is read if and only if it is a sum of products of factors, with the usual precedence and from left to right, and no name in it means something else to sympy. *)
Theorem C127_text_partial : forall known t s, parse_expr known t = Ok s <-> reads t s /\ free_names known s.
Proof. exact parse_expr_spec. Qed.
Print Assumptions C127_text_partial.
(** All kinds of values *)
Theorem C127_value_partial : forall known v e, string_to_sympy known v = Ok e <-> means known v e.
Proof. intros known v. exact (sympy_spec known v). Qed.
Print Assumptions C127_value_partial.
(** There is only one way to read a text. *)
Theorem C127_unique : forall t s s', reads t s -> reads t s' -> s = s'.
Proof. exact reads_unique. Qed.
Print Assumptions C127_unique.
(** Every expression can be written such that its value is right for all values of the names in it. *)
Theorem C127_all : forall known s, free_names known s -> (forall n, In n (names_of s) -> exists w, spells_name w n) ->
  exists t s', string_to_sympy known (VStr t) = Ok (EExpr s') /\ forall en, seval en s' = seval en s.
Proof. intros known s F W. destruct (expression_exists known s F W) as (t & s' & M & V). exists t, s'. split; [now apply sympy_spec|exact V]. Qed.
Print Assumptions C127_all.
(** Reading a text ends. *)
Theorem C127_ends : forall ts, parse_tokens ts <> Err OutOfFuel.
Proof. exact parse_tokens_fuel. Qed.
Print Assumptions C127_ends.
(** Some names of sympy; N is also one, but redefined like all single letters. *)
Definition sympy_names (n : string) : bool := existsb (String.eqb n) ["pi"; "beta"; "gamma"; "zeta"; "N"; "E"; "I"; "S"; "Q"; "sign"; "Max"; "Min"; "lambda"; "if"; "in"].
Example C127_case : reads "2*(N - 1)-M1*-3 +i" (SAdd (SSub (SMul (SInt 2) (SSub (SVar "N") (SInt 1))) (SMul (SVar "M1") (SMul (SInt (-1)) (SInt 3)))) (SVar "i"))
  /\ string_to_sympy sympy_names (VList [VStr "j-1"; VInt 7; VStr "N"]) = Ok (ETuple [EExpr (SSub (SVar "j") (SInt 1)); EExpr (SInt 7); EExpr (SVar "N")])
  /\ (forall s, ~ reads "2N" s) /\ (forall s, ~ reads "(N" s) /\ (forall s, ~ reads "N M" s) /\ (forall s, ~ reads "007" s).
Proof.
  assert (F : forall s, free_names (fun _ => false) s) by (intros s n _; now right).
  split; [apply (parse_expr_spec (fun _ => false)); vm_compute; reflexivity|]. split; [vm_compute; reflexivity|].
  repeat split; intros s R; pose proof (proj2 (parse_expr_spec _ _ _) (conj R (F s))) as X; vm_compute in X; discriminate.
Qed.
(** Names which sympy knows cannot be used, although they can in code: an array with pi elements, a loop to beta. *)
Theorem C127_names_refuted : forall known n s, known n = true -> ~ single_letter n -> In n (names_of s) -> forall t, reads t s -> parse_expr known t = Err TypeError.
Proof.
  intros known n s K SL I t (ts & L & S). unfold parse_expr. apply tokens_spec in L. rewrite L. cbn [bind]. destruct (forallb (understood known) ts) eqn:U; [|reflexivity].
  destruct (proj1 (understood_spec known ts) U n) as [X|X]; [rewrite (proj1 grammar_names _ _ S); exact I|contradiction|congruence].
Qed.
Print Assumptions C127_names_refuted.
Example C127_names_case : reads "beta-1" (SSub (SVar "beta") (SInt 1)) /\ parse_expr sympy_names "beta-1" = Err TypeError /\
  exists k, process_code structural (Some [SDecl (arr "a" [CId "beta"]); for_ "i" (lit "0") (minus (CId "beta") (lit "1")) (pp "i") (SAssign "=" (CArr (CId "a") (CId "i")) (lit "1.0"))]) = Ok k.
Proof. split; [apply (parse_expr_spec (fun _ => false)); vm_compute; reflexivity|]. split; [vm_compute; reflexivity|]. eexists. vm_compute. reflexivity. Qed.

(** ** C128: a description gives the same iterations and elements as the code it describes. *)
(** Loops whose bounds have the same values as those of accepted code: the same iterations as recorded for the code, and as executed. *)
Theorem C128_iterations_partial : forall known eqb items k v d,
  Forall c_tree items -> process_code eqb (Some items) = Ok k -> describe known v = Ok d ->
  exists ds ps s ws ls body,
    items = map SDecl ds ++ map SPragma ps ++ s :: map swap_call ws /\ nest s ls body /\
    forall e, Forall plain_loop ls -> Forall advances ls -> well_scoped (map fst e) ls -> keeps_integers (map fst e) ls body ->
      describes_nest known v ls body ->
      described_iterations (described_loops d) e = iterations (stack (kernel_nest k)) e /\
      forall evs e', exec e s evs e' <-> e' = e /\ evs = flat_map (fun it => map (pair it) body) (described_iterations (described_loops d) e).
Proof.
  intros known eqb items k v d T H DE. destruct (process_sound eqb items k T H) as (ds & ls & body & ws & (ps & s & E & N) & _ & R & _).
  exists ds, ps, s, ws, ls, body. split; [exact E|]. split; [exact N|]. intros e P A W K DN. destruct (nest_described known v d ls body DE DN) as (D & _). pose proof (same_iterations ls _ _ e R P W D A) as S. rewrite S. split; [reflexivity|]. exact (nest_executes s ls body N _ e R P A W K).
Qed.
Print Assumptions C128_iterations_partial.
(** Accesses which are those of the assignments: an element is read or written when the code is executed if and only if it belongs to an access of the description in some iteration of its loops. *)
Theorem C128_elements_partial : forall known eqb items k v d,
  Forall c_tree items -> process_code eqb (Some items) = Ok k -> describe known v = Ok d ->
  exists ds ps s ws ls body,
    items = map SDecl ds ++ map SPragma ps ++ s :: map swap_call ws /\ nest s ls body /\
    forall e, Forall plain_loop ls -> Forall advances ls -> well_scoped (map fst e) ls -> keeps_integers (map fst e) ls body -> known_subscripts (map fst e) ls body ->
      describes_nest known v ls body ->
    forall evs e', exec e s evs e' -> forall n zs,
      ((exists ev, In ev evs /\ reads_element ev n zs) <-> exists it a, In it (described_iterations (described_loops d) e) /\ described_access (described_sources d) n a /\ access_at a it zs) /\
      ((exists ev, In ev evs /\ writes_element ev n zs) <-> exists it a, In it (described_iterations (described_loops d) e) /\ described_access (described_destinations d) n a /\ access_at a it zs).
Proof.
  intros known eqb items k v d T H DE. destruct (process_sound eqb items k T H) as (ds & ls & body & ws & (ps & s & E & N) & _ & R & _).
  exists ds, ps, s, ws, ls, body. split; [exact E|]. split; [exact N|]. intros e P A W K KS DN evs e' X n zs. destruct (nest_described known v d ls body DE DN) as (D & DS & DD). pose proof (same_iterations ls _ _ e R P W D A) as IT.
  apply (nest_executes s ls body N _ e R P A W K) in X as [_ ->].
  assert (NB : forall l part n a, describes_references l (flat_map part body) -> described_access l n a -> body <> []) by (intros l part m a [_ D2] DA ->; destruct (D2 m a DA) as (subs & [] & _)).
  pose proof (described_elements ls _ _ body e R IT KS stmt_reads _ n zs (fun a => incl_appl _ (incl_refl _)) DS) as Q1.
  pose proof (described_elements ls _ _ body e R IT KS stmt_writes _ n zs (fun a => incl_appr _ (incl_refl _)) DD) as Q2.
  split; [transitivity (exists it a, In it (described_iterations (described_loops d) e) /\ described_access (described_sources d) n a /\ access_at a it zs /\ body <> []); [exact Q1|]
         |transitivity (exists it a, In it (described_iterations (described_loops d) e) /\ described_access (described_destinations d) n a /\ access_at a it zs /\ body <> []); [exact Q2|]];
    (split; [intros (it & a & I1 & L & AT & _); exists it, a; auto|intros (it & a & I1 & L & AT); exists it, a; repeat split; eauto]).
Qed.
Print Assumptions C128_elements_partial.
(** Sizes of arrays *)
Theorem C128_sizes_partial : forall d x n t syms e, declares d (n, (t, Some syms)) -> describes_size d x ->
  Forall (fun o => forall y, o = Some y -> Forall plain (literals y) /\ incl (names y) (map fst e)) (dimensions (dtype d)) ->
  fst x = VStr n /\ fst (snd x) = t /\ exists ss, snd (snd x) = Some (map EExpr ss) /\ map (seval (environment e)) ss = map (seval (environment e)) syms.
Proof.
  intros d x n t syms e (E1 & E2 & NE & F) (X1 & X2 & X3) P. cbn in *. subst n. split; [exact X1|]. split; [congruence|].
  destruct (snd (snd x)) as [l|]; [|congruence]. destruct X3 as (_ & ss & -> & G). exists ss. split; [reflexivity|]. clear NE E2 X2.
  revert ss G. induction F as [|o s os syms (y & -> & SD) F IH]; intros ss G; inversion G as [|? s' ? ss' (y' & Y & SV) G']; subst; [reflexivity|]. injection Y as <-. inversion P as [|? ? P1 P2]; subst. destruct (P1 y eq_refl) as [PL IN]. cbn. f_equal; [|now apply IH].
  pose proof (SD PL e IN) as A. rewrite (SV e IN) in A. congruence.
Qed.
Print Assumptions C128_sizes_partial.
(** The example of CodeProps.v as a description *)
Definition dict (l : list (string * value)) : value := VDict (map (fun p => (VStr (fst p), snd p)) l).
Definition array_of (dim : value) : value := dict [("type", VTuple [VStr "double"]); ("dimension", dim)].
Definition loop_entry (i : string) (a b c : value) : value := dict [("index", VStr i); ("start", a); ("stop", b); ("step", c)].
Definition example_description : value :=
  dict [("arrays", dict [("a", array_of (VList [VStr "M"; VStr "N"])); ("b", array_of (VList [VStr "M"; VStr "N"])); ("s", array_of VNone)]);
        ("loops", VList [loop_entry "j" (VInt 1) (VStr "M-1") (VInt 1); loop_entry "i" (VInt 1) (VStr "N-1") (VStr "2")]);
        ("data sources", dict [("a", VList [VList [VStr "j"; VStr "i-1"]; VList [VStr "j"; VStr "i+1"]]); ("b", VList [VList [VStr "j"; VStr "i"]]); ("s", VList [VNone])]);
        ("data destinations", dict [("b", VList [VList [VStr "j"; VStr "i"]]); ("s", VList [VNone])]);
        ("flops", dict [("+", VInt 2); ("*", VInt 1)])].
Definition example_described : description := match describe sympy_names example_description with Ok d => d | Err _ => mkDescription [] [] [] [] [] VNone end.
Ltac cases := repeat match goal with H : _ \/ _ |- _ => destruct H as [H|H] | H : False |- _ => contradiction | H : (_, _) = (_, _) |- _ => first [discriminate H | injection H as <- <-] end.
Lemma access_entry_inj a b : access_entry a = access_entry b -> a = b.
Proof.
  destruct a as [l|], b as [m|]; cbn; try congruence. intros [= E]. f_equal. revert m E. induction l as [|x l IH]; intros [|y m] E; cbn in E; try congruence. injection E as -> E. f_equal. now apply IH.
Qed.
Ltac entries := repeat match goal with
  | H : _ \/ _ |- _ => destruct H as [H|H] | H : False |- _ => contradiction
  | H : ENone = access_entry ?a |- _ => apply (access_entry_inj None) in H; subst a
  | H : ETuple [EExpr ?x; EExpr ?y] = access_entry ?a |- _ => apply (access_entry_inj (Some [x; y])) in H; subst a end.
Ltac described := split; [discriminate|]; repeat (apply Forall2_cons; [let en := fresh in intros en; reflexivity|]); apply Forall2_nil.
Lemma example_parts : describe sympy_names example_description = Ok example_described /\ Forall2 describes_loop example_loops (described_loops example_described) /\
  describes_references (described_sources example_described) (flat_map (fun a => stmt_reads (statement a)) example_body) /\
  describes_references (described_destinations example_described) (flat_map (fun a => stmt_writes (statement a)) example_body) /\
  List.length (described_iterations (described_loops example_described) example_env) = 6%nat.
Proof.
  split; [vm_compute; reflexivity|]. split; [|split; [|split; [|vm_compute; reflexivity]]].
  - apply Forall2_cons; [|apply Forall2_cons; [|apply Forall2_nil]]; (split; [reflexivity|]).
    + exists (SInt 1), (SSub (SVar "M") (SInt 1)), (SInt 1), 1. repeat split; try (vm_compute; reflexivity). intros e I1. cbn. rewrite (lookup_environment "M" e) by (apply I1; now left). reflexivity.
    + exists (SInt 1), (SSub (SVar "N") (SInt 1)), (SInt 2), 2. repeat split; try (vm_compute; reflexivity). intros e I1. cbn. rewrite (lookup_environment "N" e) by (apply I1; now left). reflexivity.
  - split.
    + intros n subs I1. vm_compute in I1. cases.
      * exists None. split; [eexists; split; [vm_compute; tauto|now left]|reflexivity].
      * exists (Some [SVar "j"; SSub (SVar "i") (SInt 1)]). split; [eexists; split; [vm_compute; tauto|vm_compute; tauto]|described].
      * exists (Some [SVar "j"; SAdd (SVar "i") (SInt 1)]). split; [eexists; split; [vm_compute; tauto|vm_compute; tauto]|described].
      * exists None. split; [eexists; split; [vm_compute; tauto|now left]|reflexivity].
      * exists (Some [SVar "j"; SVar "i"]). split; [eexists; split; [vm_compute; tauto|vm_compute; tauto]|described].
    + intros n a (es & I1 & I2). vm_compute in I1. cases; cbn [In] in I2; entries.
      * exists [EID "j"; EBin "-" (EID "i") (EConst (Some 1))]. split; [vm_compute; tauto|described].
      * exists [EID "j"; EBin "+" (EID "i") (EConst (Some 1))]. split; [vm_compute; tauto|described].
      * exists [EID "j"; EID "i"]. split; [vm_compute; tauto|described].
      * exists []. split; [vm_compute; tauto|reflexivity].
  - split.
    + intros n subs I1. vm_compute in I1. cases.
      * exists (Some [SVar "j"; SVar "i"]). split; [eexists; split; [vm_compute; tauto|vm_compute; tauto]|described].
      * exists None. split; [eexists; split; [vm_compute; tauto|now left]|reflexivity].
    + intros n a (es & I1 & I2). vm_compute in I1. cases; cbn [In] in I2; entries.
      * exists [EID "j"; EID "i"]. split; [vm_compute; tauto|described].
      * exists []. split; [vm_compute; tauto|reflexivity].
Qed.
Example C128_case : describe sympy_names example_description = Ok example_described /\ describes_nest sympy_names example_description example_loops example_body /\
  List.length (described_iterations (described_loops example_described) example_env) = 6%nat.
Proof.
  destruct example_parts as (H & L & S & D & N). split; [exact H|]. split; [|exact N]. apply describe_spec in H as ((lv & vs & F1 & E1 & L1) & _ & (ss & F2 & A2) & (ts & F3 & A3) & _).
  split; [|split; [exists ss, (described_sources example_described); auto|exists ts, (described_destinations example_described); auto]].
  exists lv, vs. split; [exact F1|]. split; [exact E1|]. clear -L L1. revert vs L1. induction L as [|l d ls ds DL L IH]; intros vs L1; inversion L1 as [|x ? vs' ? LS L2]; subst; constructor; [exists d; auto|auto].
Qed.
Example C128_sizes_case : declares (arr "a" [CId "M"; CId "N"]) ("a", (["double"], Some [SVar "M"; SVar "N"])) /\
  (exists x, In x (described_variables example_described) /\ describes_size (arr "a" [CId "M"; CId "N"]) x) /\
  Forall (fun o => forall y, o = Some y -> Forall plain (literals y) /\ incl (names y) (map fst example_env)) (dimensions (dtype (arr "a" [CId "M"; CId "N"]))).
Proof.
  split; [|split].
  - split; [reflexivity|]. split; [reflexivity|]. split; [discriminate|]. repeat (apply Forall2_cons; [eexists; split; [reflexivity|]; intros _ e I1; apply lookup_environment, I1; now left|]). apply Forall2_nil.
  - eexists. split; [vm_compute; left; reflexivity|]. split; [reflexivity|]. split; [reflexivity|]. split; [discriminate|]. exists [SVar "M"; SVar "N"]. split; [reflexivity|].
    repeat (apply Forall2_cons; [eexists; split; [reflexivity|]; intros e I1; apply lookup_environment, I1; now left|]). apply Forall2_nil.
  - repeat (apply Forall_cons; [intros y [= <-]; split; [apply Forall_nil|intros x; cbn; tauto]|]). apply Forall_nil.
Qed.

(** ** C129: which descriptions are accepted *)
(** A description is accepted if and only if it has the required entries: the kernel holds what these say, and nothing else. *)
Theorem C129_accepted : forall known v d, describe known v = Ok d <-> says known v d.
Proof. exact describe_spec. Qed.
Print Assumptions C129_accepted.
(** In particular these are required: *)
Theorem C129_required : forall known v d, describe known v = Ok d ->
  forall k, In k ["loops"; "arrays"; "data sources"; "data destinations"; "flops"] -> exists x, field v k x.
Proof.
  intros known v d H k I1. apply describe_spec in H as ((ls & vs & F1 & _) & (as_ & F2 & _) & (ss & F3 & _) & (ts & F4 & _) & F5). cbn in I1. repeat destruct I1 as [<-|I1]; try contradiction; eauto.
Qed.
Print Assumptions C129_required.
(** All arrays have the same type, one of the four, and there is at least one. *)
Theorem C129_types : forall known v d, describe known v = Ok d ->
  supported (described_type d) /\ described_variables d <> [] /\ Forall (fun x => fst (snd x) = described_type d) (described_variables d).
Proof.
  intros known v d H. apply describe_spec in H as (_ & (vs & _ & NE & SU & F) & _). split; [exact SU|]. split; [intros E; rewrite E in F; inversion F; congruence|].
  clear NE. induction F as [|p x ps xs V F IH]; constructor; [apply V|exact IH].
Qed.
Print Assumptions C129_types.
(** What is not needed does not matter: other entries change nothing. *)
Theorem C129_other_entries : forall known l k x, ~ In k (map VStr ["loops"; "arrays"; "data sources"; "data destinations"; "flops"]) ->
  forall l1 l2, l = l1 ++ l2 -> describe known (VDict (l1 ++ (k, x) :: l2)) = describe known (VDict l).
Proof.
  intros known l k x N l1 l2 ->. assert (S : forall f, In f ["loops"; "arrays"; "data sources"; "data destinations"; "flops"] -> subscript (VDict (l1 ++ (k, x) :: l2)) f = subscript (VDict (l1 ++ l2)) f).
  { intros f I1. cbn [subscript]. replace (find (fun p => key_eqb (fst p) (VStr f)) (l1 ++ (k, x) :: l2)) with (find (fun p => key_eqb (fst p) (VStr f)) (l1 ++ l2)); [reflexivity|].
    induction l1 as [|q l1 IH]; cbn [app find].
    - cbn [fst]. destruct (key_eqb k (VStr f)) eqn:K; [|reflexivity]. apply key_text in K. exfalso. apply N. rewrite K. now apply in_map.
    - destruct (key_eqb (fst q) (VStr f)); [reflexivity|exact IH]. }
  unfold describe. rewrite !S by (cbn; tauto). reflexivity.
Qed.
Print Assumptions C129_other_entries.
(** The comment in the example of the distribution says that flops are only needed for Roofline; but without them a description is never accepted (refuted), and they are not looked at. *)
Definition without (k : string) (v : value) : value := match v with VDict l => VDict (filter (fun p => negb (key_eqb (fst p) (VStr k))) l) | _ => v end.
Theorem C129_flops_refuted : forall known v d, describe known (without "flops" v) <> Ok d.
Proof.
  intros known v d H. apply describe_spec in H as (_ & _ & _ & _ & (l1 & l2 & E & _)). destruct v as [| | | | | | |l| |]; try discriminate E. cbn in E. injection E as E.
  assert (I1 : In (VStr "flops", described_flops d) (filter (fun p => negb (key_eqb (fst p) (VStr "flops"))) l)) by (rewrite E; apply in_elt). apply filter_In in I1 as [_ X]. discriminate X.
Qed.
Print Assumptions C129_flops_refuted.
(** The type has to be a tuple: a list of the same texts, as plain YAML has it, is an error. *)
Theorem C129_list_type_refuted : forall known first n v l, field v "type" (VList l) -> (exists x, field v "dimension" x /\ exists e, means known x e) -> describe_variable known first (n, v) = Err TypeError.
Proof.
  intros known first n v l F (x & G & e & M). unfold describe_variable. apply subscript_spec in F, G. apply sympy_spec in M. cbn [snd]. rewrite F. cbn [bind]. rewrite G. cbn [bind]. rewrite M. reflexivity.
Qed.
Print Assumptions C129_list_type_refuted.
(** No arrays at all *)
Theorem C129_no_arrays_refuted : forall known v ls vs xs, field v "loops" ls -> elements ls vs -> Forall2 (loop_says known) vs xs -> field v "arrays" (VDict []) -> describe known v = Err IndexError.
Proof.
  intros known v ls vs xs F1 E1 L F2. apply subscript_spec in F1, F2. apply iterate_spec in E1. unfold describe. rewrite F1. cbn [bind]. rewrite E1. cbn [bind].
  assert (M : mapM (describe_loop known) vs = Ok xs) by (clear -L; induction L as [|v x vs xs S L IH]; [reflexivity|]; cbn [mapM]; rewrite (proj2 (loop_spec known v x) S); cbn [bind]; now rewrite IH).
  rewrite M. cbn [bind]. rewrite F2. reflexivity.
Qed.
Print Assumptions C129_no_arrays_refuted.
(** The example is accepted, also with the entry for the code; its variants are not. *)
Definition with_type (t : value) : value := match example_description with VDict ((k, _) :: l) => VDict ((k, dict [("a", dict [("type", t); ("dimension", VNone)])]) :: l) | v => v end.
Example C129_case : says sympy_names example_description example_described /\
  describe sympy_names (match example_description with VDict l => VDict ((VStr "code", VStr "...") :: l) | v => v end) = Ok example_described /\
  described_type example_described = ["double"] /\
  describe sympy_names (without "flops" example_description) = Err KeyError /\
  (exists d, describe sympy_names (with_type (VTuple [VStr "float"])) = Ok d) /\
  describe sympy_names (with_type (VList [VStr "float"])) = Err TypeError /\
  describe sympy_names (with_type (VStr "float")) = Err AssertionError /\
  describe sympy_names (with_type (VTuple [VStr "int"])) = Err AssertionError /\
  describe sympy_names (VList []) = Err TypeError.
Proof. split; [apply describe_spec; vm_compute; reflexivity|]. repeat split; try (vm_compute; reflexivity). eexists. vm_compute. reflexivity. Qed.
