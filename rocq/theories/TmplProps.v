(** C116, C117: replacing of identifiers and the benchmark program as a filled in template *)
From Coq Require Import String Lia PeanoNat.
From Verif Require Import PyBase TmplModel TmplSpec TmplProofs.
Local Open Scope string_scope.
Local Open Scope list_scope.

(** ** C116 *)
(** A node or list that does not use the identifier itself is put in place of all its uses and of nothing else: the result is the substitution.
    A list may only be put where lists are, and an empty one only where the identifier is not used again in the next element. *)
Theorem C116_replacement_is_substitution : forall id r n,
  (forall h, n <> Id h) ->
  (forall x, In x (nodes r) -> ~ mentions id x) ->
  match r with Single _ => proper n | Inject l => in_lists id n /\ (l = [] -> all_apart id n) end ->
  exists n', fill (only id r) n = [n'] /\ ~ mentions id n' /\ exists f0, forall f, (f0 <= f)%nat -> replace_id id r f n = Ok n'.
Proof.
  intros id r n N F S. destruct (replace_fill id r F n S (N id)) as [n' [E R]]. exists n'. split; [exact E|]. split; [|exact R].
  intros M. destruct (mentions_fill id (only id r) n) as [m [_ Hm]].
  - rewrite E. now apply Exists_cons_hd.
  - unfold only in Hm. destruct (String.eqb_spec m id); [|contradiction].
    apply Exists_exists in Hm. destruct Hm as [x [Hx Mx]]. exact (F x Hx Mx).
Qed.
Print Assumptions C116_replacement_is_substitution.
(** Trees that do not use the identifier are left as they are, whatever is to be put in. *)
Theorem C116_other_trees_unchanged : forall id r n, ~ mentions id n -> exists f0, forall f, (f0 <= f)%nat -> replace_id id r f n = Ok n.
Proof. exact replace_none. Qed.
Print Assumptions C116_other_trees_unchanged.
(** "Replace all matching ID nodes": false. An empty list removes only the first of two uses in a row, *)
Theorem C116_all_uses_replaced_refuted :
  exists id r n n', in_lists id n /\ (forall x, In x (nodes r) -> ~ mentions id x) /\ mentions id n'
    /\ forall f, (3 <= f)%nat -> replace_id id r f n = Ok n'.
Proof.
  exists "X", (Inject []), (Node "Compound" [] [] [Id "X"; Id "X"]), (Node "Compound" [] [] [Id "X"]).
  split; [cbn; repeat split; discriminate|]. split; [intros x []|]. split; [cbn; auto|].
  intros [|[|[|f]]] L; try lia. reflexivity.
Qed.
Print Assumptions C116_all_uses_replaced_refuted.
(** a list in the place of a single node leaves a list there, which is no node, even if it has one element, *)
Theorem C116_list_for_single_node_refuted : forall id l k ts, k <> "list" ->
  exists f0, forall f, (f0 <= f)%nat ->
    replace_id id (Inject l) f (Node k ts [Id id] []) = Ok (Node k ts [Node "list" [] [] l] []).
Proof.
  intros id l k ts K. exists 1%nat. intros [|f] L; [lia|]. cbn. rewrite String.eqb_refl. cbn.
  destruct (String.eqb_spec k "list"); [contradiction|]. destruct f; reflexivity.
Qed.
Print Assumptions C116_list_for_single_node_refuted.
(** and a list which uses the identifier itself after its first element is put in again and again: the call does not end. *)
Theorem C116_termination_refuted : forall id x,
  forall f, replace_id id (Inject [x; Id id]) f (Node "Compound" [] [] [Id id]) = Err OutOfFuel.
Proof.
  intros id x f. assert (W : forall rec g done, walk id (Inject [x; Id id]) rec g done [Id id] = Err OutOfFuel).
  { intros rec g. induction g as [|g IH]; intros done; [reflexivity|]. cbn. rewrite String.eqb_refl. apply IH. }
  destruct f as [|f]; [reflexivity|]. cbn [replace_id mapM bind]. cbn [String.eqb Ascii.eqb Bool.eqb]. rewrite W. reflexivity.
Qed.
Print Assumptions C116_termination_refuted.

(** In an assignment and a block *)
Definition example_tree : node :=
  Node "Compound" [] [] [Id "X"; Node "Assignment" ["="] [Id "y"; Node "BinaryOp" ["+"] [Id "X"; Id "z"] []] []; Id "X"].
Definition by_one : replacement := Single (address "a").
Definition by_two : replacement := Inject [Id "a"; Id "b"].
Example C116_example_one : replace_id "X" by_one 9 example_tree
  = Ok (Node "Compound" [] [] [address "a"; Node "Assignment" ["="] [Id "y"; Node "BinaryOp" ["+"] [address "a"; Id "z"] []] []; address "a"]).
Proof. reflexivity. Qed.
Example C116_example_one_applies :
  exists n', fill (only "X" by_one) example_tree = [n'] /\ ~ mentions "X" n' /\ exists f0, forall f, (f0 <= f)%nat -> replace_id "X" by_one f example_tree = Ok n'.
Proof.
  apply C116_replacement_is_substitution; [discriminate| |cbn; tree].
  intros x [<-|[]] M. apply mentions_address in M. discriminate.
Qed.
Definition example_block : node := Node "Compound" [] [] [Id "X"; Node "For" [] [Id "i"; Node "Compound" [] [] [Id "z"; Id "X"]] []; Id "X"].
Example C116_example_two : replace_id "X" by_two 9 example_block
  = Ok (Node "Compound" [] [] [Id "a"; Id "b"; Node "For" [] [Id "i"; Node "Compound" [] [] [Id "z"; Id "a"; Id "b"]] []; Id "a"; Id "b"]).
Proof. reflexivity. Qed.
Example C116_example_two_applies :
  exists n', fill (only "X" by_two) example_block = [n'] /\ ~ mentions "X" n' /\ exists f0, forall f, (f0 <= f)%nat -> replace_id "X" by_two f example_block = Ok n'.
Proof.
  apply C116_replacement_is_substitution; [discriminate| |].
  - intros x [<-|[<-|[]]] M; discriminate M.
  - cbn. tree.
Qed.
(** an empty list, with the uses apart *)
Example C116_example_empty : replace_id "X" (Inject []) 9 (Node "Compound" [] [] [Id "X"; Id "z"; Id "X"]) = Ok (Node "Compound" [] [] [Id "z"]).
Proof. reflexivity. Qed.
Example C116_example_empty_applies :
  exists n', fill (only "X" (Inject [])) (Node "Compound" [] [] [Id "X"; Id "z"; Id "X"]) = [n'] /\ ~ mentions "X" n'
    /\ exists f0, forall f, (f0 <= f)%nat -> replace_id "X" (Inject []) f (Node "Compound" [] [] [Id "X"; Id "z"; Id "X"]) = Ok n'.
Proof.
  apply C116_replacement_is_substitution; [discriminate|intros x []|].
  split; [cbn; tree|]. intros _. cbn. repeat split; try discriminate; auto.
Qed.

(** ** C117 *)
(** If no variable or constant of the kernel is called like a placeholder, the program is the template with all pieces filled in at once. *)
Theorem C117_program_is_filled_template : forall p, clean p -> proper_pieces p ->
  exists n', fill (intended p) template = [n']
    /\ (forall h, In h placeholders -> ~ mentions h n')
    /\ exists f0, forall f, (f0 <= f)%nat -> main_ast f p = Ok n'.
Proof.
  intros p C P. destruct (main_filled p C P) as [n' [E F]]. exists n'. split; [exact E|]. split; [|exact F].
  intros h Hh M. destruct (mentions_fill h (intended p) template) as [m [_ Hm]].
  - rewrite E. now apply Exists_cons_hd.
  - destruct (intended p m) as [l|] eqn:I; [|subst m; destruct (intended_placeholder p h Hh) as [l L]; rewrite L in I; discriminate].
    exact (intended_clean p h m l C Hh I Hm).
Qed.
Print Assumptions C117_program_is_filled_template.
(** The calls behind the condition the compiler cannot decide hand over each variable of the kernel once, and by reference. *)
Theorem C117_dummy_calls_hand_over_all : forall ds, exists calls,
  build_dummy_calls ds = Node "If" [] [Id "var_false"; Node "Compound" [] [] calls] []
  /\ Forall2 (fun d c => c = Node "FuncCall" [] [Id "dummy"; Node "ExprList" [] [] [by_reference d]] []) ds calls.
Proof.
  intros ds. eexists. split; [reflexivity|]. induction ds as [|[n k] ds IH]; cbn [map]; constructor; [|exact IH].
  destruct k; reflexivity.
Qed.
Print Assumptions C117_dummy_calls_hand_over_all.
(** The arguments of the call are those of the parameters of the function, in the same order. *)
Theorem C117_arguments_match_parameters : forall ds cs name,
  Forall2 (fits_parameter ds cs) (kernel_parameters ds cs) (arguments (build_kernel_call name ds cs))
  /\ List.length (kernel_parameters ds cs) = (List.length (filter is_array ds ++ filter is_scalar ds) + List.length cs)%nat.
Proof.
  intros ds cs name. split; [apply parameters_agree|]. unfold kernel_parameters. rewrite !app_length, !map_length. lia.
Qed.
Print Assumptions C117_arguments_match_parameters.

(** The triad *)
Definition triad : pieces :=
  let ds := [("a", KArray); ("b", KArray); ("s", KScalar)] in
  mkPieces ds ["N"] (build_const_decls ["long"] 2 (fun _ => "2") ["N"])
    [Node "Decl" ["a"] [call "aligned_malloc" [Id "N"]] []; Node "Decl" ["b"] [call "aligned_malloc" [Id "N"]] []]
    [Node "Decl" ["s"] [leaf "Constant" ["0.1"]] []]
    [Node "For" [] [Node "BinaryOp" ["<"] [Id "i"; Id "N"] []; Node "Assignment" ["="] [Node "ArrayRef" [] [Id "a"; Id "i"] []; leaf "Constant" ["0.1"]] []] []].
Lemma triad_clean : clean triad.
Proof.
  intros h H. repeat (destruct H as [<-|H]; [|]); [..|destruct H].
  all: split; [cbn; intuition discriminate|]; split; [cbn; intuition discriminate|];
    intros x Hx; cbn in Hx; repeat (destruct Hx as [<-|Hx]; [|]); [..|destruct Hx]; cbn; intuition discriminate.
Qed.
Lemma triad_proper : proper_pieces triad.
Proof. intros x Hx. cbn in Hx. repeat (destruct Hx as [<-|Hx]; [cbn; tree|]). destruct Hx. Qed.
Example C117_example : exists n', fill (intended triad) template = [n']
  /\ (forall h, In h placeholders -> ~ mentions h n') /\ exists f0, forall f, (f0 <= f)%nat -> main_ast f triad = Ok n'.
Proof. exact (C117_program_is_filled_template triad triad_clean triad_proper). Qed.
Example C117_example_value : match main_ast 30 triad with Ok n => fill (intended triad) template = [n] | Err _ => False end.
Proof. vm_compute. reflexivity. Qed.
Example C117_example_call : arguments (build_kernel_call "kernel" (top triad) (constants triad)) = [Id "a"; Id "b"; address "s"; Id "N"]
  /\ kernel_parameters (top triad) (constants triad) = [("a", true); ("b", true); ("s_", true); ("N", false)].
Proof. split; reflexivity. Qed.
(** A kernel without scalars and constants: empty lists for two placeholders in a row *)
Definition bare : pieces := mkPieces [("a", KArray)] [] [] [Node "Decl" ["a"] [call "aligned_malloc" [leaf "Constant" ["100"]]] []] [] [].
Example C117_example_bare : match main_ast 30 bare with Ok n => fill (intended bare) template = [n] | Err _ => False end.
Proof. vm_compute. reflexivity. Qed.

(** Without that condition: false. For an array which is called like the placeholder of the call, the calls that hand over the variables hand over
    the result of the kernel instead. *)
Definition unlucky : pieces :=
  mkPieces [("KERNEL_CALL", KArray)] [] [] [Node "Decl" ["KERNEL_CALL"] [call "aligned_malloc" [leaf "Constant" ["100"]]] []] [] [].
Theorem C117_any_names_refuted :
  exists p n', proper_pieces p /\ (forall f, (20 <= f)%nat -> main_ast f p = Ok n') /\ fill (intended p) template <> [n']
    /\ exists k, replace_id "KERNEL_CALL" (Single (build_kernel_call "kernel" (top p) (constants p))) 20 (build_dummy_calls (top p)) = Ok k
       /\ k = Node "If" [] [Id "var_false"; Node "Compound" [] [] [call "dummy" [call "kernel" [Id "KERNEL_CALL"]]]] [].
Proof.
  exists unlucky. eexists. split; [|split; [|split; [|eexists; split; [reflexivity|reflexivity]]]].
  - intros x Hx. cbn in Hx. repeat (destruct Hx as [<-|Hx]; [cbn; tree|]). destruct Hx.
  - intros f L. do 20 (destruct f as [|f]; [lia|]). reflexivity.
  - vm_compute. discriminate.
Qed.
Print Assumptions C117_any_names_refuted.
