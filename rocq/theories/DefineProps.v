(** C43: Every combination of constants is analysed exactly once *)
From Verif Require Import PyBase DefineModel DefineSpec DefineProofs.
Local Open Scope string_scope.
Local Open Scope Z_scope.
Local Open Scope list_scope.

(** The analyses are those of every requested model with every combination of requested values of the constants of the kernel. Options for other
    constants have no effect. *)
Theorem C43_analyses : forall required options models l, required <> [] -> NoDup required -> analyses required options models = Ok l -> forall constants model,
  In (constants, model) l <-> In model models /\ exists f, assignment required f constants /\ forall n, In n required -> requested options n (f n).
Proof. exact analyses_in. Qed.
Print Assumptions C43_analyses.

(** A kernel without constants is analysed once with every model. *)
Theorem C43_no_constants : forall options models, exists ms, analyses [] options models = Ok (map (fun m => ([], m)) ms) /\ NoDup ms /\ (forall m, In m ms <-> In m models).
Proof.
  intros options models. exists (uniquify models). split; [cbn; now rewrite app_nil_r|]. split; [apply uniquify_nodup|apply uniquify_in].
Qed.
Print Assumptions C43_no_constants.

(** Missing: the property asks that nothing is analysed twice whatever the options are. Nothing is analysed twice if no value is given twice for one
    constant and no value is both given for a constant and the default. *)
Theorem C43_once_partial : forall required options models l, required <> [] -> NoDup required -> analyses required options models = Ok l ->
  (forall n, In n required -> NoDup (all_given options n)) ->
  (forall vs, In (".", vs) options -> NoDup vs /\ forall n v, In n required -> In v vs -> ~ values_given options n v) -> NoDup l.
Proof. exact analyses_nodup. Qed.
Print Assumptions C43_once_partial.

(** A constant without value is an error, and is the only one. *)
Theorem C43_missing : forall required options models, (analyses required options models = Err ValueError <->
    exists n, In n required /\ (forall vs, ~ In (n, vs) options) /\ (forall vs, ~ In (".", vs) options)) /\
  (forall e, analyses required options models = Err e -> e = ValueError).
Proof.
  intros required options models. split; [rewrite analyses_err; apply combinations_err|]. intros e H. unfold analyses in H.
  destruct (combinations_total required options) as [[l E]|E]; rewrite E in H; cbn in H; congruence.
Qed.
Print Assumptions C43_missing.

(** The order of the options does not matter. *)
Theorem C43_option_order : forall required options options' models, Permutation options options' -> analyses required options models = analyses required options' models.
Proof. intros required options options' models P. unfold analyses. now rewrite (combinations_order required options options' P). Qed.
Print Assumptions C43_option_order.

(** The order of the set of constants changes at most the order of the analyses. *)
Theorem C43_set_order : forall required required' options models l l', NoDup required -> Permutation required required' ->
  analyses required options models = Ok l -> analyses required' options models = Ok l' -> forall x, In x l <-> In x l'.
Proof.
  intros required required' options models l l' ND P H H' [k m]. destruct required as [|r rs].
  - apply Permutation_nil in P as ->. rewrite H in H'. injection H' as ->. reflexivity.
  - assert (ND' : NoDup required') by (apply (Permutation_NoDup P ND)).
    assert (NE' : required' <> []) by (intros ->; symmetry in P; now apply Permutation_nil in P).
    rewrite (analyses_in (r :: rs) options models l ltac:(discriminate) ND H), (analyses_in required' options models l' NE' ND' H').
    assert (A : forall f c, assignment (r :: rs) f c <-> assignment required' f c) by (intros f c; unfold assignment; now rewrite P).
    split; intros (M & f & X & R); (split; [easy|]); exists f; (split; [now apply A|]); intros n I; apply R; now rewrite P in *.
Qed.
Print Assumptions C43_set_order.

(** Every model is used once, in the order in which they are first given. *)
Theorem C43_models : forall models, NoDup (uniquify models) /\ (forall m, In m (uniquify models) <-> In m models) /\
  forall x y, x <> y -> first_before x y models -> first_before x y (uniquify models).
Proof.
  intros models. split; [apply uniquify_nodup|]. split; [apply uniquify_in|]. intros x y NE B. apply uniquify_order; auto.
Qed.
Print Assumptions C43_models.

(** Refuted: "explicit values override the default": the default is analysed, too. *)
Theorem C43_override_refuted : analyses ["N"] [(".", [10]); ("N", [20])] ["ECM"] = Ok [([("N", 10)], "ECM"); ([("N", 20)], "ECM")].
Proof. reflexivity. Qed.
Print Assumptions C43_override_refuted.
(** Refuted: "exactly once": a value given twice is analysed twice. *)
Theorem C43_once_refuted : analyses ["N"] [("N", [10]); ("N", [10])] ["ECM"] = Ok [([("N", 10)], "ECM"); ([("N", 10)], "ECM")].
Proof. reflexivity. Qed.
Print Assumptions C43_once_refuted.
(** Refuted: "all requested values": of several defaults only the largest counts, unlike several options for one constant. *)
Theorem C43_defaults_refuted : analyses ["N"] [(".", [30; 40]); (".", [10; 20])] ["ECM"] = Ok [([("N", 30)], "ECM"); ([("N", 40)], "ECM")].
Proof. reflexivity. Qed.
Print Assumptions C43_defaults_refuted.
(** Refuted: "every run analyses something or fails": with no value in the range of one constant nothing is analysed and no error is raised. *)
Theorem C43_empty_refuted : forall required options models n, NoDup required -> In n required -> (forall v, ~ requested options n v) ->
  (forall m, In m required -> exists vs, In (m, vs) options \/ In (".", vs) options) -> analyses required options models = Ok [].
Proof. exact analyses_empty. Qed.
Print Assumptions C43_empty_refuted.
(** Refuted: "the options of one command line decide": a parser used again still has the options of the command lines before. *)
Theorem C43_parser_refuted : forall first second, fst (parse (snd (parse [] first)) second) = first ++ second.
Proof. reflexivity. Qed.
Print Assumptions C43_parser_refuted.

(** ** Examples *)
Example C43_analyses_ex : analyses ["N"; "M"] [("N", [10; 20]); ("K", [7]); ("M", [1; 2])] ["ECM"; "LC"; "ECM"] =
  Ok [([("M", 1); ("N", 10)], "ECM"); ([("M", 1); ("N", 10)], "LC"); ([("M", 1); ("N", 20)], "ECM"); ([("M", 1); ("N", 20)], "LC");
      ([("M", 2); ("N", 10)], "ECM"); ([("M", 2); ("N", 10)], "LC"); ([("M", 2); ("N", 20)], "ECM"); ([("M", 2); ("N", 20)], "LC")].
Proof. reflexivity. Qed.
Example C43_no_constants_ex : analyses [] [("N", [1])] ["LC"; "LC"] = Ok [([], "LC")].
Proof. reflexivity. Qed.
Example C43_once_ex : let options := [("N", [10; 20]); ("M", [1]); (".", [5])] in
  (forall n, In n ["N"; "M"] -> NoDup (all_given options n)) /\
  (forall vs, In (".", vs) options -> NoDup vs /\ forall n v, In n ["N"; "M"] -> In v vs -> ~ values_given options n v).
Proof.
  cbv zeta. split.
  - intros n [<-|[<-|[]]]; vm_compute; repeat constructor; cbn; intuition discriminate.
  - intros vs [[=]|[[=]|[[= <-]|[]]]]. split; [repeat constructor; easy|]. intros n v N [<-|[]] (ws & I & V).
    destruct N as [<-|[<-|[]]]; destruct I as [[= <-]|[[= <-]|[[=]|[]]]]; cbn in V; intuition discriminate.
Qed.
Example C43_missing_ex : analyses ["N"; "M"] [("N", [10]); ("K", [3])] ["ECM"] = Err ValueError.
Proof. reflexivity. Qed.
Example C43_option_order_ex : analyses ["N"; "M"] [("N", [20]); ("M", [1]); ("N", [10])] ["LC"] = Ok [([("M", 1); ("N", 10)], "LC"); ([("M", 1); ("N", 20)], "LC")].
Proof. reflexivity. Qed.
Example C43_set_order_ex : analyses ["N"; "M"] [(".", [1; 2])] ["LC"] <> analyses ["M"; "N"] [(".", [1; 2])] ["LC"].
Proof. vm_compute. intros [=]. Qed.
Example C43_models_ex : uniquify ["Roofline"; "ECM"; "Roofline"; "LC"; "ECM"] = ["Roofline"; "ECM"; "LC"].
Proof. reflexivity. Qed.
Example C43_empty_ex : analyses ["N"; "M"] [("N", []); ("M", [3])] ["ECM"] = Ok [] /\ forall v, ~ requested [("N", []); ("M", [3])] "N" v.
Proof.
  split; [reflexivity|]. intros v [(vs & [[= <-]|[[=]|[]]] & V)|(vs & [[[=]|[[=]|[]]] _] & V)]. easy.
Qed.
Example C43_parser_ex : fst (parse (snd (parse [] [("N", [10])])) [("N", [20])]) = [("N", [10]); ("N", [20])].
Proof. reflexivity. Qed.
