(** C119: settings of the models are the given ones *)
From Coq Require Import Lia.
From Verif Require Import PyBase PyText PyFloat ArgsModel ArgsProps OmpModel OmpProofs InitModel InitSpec InitProofs.
Local Open Scope string_scope.
Local Open Scope list_scope.

(** ** With parsed arguments *)
(** The settings are those of the arguments, whatever the keywords are; what is no predictor, block or increment is an error. *)
Theorem C119_arguments_decide : forall a,
  (forall cores p verbose d, data_init (Some a) cores p verbose = Ok d <-> exists q, predictor_name (a_predictor a) q /\ d = mkData (a_cores a) q (a_cores a) (a_verbose a))
  /\ (forall cores p verbose, (forall q, ~ predictor_name (a_predictor a) q) -> data_init (Some a) cores p verbose = Err NotImplementedError)
  /\ (forall parser b i verbose c, cpu_init (Some a) parser b i verbose = Ok c <->
        word_or_number block_words (a_asm_block a) (c_asm_block c) /\ word_or_number increment_words (a_increment a) (c_increment c) /\ c_verbose c = a_verbose a)
  /\ (forall b i verbose, (forall r r', word_or_number block_words (a_asm_block a) r -> word_or_number increment_words (a_increment a) r' -> False) ->
        cpu_init (Some a) true b i verbose = Err SystemExit)
  /\ (forall words x r r', word_or_number words x r -> word_or_number words x r' -> r = r').
Proof.
  intros a. split; [intros; apply data_args|]. split; [intros; now apply data_args_error|]. split; [intros; apply cpu_args|].
  split; [intros; now apply cpu_error|]. exact word_number_unique.
Qed.
(** Both parts of a combined model get the same arguments, and the analysis of the code is asked for with them. *)
Theorem C119_parts_agree : forall a parser b i cores p verbose,
  (forall e, ecm_init (Some a) parser b i cores p verbose = Ok e <->
     cpu_init (Some a) parser b i verbose = Ok (e_cpu e) /\ data_init (Some a) cores p verbose = Ok (e_data e) /\ e_verbose e = a_verbose a)
  /\ (forall d c, roofline_asm_init (Some a) parser b i cores p verbose = Ok (d, c) <->
     cpu_init (Some a) parser b i verbose = Ok c /\ data_init (Some a) cores p verbose = Ok d)
  /\ (forall c, incore_call (Some a) c = Ok (c_asm_block c, c_increment c, a_incore a)).
Proof.
  intros. split; [|split; [|reflexivity]].
  - intros e. unfold ecm_init. destruct (cpu_init (Some a) parser b i verbose) as [c|]; cbn [bind]; [|split; [discriminate|intros (? & _); discriminate]].
    change (data_init (Some a) cores SIM verbose) with (data_init (Some a) cores p verbose).
    destruct (data_init (Some a) cores p verbose) as [d|]; cbn [bind]; [|split; [discriminate|intros (_ & ? & _); discriminate]].
    split; [intros H; injection H as <-; repeat split|]. intros (A & B & V). injection A as ->. injection B as ->. destruct e. cbn in *. now subst.
  - intros d c. unfold roofline_asm_init. destruct (data_init (Some a) cores p verbose) as [d'|]; cbn [bind]; [|split; [discriminate|intros (_ & ?); discriminate]].
    change (cpu_init (Some a) parser b i (d_verbose d')) with (cpu_init (Some a) parser b i verbose).
    destruct (cpu_init (Some a) parser b i verbose) as [c'|]; cbn [bind]; [|split; [discriminate|intros (? & _); discriminate]].
    split; [intros H; now injection H as <- <-|]. intros (A & B). congruence.
Qed.
(** From the texts of the options: the block is the one written, and the increment is the word or number written; other texts end the program. *)
Theorem C119_command_line : forall written_block written_increment block a b i verbose,
  check_asm_block written_block = Ok block -> a_asm_block a = shown_block block -> a_increment a = int_or_str written_increment ->
  ((In written_increment (map codes increment_words) \/ py_int written_increment <> None) ->
     cpu_init (Some a) true b i verbose = Ok (mkCpu (shown_block block) (int_or_str written_increment) (a_verbose a)))
  /\ (~ In written_increment (map codes increment_words) -> py_int written_increment = None -> cpu_init (Some a) true b i verbose = Err SystemExit).
Proof.
  intros sb sp block a b i verbose _ B P. split.
  - intros V. apply cpu_args. cbn. rewrite B, P. split; [apply shown_valid|]. split; [|reflexivity]. unfold int_or_str. destruct (py_int sp) eqn:E; [constructor|].
    destruct V as [V|V]; [|congruence]. apply in_map_iff in V as (w & <- & I). now apply a_word.
  - intros N E. apply cpu_error. intros r r' _ H. rewrite P in H. unfold int_or_str in H. rewrite E in H. inversion H as [w I E1|z E1|s z N1 P1 E1]; subst.
    + apply N. now apply in_map.
    + congruence.
Qed.
(** Measurements: the phenomenological model is left out if asked for, with more than one core or (one of the two classes) if the mark is found; the run ends if the machine is another one. *)
Theorem C119_measurements : forall a no_phenoecm verbose overlapping nonoverlapping current_system,
  (forall m, bench_init (Some a) no_phenoecm verbose overlapping nonoverlapping current_system = Ok m <->
     (current_system = true \/ a_ignore_warnings a = true) /\ b_verbose m = a_verbose a /\ b_iterations m = a_iterations a
     /\ (b_no_phenoecm m = true <-> a_no_phenoecm a = true \/ (1 < a_cores a)%Z \/ exists x y, overlapping ++ nonoverlapping = x ++ codes "INFORAMTION_REQUIRED" ++ y))
  /\ (forall m, standalone_init (Some a) no_phenoecm verbose current_system = Ok m <->
     (current_system = true \/ a_ignore_warnings a = true) /\ b_verbose m = a_verbose a /\ b_iterations m = 10%Z
     /\ (b_no_phenoecm m = true <-> a_no_phenoecm a = true \/ (1 < a_cores a)%Z))
  /\ (current_system = false -> a_ignore_warnings a = false ->
     bench_init (Some a) no_phenoecm verbose overlapping nonoverlapping current_system = Err SystemExit /\ standalone_init (Some a) no_phenoecm verbose current_system = Err SystemExit).
Proof.
  intros a n v o o' cur.
  assert (S : forall (x : bool) vb it m, (x = true <-> b_no_phenoecm m = true) -> (Ok (mkBench x vb it) = Ok m <-> b_verbose m = vb /\ b_iterations m = it)).
  { intros x vb it [mn mv mi] H. cbn in *. split; [intros E; now injection E as -> -> ->|]. intros (-> & ->). destruct x, mn; try reflexivity; exfalso; destruct H as (H1 & H2); [discriminate (H1 eq_refl)|discriminate (H2 eq_refl)]. }
  split; [|split].
  - intros m. unfold bench_init.
    pose proof (contains_spec missing_mark (o ++ o')) as C. set (f := contains missing_mark (o ++ o')) in *.
    set (x := if (Z.ltb 1 (a_cores a) && negb (a_no_phenoecm a))%bool then true else if f then true else a_no_phenoecm a).
    assert (X : x = true <-> a_no_phenoecm a = true \/ (1 < a_cores a)%Z \/ exists y z, o ++ o' = y ++ codes "INFORAMTION_REQUIRED" ++ z).
    { unfold x. change (codes "INFORAMTION_REQUIRED") with missing_mark. rewrite <- C. destruct (a_no_phenoecm a); rewrite ?Bool.andb_false_r, ?Bool.andb_true_r; cbn [negb].
      - rewrite ?Bool.andb_false_r. destruct f; tauto.
      - rewrite ?Bool.andb_true_r. destruct (Z.ltb_spec 1 (a_cores a)); [tauto|]. destruct f; [tauto|]. split; [discriminate|]. intros [E|[E|E]]; [discriminate|lia|discriminate]. }
    destruct (cur || a_ignore_warnings a)%bool eqn:W.
    + apply Bool.orb_true_iff in W. split.
      * intros E. injection E as <-. cbn. tauto.
      * intros (_ & V & I & N). rewrite (S x); [tauto|]. tauto.
    + apply Bool.orb_false_iff in W as (-> & ->). split; [discriminate|]. intros ([E|E] & _); discriminate.
  - intros m. unfold standalone_init.
    set (x := if (Z.ltb 1 (a_cores a) && negb (a_no_phenoecm a))%bool then true else a_no_phenoecm a).
    assert (X : x = true <-> a_no_phenoecm a = true \/ (1 < a_cores a)%Z).
    { unfold x. destruct (a_no_phenoecm a); cbn [negb].
      - rewrite ?Bool.andb_false_r. tauto.
      - rewrite ?Bool.andb_true_r. destruct (Z.ltb_spec 1 (a_cores a)); [tauto|]. split; [discriminate|]. intros [E|E]; [discriminate|lia]. }
    destruct (cur || a_ignore_warnings a)%bool eqn:W.
    + apply Bool.orb_true_iff in W. split.
      * intros E. injection E as <-. cbn. tauto.
      * intros (_ & V & I & N). rewrite (S x); [tauto|]. tauto.
    + apply Bool.orb_false_iff in W as (-> & ->). split; [discriminate|]. intros ([E|E] & _); discriminate.
  - intros -> W. unfold bench_init, standalone_init. rewrite W. now split.
Qed.

(** ** Without parsed arguments *)
(** "If args is None, the keywords will be used" holds for the data models, and for the others as long as the keywords are the words: integers are no error of the caller. *)
Theorem C119_keywords_partial : forall cores p verbose parser b i,
  data_init None cores p verbose = Ok (mkData cores p cores verbose)
  /\ (forall w w', In w block_words -> In w' increment_words -> b = IsText (codes w) -> i = IsText (codes w') ->
        cpu_init None parser b i verbose = Ok (mkCpu b i verbose)
        /\ ecm_init None parser b i cores SIM verbose = Ok (mkEcm verbose (mkCpu b i verbose) (mkData cores SIM cores verbose))
        /\ roofline_asm_init None parser b i cores p verbose = Ok (mkData cores p cores verbose, mkCpu b i verbose)).
Proof.
  intros. split; [reflexivity|]. intros w w' W W' -> ->.
  assert (C : cpu_init None parser (IsText (codes w)) (IsText (codes w')) verbose = Ok (mkCpu (IsText (codes w)) (IsText (codes w')) verbose)).
  { unfold cpu_init. rewrite !validate_none.
    replace (is_name block_names (IsText (codes w))) with true by (symmetry; apply is_name_spec; eauto).
    replace (is_name increment_names (IsText (codes w'))) with true by (symmetry; apply is_name_spec; eauto). reflexivity. }
  split; [exact C|]. split.
  - unfold ecm_init. rewrite C. reflexivity.
  - unfold roofline_asm_init, data_init. cbn [bind d_verbose]. rewrite C. reflexivity.
Qed.
(** Integers, which are allowed for both, are an error without parsed arguments. *)
Theorem C119_integer_keywords_refuted : forall parser verbose z b i,
  cpu_init None parser (IsInt z) i verbose = Err AttributeError
  /\ cpu_init None parser b (IsInt z) verbose = Err AttributeError.
Proof.
  intros. unfold cpu_init. rewrite !validate_none. split; [reflexivity|]. destruct (is_name block_names b); reflexivity.
Qed.
(** The predictor given to the ECM model is never used. *)
Theorem C119_ecm_predictor_refuted : forall parser b i cores p verbose e,
  ecm_init None parser b i cores p verbose = Ok e -> d_predictor (e_data e) = SIM.
Proof.
  intros parser b i cores p verbose e. unfold ecm_init. destruct (cpu_init None parser b i verbose); cbn [bind]; [|discriminate].
  cbn. intros H. now injection H as <-.
Qed.
(** The in-core analysis fails without parsed arguments, and so does making the measuring models. *)
Theorem C119_analysis_without_arguments_refuted : forall c n verbose o o' cur,
  incore_call None c = Err AttributeError /\ bench_init None n verbose o o' cur = Err AttributeError /\ standalone_init None n verbose cur = Err AttributeError.
Proof. repeat split. Qed.

(** ** Incomplete descriptions *)
(** A metric which still has to be filled in does not turn the phenomenological model off. *)
Theorem C119_incomplete_refuted : exists a overlapping nonoverlapping m,
  to_be_filled_in overlapping /\ to_be_filled_in nonoverlapping
  /\ bench_init (Some a) false 0 overlapping nonoverlapping true = Ok m /\ b_no_phenoecm m = false.
Proof.
  exists (mkArgs 0 1 (codes "SIM") (IsText (codes "auto")) (IsText (codes "auto")) (codes "OSACA") false 10 false),
    (codes "INFORMATION_REQUIRED Example:max(UOPS_DISPATCHED_PORT_PORT_0__PMC2)"), (codes "INFORMATION_REQUIRED Example:max(UOPS_DISPATCHED_PORT_PORT_0__PMC2)").
  eexists. split; [eexists; reflexivity|]. split; [eexists; reflexivity|]. split; vm_compute; reflexivity.
Qed.

(** ** Examples *)
Definition some_args := mkArgs 1 4 (codes "LC") (IsInt 2) (IsText (codes "auto_with_manual_fallback")) (codes "OSACA") false 10 true.
Example C119_example :
  ecm_init (Some some_args) true (IsText (codes "auto")) (IsText (codes "auto")) 1 SIM 0
    = Ok (mkEcm 1 (mkCpu (IsInt 2) (IsText (codes "auto_with_manual_fallback")) 1) (mkData 4 LCP 4 1))
  /\ ecm_init None false (IsText (codes "auto")) (IsText (codes "auto")) 2 LCP 0 = Ok (mkEcm 0 (mkCpu (IsText (codes "auto")) (IsText (codes "auto")) 0) (mkData 2 SIM 2 0))
  /\ bench_init (Some some_args) false 0 (codes "x") (codes "y") false = Ok (mkBench true 1 10).
Proof. repeat split; vm_compute; reflexivity. Qed.
(** [C119_command_line] applied to "-b 2 --pointer-increment auto_with_manual_fallback" and to a wrong increment *)
Example C119_line_example :
  cpu_init (Some some_args) true (IsText []) (IsText []) 0 = Ok (mkCpu (IsInt 2) (IsText (codes "auto_with_manual_fallback")) 1)
  /\ cpu_init (Some (mkArgs 0 1 (codes "SIM") (IsText (codes "auto")) (int_or_str (codes "eight")) [] false 10 false)) true (IsText []) (IsText []) 0 = Err SystemExit.
Proof.
  split.
  - apply (proj1 (C119_command_line (codes "2") (codes "auto_with_manual_fallback") (Number 2) some_args (IsText []) (IsText []) 0 eq_refl eq_refl eq_refl)).
    left. cbn. auto.
  - apply (proj2 (C119_command_line (codes "auto") (codes "eight") Auto (mkArgs 0 1 (codes "SIM") (IsText (codes "auto")) (int_or_str (codes "eight")) [] false 10 false) (IsText []) (IsText []) 0 eq_refl eq_refl eq_refl)); [|reflexivity].
    intros [E|[E|[E|[]]]]; discriminate E.
Qed.

Print Assumptions C119_arguments_decide.
Print Assumptions C119_parts_agree.
Print Assumptions C119_command_line.
Print Assumptions C119_measurements.
Print Assumptions C119_keywords_partial.
Print Assumptions C119_integer_keywords_refuted.
Print Assumptions C119_ecm_predictor_refuted.
Print Assumptions C119_analysis_without_arguments_refuted.
Print Assumptions C119_incomplete_refuted.
