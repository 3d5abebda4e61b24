(** Proofs about the settings of models *)
From Coq Require Import Lia.
From Verif Require Import PyBase PyText PyFloat ArgsModel OmpModel InitModel InitSpec.
Local Open Scope string_scope.
Local Open Scope list_scope.

Lemma is_name_spec names v : is_name names v = true <-> exists w, In w names /\ v = IsText (codes w).
Proof.
  unfold is_name. destruct v as [z|s].
  - split; [discriminate|]. intros (w & _ & E). discriminate.
  - rewrite existsb_exists. split.
    + intros (w & I & E). exists w. split; [exact I|]. destruct (text_eqb_spec s (codes w)); [now subst|discriminate].
    + intros (w & I & E). exists w. split; [exact I|]. injection E as ->. destruct (text_eqb_spec (codes w) (codes w)); [reflexivity|congruence].
Qed.
Lemma data_args a c p v d : data_init (Some a) c p v = Ok d <-> exists q, predictor_name (a_predictor a) q /\ d = mkData (a_cores a) q (a_cores a) (a_verbose a).
Proof.
  unfold data_init. destruct (text_eqb_spec (a_predictor a) (codes "SIM")) as [E|N]; [|destruct (text_eqb_spec (a_predictor a) (codes "LC")) as [E|N']].
  - rewrite E. split; [intros H; injection H as <-; exists SIM; split; [constructor|reflexivity]|]. intros (q & P & ->). inversion P; subst; reflexivity.
  - rewrite E. split; [intros H; injection H as <-; exists LCP; split; [constructor|reflexivity]|]. intros (q & P & ->). inversion P; subst; reflexivity.
  - split; [discriminate|]. intros (q & P & _). inversion P as [H1 H2|H1 H2]; exfalso; [apply N|apply N']; symmetry; exact H1.
Qed.
Lemma data_args_error a c p v : (forall q, ~ predictor_name (a_predictor a) q) -> data_init (Some a) c p v = Err NotImplementedError.
Proof.
  intros N. unfold data_init. destruct (text_eqb_spec (a_predictor a) (codes "SIM")) as [E|_]; [exfalso; apply (N SIM); rewrite E; constructor|].
  destruct (text_eqb_spec (a_predictor a) (codes "LC")) as [E|_]; [exfalso; apply (N LCP); rewrite E; constructor|reflexivity].
Qed.
Lemma validate_args a parser names option_of r : validate (Some a) parser names (option_of a) option_of = Ok r <-> word_or_number names (option_of a) r.
Proof.
  unfold validate. destruct (is_name names (option_of a)) eqn:E.
  - apply is_name_spec in E as (w & I & E). rewrite E. split; [intros H; injection H as <-; now constructor|].
    intros H. inversion H as [w' I' E1 E2|z E1|s z N P E1]; subst; [congruence|]. exfalso. apply N. now apply in_map.
  - assert (N : ~ exists w, In w names /\ option_of a = IsText (codes w)) by (rewrite <- is_name_spec; congruence).
    destruct (option_of a) as [z|s]; cbn [int_of].
    + split; [intros H; injection H as <-; constructor|]. intros H. now inversion H.
    + assert (N' : ~ In s (map codes names)) by (intros I; apply in_map_iff in I as (w & <- & I); apply N; eauto).
      destruct (py_int s) as [z|] eqn:P.
      * split; [intros H; injection H as <-; now constructor|]. intros H. inversion H as [w' I' E1 E2|z' E1|s' z' N1 P1 E1]; subst; [exfalso; apply N'; now apply in_map|congruence].
      * split; [discriminate|]. intros H. inversion H as [w' I' E1 E2|z' E1|s' z' N1 P1 E1]; subst; [exfalso; apply N'; now apply in_map|congruence].
Qed.
Lemma validate_error a parser names option_of : (forall r, ~ word_or_number names (option_of a) r) ->
  validate (Some a) parser names (option_of a) option_of = Err (if parser then SystemExit else AttributeError).
Proof.
  intros N. destruct (validate (Some a) parser names (option_of a) option_of) as [r|x] eqn:E; [apply validate_args in E; now apply N in E|].
  unfold validate in E. destruct (is_name names (option_of a)); [discriminate|]. destruct (int_of (option_of a)); [discriminate|]. now injection E as <-.
Qed.
Lemma validate_none parser names v option_of : validate None parser names v option_of = if is_name names v then Ok v else Err AttributeError.
Proof. reflexivity. Qed.
Lemma cpu_args a parser b i v c : cpu_init (Some a) parser b i v = Ok c <->
  word_or_number block_words (a_asm_block a) (c_asm_block c) /\ word_or_number increment_words (a_increment a) (c_increment c) /\ c_verbose c = a_verbose a.
Proof.
  unfold cpu_init. change block_names with block_words. change increment_names with increment_words. destruct (validate (Some a) parser block_words (a_asm_block a) a_asm_block) as [b'|] eqn:B; cbn [bind].
  - destruct (validate (Some a) parser increment_words (a_increment a) a_increment) as [i'|] eqn:I; cbn [bind].
    + split.
      * intros H. injection H as <-. cbn. split; [now apply (validate_args a parser)|]. split; [now apply (validate_args a parser)|reflexivity].
      * intros (W1 & W2 & V). apply (validate_args a parser) in W1, W2. destruct c as [cb ci cv]. cbn in *. congruence.
    + split; [discriminate|]. intros (_ & W & _). apply (validate_args a parser) in W. congruence.
  - split; [discriminate|]. intros (W & _). apply (validate_args a parser) in W. congruence.
Qed.
Lemma word_number_unique words x r r' : word_or_number words x r -> word_or_number words x r' -> r = r'.
Proof.
  intros A B. destruct A; inversion B; subst; try reflexivity; try congruence; exfalso; match goal with H : ~ In _ (map codes _) |- _ => apply H; now apply in_map end.
Qed.
Lemma cpu_error a b i v : (forall r r', word_or_number block_words (a_asm_block a) r -> word_or_number increment_words (a_increment a) r' -> False) ->
  cpu_init (Some a) true b i v = Err SystemExit.
Proof.
  intros N. destruct (cpu_init (Some a) true b i v) as [c|x] eqn:E; [apply cpu_args in E as (A & B & _); exfalso; now apply (N _ _ A B)|].
  unfold cpu_init, validate in E. destruct (is_name block_names (a_asm_block a)); cbn [bind] in E.
  - destruct (is_name increment_names (a_increment a)); [discriminate|]. destruct (int_of (a_increment a)); [discriminate|]. now injection E as <-.
  - destruct (int_of (a_asm_block a)); cbn [bind] in E; [|now injection E as <-].
    destruct (is_name increment_names (a_increment a)); [discriminate|]. destruct (int_of (a_increment a)); [discriminate|]. now injection E as <-.
Qed.
Lemma shown_valid b : word_or_number block_words (shown_block b) (shown_block b).
Proof. destruct b; cbn; [apply (a_word _ "auto"); left|apply (a_word _ "manual"); right; left|apply a_number]; reflexivity. Qed.
