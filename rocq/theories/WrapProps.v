(** C147: the text that is parsed is the text of the kernel. *)
From Coq Require Import Ascii String.
From Verif Require Import PyBase CleanModel WrapModel WrapSpec WrapProofs.
Local Open Scope char_scope.
Local Open Scope Z_scope.

(** Comments are removed from the code only, and the parser finds each line of the code under its own number, unless the code has line directives. *)
Theorem C147_lines : forall code, (forall l, In l (split_nl code) -> directive (cut_line l) = None) ->
  reported 1 (split_nl (parsed_text code)) = [(0, str "void test() {")] ++ count_from 1 (map cut_line (split_nl code)) ++ [(999, str "}")].
Proof.
  intros code H. rewrite parsed. rewrite !split_nl_both, split_strip. change (split_nl (str "#line 0 ")) with [str "#line 0 "].
  change (split_nl (str "void test() {")) with [str "void test() {"]. change (split_nl (str "#line 1 ")) with [str "#line 1 "]. change (split_nl (str "#line 999 ")) with [str "#line 999 "]. change (split_nl (str "}")) with [str "}"].
  cbn [app]. change (reported 1 (str "#line 0 " :: str "void test() {" :: str "#line 1 " :: map cut_line (split_nl code) ++ [str "#line 999 "; str "}"]))
    with ((0, str "void test() {") :: reported 1 (map cut_line (split_nl code) ++ [str "#line 999 "; str "}"])). apply f_equal.
  rewrite reported_plain; [reflexivity|]. intros x I. apply in_map_iff in I. destruct I as (l & <- & I). now apply H.
Qed.
Print Assumptions C147_lines.
Definition small : text := str "double a[N]; // array" ++ nl :: nl :: str "for(int i=0; i<N; ++i) { a[i] = 1.0; }".
Example C147_lines_example : (forall l, In l (split_nl small) -> directive (cut_line l) = None) /\
  reported 1 (split_nl (parsed_text small)) = [(0, str "void test() {"); (1, str "double a[N]; "); (2, []); (3, str "for(int i=0; i<N; ++i) { a[i] = 1.0; }"); (999, str "}")].
Proof. split; [|reflexivity]. intros l H. cbn in H. repeat destruct H as [<-|H]; try reflexivity. destruct H. Qed.

(** If braces match, the whole code is the body of the function that is analysed. *)
Theorem C147_body_partial : forall code, balanced (strip_comments code) ->
  first_body (parsed_text code) = Some (nl :: str "#line 1 " ++ nl :: strip_comments code ++ nl :: str "#line 999 " ++ [nl]).
Proof.
  intros code B. rewrite body_start, upto_balanced by exact B. cbn [str list_ascii_of_string app upto Ascii.eqb nl option_map start]. cbn. reflexivity.
Qed.
Print Assumptions C147_body_partial.
Lemma balanced_plain a : forallb (fun c => negb (Ascii.eqb c "{" || Ascii.eqb c "}")) a = true -> forall t, balanced t -> balanced (a ++ t).
Proof.
  induction a as [|c a IH]; intros H t B; [exact B|]. cbn in H. apply andb_prop in H. destruct H as [H1 H2]. cbn. apply bal_char; [| |now apply IH]; intros ->; discriminate.
Qed.
Example C147_body_example : balanced (strip_comments small).
Proof.
  change (strip_comments small) with ((str "double a[N]; " ++ nl :: nl :: str "for(int i=0; i<N; ++i) ") ++ "{" :: str " a[i] = 1.0; " ++ "}" :: []).
  apply balanced_plain; [reflexivity|]. apply bal_block; [|constructor]. rewrite <- (app_nil_r (str " a[i] = 1.0; ")). apply balanced_plain; [reflexivity|constructor].
Qed.

(** A superfluous closing brace ends the function: whatever follows is not analysed, and nothing tells. *)
Theorem C147_rest_refuted : forall code a rest, strip_comments code = a ++ "}" :: rest -> balanced a ->
  first_body (parsed_text code) = Some (nl :: str "#line 1 " ++ nl :: a).
Proof.
  intros code a rest E B. rewrite body_start, E, <- app_assoc, upto_balanced by exact B. cbn [app upto]. change (Ascii.eqb "}" "}") with true. cbv iota. cbn. now rewrite app_nil_r.
Qed.
Print Assumptions C147_rest_refuted.
Example C147_rest_example : strip_comments (str "a[0] = 1; } void other() { b[0] = 2;") = str "a[0] = 1; " ++ "}" :: str " void other() { b[0] = 2;" /\ balanced (str "a[0] = 1; ")
  /\ first_body (parsed_text (str "a[0] = 1; } void other() { b[0] = 2;")) = first_body (parsed_text (str "a[0] = 1; } void other() { c[0] = 3;")).
Proof. split; [reflexivity|]. split; [|vm_compute; reflexivity]. rewrite <- (app_nil_r (str "a[0] = 1; ")). apply balanced_plain; [reflexivity|constructor]. Qed.
(** Line directives in the code change the numbers of the lines after them. *)
Theorem C147_directive_refuted : reported 1 (split_nl (parsed_text (str "#line 7 " ++ nl :: str "x;"))) = [(0, str "void test() {"); (7, str "x;"); (999, str "}")].
Proof. reflexivity. Qed.
Print Assumptions C147_directive_refuted.
