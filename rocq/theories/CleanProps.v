(** Property C08: removal of comments and directives. *)
From Coq Require Import Ascii String.
From Verif Require Import PyBase CleanModel CleanSpec CleanProofs.
Local Open Scope char_scope.
Local Open Scope Z_scope.

(** Programs with line and block comments: exactly the comments are removed and the line breaks of
    block comments are kept, if no line comment is longer than the code in front of it, no block
    comment starts with a slash and no two comments touch ([good_document]). *)
Theorem C08_removes_comments_partial : forall d,
  wf_document d -> good_document d ->
  exists n0, forall n, (n0 <= n)%nat -> clean_code n (render d) true false false = Ok (without_comments d).
Proof. exact clean_document. Qed.
Print Assumptions C08_removes_comments_partial.

Theorem C08_line_breaks : forall d,
  wf_document d -> line_breaks (without_comments d) = line_breaks (render d).
Proof. exact cleaned_line_breaks. Qed.
Print Assumptions C08_line_breaks.

(** Programs with line comments of any length, but without block comments and [///]. *)
Theorem C08_line_comments_partial : forall code,
  no_block code -> no_triple code -> terminated code ->
  exists n0, forall n, (n0 <= n)%nat ->
    clean_code n code true false false = Ok (drop_line_comments false code).
Proof. exact clean_line_comments. Qed.
Print Assumptions C08_line_comments_partial.

Theorem C08_line_comments_breaks : forall code,
  line_breaks (drop_line_comments false code) = line_breaks code.
Proof. exact (drop_line_breaks false). Qed.
Print Assumptions C08_line_comments_breaks.

(** The second implementation ([_strip_comments]) removes line comments of all programs. *)
Theorem C08_strip_comments : forall code, strip_comments code = drop_line_comments false code.
Proof. exact strip_comments_exact. Qed.
Print Assumptions C08_strip_comments.

(** Directives: the line structure is kept; ordinary lines stay, macros go. *)
Theorem C08_directives_lines : forall fuel code m p code',
  clean_code fuel code false m p = Ok code' -> length (split_nl code') = length (split_nl code).
Proof. exact directives_lines. Qed.
Print Assumptions C08_directives_lines.

Theorem C08_ordinary_lines_kept : forall m p lines i line,
  nth_error lines i = Some line -> startswith hash (strip_ws line) = false ->
  (forall j prev, i = S j -> nth_error lines j = Some prev -> endswith_backslash (strip_ws prev) = false) ->
  nth_error (clean_lines m p false false lines) i = Some line.
Proof.
  exact (fun m p lines i line H1 H2 H3 =>
    clean_lines_keeps m p false false lines i line H1 H2
      (fun _ => conj (andb_false_r m) (andb_false_r p)) H3).
Qed.
Print Assumptions C08_ordinary_lines_kept.

Theorem C08_macros_removed : forall p lines i line,
  nth_error lines i = Some line -> startswith hash (strip_ws line) = true ->
  startswith hash_pragma (strip_ws line) = false ->
  nth_error (clean_lines true p false false lines) i = Some [].
Proof. exact (fun p => clean_lines_macro p false false). Qed.
Print Assumptions C08_macros_removed.

Theorem C08_macro_continuation_removed : forall p lines i line next,
  nth_error lines i = Some line -> startswith hash (strip_ws line) = true ->
  startswith hash_pragma (strip_ws line) = false -> endswith_backslash (strip_ws line) = true ->
  nth_error lines (S i) = Some next ->
  nth_error (clean_lines true p false false lines) (S i) = Some [].
Proof. exact (fun p => clean_lines_continued p false false). Qed.
Print Assumptions C08_macro_continuation_removed.

Theorem C08_pragmas_removed : forall m lines i line,
  nth_error lines i = Some line -> startswith hash_pragma (strip_ws line) = true ->
  nth_error (clean_lines m true false false lines) i = Some [].
Proof. exact (fun m => clean_lines_pragma m false false). Qed.
Print Assumptions C08_pragmas_removed.

(** Removing macros only (as when the benchmark program is generated) keeps pragmas. *)
Theorem C08_pragmas_kept : forall lines i line,
  nth_error lines i = Some line -> startswith hash_pragma (strip_ws line) = true ->
  (forall j prev, i = S j -> nth_error lines j = Some prev -> endswith_backslash (strip_ws prev) = false) ->
  nth_error (clean_lines true false false false lines) i = Some line.
Proof. exact (fun lines i line H1 H2 => clean_lines_pragma_kept false lines i line H1 H2 (fun _ => eq_refl)). Qed.
Print Assumptions C08_pragmas_kept.

Definition T (s : string) : text := list_ascii_of_string s.
Definition L (s : string) : text := (T s ++ [nl])%list.

(** "double a; // x", "/* long
    comment */ b = a / 2;" *)
Definition C08_doc : document :=
  (T "double a; ", [(Line (T " x"), nl :: []); (Block (T " long" ++ nl :: T "comment "), T " b = a / 2;")]).

Lemma no_occ_dec (x y : ascii) (t : text) :
  (fix f (l : text) : bool := match l with
     | c :: ((d :: _) as l') => (Ascii.eqb c x && Ascii.eqb d y) || f l' | _ => false end)%bool t = false ->
  forall a b, t <> a ++ x :: y :: b.
Proof.
  intros H a. revert t H. induction a as [|c a IH]; intros t H b E.
  - cbn in E. subst t. cbn in H. now rewrite !Ascii.eqb_refl in H.
  - destruct t as [|c' t]; [discriminate|]. cbn in E. injection E as <- E.
    refine (IH t _ b E). destruct t as [|d t]; [reflexivity|].
    apply orb_false_iff in H as [_ H]. exact H.
Qed.

Lemma code_text_intro t c :
  (forall a b, t <> a ++ "/" :: "/" :: b) -> (forall a b, t <> a ++ "/" :: "*" :: b) ->
  last t c <> "/" -> t <> [] -> code_text t.
Proof.
  intros H1 H2 H3 _. split; [assumption|split; [assumption|]]. intros a ->.
  now rewrite last_last in H3.
Qed.

Example C08_case : wf_document C08_doc /\ good_document C08_doc /\
  without_comments C08_doc = T "double a; " ++ nl :: nl :: T " b = a / 2;" /\
  clean_code 1000 (render C08_doc) true false false = Ok (without_comments C08_doc).
Proof.
  split.
  - split; [|split; [|split; [|split; [|split; [|exact I]]]]].
    + apply (code_text_intro _ " "); [apply no_occ_dec; reflexivity|apply no_occ_dec; reflexivity|discriminate|discriminate].
    + split; [vm_compute; intuition discriminate|now exists []].
    + apply (code_text_intro _ " "); [apply no_occ_dec; reflexivity|apply no_occ_dec; reflexivity|discriminate|discriminate].
    + intros x y; apply no_occ_dec; reflexivity.
    + apply (code_text_intro _ " "); [apply no_occ_dec; reflexivity|apply no_occ_dec; reflexivity|discriminate|discriminate].
  - split; [|split; vm_compute; reflexivity].
    split; [cbn; lia|]. split; [|exact I]. split; [discriminate|left; discriminate].
Qed.

(** A long header comment followed by code, without block comments. *)
Example C08_case_lines : exists code,
  no_block code /\ no_triple code /\ terminated code /\
  clean_code 1000 code true false false = Ok (nl :: L "a = b / c; ").
Proof.
  exists (L "// a comment longer than the code before it" ++ L "a = b / c; // second").
  split; [intros x y; apply no_occ_dec; reflexivity|]. split.
  - intros a b E. revert E. change ("/" :: "/" :: "/" :: b)%list with (["/"] ++ "/" :: "/" :: b)%list.
    rewrite app_assoc.
    assert (H : forall l, l <> (a ++ ["/"]) ++ "/" :: "/" :: b \/ l = (a ++ ["/"]) ++ "/" :: "/" :: b).
    { intros l. destruct (list_eq_dec ascii_dec l ((a ++ ["/"]) ++ "/" :: "/" :: b)); auto. }
    clear H. intros E.
    assert (Hc : forall l : text, (fix f (l : text) : bool := match l with
       | c :: ((d :: ((e :: _) as l2)) as l') => (Ascii.eqb c "/" && Ascii.eqb d "/" && Ascii.eqb e "/") || f l'
       | _ => false end)%bool l = false -> forall a b, l <> a ++ "/" :: "/" :: "/" :: b).
    { clear. intros l H a. revert l H. induction a as [|c a IH]; intros l H b E.
      - cbn in E. subst l. cbn in H. discriminate.
      - destruct l as [|c' l]; [discriminate|]. cbn in E. injection E as <- E.
        refine (IH l _ b E). destruct l as [|d [|e l]]; [reflexivity|reflexivity|].
        apply orb_false_iff in H as [_ H]. exact H. }
    rewrite <- app_assoc in E. revert E. apply Hc. reflexivity.
  - split; [|vm_compute; reflexivity].
    intros a b E. assert (Hl : last (a ++ "/" :: "/" :: b) " " = nl) by now rewrite <- E.
    change ("/" :: "/" :: b)%list with (["/"; "/"] ++ b)%list in Hl.
    destruct (exists_last (l := "/" :: b)) as (u & v & Huv); [discriminate|].
    destruct b as [|b0 b]; [exfalso; rewrite app_assoc, app_nil_r in Hl;
      change (a ++ ["/"; "/"])%list with (a ++ ["/"] ++ ["/"])%list in Hl;
      rewrite app_assoc, last_last in Hl; discriminate|].
    destruct (exists_last (l := b0 :: b)) as (u' & v' & Huv'); [discriminate|].
    rewrite Huv' in Hl |- *. rewrite !app_assoc, last_last in Hl. subst v'. apply in_or_app. right. now left.
Qed.

Example C08_case_directives :
  clean_lines true false false false [T "#define N \"; T " 5"; T "  #pragma omp"; T "a;"]
  = [[]; []; T "  #pragma omp"; T "a;"] /\
  clean_lines false true false false [T "#define N \"; T " 5"; T "  #pragma omp"; T "a;"]
  = [T "#define N \"; T " 5"; []; T "a;"].
Proof. split; vm_compute; reflexivity. Qed.

(** ** Violations of the full property *)

(** A line comment at the end of the text leaves its last character behind. *)
Theorem C08_unterminated_refuted :
  clean_code 100 (T "a;//bc") true false false = Ok (T "a;c") /\
  drop_line_comments false (T "a;//bc") = T "a;".
Proof. split; vm_compute; reflexivity. Qed.
Print Assumptions C08_unterminated_refuted.

(** Of two touching block comments the second one stays. *)
Theorem C08_adjacent_refuted : exists d, wf_document d /\
  clean_code 100 (render d) true false false = Ok (T "/*b*/ c") /\ without_comments d = T " c".
Proof.
  exists ([], [(Block (T "a"), []); (Block (T "b"), T " c")]). split; [|split; vm_compute; reflexivity].
  split; [repeat split; intros [|? ?]; discriminate|].
  split; [intros x y; apply no_occ_dec; reflexivity|]. split; [repeat split; intros [|? ?]; discriminate|].
  split; [intros x y; apply no_occ_dec; reflexivity|]. split; [|exact I].
  apply (code_text_intro _ " "); [apply no_occ_dec; reflexivity|apply no_occ_dec; reflexivity|discriminate|discriminate].
Qed.
Print Assumptions C08_adjacent_refuted.

(** After a line comment longer than the code in front of it the scan continues with a negative
    index, possibly inside a later comment: here the URL in a block comment swallows a declaration. *)
Theorem C08_lost_code_refuted : exists d, wf_document d /\
  without_comments d = nl :: L " double a;" /\
  clean_code 1000 (render d) true false false = Ok (nl :: L "/* http:").
Proof.
  exists ([], [(Line (T " 3D long-range stencil"), [nl]); (Block (T " http://x.de "), L " double a;")]).
  split; [|split; vm_compute; reflexivity].
  split; [repeat split; intros [|? ?]; discriminate|].
  split; [split; [vm_compute; intuition discriminate|now eexists]|].
  split; [apply (code_text_intro _ " "); [apply no_occ_dec; reflexivity|apply no_occ_dec; reflexivity|discriminate|discriminate]|].
  split; [intros x y; apply no_occ_dec; reflexivity|]. split; [|exact I].
  apply (code_text_intro _ " "); [apply no_occ_dec; reflexivity|apply no_occ_dec; reflexivity|discriminate|discriminate].
Qed.
Print Assumptions C08_lost_code_refuted.

(** White space at both ends is removed, and nothing else: what is compared with # and the backslash is the line from its first to its last character that is
    not white space. *)
Theorem C08_strip : forall l, exists a b, l = (a ++ strip_ws l ++ b)%list /\ Forall white_space a /\ Forall white_space b /\
  (forall c m, strip_ws l = c :: m -> ~ white_space c) /\ (forall c m, strip_ws l = (m ++ [c])%list -> ~ white_space c).
Proof. exact strip_spec. Qed.
Theorem C08_backslash : forall l, endswith_backslash l = true <-> exists m, l = (m ++ ["\"%char])%list.
Proof. exact endswith_spec. Qed.
Print Assumptions C08_strip.
Print Assumptions C08_backslash.
Example C08_strip_case : strip_ws (" " :: "009" :: T "#define A \" ++ [" "; "013"])%char%list = T "#define A \" /\ endswith_backslash (T "#define A \") = true
  /\ endswith_backslash [] = false.
Proof. repeat split. Qed.
