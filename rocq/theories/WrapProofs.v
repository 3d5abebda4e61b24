(** Proofs about the text that is parsed. *)
From Coq Require Import Ascii String.
From Verif Require Import PyBase CleanModel CleanSpec CleanProofs WrapModel WrapSpec.
Local Open Scope char_scope.
Local Open Scope Z_scope.

Lemma split_nl_both a b : split_nl (a ++ nl :: b) = split_nl a ++ split_nl b.
Proof.
  induction a as [|c a IH]; [reflexivity|]. cbn [app split_nl]. destruct (Ascii.eqb c nl); [now rewrite IH|]. rewrite IH. destruct (split_join a) as [_ N]. destruct (split_nl a); [congruence|reflexivity].
Qed.
Lemma join_nl_both a b : a <> [] -> b <> [] -> join_nl (a ++ b) = join_nl a ++ nl :: join_nl b.
Proof.
  intros A B. induction a as [|x a IH]; [congruence|]. destruct a as [|y a].
  - cbn [app]. destruct b as [|z b]; [congruence|]. reflexivity.
  - change (join_nl ((x :: y :: a) ++ b)) with (x ++ nl :: join_nl ((y :: a) ++ b)). rewrite IH by discriminate. change (join_nl (x :: y :: a)) with (x ++ nl :: join_nl (y :: a)). now rewrite <- app_assoc.
Qed.
Lemma strip_both a b : strip_comments (a ++ nl :: b) = strip_comments a ++ nl :: strip_comments b.
Proof.
  unfold strip_comments. rewrite split_nl_both, map_app. apply join_nl_both; intros E; apply map_eq_nil in E; [now apply (split_join a)|now apply (split_join b)].
Qed.
Lemma parsed code : parsed_text code =
  str "#line 0 " ++ nl :: str "void test() {" ++ nl :: str "#line 1 " ++ nl :: strip_comments code ++ nl :: str "#line 999 " ++ nl :: str "}".
Proof.
  unfold parsed_text, as_function.
  change (str "#line 0 " ++ nl :: str "void " ++ str "test" ++ str "() {" ++ nl :: str "#line 1 " ++ nl :: code ++ nl :: str "#line 999 " ++ nl :: str "}")
    with (str "#line 0 " ++ nl :: (str "void test() {" ++ nl :: (str "#line 1 " ++ nl :: (code ++ nl :: (str "#line 999 " ++ nl :: str "}"))))).
  rewrite !strip_both. reflexivity.
Qed.

Lemma cut_line_no_nl l : ~ In nl l -> ~ In nl (cut_line l).
Proof.
  induction l as [|c [|d l] IH]; intros H; [exact H|exact H|]. change (cut_line (c :: d :: l)) with (if (Ascii.eqb c "/" && Ascii.eqb d "/")%bool then [] else c :: cut_line (d :: l)).
  destruct (_ && _)%bool; [intros []|]. intros [E|E]; [apply H; now left|]. apply IH; [|exact E]. intros I. apply H. now right.
Qed.
Lemma split_strip code : split_nl (strip_comments code) = map cut_line (split_nl code).
Proof.
  unfold strip_comments. apply join_split.
  - intros E. apply map_eq_nil in E. now apply (split_join code).
  - apply Forall_forall. intros w I. apply in_map_iff in I. destruct I as (x & <- & I). apply cut_line_no_nl. now apply split_no_nl in I.
Qed.
Lemma reported_plain l : (forall x, In x l -> directive x = None) -> forall n r, reported n (l ++ r) = count_from n l ++ reported (n + Z.of_nat (List.length l)) r.
Proof.
  induction l as [|x l IH]; intros H n r; [cbn; now rewrite Z.add_0_r|]. cbn [app reported count_from List.length]. rewrite (H x (or_introl eq_refl)). cbn [app]. f_equal.
  rewrite IH by (intros y I; apply H; now right). f_equal. f_equal. lia.
Qed.

Lemma upto_balanced a : balanced a -> forall d t, upto d (a ++ t) = option_map (app a) (upto d t).
Proof.
  intros B. induction B as [|c a N1 N2 B IH|a b B1 IH1 B2 IH2]; intros d t.
  - cbn. now destruct (upto d t).
  - cbn [app upto]. destruct (Ascii.eqb_spec c "}"); [contradiction|]. destruct (Ascii.eqb_spec c "{"); [contradiction|]. rewrite IH. now destruct (upto d t).
  - rewrite <- app_comm_cons, <- app_assoc. cbn [upto]. change (Ascii.eqb "{" "}") with false. change (Ascii.eqb "{" "{") with true. cbv iota. rewrite IH1. rewrite <- app_comm_cons. cbn [upto]. change (Ascii.eqb "}" "}") with true. cbv iota.
    rewrite IH2. destruct (upto d t); [|reflexivity]. cbn. now rewrite <- app_assoc.
Qed.
(** The body as far as it is known before the code *)
Definition start : text := nl :: str "#line 1 " ++ [nl].
Lemma body_start code : first_body (parsed_text code) = option_map (app start) (upto 0 (strip_comments code ++ nl :: str "#line 999 " ++ nl :: str "}")).
Proof.
  rewrite parsed. cbn [str list_ascii_of_string app first_body]. cbn. destruct (upto 0 _); reflexivity.
Qed.
