(** Lemmas about printed tables. *)
From Coq Require Import String Lia.
From Verif Require Import PyBase PyText PyInt InfoModel InfoSpec.
Local Open Scope list_scope.

(** ** Lines *)
Definition unlines (l : list text) : text := concat (map line l).
Lemma unlines_app a b : unlines (a ++ b) = unlines a ++ unlines b.
Proof. unfold unlines. now rewrite map_app, concat_app. Qed.
Lemma unlines_cons a b : unlines (a :: b) = line a ++ unlines b.
Proof. reflexivity. Qed.
Lemma split_unlines l s : Forall one_line l -> split 10 (unlines l ++ s) = l ++ split 10 s.
Proof.
  induction l as [|a l IH]; intros F; [reflexivity|]. inversion F as [|? ? A B]; subst. rewrite unlines_cons. unfold line.
  rewrite <- !app_assoc. cbn [app]. rewrite split_app by exact A. now rewrite IH.
Qed.
Lemma lines_unlines l : Forall one_line l -> lines (unlines l) = l ++ [[]].
Proof. intros F. unfold lines. rewrite <- (app_nil_r (unlines l)). now rewrite split_unlines. Qed.
Lemma unlines_join l : l <> [] -> unlines l = line (join 10 l).
Proof.
  induction l as [|a l IH]; [congruence|]. intros _. destruct l as [|b l]; [cbn; unfold line; now rewrite app_nil_r|].
  rewrite unlines_cons, (IH ltac:(discriminate)), (join_cons 10 a (b :: l)) by discriminate. unfold line. now rewrite <- !app_assoc.
Qed.

(** ** Indentation *)
Definition filler (prefix later : text) : text := if (List.length later =? 1)%nat then repeat 32%N (List.length prefix) else later.
Lemma last_app_in (a b : text) d : b <> [] -> last (a ++ b) d = last b d.
Proof.
  intros H. induction a as [|x a IH]; [reflexivity|]. cbn [app]. rewrite <- IH. cbn [last]. destruct (a ++ b) eqn:E; [|reflexivity].
  apply app_eq_nil in E as [_ E]. congruence.
Qed.
Lemma last_in (s : text) d : s <> [] -> In (last s d) s.
Proof.
  induction s as [|x s IH]; [congruence|]. intros _. destruct s as [|y s]; [now left|]. right. apply IH. discriminate.
Qed.
Lemma join_last l : l <> [] -> Forall one_line l -> last l [] <> [] -> ends_line (join 10 l) = false.
Proof.
  induction l as [|a l IH]; [congruence|]. intros _ F H. inversion F as [|? ? A B]; subst. destruct l as [|b l].
  - cbn [join last] in *. unfold ends_line. apply N.eqb_neq. intros E. apply A. rewrite <- E. now apply last_in.
  - rewrite join_cons by discriminate. change (last (a :: b :: l) []) with (last (b :: l) []) in H. assert (J := IH ltac:(discriminate) B H).
    unfold ends_line in *. rewrite last_app_in by discriminate. destruct (join 10 (b :: l)) as [|y j] eqn:E; [|exact J].
    exfalso. destruct l as [|c l]; [cbn in E, H; congruence|]. rewrite join_cons in E by discriminate. destruct b; discriminate.
Qed.
Lemma last_map_app (f : text) l : l <> [] -> last (map (fun x => f ++ x) l) [] = f ++ last l [].
Proof. induction l as [|a l IH]; [congruence|]. intros _. destruct l as [|b l]; [reflexivity|]. exact (IH ltac:(discriminate)). Qed.
Lemma filler_one_line prefix later : one_line later -> one_line (filler prefix later).
Proof. intros H. unfold filler. destruct (List.length later =? 1)%nat; [|exact H]. intros I. apply repeat_spec in I. discriminate. Qed.
Lemma one_line_app a b : one_line a -> one_line b -> one_line (a ++ b).
Proof. unfold one_line. intros A B I. apply in_app_or in I. tauto. Qed.
Lemma ends_line_line s : ends_line (line s) = true.
Proof. unfold ends_line, line. now rewrite last_app_in by discriminate. Qed.
Lemma split_one_line s : Forall one_line (split 10 s).
Proof. apply Forall_forall. intros x I. now apply split_free in I. Qed.
Lemma indent_lines prefix block later : one_line later -> filler prefix later <> [] ->
  prefix_indent prefix block later = unlines ((prefix ++ hd [] (split 10 block)) :: map (fun x => filler prefix later ++ x) (tl (split 10 block))).
Proof.
  intros L F. unfold prefix_indent. fold (filler prefix later). assert (O := split_one_line block). destruct (split 10 block) as [|b bs] eqn:E; [now apply split_not_nil in E|].
  cbn [hd tl]. inversion O as [|? ? O1 O2]; subst. destruct bs as [|c bs].
  - cbn [map join]. rewrite app_nil_r, ends_line_line. cbn [negb]. unfold unlines. cbn. now rewrite app_nil_r.
  - set (M := map (fun x => filler prefix later ++ x) (c :: bs)).
    assert (MO : Forall one_line M).
    { apply Forall_forall. intros x I. apply in_map_iff in I as (y & <- & I). apply one_line_app; [now apply filler_one_line|]. rewrite Forall_forall in O2. auto. }
    assert (ML : last M [] <> []).
    { unfold M. rewrite last_map_app by discriminate. intros Z. apply app_eq_nil in Z as [Z _]. congruence. }
    assert (J := join_last M ltac:(discriminate) MO ML). rewrite unlines_cons, (unlines_join M) by discriminate.
    assert (K : ends_line (line (prefix ++ b) ++ join 10 M) = false).
    { unfold ends_line in *. destruct (join 10 M) as [|y j] eqn:JM; [|now rewrite last_app_in by discriminate].
      exfalso. unfold M in JM. cbn [map] in JM. destruct (map (fun x => filler prefix later ++ x) bs) as [|z m].
      + cbn in JM. apply app_eq_nil in JM as [JM _]. congruence.
      + rewrite join_cons in JM by discriminate. apply app_eq_nil in JM as [_ JM]. discriminate. }
    change ((if negb (ends_line (line (prefix ++ b) ++ join 10 M)) then line (line (prefix ++ b) ++ join 10 M) else line (prefix ++ b) ++ join 10 M) = line (prefix ++ b) ++ line (join 10 M)).
    rewrite K. cbn [negb]. unfold line. now rewrite <- app_assoc.
Qed.

(** ** Sections *)
Lemma section_lines c prefix block : section (c :: prefix) block =
  unlines (((c :: prefix) ++ hd [] (split 10 block)) :: map (fun x => repeat 32%N (S (List.length prefix)) ++ x) (tl (split 10 block)) ++ [[]]).
Proof.
  unfold section. rewrite indent_lines; [|intros [H|[]]; discriminate|discriminate].
  rewrite !unlines_cons, unlines_app. change (unlines [[]]) with [10%N]. rewrite app_assoc. reflexivity.
Qed.
(** A table: heading, ruler, rows, and what follows them *)
Lemma table_lines c prefix h r body rest : one_line h -> one_line r -> Forall one_line body -> one_line rest ->
  section (c :: prefix) (line h ++ line r ++ unlines body ++ rest) =
  unlines (((c :: prefix) ++ h) :: map (fun x => repeat 32%N (S (List.length prefix)) ++ x) (r :: body ++ [rest]) ++ [[]]).
Proof.
  intros H R B T. rewrite section_lines. replace (line h ++ line r ++ unlines body ++ rest) with (unlines (h :: r :: body) ++ rest) by (rewrite !unlines_cons, <- !app_assoc; reflexivity).
  rewrite split_unlines by (constructor; [exact H|now constructor]). rewrite (split_single 10 rest T). reflexivity.
Qed.

(** ** Reading *)
Lemma starts_app p s : starts p (p ++ s) = true.
Proof. induction p as [|c p IH]; [reflexivity|]. cbn. now rewrite N.eqb_refl, IH. Qed.
Lemma from_skip t a b : forallb (fun l => negb (starts t l)) a = true -> from_title t (a ++ b) = from_title t b.
Proof.
  induction a as [|x a IH]; [reflexivity|]. cbn [forallb app from_title]. intros H. apply andb_true_iff in H as [H1 H2].
  destruct (starts t x); [discriminate|]. auto.
Qed.
Lemma not_starts_blank c t n x : c <> 32%N -> starts (c :: t) (repeat 32%N (S n) ++ x) = false.
Proof. intros H. cbn. destruct (N.eqb_spec c 32); [congruence|reflexivity]. Qed.
Lemma section_skip c t first n body : c <> 32%N -> starts (c :: t) first = false ->
  forallb (fun l => negb (starts (c :: t) l)) (first :: map (fun x => repeat 32%N (S n) ++ x) body ++ [[]]) = true.
Proof.
  intros H F. cbn [forallb]. rewrite F. cbn [negb andb]. rewrite forallb_app. apply andb_true_iff. split; [|reflexivity].
  apply forallb_forall. intros l I. apply in_map_iff in I as (x & <- & _). rewrite not_starts_blank by exact H. reflexivity.
Qed.
Lemma blank_app a b : blank (a ++ b) = (blank a && blank b)%bool.
Proof. apply forallb_app. Qed.
Lemma blank_repeat n : blank (repeat 32%N n) = true.
Proof. induction n; [reflexivity|]. cbn. assumption. Qed.
Lemma blank_fill n x : blank (repeat 32%N n ++ x) = blank x.
Proof. now rewrite blank_app, blank_repeat. Qed.
Lemma until_rows body rest : Forall (fun r => blank r = false) body -> until_blank (body ++ [] :: rest) = body.
Proof. induction 1 as [|x l X _ IH]; [reflexivity|]. cbn [app until_blank]. now rewrite X, IH. Qed.
Lemma until_rows_blank body b rest : blank b = true -> Forall (fun r => blank r = false) body -> until_blank (body ++ b :: rest) = body.
Proof. intros B. induction 1 as [|x l X _ IH]; [cbn; now rewrite B|]. cbn [app until_blank]. now rewrite X, IH. Qed.
Lemma blank_in c s : In c s -> c <> 32%N -> blank s = false.
Proof.
  intros I H. destruct (blank s) eqn:B; [|reflexivity]. exfalso. unfold blank in B. rewrite forallb_forall in B. apply B in I. apply N.eqb_eq in I. congruence.
Qed.

(** ** Words *)
Lemma words_app a b : words (a ++ 32%N :: b) = words a ++ words b.
Proof.
  unfold words. induction a as [|x a IH]; [reflexivity|]. cbn [app split]. destruct (x =? 32)%N; [cbn [filter]; exact IH|].
  destruct (split 32 a) as [|p ps] eqn:E; [now apply split_not_nil in E|].
  destruct (split 32 (a ++ 32%N :: b)) as [|q qs] eqn:F; [now apply split_not_nil in F|].
  assert (G : q = p /\ qs = ps ++ split 32 b).
  { clear IH. revert p ps q qs E F. induction a as [|y a IHa]; cbn [app split]; intros p ps q qs E F.
    - rewrite N.eqb_refl in F. injection E as <- <-. injection F as <- <-. auto.
    - destruct (y =? 32)%N.
      + injection E as <- <-. injection F as <- <-. split; [reflexivity|].
        destruct (split 32 a) as [|p ps] eqn:E; [now apply split_not_nil in E|].
        destruct (split 32 (a ++ 32%N :: b)) as [|q qs] eqn:F; [now apply split_not_nil in F|].
        destruct (IHa _ _ _ _ eq_refl eq_refl) as [-> ->]. reflexivity.
      + destruct (split 32 a) as [|p' ps'] eqn:E'; [now apply split_not_nil in E'|].
        destruct (split 32 (a ++ 32%N :: b)) as [|q' qs'] eqn:F'; [now apply split_not_nil in F'|].
        destruct (IHa _ _ _ _ eq_refl eq_refl) as [-> ->]. injection E as <- <-. injection F as <- <-. auto. }
  destruct G as [-> ->]. cbn [filter]. now rewrite filter_app.
Qed.
Lemma words_fill n s : words (repeat 32%N n ++ s) = words s.
Proof. induction n as [|n IH]; [reflexivity|]. cbn [repeat app]. change (32%N :: repeat 32%N n ++ s) with ([] ++ 32%N :: repeat 32%N n ++ s). now rewrite words_app, IH. Qed.
Lemma words_blank n : words (repeat 32%N n) = [].
Proof. rewrite <- (app_nil_r (repeat 32%N n)). now rewrite words_fill. Qed.
Lemma words_word s : word s -> words s = [s].
Proof. intros (A & B & _). unfold words. rewrite split_single by exact B. destruct s; [congruence|reflexivity]. Qed.
Lemma words_rjust n s : words (rjust n s) = words s.
Proof. apply words_fill. Qed.
Lemma words_ljust n s : words (ljust n s) = words s.
Proof.
  unfold ljust. destruct (n - List.length s)%nat as [|k]; [now rewrite app_nil_r|]. cbn [repeat]. rewrite words_app, words_blank. apply app_nil_r.
Qed.
Lemma words_bar a b : words (a ++ codes " | " ++ b) = words a ++ codes "|" :: words b.
Proof.
  change (codes " | " ++ b) with (32%N :: [124%N] ++ 32%N :: b). rewrite words_app. f_equal.
Qed.
Lemma words_join l : Forall word l -> words (join 32 l) = l.
Proof.
  induction 1 as [|x l X _ IH]; [reflexivity|]. destruct l as [|y l]; [now apply words_word|].
  rewrite join_cons by discriminate. rewrite words_app, IH, (words_word x X). reflexivity.
Qed.
Lemma rjust_one_line n s : one_line s -> one_line (rjust n s).
Proof. intros H. apply one_line_app; [|exact H]. intros I. apply repeat_spec in I. discriminate. Qed.
Lemma ljust_one_line n s : one_line s -> one_line (ljust n s).
Proof. intros H. apply one_line_app; [exact H|]. intros I. apply repeat_spec in I. discriminate. Qed.
Lemma word_one_line s : word s -> one_line s.
Proof. now intros (_ & _ & H). Qed.
Lemma show_word n : word (show_int n).
Proof.
  assert (D : forall m c, In c (show_nat m) -> (48 <= c <= 57)%N).
  { intros m c I. apply is_decimal_spec. destruct (show_nat_spec m) as (_ & H & _). rewrite forallb_forall in H. auto. }
  assert (W : forall m, word (show_nat m)).
  { intros m. repeat split; [now destruct (show_nat_spec m) as (_ & _ & H)| |]; intros I; apply D in I; lia. }
  destruct n as [|p|p]; cbn [show_int]; [apply W|apply W|]. destruct (W (Npos p)) as (_ & B & C).
  repeat split; [discriminate| |]; intros [I|I]; [discriminate|now apply B|discriminate|now apply C].
Qed.
Lemma join_one_line l : Forall one_line l -> one_line (join 32 l).
Proof.
  induction 1 as [|x l X _ IH]; [intros []|]. destruct l as [|y l]; [exact X|]. rewrite join_cons by discriminate.
  apply one_line_app; [exact X|]. intros [I|I]; [discriminate|]. now apply IH.
Qed.

(** ** Cells *)
Lemma left_cell_app a b : ~ In 124%N a -> left_cell (a ++ 124%N :: b) = a.
Proof. induction a as [|x a IH]; cbn; intros H; [reflexivity|]. destruct (N.eqb_spec x 124) as [->|N]; [tauto|]. now rewrite IH by tauto. Qed.
Lemma right_cell_app a b : ~ In 124%N a -> right_cell (a ++ 124%N :: 32%N :: b) = b.
Proof.
  unfold right_cell. intros H. replace (behind_bar (a ++ 124%N :: 32%N :: b)) with (32%N :: b); [reflexivity|].
  induction a as [|x a IH]; cbn; [reflexivity|]. cbn in H. destruct (N.eqb_spec x 124) as [->|N]; [tauto|]. apply IH. tauto.
Qed.

(** ** Tables *)
Definition fill (prefix x : text) : text := repeat 32%N (List.length prefix) ++ x.
Definition tab (prefix h r : text) (body : list text) (rest : text) : list text := (prefix ++ h) :: map (fill prefix) (r :: body ++ [rest]) ++ [[]].
Lemma tab_lines c prefix h r body rest : one_line h -> one_line r -> Forall one_line body -> one_line rest ->
  section (c :: prefix) (line h ++ line r ++ unlines body ++ rest) = unlines (tab (c :: prefix) h r body rest).
Proof. apply table_lines. Qed.
Lemma fill_one_line p x : one_line x -> one_line (fill p x).
Proof. intros H. apply one_line_app; [|exact H]. intros I. apply repeat_spec in I. discriminate. Qed.
Lemma tab_one_line prefix h r body rest : one_line prefix -> one_line h -> one_line r -> Forall one_line body -> one_line rest -> Forall one_line (tab prefix h r body rest).
Proof.
  intros P H R B T. constructor; [now apply one_line_app|]. apply Forall_app. split; [|constructor; [intros []|constructor]].
  apply Forall_forall. intros x I. apply in_map_iff in I as (y & <- & I). apply fill_one_line.
  destruct I as [<-|I]; [exact R|]. apply in_app_or in I as [I|[<-|[]]]; [|exact T]. rewrite Forall_forall in B. auto.
Qed.
Lemma tab_skip c t d prefix h r body rest : c <> 32%N -> starts (c :: t) ((d :: prefix) ++ h) = false ->
  forallb (fun l => negb (starts (c :: t) l)) (tab (d :: prefix) h r body rest) = true.
Proof. intros A B. exact (section_skip c t _ (List.length prefix) (r :: body ++ [rest]) A B). Qed.
Lemma rows_tab title p h r body rest before after :
  let prefix := title ++ p in
  Forall one_line before -> Forall one_line after -> one_line prefix -> one_line h -> one_line r -> Forall one_line body -> one_line rest ->
  forallb (fun l => negb (starts title l)) before = true -> Forall (fun x => blank x = false) body ->
  rows title (unlines (before ++ tab prefix h r body rest ++ after)) = map (fill prefix) (body ++ if blank rest then [] else [rest]).
Proof.
  intros prefix OB OA OP OH OR OY OT S Y. unfold rows. rewrite lines_unlines.
  2:{ apply Forall_app. split; [exact OB|]. apply Forall_app. split; [|exact OA]. now apply tab_one_line. }
  rewrite <- !app_assoc. rewrite from_skip by exact S. unfold tab. cbn [app from_title]. unfold prefix at 1. rewrite <- app_assoc, starts_app.
  cbn [map app skipn]. rewrite map_app. cbn [map]. rewrite <- !app_assoc. cbn [app].
  assert (F : Forall (fun x => blank x = false) (map (fill prefix) body)).
  { apply Forall_forall. intros x I. apply in_map_iff in I as (y & <- & I). unfold fill. rewrite blank_fill. rewrite Forall_forall in Y. auto. }
  destruct (blank rest) eqn:B.
  - rewrite app_nil_r. apply until_rows_blank; [|exact F]. unfold fill. now rewrite blank_fill.
  - rewrite map_app. change (map (fill prefix) body ++ fill prefix rest :: [] :: after ++ [[]]) with (map (fill prefix) body ++ [fill prefix rest] ++ [] :: after ++ [[]]).
    rewrite app_assoc. apply until_rows. apply Forall_app. split; [exact F|]. constructor; [|constructor]. unfold fill. now rewrite blank_fill.
Qed.
Lemma words_map_fill p l : map words (map (fill p) l) = map words l.
Proof. rewrite map_map. apply map_ext. intros x. apply words_fill. Qed.

(** *** Rows *)
Definition bar := codes " | ".
Definition loop_line (l : loop) : text := rjust 8 (fst l) ++ bar ++ bounds (snd l).
Definition access_lines (a : text * list text) : list text :=
  match snd a with [] => [rjust 8 (fst a) ++ bar] | o :: os => (rjust 8 (fst a) ++ bar ++ o) :: map (fun x => codes "         | " ++ x) os end.
Definition flops_line (f : text * Z) : text := rjust 3 (fst f) ++ bar ++ rjust 4 (show_int (snd f)).
Definition variable_line (v : variable) : text := rjust 8 (fst v) ++ bar ++ rjust 15 (join 32 (fst (snd v))) ++ [32%N] ++ ljust 10 (snd (snd v)).
Definition constant_line (c : text * Z) : text := rjust 8 (fst c) ++ bar ++ ljust 10 (show_int (snd c)).
Definition region_lines (r : text * list (text * text * text)) : list text :=
  (rjust 8 (fst r) ++ codes " |                                 ") :: map (fun b => codes "         | " ++ bounds b) (snd r).
Lemma concat_unlines {A} (f : A -> text) l : concat (map (fun x => line (f x)) l) = unlines (map f l).
Proof. unfold unlines. now rewrite map_map. Qed.
Lemma concat_flat {A} (f : A -> text) (g : A -> list text) l : (forall x, In x l -> f x = unlines (g x)) -> concat (map f l) = unlines (flat_map g l).
Proof.
  induction l as [|x l IH]; intros H; [reflexivity|]. cbn [map concat flat_map]. rewrite unlines_app, H by now left. f_equal. apply IH. intros y I. apply H. now right.
Qed.
Lemma access_lines_row a : Forall one_line (snd a) -> accesses_row a = unlines (access_lines a).
Proof.
  destruct a as [n os]. unfold accesses_row, access_lines. cbn [fst snd]. intros F.
  rewrite indent_lines; [|intros I; repeat (destruct I as [I|I]; [discriminate|]); destruct I|discriminate].
  change (filler (rjust 8 n ++ codes " | ") (codes "         | ")) with (codes "         | ").
  destruct os as [|o os]; [cbn [join split hd tl map]; now rewrite app_nil_r|].
  rewrite split_join; [|discriminate|intros p I; rewrite Forall_forall in F; now apply F]. cbn [hd tl]. now rewrite <- app_assoc.
Qed.
Lemma region_lines_row r : region_rows r = unlines (region_lines r).
Proof. unfold region_rows, region_lines. rewrite unlines_cons. f_equal. apply (concat_unlines (fun b => codes "         | " ++ bounds b)). Qed.

Lemma concrete_one_line s : forallb (fun c => negb (c =? 10)%N) s = true -> one_line s.
Proof. intros H I. rewrite forallb_forall in H. apply H in I. discriminate. Qed.
Ltac concrete := apply concrete_one_line; reflexivity.
Lemma bounds_one_line b : bounds_lines b -> one_line (bounds b).
Proof.
  destruct b as [[lo hi] st]. intros (A & B & C). unfold bounds.
  apply one_line_app; [now apply rjust_one_line|]. apply one_line_app; [concrete|]. apply one_line_app; [now apply rjust_one_line|]. apply one_line_app; [concrete|]. now apply rjust_one_line.
Qed.
Lemma good_lines b : good_bounds b -> bounds_lines b.
Proof. destruct b as [[lo hi] st]. intros (A & B & C). split; [|split]; now apply word_one_line. Qed.
Lemma drop_fill n s : fits s -> drop_blanks (repeat 32%N n ++ s) = s.
Proof. intros (_ & H). induction n as [|n IH]; [|exact IH]. destruct s as [|c s]; [reflexivity|]. cbn. destruct (N.eqb_spec c 32); congruence. Qed.
Lemma rjust_length s : fits s -> List.length (rjust 10 s) = 10%nat.
Proof. intros (H & _). unfold rjust. rewrite app_length, repeat_length. lia. Qed.
Lemma skip_app {A} (a b : list A) n : (List.length a <= n)%nat -> skipn n (a ++ b) = skipn (n - List.length a) b.
Proof. intros H. rewrite skipn_app. rewrite skipn_all2 by exact H. reflexivity. Qed.
Lemma column_first s rest : fits s -> drop_blanks (firstn 10 (rjust 10 s ++ rest)) = s.
Proof.
  intros H. rewrite firstn_app, (rjust_length s H). rewrite firstn_all2 by (rewrite (rjust_length s H); lia). cbn [Nat.sub firstn]. rewrite app_nil_r. now apply drop_fill.
Qed.
Lemma columns_bounds b : bounds_fit b -> columns (bounds b) = b.
Proof.
  destruct b as [[lo hi] st]. intros (A & B & C). unfold columns, column, bounds.
  f_equal; [f_equal|].
  - cbn [Nat.mul skipn]. now apply column_first.
  - rewrite skip_app by (rewrite (rjust_length lo A); lia). rewrite (rjust_length lo A). change (11 * 1 - 10)%nat with 1%nat. cbn [app skipn]. now apply column_first.
  - rewrite skip_app by (rewrite (rjust_length lo A); lia). rewrite (rjust_length lo A). change (11 * 2 - 10)%nat with 12%nat. cbn [app]. change (skipn 12 (32%N :: ?l)) with (skipn 11 l).
    rewrite skip_app by (rewrite (rjust_length hi B); lia). rewrite (rjust_length hi B). change (11 - 10)%nat with 1%nat. cbn [skipn].
    rewrite <- (app_nil_r (rjust 10 st)). now apply column_first.
Qed.
Lemma words_bounds lo hi st : good_bounds (lo, hi, st) -> words (bounds (lo, hi, st)) = [lo; hi; st].
Proof.
  intros (A & B & C). unfold bounds. cbn [app]. rewrite words_app, words_app, !words_rjust, !words_word by assumption. reflexivity.
Qed.
Lemma bar_row a b : blank (a ++ bar ++ b) = false.
Proof. apply (blank_in 124%N); [|discriminate]. apply in_or_app. right. apply in_or_app. left. right. now left. Qed.

(** *** Entries *)
Lemma access_cells p n o : name n -> left_cell (fill p (rjust 8 n ++ bar ++ o)) = fill p (rjust 8 n) ++ [32%N] /\ right_cell (fill p (rjust 8 n ++ bar ++ o)) = o.
Proof.
  intros ((_ & _ & _) & B).
  assert (N' : ~ In 124%N (fill p (rjust 8 n) ++ [32%N])).
  { intros I. apply in_app_or in I as [I|[I|[]]]; [|discriminate]. unfold fill, rjust in I. apply in_app_or in I as [I|I]; [apply repeat_spec in I; discriminate|].
    apply in_app_or in I as [I|I]; [apply repeat_spec in I; discriminate|tauto]. }
  replace (fill p (rjust 8 n ++ bar ++ o)) with ((fill p (rjust 8 n) ++ [32%N]) ++ 124%N :: 32%N :: o) by (unfold fill; rewrite <- !app_assoc; reflexivity).
  split; [now apply left_cell_app|now apply right_cell_app].
Qed.
Lemma later_cells p o : left_cell (fill p (codes "         | " ++ o)) = fill p (codes "         ") /\ right_cell (fill p (codes "         | " ++ o)) = o.
Proof.
  assert (N' : ~ In 124%N (fill p (codes "         "))).
  { intros I. unfold fill in I. apply in_app_or in I as [I|I]; [apply repeat_spec in I; discriminate|]. repeat (destruct I as [I|I]; [discriminate|]). destruct I. }
  replace (fill p (codes "         | " ++ o)) with (fill p (codes "         ") ++ 124%N :: 32%N :: o) by (unfold fill; rewrite <- !app_assoc; reflexivity).
  split; [now apply left_cell_app|now apply right_cell_app].
Qed.
Lemma groups_more p os rs g : groups rs = (g, []) -> groups (map (fill p) (map (fun x => codes "         | " ++ x) os) ++ rs) = (g, os).
Proof.
  intros G. induction os as [|o os IH]; [exact G|]. cbn [map app groups]. rewrite IH. destruct (later_cells p o) as [-> ->].
  unfold fill. rewrite words_fill. reflexivity.
Qed.
Lemma groups_entries p l : Forall (fun a => name (fst a) /\ snd a <> []) l -> groups (map (fill p) (flat_map access_lines l)) = (l, []).
Proof.
  induction 1 as [|[n os] l (H & O) _ IH]; [reflexivity|]. cbn [fst snd] in *. cbn [flat_map]. unfold access_lines at 1. cbn [fst snd]. destruct os as [|o os]; [congruence|].
  rewrite map_app. cbn [map app groups]. rewrite (groups_more p os _ _ IH). destruct (access_cells p n o H) as [-> ->].
  rewrite words_app. unfold fill. rewrite words_fill, words_rjust, words_word by apply H. reflexivity.
Qed.
Lemma headed_more p bs rs g : Forall good_bounds bs -> headed rs = (g, []) ->
  headed (map (fill p) (map (fun b => codes "         | " ++ bounds b) bs) ++ rs) = (g, map (fun b => let '(lo, hi, st) := b in [lo; hi; st]) bs).
Proof.
  intros F G. induction F as [|[[lo hi] st] bs B _ IH]; [exact G|]. cbn [map app headed]. rewrite IH. destruct (later_cells p (bounds (lo, hi, st))) as [_ ->].
  rewrite words_bounds by exact B. destruct (blank (bounds (lo, hi, st))) eqn:E; [|reflexivity]. exfalso.
  destruct B as ((B1 & B2 & _) & _). destruct lo as [|c lo]; [congruence|]. refine (eq_true_false_abs _ E _).
  apply (blank_in c); [|intros ->; apply B2; now left]. unfold bounds, rjust. apply in_or_app. left. apply in_or_app. right. now left.
Qed.
Lemma headed_entries_lines p l : Forall (fun r => (fst r = [] \/ name (fst r)) /\ Forall good_bounds (snd r)) l ->
  headed (map (fill p) (flat_map region_lines l)) = (map (fun r => (words (fst r), map (fun b => let '(lo, hi, st) := b in [lo; hi; st]) (snd r))) l, []).
Proof.
  induction 1 as [|[n bs] l (H & O) _ IH]; [reflexivity|]. cbn [fst snd] in *. cbn [flat_map]. unfold region_lines at 1. cbn [fst snd].
  rewrite map_app. cbn [map app headed]. rewrite (headed_more p bs _ _ O IH).
  assert (N' : ~ In 124%N (fill p (rjust 8 n) ++ [32%N])).
  { intros I. apply in_app_or in I as [I|[I|[]]]; [|discriminate]. unfold fill, rjust in I. apply in_app_or in I as [I|I]; [apply repeat_spec in I; discriminate|].
    apply in_app_or in I as [I|I]; [apply repeat_spec in I; discriminate|]. destruct H as [->|(_ & H)]; [destruct I|tauto]. }
  replace (fill p (rjust 8 n ++ codes " |                                 ")) with ((fill p (rjust 8 n) ++ [32%N]) ++ 124%N :: 32%N :: codes "                                ")
    by (unfold fill; rewrite <- !app_assoc; reflexivity).
  rewrite left_cell_app, right_cell_app by exact N'. change (blank (codes "                                ")) with true. cbv iota.
  rewrite words_app. unfold fill. rewrite words_fill, words_rjust, app_nil_r. reflexivity.
Qed.
