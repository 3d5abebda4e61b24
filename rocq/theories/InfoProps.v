(** Printed information about kernels. *)
From Coq Require Import String Lia.
From Verif Require Import PyBase PyText PyInt InfoModel InfoSpec InfoProofs.
Local Open Scope list_scope.

Ltac one_liner :=
  lazymatch goal with
  | |- one_line (rjust _ _) => apply rjust_one_line; one_liner
  | |- one_line (ljust _ _) => apply ljust_one_line; one_liner
  | |- one_line (show_int _) => apply word_one_line, show_word
  | |- one_line (_ ++ _) => apply one_line_app; one_liner
  | |- one_line (join _ _) => idtac
  | |- one_line (codes _) => concrete
  | |- one_line bar => concrete
  | |- one_line [_] => concrete
  | |- _ => first [assumption | apply word_one_line; assumption]
  end.

Lemma loop_body p loops : Forall (fun l => name (fst l) /\ bounds_lines (snd l)) loops ->
  Forall one_line (map loop_line loops) /\ Forall (fun x => blank x = false) (map loop_line loops) /\
  (Forall (fun l => good_bounds (snd l)) loops -> map words (map loop_line loops) = map (fun l => let '(i, (lo, hi, st)) := l in [i; codes "|"; lo; hi; st]) loops) /\
  (Forall (fun l => bounds_fit (snd l)) loops -> map (fun r => (words (left_cell r), columns (right_cell r))) (map (fill p) (map loop_line loops)) = map (fun l => ([fst l], snd l)) loops).
Proof.
  induction 1 as [|[i b] l (A & B) _ (I1 & I2 & I3 & I4)]; [repeat split; constructor|]. cbn [fst snd] in A, B. cbn [map]. split; [|split; [|split]].
  - constructor; [|exact I1]. unfold loop_line. cbn [fst snd]. apply one_line_app; [apply rjust_one_line, word_one_line, A|]. apply one_line_app; [concrete|]. now apply bounds_one_line.
  - constructor; [|exact I2]. apply bar_row.
  - intros G. inversion G as [|? ? G1 G2]; subst. rewrite I3 by exact G2. destruct b as [[lo hi] st]. unfold loop_line at 1. cbn [fst snd]. unfold bar.
    rewrite words_bar, words_rjust, words_word, words_bounds by (apply A || exact G1). reflexivity.
  - intros G. inversion G as [|? ? G1 G2]; subst. rewrite I4 by exact G2. f_equal. unfold loop_line. cbn [fst snd] in *. destruct (access_cells p i (bounds b) A) as [-> ->].
    rewrite columns_bounds by exact G1. rewrite words_app. unfold fill. rewrite words_fill, words_rjust, words_word by apply A. reflexivity.
Qed.
Lemma access_body l : Forall good_access l ->
  concat (map accesses_row l) = unlines (flat_map access_lines l) /\ Forall one_line (flat_map access_lines l) /\ Forall (fun x => blank x = false) (flat_map access_lines l) /\
  Forall (fun a => name (fst a) /\ snd a <> []) l.
Proof.
  intros F. split; [|split; [|split]].
  - apply concat_flat. intros a I. apply access_lines_row. rewrite Forall_forall in F. now apply F.
  - apply Forall_forall. intros x I. apply in_flat_map in I as ([n os] & I & J). rewrite Forall_forall in F. destruct (F _ I) as ((W & _) & _ & O). cbn [fst snd] in *.
    unfold access_lines in J. cbn [fst snd] in J. destruct os as [|o os]; [destruct J as [<-|[]]; one_liner|]. inversion O as [|? ? O1 O2]; subst.
    destruct J as [<-|J]; [one_liner|]. apply in_map_iff in J as (y & <- & J). rewrite Forall_forall in O2. apply one_line_app; [concrete|auto].
  - apply Forall_forall. intros x I. apply in_flat_map in I as ([n os] & I & J). unfold access_lines in J. cbn [fst snd] in J. destruct os as [|o os].
    + destruct J as [<-|[]]. rewrite <- (app_nil_r bar). apply bar_row.
    + destruct J as [<-|J]; [apply bar_row|]. apply in_map_iff in J as (y & <- & J). apply (blank_in 124%N); [|discriminate]. apply in_or_app. left. do 9 right. now left.
  - revert F. apply Forall_impl. intros a (A & B & _). now split.
Qed.
Lemma flops_body flops : Forall (fun f => word (fst f)) flops ->
  Forall one_line (map flops_line flops ++ [codes "     ======="]) /\ Forall (fun x => blank x = false) (map flops_line flops ++ [codes "     ======="]) /\
  map words (map flops_line flops) = map (fun f => [fst f; codes "|"; show_int (snd f)]) flops.
Proof.
  intros F. split; [|split].
  - apply Forall_app. split; [|constructor; [concrete|constructor]]. apply Forall_forall. intros x I. apply in_map_iff in I as (f & <- & I). rewrite Forall_forall in F. apply F in I.
    unfold flops_line. one_liner.
  - apply Forall_app. split; [|constructor; [reflexivity|constructor]]. apply Forall_forall. intros x I. apply in_map_iff in I as (f & <- & I). apply bar_row.
  - induction F as [|f l A _ IH]; [reflexivity|]. cbn [map]. rewrite IH. unfold flops_line at 1, bar. rewrite words_bar, !words_rjust, words_word, (words_word (show_int _)) by (assumption || apply show_word). reflexivity.
Qed.

(** C137: what is printed about a kernel can be read back: the table of loops has one row for each loop with its index, start, end and step (if they fit into the
    columns or contain no blanks), the tables of accesses have the names with all their offsets in their order, and the table of operations the numbers and their sum. *)
Theorem C137_kernel : forall loops sources destinations flops,
  Forall (fun l => name (fst l) /\ bounds_lines (snd l)) loops -> Forall good_access sources -> Forall good_access destinations -> Forall (fun f => word (fst f)) flops ->
  let printed := print_kernel_info loops sources destinations flops in
  (Forall (fun l => bounds_fit (snd l)) loops ->
   map (fun r => (words (left_cell r), columns (right_cell r))) (rows (codes "loop stack:") printed) = map (fun l => ([fst l], snd l)) loops) /\
  (Forall (fun l => good_bounds (snd l)) loops ->
   map words (rows (codes "loop stack:") printed) = map (fun l => let '(i, (lo, hi, st)) := l in [i; codes "|"; lo; hi; st]) loops) /\
  entries (rows (codes "data sources:") printed) = sources /\
  entries (rows (codes "data destinations:") printed) = destinations /\
  map words (rows (codes "FLOPs:") printed) = map (fun f => [fst f; codes "|"; show_int (snd f)]) flops ++ [[codes "======="]; [show_int (fold_right Z.add 0%Z (map snd flops))]].
Proof.
  intros loops sources destinations flops L S D F printed.
  destruct (loop_body (codes "loop stack:" ++ codes "        ") loops L) as (L1 & L2 & L3 & L4). destruct (access_body _ S) as (S0 & S1 & S2 & S3). destruct (access_body _ D) as (D0 & D1 & D2 & D3). destruct (flops_body _ F) as (F1 & F2 & F3).
  set (total := codes "      " ++ rjust 4 (show_int (zsum (map snd flops)))).
  assert (T1 : one_line total) by (unfold total; one_liner).
  assert (T2 : words total = [show_int (zsum (map snd flops))]).
  { unfold total. change (codes "      ") with (repeat 32%N 6). rewrite words_fill, words_rjust. apply words_word, show_word. }
  assert (T3 : blank total = false).
  { destruct (blank total) eqn:B; [|reflexivity]. exfalso. unfold total in B. rewrite blank_app in B. apply andb_true_iff in B as [_ B]. unfold rjust in B. rewrite blank_fill in B.
    destruct (show_word (zsum (map snd flops))) as (X1 & X2 & _). destruct (show_int (zsum (map snd flops))) as [|c s]; [congruence|]. cbn in B. apply andb_true_iff in B as [B _].
    apply N.eqb_eq in B. apply X2. now left. }
  assert (TZ : zsum (map snd flops) = fold_right Z.add 0%Z (map snd flops)) by reflexivity.
  pose (lt := tab (codes "loop stack:" ++ codes "        ") (codes "     idx |        min        max       step") (codes "---------+---------------------------------") (map loop_line loops) []).
  pose (st := tab (codes "data sources:" ++ codes "      ") (codes "    name |  offsets   ...") (codes "---------+------------...") (flat_map access_lines sources) []).
  pose (dt := tab (codes "data destinations:" ++ codes " ") (codes "    name |  offsets   ...") (codes "---------+------------...") (flat_map access_lines destinations) []).
  pose (ft := tab (codes "FLOPs:" ++ codes "     ") (codes " op | count ") (codes "----+-------") (map flops_line flops ++ [codes "     ======="]) total).
  assert (P : printed = unlines (lt ++ st ++ dt ++ ft)).
  { unfold printed, print_kernel_info. rewrite !unlines_app. f_equal; [|f_equal; [|f_equal]].
    - unfold loop_table. change (concat (map loop_row loops)) with (concat (map (fun x => line (loop_line x)) loops)). rewrite concat_unlines, <- (app_nil_r (unlines _)).
      apply tab_lines; [concrete|concrete|exact L1|intros []].
    - unfold accesses_table. rewrite S0, <- (app_nil_r (unlines (flat_map _ _))). apply tab_lines; [concrete|concrete|exact S1|intros []].
    - unfold accesses_table. rewrite D0, <- (app_nil_r (unlines (flat_map _ _))). apply tab_lines; [concrete|concrete|exact D1|intros []].
    - unfold flops_table. change (concat (map flops_row flops)) with (concat (map (fun x => line (flops_line x)) flops)). rewrite concat_unlines. fold total.
      replace (unlines (map flops_line flops) ++ line (codes "     =======") ++ total) with (unlines (map flops_line flops ++ [codes "     ======="]) ++ total)
        by (rewrite unlines_app, <- app_assoc; reflexivity).
      apply tab_lines; [concrete|concrete|exact F1|exact T1]. }
  assert (OL : Forall one_line lt) by (apply tab_one_line; try concrete; exact L1).
  assert (OS : Forall one_line st) by (apply tab_one_line; try concrete; exact S1).
  assert (OD : Forall one_line dt) by (apply tab_one_line; try concrete; exact D1).
  assert (OF : Forall one_line ft) by (apply tab_one_line; try concrete; [exact F1|exact T1]).
  rewrite P. clear P printed.
  assert (LR : rows (codes "loop stack:") (unlines (lt ++ st ++ dt ++ ft)) = map (fill (codes "loop stack:" ++ codes "        ")) (map loop_line loops)).
  { unfold lt. change (unlines (?a ++ ?b)) with (unlines ([] ++ a ++ b)). rewrite rows_tab; try concrete; try assumption; try (constructor; fail); try reflexivity.
    - cbn [blank forallb]. now rewrite app_nil_r.
    - apply Forall_app. split; [exact OS|]. apply Forall_app. now split. }
  split; [|split; [|split; [|split]]].
  - intros G. rewrite LR. now apply L4.
  - intros G. rewrite LR, words_map_fill. now apply L3.
  - unfold st. rewrite rows_tab; try concrete; try assumption.
    + cbn [blank forallb]. rewrite app_nil_r. unfold entries. now rewrite groups_entries.
    + apply Forall_app. now split.
    + apply tab_skip; [discriminate|reflexivity].
  - rewrite app_assoc. unfold dt. rewrite rows_tab; try concrete; try assumption.
    + cbn [blank forallb]. rewrite app_nil_r. unfold entries. now rewrite groups_entries.
    + apply Forall_app. now split.
    + rewrite forallb_app. apply andb_true_iff. split; (apply tab_skip; [discriminate|reflexivity]).
  - rewrite <- (app_nil_r ft), !app_assoc, <- (app_assoc _ ft). unfold ft. rewrite rows_tab; try concrete; try assumption.
    + rewrite T3, words_map_fill, !map_app, F3, <- app_assoc. cbn [map]. rewrite T2, TZ. reflexivity.
    + rewrite !Forall_app. now repeat split.
    + constructor.
    + rewrite !forallb_app. rewrite !andb_true_iff. repeat split; (apply tab_skip; [discriminate|reflexivity]).
Qed.
Print Assumptions C137_kernel.

(** C137: the same for variables: each with the words of its type and those of its size. *)
Theorem C137_variables : forall variables,
  Forall (fun v => word (fst v) /\ Forall word (fst (snd v)) /\ one_line (snd (snd v))) variables ->
  map words (rows (codes "variables:") (print_variables_info variables)) = map (fun v => fst v :: codes "|" :: fst (snd v) ++ words (snd (snd v))) variables.
Proof.
  intros vs F. unfold print_variables_info. change (concat (map variable_row vs)) with (concat (map (fun x => line (variable_line x)) vs)).
  rewrite concat_unlines, <- (app_nil_r (unlines _)).
  assert (O : Forall one_line (map variable_line vs)).
  { apply Forall_forall. intros x I. apply in_map_iff in I as ([n [t z]] & <- & I). rewrite Forall_forall in F. destruct (F _ I) as (A & B & C). cbn [fst snd] in *.
    unfold variable_line. cbn [fst snd]. one_liner. apply join_one_line. revert B. apply Forall_impl. intros a W. now apply word_one_line. }
  change (codes "variables: ") with (118%N :: codes "ariables: "). rewrite tab_lines; [|concrete|concrete|exact O|intros []].
  change (unlines ?a) with (unlines ([] ++ a)). rewrite <- (app_nil_r (tab _ _ _ _ _)). change (118%N :: codes "ariables: ") with (codes "variables:" ++ codes " ").
  rewrite rows_tab; try concrete; try assumption; try (constructor; fail); try reflexivity.
  - cbn [blank forallb]. rewrite app_nil_r, words_map_fill. clear O. induction F as [|[n [t z]] l (A & B & _) _ IH]; [reflexivity|]. cbn [map]. rewrite IH. f_equal. cbn [fst snd] in *.
    unfold variable_line, bar. cbn [fst snd]. rewrite words_bar. cbn [app]. rewrite words_app, !words_rjust, words_ljust, words_join, words_word by assumption. reflexivity.
  - apply Forall_forall. intros x I. apply in_map_iff in I as (v & <- & _). apply bar_row.
Qed.
Print Assumptions C137_variables.
(** C137: the same for constants with their values. *)
Theorem C137_constants : forall constants,
  Forall (fun c => word (fst c)) constants ->
  map (fun r => match words r with [n; b; v] => (n, b, parse_int v) | _ => ([], [], None) end) (rows (codes "constants:") (print_constants_info constants))
  = map (fun c => (fst c, codes "|", Some (snd c))) constants.
Proof.
  intros cs F. unfold print_constants_info. change (concat (map constant_row cs)) with (concat (map (fun x => line (constant_line x)) cs)).
  rewrite concat_unlines, <- (app_nil_r (unlines _)).
  assert (O : Forall one_line (map constant_line cs)).
  { apply Forall_forall. intros x I. apply in_map_iff in I as (c & <- & I). rewrite Forall_forall in F. assert (A := F _ I). unfold constant_line. one_liner. }
  change (codes "constants: ") with (99%N :: codes "onstants: "). rewrite tab_lines; [|concrete|concrete|exact O|intros []].
  change (unlines ?a) with (unlines ([] ++ a)). rewrite <- (app_nil_r (tab _ _ _ _ _)). change (99%N :: codes "onstants: ") with (codes "constants:" ++ codes " ").
  rewrite rows_tab; try concrete; try assumption; try (constructor; fail); try reflexivity.
  - cbn [blank forallb]. rewrite app_nil_r, map_map. clear O. induction F as [|[n z] l A _ IH]; [reflexivity|]. cbn [map]. rewrite IH. f_equal. cbn [fst snd] in *.
    unfold constant_line, bar, fill. cbn [fst snd]. rewrite words_fill, words_bar, words_rjust, words_ljust, words_word by assumption. rewrite (words_word (show_int z)) by apply show_word. cbn [app].
    now rewrite show_int_parse.
  - apply Forall_forall. intros x I. apply in_map_iff in I as (v & <- & _). apply bar_row.
Qed.
Print Assumptions C137_constants.
(** C137: regions of the stand-alone tool with the loops of each of them. *)
Theorem C137_regions : forall regions,
  Forall (fun r => (fst r = [] \/ name (fst r)) /\ Forall good_bounds (snd r)) regions ->
  headed_entries (rows (codes "loop stack:") (print_region_info regions))
  = map (fun r => (match fst r with [] => [] | n => [n] end, map (fun b => let '(lo, hi, st) := b in [lo; hi; st]) (snd r))) regions.
Proof.
  intros rs F. unfold print_region_info. rewrite (concat_flat region_rows region_lines) by (intros r _; apply region_lines_row). rewrite <- (app_nil_r (unlines (flat_map _ _))).
  assert (O : Forall one_line (flat_map region_lines rs)).
  { apply Forall_forall. intros x I. apply in_flat_map in I as ([n bs] & I & J). rewrite Forall_forall in F. destruct (F _ I) as (A & B). cbn [fst snd] in *.
    destruct J as [<-|J]; cbn [fst snd].
    - apply one_line_app; [|concrete]. apply rjust_one_line. destruct A as [->|(A & _)]; [intros []|now apply word_one_line].
    - apply in_map_iff in J as (b & <- & J). apply one_line_app; [concrete|]. apply bounds_one_line, good_lines. rewrite Forall_forall in B. auto. }
  change (codes "loop stack:        ") with (108%N :: codes "oop stack:        "). rewrite tab_lines; [|concrete|concrete|exact O|intros []].
  change (unlines ?a) with (unlines ([] ++ a)). rewrite <- (app_nil_r (tab _ _ _ _ _)). change (108%N :: codes "oop stack:        ") with (codes "loop stack:" ++ codes "        ").
  rewrite rows_tab; try concrete; try assumption; try (constructor; fail); try reflexivity.
  - cbn [blank forallb]. rewrite app_nil_r. unfold headed_entries. rewrite headed_entries_lines by exact F. cbn [fst]. apply map_ext_in. intros [n bs] I. f_equal. cbn [fst].
    rewrite Forall_forall in F. destruct (F _ I) as ([A|(A & _)] & _); cbn [fst] in A; [subst; reflexivity|]. rewrite words_word by exact A. destruct n; [now destruct A|reflexivity].
  - apply Forall_forall. intros x I. apply in_flat_map in I as (r & I & J). apply (blank_in 124%N); [|discriminate].
    destruct J as [<-|J]; [apply in_or_app; right; right; now left|]. apply in_map_iff in J as (b & <- & J). apply in_or_app. left. do 9 right. now left.
Qed.
Print Assumptions C137_regions.
(** C137: indentation puts the prefix in front of the first line and the text given for later lines in front of each other one, or as many blanks as the prefix has
    characters if that text is a blank. *)
Theorem C137_indent : forall prefix block later, one_line prefix -> one_line later -> prefix <> [] -> (later = [32%N] \/ 2 <= List.length later)%nat ->
  exists first others, lines block = first :: others /\
    lines (prefix_indent prefix block later) = (prefix ++ first) :: map (fun x => (if text_eqb later [32%N] then repeat 32%N (List.length prefix) else later) ++ x) others ++ [[]].
Proof.
  intros prefix block later OP OL P L. unfold lines at 1. assert (S1 := split_one_line block). destruct (split 10 block) as [|b bs] eqn:E; [now apply split_not_nil in E|].
  exists b, bs. split; [reflexivity|].
  assert (G : filler prefix later = if text_eqb later [32%N] then repeat 32%N (List.length prefix) else later).
  { unfold filler. destruct L as [->|L]; [reflexivity|]. destruct later as [|x [|y later]]; cbn [List.length] in *; [lia|lia|]. cbn. now rewrite andb_false_r. }
  enough (X : lines (prefix_indent prefix block later) = (prefix ++ b) :: map (fun x => filler prefix later ++ x) bs ++ [[]]) by (rewrite X, G; reflexivity).
  clear G. inversion S1 as [|? ? S2 S3]; subst. rewrite indent_lines; [|exact OL|].
  - rewrite E. cbn [hd tl]. rewrite lines_unlines; [reflexivity|]. constructor; [now apply one_line_app|]. apply Forall_forall. intros x I. apply in_map_iff in I as (y & <- & I).
    apply one_line_app; [now apply filler_one_line|]. rewrite Forall_forall in S3. auto.
  - unfold filler. destruct L as [->|L]; [cbn; destruct prefix; [congruence|discriminate]|]. destruct later as [|x [|y later]]; cbn [List.length] in *; [lia|lia|discriminate].
Qed.
Print Assumptions C137_indent.
(** C137: a single character other than a blank is not repeated, contrary to the description of the function: blanks are taken instead. *)
Theorem C137_character_refuted : exists prefix block later, List.length later = 1%nat /\
  lines (prefix_indent prefix block later) <> (prefix ++ hd [] (lines block)) :: map (fun x => concat (repeat later (List.length prefix)) ++ x) (tl (lines block)) ++ [[]].
Proof. exists (codes "ab"), (codes "x" ++ [10%N] ++ codes "y"), (codes "-"). split; [reflexivity|]. vm_compute. discriminate. Qed.
Print Assumptions C137_character_refuted.

(** The five-point stencil *)
Definition stencil_loops : list loop := [(codes "j", (codes "1", codes "M - 1", codes "1")); (codes "i", (codes "1", codes "N - 1", codes "1"))].
Definition stencil_sources : list (text * list text) :=
  [(codes "a", [codes "(j, i - 1)"; codes "(j, i + 1)"; codes "(j - 1, i)"; codes "(j + 1, i)"]); (codes "s", [codes "None"])].
Definition stencil_destinations : list (text * list text) := [(codes "b", [codes "(j, i)"])].
Definition stencil_flops : list (text * Z) := [(codes "+", 3%Z); (codes "*", 1%Z)].
Lemma concrete_absent c s : forallb (fun d => negb (d =? c)%N) s = true -> ~ In c s.
Proof. intros H I. rewrite forallb_forall in H. apply H in I. now rewrite N.eqb_refl in I. Qed.
Ltac absent := apply concrete_absent; reflexivity.
Ltac a_word := split; [discriminate|split; absent].
Example C137_case :
  Forall (fun l => name (fst l) /\ bounds_lines (snd l)) stencil_loops /\ Forall (fun l => bounds_fit (snd l)) stencil_loops /\ Forall good_access stencil_sources /\
  Forall good_access stencil_destinations /\ Forall (fun f => word (fst f)) stencil_flops /\
  nth 2 (lines (print_kernel_info stencil_loops stencil_sources stencil_destinations stencil_flops)) [] = codes "                          j |          1      M - 1          1" /\
  nth 9 (lines (print_kernel_info stencil_loops stencil_sources stencil_destinations stencil_flops)) [] = codes "                            | (j, i + 1)" /\
  last (removelast (removelast (removelast (lines (print_kernel_info stencil_loops stencil_sources stencil_destinations stencil_flops))))) [] = codes "                =======".
Proof.
  repeat match goal with |- _ /\ _ => split | |- Forall _ _ => constructor | _ => progress unfold good_access, name, word, bounds_lines, bounds_fit, fits, one_line, good_bounds; cbn [fst snd] end;
    try reflexivity; try discriminate; try absent; try (cbn; lia).
Qed.
Example C137_variables_case :
  Forall (fun v => word (fst v) /\ Forall word (fst (snd v)) /\ one_line (snd (snd v))) [(codes "a", ([codes "double"; codes "_Complex"], codes "(M, N)")); (codes "s", ([codes "double"; codes "_Complex"], codes "None"))] /\
  Forall (fun c : text * Z => word (fst c)) [(codes "M", 1000%Z); (codes "N", 20%Z)] /\
  Forall (fun r => (fst r = [] \/ name (fst r)) /\ Forall good_bounds (snd r)) [(codes "update", [(codes "0", codes "10", codes "1"); (codes "1", codes "N", codes "2")]); ([], [])].
Proof.
  repeat match goal with |- _ /\ _ => split | |- Forall _ _ => constructor | |- _ \/ _ => first [left; reflexivity | right] | _ => progress unfold name, word, one_line, good_bounds; cbn [fst snd] end;
    try reflexivity; try discriminate; try absent.
Qed.
