(** Lemmas for C89 to C95. *)
From Coq Require Import QArith Qreduction Lqa.
From Verif Require Import PyBaseFacts PyNumFacts PerfModel PerfProofs.
From Verif Require MachProofs.
From Verif Require Export TopoSpec.
Local Open Scope Z_scope.
Local Open Scope list_scope.

(** ** Texts *)
Lemma starts_begins p s : starts_with p s = true <-> begins p s.
Proof. apply starts_with_spec. Qed.
Lemma starts_false p s : starts_with p s = false <-> ~ begins p s.
Proof. rewrite <- starts_begins. destruct (starts_with p s); intuition congruence. Qed.
Lemma starts_app p s : starts_with p (p ++ s) = true.
Proof. apply starts_begins. now exists s. Qed.
Lemma skipn_app_length {A} (p s : list A) : skipn (List.length p) (p ++ s) = s.
Proof. induction p; cbn; auto. Qed.
Lemma firstn_app_length {A} (p s : list A) : firstn (List.length p) (p ++ s) = p.
Proof. induction p; cbn; f_equal; auto. Qed.
Lemma line_start_snoc x c : line_start (x ++ [c]) <-> c = 10%N.
Proof.
  split.
  - intros [H|[a H]]; [now destruct x|]. now apply app_inj_tail in H as [_ ->].
  - intros ->. right. now exists x.
Qed.
Lemma search_skip {A} (f : text -> option A) label v rest :
  (forall s, f s <> None -> begins label s) -> f rest = Some v ->
  forall y x at_, (at_ = true <-> line_start x) -> line_start (x ++ y) ->
  (forall x' y', y = x' ++ y' -> y' <> [] -> line_start (x ++ x') -> ~ begins label (y' ++ rest)) ->
  search_line f at_ (y ++ rest) = Some v.
Proof.
  intros F R y. induction y as [|c y IH]; intros x at_ B L H.
  - rewrite app_nil_r in L. apply B in L. subst at_. cbn [app]. destruct rest; cbn [search_line]; now rewrite R.
  - cbn [app search_line].
    assert (E : (if at_ then f (c :: y ++ rest) else None) = None).
    { destruct at_; [|reflexivity]. destruct (f (c :: y ++ rest)) eqn:E; [|reflexivity]. exfalso.
      apply (H [] (c :: y)); [reflexivity|discriminate|rewrite app_nil_r; now apply B|]. apply F. cbn [app]. congruence. }
    rewrite E. apply (IH (x ++ [c])).
    + rewrite line_start_snoc. apply N.eqb_eq.
    + now rewrite <- app_assoc.
    + intros x' y' -> N S'. apply (H (c :: x') y' eq_refl N). now rewrite <- app_assoc in S'.
Qed.
Lemma search_first {A} (f : text -> option A) label a rest v :
  (forall s, f s <> None -> begins label s) -> first_line label a rest -> f rest = Some v -> search_line f true (a ++ rest) = Some v.
Proof.
  intros F [L H] R. apply (search_skip f label v rest F R a [] true); [|exact L|exact H]. split; [now left|reflexivity].
Qed.
(** A match of a search is at the start of a line. *)
Lemma search_none {A} (f : text -> option A) s : forall at_, (forall x y, s = x ++ y -> f y = None) -> search_line f at_ s = None.
Proof.
  induction s as [|c s IH]; intros at_ H; cbn [search_line].
  - rewrite (H [] [] eq_refl). now destruct at_.
  - rewrite (H [] (c :: s) eq_refl). replace (if at_ then None else None) with (@None A) by now destruct at_.
    apply IH. intros x y ->. apply (H (c :: x) y eq_refl).
Qed.
Lemma is_space_white c : is_space c = true <-> white c.
Proof. unfold is_space, white. rewrite orb_true_iff, !andb_true_iff, !N.leb_le. tauto. Qed.
Lemma not_white c : is_space c = false <-> ~ white c.
Proof. rewrite <- is_space_white. destruct (is_space c); intuition congruence. Qed.
Lemma blanks_space w : blanks w -> Forall (fun c => is_space c = true) w.
Proof. apply Forall_impl. intros c [->| ->]; reflexivity. Qed.
Lemma blanks_not c w : blanks w -> In c w -> c = 32%N \/ c = 9%N.
Proof. intros B I. unfold blanks in B. rewrite Forall_forall in B. now apply B. Qed.
Lemma line_ends_ok w b : blanks w -> (b = [] \/ exists b', b = 10%N :: b') -> line_ends (w ++ b) = true.
Proof.
  intros B H. unfold line_ends. destruct H as [->|[b' ->]].
  - rewrite app_nil_r. replace w with (w ++ []) at 1 by apply app_nil_r. rewrite span_app; [reflexivity|now apply blanks_space|exact I].
  - assert (Sp := span_spec is_space (w ++ 10%N :: b')). destruct (span is_space (w ++ 10%N :: b')) as [u r]. destruct Sp as (E & U & R).
    destruct r as [|c r]; [reflexivity|]. apply existsb_exists. exists 10%N. split; [|reflexivity].
    assert (K : forall w, (w ++ 10 :: b')%N = u ++ c :: r -> is_space c = false -> Forall (fun c => is_space c = true) w -> In 10%N u).
    { clear - u. induction u as [|d u IH]; intros w E N F.
      - destruct w as [|d w]; cbn in E; injection E as <- E; [discriminate|]. inversion F; congruence.
      - destruct w as [|d' w]; cbn in E; injection E as <- E; [now left|]. right. inversion F; subst. now apply (IH w). }
    apply (K w E R). now apply blanks_space.
Qed.
Lemma show_nat_decimal n : Forall (fun c => is_decimal c = true) (show_nat n).
Proof. destruct (show_nat_spec n) as (_ & H & _). apply Forall_forall. intros c. revert H. rewrite forallb_forall. intros H; apply H. Qed.
Lemma decimal_not_space c : is_decimal c = true -> is_space c = false.
Proof. rewrite is_decimal_spec. intros H. apply not_white. unfold white. lia. Qed.
Lemma head_of {A} (l : list A) : l <> [] -> exists x r, l = x :: r.
Proof. destruct l; [congruence|eauto]. Qed.
Lemma line_start_ends w b : blanks w -> (b = [] \/ exists b', b = 10%N :: b') -> match w ++ b with [] => True | c :: _ => is_decimal c = false end.
Proof.
  intros B [->|[b' ->]]; destruct w as [|c w]; cbn [app]; trivial; inversion_clear B as [|? ? H ?]; destruct H as [->| ->]; reflexivity.
Qed.
Lemma match_number_begins label s : match_number label s <> None -> begins label s.
Proof. unfold match_number. destruct (starts_with label s) eqn:E; [intros _; now apply starts_begins|congruence]. Qed.
Lemma match_number_ok label w n w' b : blanks w -> w <> [] -> blanks w' -> (b = [] \/ exists b', b = 10%N :: b') ->
  match_number label (label ++ w ++ show_nat n ++ w' ++ b) = Some (Z.of_N n).
Proof.
  intros B N B' E. unfold match_number. rewrite starts_app, skipn_app_length.
  destruct (show_nat_spec n) as (V & D & NE).
  destruct (head_of _ NE) as (d & ds & Ed). assert (Dd := show_nat_decimal n).
  rewrite span_app; [|now apply blanks_space|rewrite Ed; apply decimal_not_space; rewrite Ed in Dd; now inversion Dd].
  destruct w as [|c w]; [congruence|]. rewrite span_app; [|exact Dd|now apply line_start_ends].
  rewrite (line_ends_ok _ _ B' E). rewrite Ed at 1. cbn iota. now rewrite V.
Qed.
Lemma number_shown label n topology : shows label (show_nat n) topology -> number_in label topology = Ok (Z.of_N n).
Proof.
  intros (a & w & w' & b & -> & F & B & N & B' & E). unfold number_in.
  rewrite (search_first _ (codes label) a _ (Z.of_N n)); [reflexivity|apply match_number_begins|exact F|now apply match_number_ok].
Qed.

(** ** The section of the caches *)
Lemma find_shift p s : forall i, find_from p s i = -1 /\ find_from p s 0 = -1 \/ find_from p s i = i + find_from p s 0 /\ 0 <= find_from p s 0.
Proof.
  induction s as [|c s IH]; intros i; cbn [find_from]; destruct (starts_with p _); auto; try (right; lia).
  destruct (IH (i + 1)) as [[A B]|[A B]], (IH (0 + 1)) as [[C D]|[C D]]; rewrite ?A, ?C; (left; split; lia) || (right; split; lia).
Qed.
Lemma find_first p a rest : first_part p a rest -> begins p rest -> find p (a ++ rest) = Z.of_nat (List.length a).
Proof.
  unfold find. intros H B. replace (Z.of_nat (List.length a)) with (0 + Z.of_nat (List.length a)) by lia. generalize 0.
  revert H. induction a as [|c a IH]; intros H i.
  - cbn [app List.length]. apply starts_begins in B. destruct rest; cbn [find_from]; rewrite B; lia.
  - cbn [app find_from].
    assert (E : starts_with p (c :: a ++ rest) = false).
    { apply starts_false. apply (H [] (c :: a)); [reflexivity|discriminate]. }
    rewrite E, IH; [cbn [List.length]; lia|]. intros x y -> N. apply (H (c :: x) y eq_refl N).
Qed.
Lemma slice_middle (a s b : text) : slice (a ++ s ++ b) (Z.of_nat (List.length a)) (Z.of_nat (List.length (a ++ s))) = s.
Proof.
  unfold slice, bound. rewrite !app_length. rewrite !(proj2 (Z.ltb_ge _ 0)) by lia.
  rewrite !Z.min_l by lia. rewrite Nat2Z.id. replace (Z.to_nat _) with (List.length s) by lia.
  now rewrite skipn_app_length, firstn_app_length.
Qed.
Lemma read_lines_app ph r a : forall h b, read_lines ph r h (a ++ b) = do h' <- read_lines ph r h a; read_lines ph r h' b.
Proof. induction a as [|l a IH]; intros h b; [reflexivity|]. cbn [app read_lines]. destruct (read_line ph r h l); [apply IH|reflexivity]. Qed.
Lemma read_plain ph r h l : plain l -> read_line ph r h l = Ok h.
Proof. intros (_ & A & B & C). unfold read_line. now rewrite !(proj2 (starts_false _ _)). Qed.
Lemma read_plains ph r a : Forall plain a -> forall h, read_lines ph r h a = Ok h.
Proof. induction 1 as [|l a P F IH]; intros h; [reflexivity|]. cbn [read_lines]. rewrite read_plain by assumption. apply IH. Qed.
Lemma lstrip_blanks w s : blanks w -> lstrip (w ++ s) = lstrip s.
Proof. intros B. apply blanks_space in B. induction B as [|c w H F IH]; [reflexivity|]. cbn [app lstrip]. now rewrite H. Qed.
Lemma lstrip_other c s : ~ white c -> lstrip (c :: s) = c :: s.
Proof. intros H. apply not_white in H. cbn [lstrip]. now rewrite H. Qed.
Lemma strip_ends w s : blanks w -> (exists c r, s = c :: r /\ ~ white c) -> (exists c r, s = r ++ [c] /\ ~ white c) -> strip (w ++ s) = s.
Proof.
  intros B (c & r & E & N) (d & q & E' & N'). unfold strip. rewrite lstrip_blanks by assumption.
  rewrite E, lstrip_other by assumption. rewrite <- E, E', rev_app_distr. cbn [rev app]. rewrite lstrip_other by assumption.
  cbn [rev]. now rewrite rev_involutive.
Qed.
Lemma behind_label label w s : ~ In 58%N label -> ~ In 58%N s -> blanks w ->
  (exists c r, s = c :: r /\ ~ white c) -> (exists c r, s = r ++ [c] /\ ~ white c) -> behind_colon ((label ++ [58%N]) ++ w ++ s) = s.
Proof.
  intros L C B H H'. unfold behind_colon. rewrite <- app_assoc. cbn [app]. rewrite split_app by assumption.
  rewrite split_single; [cbn [nth]; now apply strip_ends|]. rewrite in_app_iff. intros [I|I]; [|now apply C].
  now destruct (blanks_not _ _ B I).
Qed.
Lemma show_int_white z c : In c (show_int z) -> ~ white c.
Proof. intros H. apply show_int_chars in H. unfold white. lia. Qed.
Lemma show_int_edges z : (exists c r, show_int z = c :: r /\ ~ white c) /\ (exists c r, show_int z = r ++ [c] /\ ~ white c).
Proof.
  assert (N := show_int_not_nil z). split.
  - destruct (head_of _ N) as (c & r & E). exists c, r. split; [exact E|]. apply (show_int_white z). rewrite E. now left.
  - destruct (exists_last N) as (r & c & E). exists c, r. split; [exact E|]. apply (show_int_white z). rewrite E. apply in_or_app. right. now left.
Qed.
Lemma count_app c a b : count c (a ++ b) = count c a + count c b.
Proof. unfold count. rewrite filter_app, app_length. lia. Qed.
Lemma count_zero c a : ~ In c a -> count c a = 0.
Proof.
  unfold count. induction a as [|x a IH]; [reflexivity|]. intros H. cbn [filter]. destruct (N.eqb_spec c x) as [->|N]; [now elim H; left|].
  apply IH. intros I. apply H. now right.
Qed.
Lemma count_groups g : count 40 (groups_text g) = Z.of_nat (List.length g).
Proof.
  induction g as [|ids g IH]; [reflexivity|]. cbn [groups_text flat_map]. rewrite !count_app. fold (groups_text g). rewrite IH.
  assert (Z0 : count 40 (flat_map (fun i => show_int i ++ codes " ") ids) = 0).
  { apply count_zero. rewrite in_flat_map. intros (i & _ & I). apply in_app_or in I as [I|[I|[]]]; [|discriminate]. apply show_int_chars in I. lia. }
  rewrite Z0. change (count 40 (codes "( ")) with 1. change (count 40 (codes ") ")) with 0. cbn [List.length]. lia.
Qed.
Lemma codes_no_begin p q s : (exists c, nth_error p 0 = Some c /\ nth_error q 0 <> Some c /\ q <> []) -> starts_with p (q ++ s) = false.
Proof.
  intros (c & P & Q & N). destruct p as [|x p]; [discriminate|]. destruct q as [|y q]; [congruence|]. cbn in *.
  destruct (N.eqb_spec x y); [congruence|reflexivity].
Qed.
(** What one block adds *)
Definition added (r : readout) (s : shown) (q : UnitModel.quantity) : level :=
  let cores := r_cores r * r_sockets r / Z.of_nat (List.length (sh_groups s)) in
  mkLevel (codes "L" ++ show_int (sh_level s)) (Some (throughput_of (codes "L" ++ show_int (sh_level s))))
    (Some (mkCache (Some (codes "L" ++ show_int (sh_level s + 1))) (Some (codes "L" ++ show_int (sh_level s + 1)))))
    (Some (Some q)) (Some (Z.of_nat (List.length (sh_groups s)))) (Some cores) (Some (cores * r_threads r)).
Lemma read_block r s q lines h : block s lines -> size_is (sh_size s) q -> sh_groups s <> [] ->
  read_lines true r h lines = Ok (added r s q :: h).
Proof.
  intros (a & b & c & w1 & w2 & w3 & A & B & C & W1 & W2 & W3 & ->) (S1 & S2 & S3 & S4 & S5) G.
  cbn [read_lines]. unfold read_line at 1. rewrite starts_app.
  destruct (show_int_edges (sh_level s)) as [E1 E2].
  assert (BL : behind_colon (codes "Level:" ++ w1 ++ show_int (sh_level s)) = show_int (sh_level s)).
  { apply (behind_label (codes "Level")); [intros H; repeat (destruct H as [H|H]; [discriminate|]); destruct H| |exact W1|exact E1|exact E2].
    intros H. apply show_int_chars in H. lia. }
  rewrite BL. cbn [bind]. rewrite read_lines_app, read_plains by assumption. cbn [bind read_lines].
  unfold read_line at 1. rewrite codes_no_begin by (exists 76%N; cbn; repeat split; discriminate).
  rewrite starts_app.
  assert (BS : behind_colon (codes "Size:" ++ w2 ++ sh_size s) = sh_size s).
  { apply (behind_label (codes "Size")); [intros H; repeat (destruct H as [H|H]; [discriminate|]); destruct H|exact S1|exact W2|exact S3|exact S4]. }
  rewrite BS, S5. cbn [bind v_name].
  assert (TL : tl (codes "L" ++ show_int (sh_level s)) = show_int (sh_level s)) by reflexivity.
  rewrite TL, show_int_read. cbn [orb bind v_name v_throughput v_groups v_cores v_threads].
  rewrite read_lines_app, read_plains by assumption. cbn [bind read_lines].
  unfold read_line at 1. rewrite codes_no_begin by (exists 76%N; cbn; repeat split; discriminate).
  rewrite codes_no_begin by (exists 83%N; cbn; repeat split; discriminate). rewrite starts_app.
  assert (CG : count 40 (codes "Cache groups:" ++ w3 ++ groups_text (sh_groups s)) = Z.of_nat (List.length (sh_groups s))).
  { rewrite !count_app, count_groups. rewrite (count_zero 40 w3); [reflexivity|]. intros I. now destruct (blanks_not _ _ W3 I). }
  rewrite CG. destruct (Z.eqb_spec (Z.of_nat (List.length (sh_groups s))) 0) as [Z0|_]; [destruct (sh_groups s); [congruence|cbn in Z0; lia]|].
  cbn [bind v_name v_throughput v_cache v_size]. rewrite read_plains by assumption. reflexivity.
Qed.
Lemma read_blocks r l : forall qs rest h, Forall2 block l rest -> Forall2 (fun s q => size_is (sh_size s) q) l qs -> Forall (fun s => sh_groups s <> []) l ->
  read_lines true r h (concat rest) = Ok (rev (map (fun sq => added r (fst sq) (snd sq)) (combine l qs)) ++ h).
Proof.
  induction l as [|s l IH]; intros qs rest h B Q G; inversion B; inversion Q; subst; [reflexivity|].
  cbn [concat]. rewrite read_lines_app. inversion G; subst. erewrite read_block by eassumption. cbn [bind].
  erewrite IH by eassumption. cbn [combine map fst snd rev]. now rewrite <- app_assoc.
Qed.
Lemma plain_feed l : plain l -> ~ In 10%N l.
Proof. now intros (H & _). Qed.
Lemma feed_free_label label w s : ~ In 10%N (codes label) -> blanks w -> ~ In 10%N s -> ~ In 10%N (codes label ++ w ++ s).
Proof. intros L B N. rewrite !in_app_iff. intros [I|[I|I]]; [auto| |auto]. now destruct (blanks_not _ _ B I). Qed.
Lemma groups_feed g : ~ In 10%N (groups_text g).
Proof.
  unfold groups_text. rewrite in_flat_map. intros (ids & _ & I). rewrite !in_app_iff in I.
  destruct I as [I|[I|I]]; [repeat (destruct I as [I|I]; [discriminate|]); destruct I| |repeat (destruct I as [I|I]; [discriminate|]); destruct I].
  apply in_flat_map in I as (i & _ & I). apply in_app_or in I as [I|[I|[]]]; [|discriminate]. apply show_int_chars in I. lia.
Qed.
Lemma block_feed s lines q : block s lines -> size_is (sh_size s) q -> forall l, In l lines -> ~ In 10%N l.
Proof.
  intros (a & b & c & w1 & w2 & w3 & A & B & C & W1 & W2 & W3 & ->) (S1 & S2 & _) l I.
  rewrite Forall_forall in A, B, C.
  assert (NL : forall p, In p (map codes ["Level:"; "Size:"; "Cache groups:"]%string) -> ~ In 10%N p).
  { intros p Hp. repeat (destruct Hp as [<-|Hp]; [intros H; repeat (destruct H as [H|H]; [discriminate|]); destruct H|]). destruct Hp. }
  destruct I as [<-|I].
  - apply feed_free_label; [apply NL; now left|assumption|]. intros H. apply show_int_chars in H. lia.
  - apply in_app_or in I as [I|[<-|I]]; [now apply plain_feed, A| |].
    + apply feed_free_label; [apply NL; right; now left|assumption|assumption].
    + apply in_app_or in I as [I|[<-|I]]; [now apply plain_feed, B| |now apply plain_feed, C].
      apply feed_free_label; [apply NL; right; right; now left|assumption|apply groups_feed].
Qed.
Lemma sizes_exist l : Forall (fun s => exists q, size_is (sh_size s) q) l -> exists qs, Forall2 (fun s q => size_is (sh_size s) q) l qs.
Proof. induction 1 as [|s l (q & H) F (qs & IH)]; [now exists []|exists (q :: qs); now constructor]. Qed.
Lemma section_feed l lines qs : section l lines -> Forall2 (fun s q => size_is (sh_size s) q) l qs -> forall x, In x lines -> ~ In 10%N x.
Proof.
  intros (head & rest & -> & H & B) Q x I. apply in_app_or in I as [I|I]; [rewrite Forall_forall in H; now apply plain_feed, H|].
  revert qs Q I. induction B as [|s lines' l rest' Bl B IH]; intros qs Q I; [destruct I|]. inversion Q; subst.
  cbn [concat] in I. apply in_app_or in I as [I|I]; [now apply (block_feed s lines' y)|eauto].
Qed.
(** The whole hierarchy of a printed topology *)
Definition last_cut (v : level) : level :=
  mkLevel (v_name v) (v_throughput v) (Some (mkCache None None)) (v_size v) (v_groups v) (v_cores v) (v_threads v).
Definition cut (l : list level) : list level := match rev l with [] => [] | v :: l' => rev l' ++ [last_cut v] end.
Lemma section_text l topology r qs : topology_of l topology -> Forall2 (fun s q => size_is (sh_size s) q) l qs -> Forall (fun s => sh_groups s <> []) l -> l <> [] ->
  hierarchy true r topology = Ok (cut (map (fun sq => added r (fst sq) (snd sq)) (combine l qs)) ++ [memory true r]).
Proof.
  intros (a & lines & b & E & Sec & BC & BN & FC & FN) Q G N.
  unfold hierarchy. set (T := topology).
  assert (F1 : find (codes "Cache Topology") T = Z.of_nat (List.length a)).
  { unfold T. rewrite E. apply find_first; [exact FC|]. destruct BC as (t & ->). exists (t ++ b). now rewrite app_assoc. }
  assert (F2 : find (codes "NUMA Topology") T = Z.of_nat (List.length (a ++ join 10 lines))).
  { unfold T. rewrite E, app_assoc. now apply find_first. }
  rewrite F1, F2. unfold T. rewrite E, slice_middle.
  assert (NE : lines <> []). { intros ->. destruct BC as (t & X). discriminate X. }
  rewrite split_join; [|exact NE|now apply (section_feed l lines qs)].
  destruct Sec as (head & rest & -> & H & B). rewrite read_lines_app, read_plains by assumption. cbn [bind].
  rewrite (read_blocks r l qs rest) by assumption. rewrite app_nil_r. cbn [bind]. unfold cut.
  destruct (rev (map _ (combine l qs))) as [|v l'] eqn:R.
  - exfalso. apply (f_equal (@List.length _)) in R. rewrite rev_length, map_length, combine_length in R.
    rewrite <- (F2_length _ _ _ Q) in R. destruct l; [congruence|cbn in R; lia].
  - assert (In v (map (fun sq => added r (fst sq) (snd sq)) (combine l qs))).
    { apply in_rev. rewrite R. now left. }
    apply in_map_iff in H0 as (sq & <- & _). cbn [v_cache added]. now cbn [rev].
Qed.
Lemma cut_cons v l : l <> [] -> cut (v :: l) = v :: cut l.
Proof.
  intros N. unfold cut. cbn [rev]. destruct (rev l) as [|w l'] eqn:R.
  - apply (f_equal (@rev _)) in R. rewrite rev_involutive in R. cbn in R. congruence.
  - cbn [app]. now rewrite rev_app_distr.
Qed.
Lemma throughput_first n : exists first rest, throughput_of (codes "L" ++ show_int n) = first :: rest /\ (first = codes "architecture code analyzer" <-> n = 1).
Proof.
  unfold throughput_of. destruct (text_eqb_spec (codes "L" ++ show_int n) (codes "L1")) as [E|E].
  - do 2 eexists. split; [reflexivity|]. split; [intros _|reflexivity]. apply show_int_inj. injection E as E. exact E.
  - do 2 eexists. split; [reflexivity|]. split; [intros H; discriminate|]. intros ->. now elim E.
Qed.
Lemma added_describes r s q : size_is (sh_size s) q -> describes (r_cores r * r_sockets r) (r_threads r) s (added r s q).
Proof.
  intros (_ & _ & _ & _ & P). unfold describes, added. cbn [v_name v_throughput v_size v_groups v_cores v_threads]. split; [reflexivity|]. split.
  - destruct (throughput_first (sh_level s)) as (first & rest & -> & H). now exists first, rest.
  - split; [now exists q|]. repeat split.
Qed.
Lemma cut_describes r l : forall qs, Forall2 (fun s q => size_is (sh_size s) q) l qs -> l <> [] ->
  Forall2 (describes (r_cores r * r_sockets r) (r_threads r)) l (cut (map (fun sq => added r (fst sq) (snd sq)) (combine l qs))).
Proof.
  induction l as [|s l IH]; intros qs Q N; inversion Q; subst; [congruence|]. cbn [combine map fst snd].
  destruct l as [|s2 l].
  - inversion H3; subst. cbn. constructor; [|constructor]. destruct (added_describes r s y H1) as (A & B & C & D). now split; [|split; [|split]].
  - rewrite cut_cons by (inversion H3; discriminate). constructor; [now apply added_describes|apply IH; [assumption|discriminate]].
Qed.
Lemma cut_chained r l : forall qs, Forall2 (fun s q => size_is (sh_size s) q) l qs -> consecutive l ->
  chained (cut (map (fun sq => added r (fst sq) (snd sq)) (combine l qs))).
Proof.
  induction l as [|s l IH]; intros qs Q C; inversion Q; subst; [exact I|]. cbn [combine map fst snd].
  destruct l as [|s2 l]; [inversion H3; subst; reflexivity|].
  inversion H3; subst. cbn [combine map fst snd] in *. destruct C as [C1 C2]. rewrite cut_cons by discriminate.
  specialize (IH (y0 :: l'0) H3 C2). cbn [combine map fst snd] in IH.
  assert (Nm : exists w rest, cut (added r s2 y0 :: map (fun sq => added r (fst sq) (snd sq)) (combine l l'0)) = w :: rest /\ v_name w = codes "L" ++ show_int (sh_level s2)).
  { destruct (map (fun sq => added r (fst sq) (snd sq)) (combine l l'0)) as [|v rest] eqn:M.
    - eexists; eexists; split; reflexivity.
    - rewrite cut_cons by discriminate. eexists; eexists; split; reflexivity. }
  destruct Nm as (w & rest & Ew & Nw). rewrite Ew in *. cbn [chained]. split; [|exact IH]. rewrite Nw, C1. reflexivity.
Qed.

(** ** Without placeholders nothing can be read *)
Lemma no_cache r lines : forall h h', read_lines false r h lines = Ok h' -> Forall (fun l => v_cache l = None) h -> Forall (fun l => v_cache l = None) h'.
Proof.
  induction lines as [|line lines IH]; intros h h'; cbn [read_lines]; [now injection 1 as <-|].
  destruct (read_line false r h line) as [h1|] eqn:R; [|discriminate]. cbn [bind]. intros H F. apply (IH _ _ H). clear IH H.
  unfold read_line in R. destruct (starts_with (codes "Level:") line).
  - injection R as <-. now constructor.
  - destruct (starts_with (codes "Size:") line).
    + destruct (UnitModel.parse _); [|discriminate]. cbn [bind] in R. destruct h as [|l h]; [discriminate|].
      inversion F as [|? ? E F']; subst. destruct (py_int _); [|discriminate]. rewrite E in R. discriminate.
    + destruct (starts_with (codes "Cache groups:") line); [|now injection R as <-].
      destruct (count 40 line =? 0); [discriminate|]. destruct h as [|l h]; injection R as <-; [constructor|].
      inversion F; subst. now constructor.
Qed.
Lemma hierarchy_false r topology : exists e, hierarchy false r topology = Err e.
Proof.
  unfold hierarchy. destruct (read_lines false r [] _) as [h|e] eqn:R; [|now exists e]. cbn [bind].
  apply no_cache in R; [|constructor]. destruct R as [|l h E _]; [now exists IndexError|]. rewrite E. now exists KeyError.
Qed.

(** ** Histories of calls *)
Section Histories.
Variable topology : text.
Variable cpuinfo : text -> res text.
Variable P : world -> Prop.
Local Notation machine := (machine topology cpuinfo).
Definition kept_read (st : state) : Prop :=
  match s_read st with
  | Some (k, i) => exists d w, nth_error (s_dicts st) i = Some d /\ P w /\ machine w (path_of k) = Ok (d_read d) /\ (k <> Plain -> d_hier d = None)
  | None => True
  end.
Definition kept_hier (st : state) : Prop :=
  match s_hier st with
  | Some (k, h) =>
      exists r w, P w /\ machine w (match k with HPlain => path_of Plain | HWith _ p => p end) = Ok r /\
                  hierarchy (match k with HPlain => true | HWith b _ => b end) r topology = Ok h
  | None => True
  end.
Definition inv (st : state) : Prop := P (s_world st) /\ kept_read st /\ kept_hier st.
Lemma key_eqb_eq a b : key_eqb a b = true <-> a = b.
Proof.
  destruct a as [|p], b as [|q]; cbn; try (split; congruence || reflexivity).
  destruct (text_eqb_spec p q); split; congruence.
Qed.
Lemma hkey_eqb_eq a b : hkey_eqb a b = true <-> a = b.
Proof.
  destruct a as [|x p], b as [|y q]; cbn; try (split; congruence || reflexivity).
  destruct (text_eqb_spec p q), x, y; cbn; split; congruence.
Qed.
Lemma get_readouts_spec st k st' x : inv st -> get_readouts topology cpuinfo st k = (st', x) ->
  inv st' /\ s_models st' = s_models st /\ s_world st' = s_world st /\ s_hier st' = s_hier st /\
  (exists more, s_dicts st' = s_dicts st ++ more) /\
  (s_read st' = s_read st \/ exists i, s_read st' = Some (k, i) /\ i = List.length (s_dicts st)) /\
  match x with
  | Ok i => s_read st' = Some (k, i) /\
            exists d w, P w /\ nth_error (s_dicts st') i = Some d /\ machine w (path_of k) = Ok (d_read d) /\ (k <> Plain -> d_hier d = None)
  | Err e => exists w, P w /\ machine w (path_of k) = Err e
  end.
Proof.
  intros (IP & IR & IH) G.
  assert (M : match (do c <- cpuinfo (path_of k); readouts topology c (s_world st)) with
    | Err e => (st, Err e)
    | Ok r => (mkState (s_dicts st ++ [mkDict r None]) (Some (k, List.length (s_dicts st))) (s_hier st) (s_models st) (s_world st),
               Ok (List.length (s_dicts st)))
    end = (st', x) -> inv st' /\ s_models st' = s_models st /\ s_world st' = s_world st /\ s_hier st' = s_hier st /\
  (exists more, s_dicts st' = s_dicts st ++ more) /\
  (s_read st' = s_read st \/ exists i, s_read st' = Some (k, i) /\ i = List.length (s_dicts st)) /\
  match x with
  | Ok i => s_read st' = Some (k, i) /\
            exists d w, P w /\ nth_error (s_dicts st') i = Some d /\ machine w (path_of k) = Ok (d_read d) /\ (k <> Plain -> d_hier d = None)
  | Err e => exists w, P w /\ machine w (path_of k) = Err e
  end).
  { change (do c <- cpuinfo (path_of k); readouts topology c (s_world st)) with (machine (s_world st) (path_of k)).
    destruct (machine (s_world st) (path_of k)) as [r|e] eqn:E; intros X; injection X as <- <-.
    - assert (NE : nth_error (s_dicts st ++ [mkDict r None]) (List.length (s_dicts st)) = Some (mkDict r None)).
      { rewrite nth_error_app2, Nat.sub_diag by lia. reflexivity. }
      split.
      { repeat split; cbn; [exact IP| |exact IH]. unfold kept_read. cbn. exists (mkDict r None), (s_world st). auto. }
      cbn. repeat split; eauto.
      exists (mkDict r None), (s_world st). auto.
    - split; [repeat split; assumption|]. do 4 (split; [try reflexivity|]).
      + exists []. now rewrite app_nil_r.
      + split; [now left|]. exists (s_world st). auto. }
  unfold get_readouts in G. unfold kept_read in IR. destruct (s_read st) as [[k' i]|] eqn:R; [|now apply M].
  destruct (key_eqb k k') eqn:K; [|now apply M]. apply key_eqb_eq in K. subst k'. injection G as <- <-.
  split. { repeat split; [exact IP| |exact IH]. unfold kept_read. now rewrite R. }
  do 3 (split; [reflexivity|]). split; [exists []; now rewrite app_nil_r|]. split; [now left; rewrite R|]. split; [exact R|].
  destruct IR as (d & w & A & B & C & D). exists d, w. auto.
Qed.
Lemma get_hierarchy_spec st k st' x : inv st -> get_hierarchy topology cpuinfo st k = (st', x) ->
  let path := match k with HPlain => path_of Plain | HWith _ p => p end in
  let ph := match k with HPlain => true | HWith b _ => b end in
  inv st' /\ s_models st' = s_models st /\ s_world st' = s_world st /\
  (exists more, s_dicts st' = s_dicts st ++ more) /\
  (s_read st' = s_read st \/ exists i, s_read st' = Some (Path path, i) /\ i = List.length (s_dicts st)) /\
  match x with
  | Ok h => exists r w, P w /\ machine w path = Ok r /\ hierarchy ph r topology = Ok h
  | Err e => exists w, P w /\ (machine w path = Err e \/ exists r, machine w path = Ok r /\ hierarchy ph r topology = Err e)
  end.
Proof.
  intros I G path ph. unfold get_hierarchy in G.
  replace (match k with HPlain => (true, path_of Plain) | HWith b p => (b, p) end) with (ph, path) in G by now destruct k.
  assert (M : match get_readouts topology cpuinfo st (Path path) with
    | (st1, Err e) => (st1, Err e)
    | (st1, Ok i) =>
        match nth_error (s_dicts st1) i with
        | None => (st1, Err IndexError)
        | Some d =>
            match hierarchy ph (d_read d) topology with
            | Err e => (st1, Err e)
            | Ok h => (mkState (s_dicts st1) (s_read st1) (Some (k, h)) (s_models st1) (s_world st1), Ok h)
            end
        end
    end = (st', x) -> inv st' /\ s_models st' = s_models st /\ s_world st' = s_world st /\
  (exists more, s_dicts st' = s_dicts st ++ more) /\
  (s_read st' = s_read st \/ exists i, s_read st' = Some (Path path, i) /\ i = List.length (s_dicts st)) /\
  match x with
  | Ok h => exists r w, P w /\ machine w path = Ok r /\ hierarchy ph r topology = Ok h
  | Err e => exists w, P w /\ (machine w path = Err e \/ exists r, machine w path = Ok r /\ hierarchy ph r topology = Err e)
  end).
  { destruct (get_readouts topology cpuinfo st (Path path)) as [st1 y] eqn:R. apply (get_readouts_spec st _ _ _ I) in R.
    destruct R as (I1 & R1 & R2 & R3 & R4 & R5 & R6). destruct y as [i|e].
    - destruct R6 as (_ & d & w & W & N & Mw & _). rewrite N. cbn [path_of] in Mw.
      destruct (hierarchy ph (d_read d) topology) as [h|e] eqn:Hh; intros X; injection X as <- <-.
      + cbn. split.
        { destruct I1 as (A & B & C). repeat split; [exact A|exact B|]. unfold kept_hier. cbn. exists (d_read d), w. now subst path ph; destruct k. }
        do 2 (split; [assumption|]). split; [assumption|]. split; [assumption|]. now exists (d_read d), w.
      + repeat (split; [assumption|]). exists w. split; [exact W|]. right. now exists (d_read d).
    - intros X; injection X as <- <-. repeat (split; [assumption|]). destruct R6 as (w & W & Mw). exists w. auto. }
  assert (IHh := proj2 (proj2 I)). unfold kept_hier in IHh. destruct (s_hier st) as [[k' h]|] eqn:Hs; [|now apply M].
  destruct (hkey_eqb k k') eqn:K; [|now apply M]. apply hkey_eqb_eq in K. subst k'. injection G as <- <-.
  split; [exact I|]. do 2 (split; [reflexivity|]). split; [exists []; now rewrite app_nil_r|]. split; [now left|].
  destruct IHh as (r & w & A & B & C). now exists r, w.
Qed.
Lemma set_nth_same {A} (a : A) l : forall i, (i < List.length l)%nat -> nth_error (set_nth i a l) i = Some a.
Proof. induction l as [|x l IH]; intros [|i] H; cbn in *; try lia; [reflexivity|]. apply IH. lia. Qed.
Lemma set_nth_other {A} (a : A) l : forall i j, i <> j -> nth_error (set_nth i a l) j = nth_error l j.
Proof. induction l as [|x l IH]; intros [|i] [|j] H; cbn; try congruence. apply IH. congruence. Qed.
Lemma current_system_spec st m st' x : inv st -> current_system topology cpuinfo st m = (st', x) ->
  inv st' /\ s_models st' = s_models st /\ s_world st' = s_world st /\
  match x with
  | Ok b => exists r w md, P w /\ machine w (path_of Plain) = Ok r /\ nth_error (s_models st) m = Some md /\ b = same_system r (m_read md)
  | Err e => (exists w, P w /\ (machine w (path_of Plain) = Err e \/ exists r, machine w (path_of Plain) = Ok r /\ hierarchy true r topology = Err e)) \/
             nth_error (s_models st) m = None
  end.
Proof.
  intros I. unfold current_system.
  destruct (get_readouts topology cpuinfo st Plain) as [st1 y] eqn:R. apply (get_readouts_spec st _ _ _ I) in R.
  destruct R as (I1 & R1 & R2 & R3 & R4 & R5 & R6). destruct y as [i|e];
    [|intros X; injection X as <- <-; repeat (split; [assumption|]); left; destruct R6 as (w & W & Mw); exists w; auto].
  destruct R6 as (SR & d & w & W & N & Mw & _).
  destruct (get_hierarchy topology cpuinfo st1 HPlain) as [st2 z] eqn:H. apply (get_hierarchy_spec st1 _ _ _ I1) in H. cbv zeta in H.
  destruct H as (I2 & H1 & H2 & (more & H3) & H4 & H5).
  destruct z as [h|e]; [|intros X; injection X as <- <-; repeat (split; [congruence||assumption|]); now left].
  assert (L : (i < List.length (s_dicts st1))%nat) by (apply nth_error_Some; congruence).
  assert (N2 : nth_error (s_dicts st2) i = Some d) by (rewrite H3, nth_error_app1 by exact L; exact N).
  rewrite N2. destruct (nth_error (s_models st2) m) as [md|] eqn:Nm; intros X; injection X as <- <-;
    [|repeat (split; [congruence||assumption|]); right; congruence].
  cbn. split.
  { destruct I2 as (A & B & C). repeat split; cbn; [exact A| |exact C]. unfold kept_read in *. cbn.
    assert (L2 : (i < List.length (s_dicts st2))%nat) by (apply nth_error_Some; congruence).
    destruct H4 as [H4|(j & H4 & Ej)].
    - rewrite H4, SR in *. exists (mkDict (d_read d) (Some h)), w. rewrite set_nth_same by exact L2. repeat split; auto. congruence.
    - rewrite H4 in *. destruct B as (d' & w' & B1 & B2). exists d', w'. rewrite set_nth_other by lia. auto. }
  do 2 (split; [congruence|]). exists (d_read d), w, md. rewrite <- R1, <- H1. auto.
Qed.
(** Updates *)
Lemma at_nth_some {A} (f : A -> A) l : forall m x, nth_error l m = Some x -> set_nth m (f x) l = at_nth f m l.
Proof. induction l as [|y l IH]; intros [|m] x; cbn; try discriminate; [now injection 1 as ->|]. intros H. f_equal. now apply IH. Qed.
Lemma at_nth_none {A} (f : A -> A) l : forall m, nth_error l m = None -> at_nth f m l = l.
Proof. induction l as [|y l IH]; intros [|m]; cbn; try discriminate; auto. intros H. f_equal. now apply IH. Qed.
Lemma at_nth_id {A} (f : A -> A) l : (forall x, f x = x) -> forall m, at_nth f m l = l.
Proof. intros F. induction l as [|y l IH]; intros [|m]; cbn; congruence. Qed.
Lemma at_nth_twice {A} (f g : A -> A) l : forall m, at_nth g m (at_nth f m l) = at_nth (fun x => g (f x)) m l.
Proof. induction l as [|y l IH]; intros [|m]; cbn; congruence. Qed.
Lemma at_nth_ext {A} (f g : A -> A) l : (forall x, f x = g x) -> forall m, at_nth f m l = at_nth g m l.
Proof. intros F. induction l as [|y l IH]; intros [|m]; cbn; congruence. Qed.
Lemma inv_models st l : inv st -> inv (set_models st l).
Proof. now intros (A & B & C). Qed.
Lemma update_spec st m read hier over p st' x : inv st -> update topology cpuinfo st m read hier over p = (st', x) ->
  inv st' /\ s_world st' = s_world st /\
  exists f g, s_models st' = at_nth (fun md => g (f md)) m (s_models st) /\
    (if read then (exists w r, P w /\ machine w p = Ok r /\ forall md, f md = mkModel (taken r (m_read md)) (m_hier md)) \/
                  (exists w e, P w /\ machine w p = Err e /\ (forall md, f md = md) /\ (forall md, g md = md) /\ x = Err e) \/
                  nth_error (s_models st) m = None
     else forall md, f md = md) /\
    (if hier then
       (exists w r h, P w /\ machine w p = Ok r /\ hierarchy over r topology = Ok h /\ forall md, g md = mkModel (m_read md) (Some h)) \/
       ((forall md, g md = md) /\ ((exists e, x = Err e) /\ ((exists w e, P w /\ machine w p = Err e) \/ 
            (exists w r e, P w /\ machine w p = Ok r /\ hierarchy over r topology = Err e)) \/ nth_error (s_models st) m = None))
     else forall md, g md = md).
Proof.
  intros I. unfold update.
  set (step1 := if read then _ else _).
  assert (S1 : exists st1 y f, step1 = (st1, y) /\ inv st1 /\ s_world st1 = s_world st /\ s_models st1 = at_nth f m (s_models st) /\
    (if read then (exists w r, P w /\ machine w p = Ok r /\ forall md, f md = mkModel (taken r (m_read md)) (m_hier md)) \/
                  (exists w e, P w /\ machine w p = Err e /\ (forall md, f md = md) /\ y = Err e) \/
                  nth_error (s_models st) m = None
     else (forall md, f md = md) /\ y = Ok tt) /\ 
     (match y with Ok _ => True | Err _ => read = true /\ ((exists w e, P w /\ machine w p = Err e /\ y = Err e) \/ nth_error (s_models st) m = None) end) /\
     (nth_error (s_models st) m = None -> forall md, f md = md)).
  { unfold step1. destruct read.
    - destruct (get_readouts topology cpuinfo st (Path p)) as [st1 y] eqn:R. apply (get_readouts_spec st _ _ _ I) in R.
      destruct R as (I1 & R1 & R2 & R3 & R4 & R5 & R6). destruct y as [i|e].
      + destruct R6 as (SR & d & w & W & N & Mw & K). rewrite N. cbn [path_of] in Mw. assert (Dh : d_hier d = None) by (apply K; discriminate).
        destruct (nth_error (s_models st1) m) as [md|] eqn:Nm.
        * exists (set_models st1 (set_nth m (update_model d md) (s_models st1))), (Ok tt), (fun md => mkModel (taken (d_read d) (m_read md)) (m_hier md)).
          split; [reflexivity|]. split; [now apply inv_models|]. split; [exact R2|]. split.
          { cbn. rewrite <- R1. rewrite <- (at_nth_some (fun md => mkModel (taken (d_read d) (m_read md)) (m_hier md)) (s_models st1) m md Nm).
            unfold update_model. now rewrite Dh. }
          split; [left; exists w, (d_read d); auto|]. split; [exact Logic.I|]. congruence.
        * exists st1, (Err IndexError), (fun md => md). rewrite R1 in Nm.
          split; [reflexivity|]. split; [exact I1|]. split; [exact R2|]. split; [rewrite R1; symmetry; now apply at_nth_id|].
          split; [auto|]. split; [auto|]. auto.
      + destruct R6 as (w & W & Mw). exists st1, (Err e), (fun md => md). split; [reflexivity|]. split; [exact I1|]. split; [exact R2|].
        split; [rewrite R1; symmetry; now apply at_nth_id|]. split; [right; left; exists w, e; auto|]. split; [|auto]. split; [reflexivity|].
        left. exists w, e. auto.
    - exists st, (Ok tt), (fun md => md). repeat (split; [first [reflexivity|exact I|symmetry; now apply at_nth_id|split; reflexivity]|]). auto. }
  destruct S1 as (st1 & y & f & -> & I1 & W1 & M1 & F1 & Y1 & NN).
  destruct y as [u|e].
  2:{ intros X; injection X as <- <-. split; [exact I1|]. split; [exact W1|]. exists f, (fun md => md). split; [exact M1|].
      destruct Y1 as (-> & Y1). split.
      - destruct Y1 as [(w & e' & A & B & C)|Y1]; [|auto]. injection C as <-. 
        destruct F1 as [(w' & r & A1 & B1 & C1)|[(w' & e' & A1 & B1 & C1 & D1)|F1]]; [left; exists w', r; auto| |auto].
        right; left. exists w', e'. injection D1 as <-. auto.
      - destruct hier; [|auto]. right. split; [auto|]. destruct Y1 as [(w & e' & A & B & C)|Y1]; [left; split; [now exists e|]; left; now exists w, e'|auto]. }
  assert (F1' : if read then (exists w r, P w /\ machine w p = Ok r /\ forall md, f md = mkModel (taken r (m_read md)) (m_hier md)) \/ nth_error (s_models st) m = None
               else forall md, f md = md).
  { destruct read; [|tauto]. destruct F1 as [F1|[(w & e & _ & _ & _ & X)|F1]]; [auto|discriminate|auto]. }
  assert (F2 : forall (g : model -> model) (x : res unit), if read then (exists w r, P w /\ machine w p = Ok r /\ forall md, f md = mkModel (taken r (m_read md)) (m_hier md)) \/
                  (exists w e, P w /\ machine w p = Err e /\ (forall md, f md = md) /\ (forall md, g md = md) /\ x = Err e) \/
                  nth_error (s_models st) m = None
     else forall md, f md = md) by (intros; destruct read; tauto).
  destruct hier.
  - destruct (get_hierarchy topology cpuinfo st1 (HWith over p)) as [st2 z] eqn:H. apply (get_hierarchy_spec st1 _ _ _ I1) in H. cbv zeta in H.
    destruct H as (I2 & H1 & H2 & _ & _ & H5). destruct z as [h|e].
    + destruct H5 as (r & w & W & Mr & Hr). destruct (nth_error (s_models st2) m) as [md|] eqn:Nm; intros X; injection X as <- <-.
      * split; [now apply inv_models|]. split; [cbn; congruence|]. exists f, (fun md => mkModel (m_read md) (Some h)).
        split. { cbn. rewrite (at_nth_some (fun md => mkModel (m_read md) (Some h)) (s_models st2) m md Nm). rewrite H1, M1. apply at_nth_twice. }
        split; [apply F2|]. left. exists w, r, h. auto.
      * split; [exact I2|]. split; [congruence|]. exists f, (fun md => md). split; [rewrite H1; exact M1|]. split; [apply F2|]. right. split; [auto|].
        right. assert (NL : (List.length (s_models st) <= m)%nat).
        { apply nth_error_None in Nm. rewrite H1, M1 in Nm. clear - Nm.
          replace (List.length (s_models st)) with (List.length (at_nth f m (s_models st))); [exact Nm|].
          clear. generalize (s_models st). induction m as [|m' IH]; intros [|a l]; cbn; auto. }
        now apply nth_error_None.
    + intros X; injection X as <- <-. split; [exact I2|]. split; [congruence|]. exists f, (fun md => md). split; [rewrite H1; exact M1|]. split; [apply F2|].
      right. split; [auto|]. left. split; [now exists e|]. destruct H5 as (w & W & [Mr|(r & Mr & Hr)]); [left; now exists w, e|right; now exists w, r, e].
  - intros X; injection X as <- <-. split; [exact I1|]. split; [exact W1|]. exists f, (fun md => md). split; [exact M1|]. split; [apply F2|auto].
Qed.
Lemma step_inv st e : inv st -> match e with Change w => P w | _ => True end -> inv (step topology cpuinfo st e).
Proof.
  intros I W. destruct e as [m|m r h o p|w]; cbn [step].
  - destruct (current_system topology cpuinfo st m) as [st' x] eqn:E. now apply (current_system_spec _ _ _ _ I) in E.
  - destruct (update topology cpuinfo st m r h o p) as [st' x] eqn:E. now apply (update_spec _ _ _ _ _ _ _ _ I) in E.
  - destruct I as (A & B & C). repeat split; assumption.
Qed.
Lemma run_inv l : forall st, inv st -> Forall (fun e => match e with Change w => P w | _ => True end) l -> inv (run topology cpuinfo st l).
Proof. induction l as [|e l IH]; intros st I F; [exact I|]. inversion F; subst. apply IH; [|assumption]. now apply step_inv. Qed.
Lemma initial_inv l w : P w -> inv (initial l w).
Proof. intros W. repeat split. exact W. Qed.
End Histories.
(** On a machine that does not change, an update is a function of the model. *)
Lemma update_fresh topology cpuinfo w st m read hier over p : inv topology cpuinfo (eq w) st ->
  s_models (fst (update topology cpuinfo st m read hier over p)) = at_nth (fresh_update topology cpuinfo w read hier over p) m (s_models st).
Proof.
  intros I. destruct (update topology cpuinfo st m read hier over p) as [st' x] eqn:E. apply (update_spec _ _ _ _ _ _ _ _ _ _ _ I) in E.
  destruct E as (_ & _ & f & g & M & F & G). cbn [fst]. rewrite M.
  destruct (nth_error (s_models st) m) as [md0|] eqn:N; [|now rewrite !at_nth_none].
  apply at_nth_ext. clear N M. intros md. unfold fresh_update.
  assert (Ef : f md = (if read then match machine topology cpuinfo w p with Ok r => mkModel (taken r (m_read md)) (m_hier md) | Err _ => md end else md)).
  { destruct read; [|apply F]. destruct F as [(w' & r & <- & B & C)|[(w' & e & <- & B & C & _)|F]]; [rewrite B; apply C|rewrite B; apply C|discriminate]. }
  rewrite Ef. destruct hier; [|apply G].
  destruct G as [(w' & r & h & <- & B & C & D)|(G & [(_ & [(w' & e & <- & B)|(w' & r & e & <- & B & C)])|X])]; [| | |discriminate].
  - rewrite B, C. apply D.
  - rewrite B, G. reflexivity.
  - rewrite B, C, G. reflexivity.
Qed.
Lemma run_fresh topology cpuinfo w l : forall st, inv topology cpuinfo (eq w) st -> Forall steady l ->
  s_models (run topology cpuinfo st l) = fold_left (fresh_step topology cpuinfo w) l (s_models st).
Proof.
  induction l as [|e l IH]; intros st I F; [reflexivity|]. inversion F; subst. unfold run. cbn [fold_left].
  change (fold_left (step topology cpuinfo) l (step topology cpuinfo st e)) with (run topology cpuinfo (step topology cpuinfo st e) l).
  rewrite IH; [|apply step_inv; [exact I|now destruct e]|assumption]. f_equal.
  destruct e as [m|m r h o p|w']; cbn [step fresh_step]; [|now apply update_fresh|now elim H1].
  destruct (current_system topology cpuinfo st m) as [st' x] eqn:E. now apply (current_system_spec _ _ _ _ _ _ _ I) in E.
Qed.
Lemma same_system_spec a b : same_system a b = true <-> agrees a b.
Proof.
  unfold same_system, agrees. rewrite !andb_true_iff, !Z.eqb_eq.
  assert (T : forall x y, text_eqb x y = true <-> x = y) by (intros x y; destruct (text_eqb_spec x y); split; congruence).
  assert (O : same_name (r_name a) (r_name b) = true <-> r_name a = r_name b).
  { unfold same_name. destruct (r_name a), (r_name b); rewrite ?T; split; congruence. }
  rewrite !T, O. tauto.
Qed.

(** ** Bandwidths *)
Lemma more_digits_dot d f : Forall (fun c => is_decimal c = true) d -> more_digits (d ++ 46%N :: f) = (d, 46%N :: f).
Proof.
  induction 1 as [|c d H F IH].
  - cbn [app more_digits]. change (is_decimal 46) with false. cbn iota. destruct f; reflexivity.
  - cbn [app more_digits]. now rewrite H, IH.
Qed.
Lemma value_app d f : value (d ++ f) = (value d * 10 ^ N.of_nat (List.length f) + value f)%N.
Proof.
  induction f as [|c f IH] using rev_ind.
  { rewrite app_nil_r. replace (10 ^ N.of_nat (List.length (@nil N)))%N with 1%N by reflexivity. replace (value []) with 0%N by reflexivity. generalize (value d). intros; lia. }
  rewrite app_assoc, !value_snoc, IH, app_length. cbn [List.length].
  replace (N.of_nat (List.length f + 1)) with (N.succ (N.of_nat (List.length f))) by lia. rewrite N.pow_succ_r'.
  generalize (c - 48)%N (10 ^ N.of_nat (List.length f))%N. intros; ring.
Qed.
Lemma float_dot d f : d <> [] -> f <> [] -> Forall (fun c => is_decimal c = true) d -> Forall (fun c => is_decimal c = true) f ->
  exists q, py_float (d ++ 46%N :: f) = Some (Fin q) /\
    (q == inject_Z (Z.of_N (value d)) + inject_Z (Z.of_N (value f)) / inject_Z (10 ^ Z.of_nat (List.length f)))%Q.
Proof.
  intros Nd Nf D F. destruct d as [|c d]; [congruence|]. inversion_clear D as [|? ? Hc D'].
  assert (Cd := Hc). rewrite is_decimal_spec in Cd.
  unfold py_float. rewrite strip_id.
  2:{ intros x I. change ((c :: d) ++ 46%N :: f) with (c :: (d ++ 46%N :: f)) in I. destruct I as [<-|I]; [now apply decimal_not_space|].
      apply in_app_or in I as [I|[<-|I]]; [|reflexivity|]; apply decimal_not_space; [rewrite Forall_forall in D'|rewrite Forall_forall in F]; auto. }
  cbn [app]. rewrite sign_part_other by lia. unfold lower_case. cbn [map].
  rewrite (proj2 (N.leb_gt 65 c)) by lia. cbn [andb].
  change (codes "inf") with (105 :: codes "nf")%N. change (codes "infinity") with (105 :: codes "nfinity")%N. change (codes "nan") with (110 :: codes "an")%N.
  cbn [text_eqb]. rewrite (proj2 (N.eqb_neq c 105)), (proj2 (N.eqb_neq c 110)) by lia. cbn [andb orb].
  unfold unsigned. cbn [digit_part]. rewrite Hc, more_digits_dot by assumption. cbn iota. change (46 =? 46)%N with true. cbn iota.
  assert (Ff : forallb is_decimal f = true) by (apply forallb_forall; intros x; rewrite Forall_forall in F; auto).
  rewrite (digit_part_all f Ff). cbn [app exponent_part]. eexists. split; [reflexivity|].
  change (c :: d ++ f) with ((c :: d) ++ f). rewrite value_app.
  assert (Lp : (0 < List.length f)%nat) by (destruct f; [congruence|cbn; lia]).
  unfold power10. rewrite (proj2 (Z.leb_gt 0 _)) by lia. replace (- (0 - Z.of_nat (List.length f))) with (Z.of_nat (List.length f)) by lia.
  assert (Pw : 0 < 10 ^ Z.of_nat (List.length f)) by (apply Z.pow_pos_nonneg; lia).
  rewrite N2Z.inj_add, N2Z.inj_mul, N2Z.inj_pow, nat_N_Z. change (Z.of_N 10) with 10.
  rewrite inject_Z_plus, inject_Z_mult. field. intros E. change 0%Q with (inject_Z 0) in E. apply (proj1 (inject_Z_injective _ _)) in E. lia.
Qed.
Lemma match_bandwidth_begins s : match_bandwidth s <> None -> begins (codes "MByte/s:") s.
Proof. unfold match_bandwidth. destruct (starts_with (codes "MByte/s:") s) eqn:E; [intros _; now apply starts_begins|congruence]. Qed.
Lemma match_bandwidth_ok w n f w' b : blanks w -> w <> [] -> f <> [] -> forallb is_decimal f = true -> blanks w' -> (b = [] \/ exists b', b = 10%N :: b') ->
  exists q, match_bandwidth (codes "MByte/s:" ++ w ++ number_text n f ++ w' ++ b) = Some q /\ (q == number_value n f)%Q.
Proof.
  intros B N Nf F B' E. unfold match_bandwidth. rewrite starts_app, skipn_app_length.
  destruct (show_nat_spec n) as (V & D & NE). destruct (head_of _ NE) as (d & ds & Ed). assert (Dd := show_nat_decimal n).
  assert (Ff : Forall (fun c => is_decimal c = true) f) by (apply Forall_forall; rewrite forallb_forall in F; auto).
  destruct (float_dot (show_nat n) f NE Nf Dd Ff) as (q & P & Q). exists q.
  unfold number_text. rewrite <- !app_assoc.
  rewrite span_app; [|now apply blanks_space|rewrite Ed; apply decimal_not_space; rewrite Ed in Dd; now inversion Dd].
  destruct w as [|c w]; [congruence|]. cbn [app]. rewrite span_app; [|exact Dd|reflexivity].
  destruct (show_nat n) as [|d0 ds0] eqn:Es; [congruence|]. cbn iota.
  assert (LE : line_ends (46%N :: f ++ w' ++ b) = false) by reflexivity. rewrite LE.
  rewrite span_app; [|exact Ff|now apply line_start_ends]. destruct f as [|f0 fs]; [congruence|]. rewrite line_ends_ok by assumption.
  split; [|]. { f_equal. unfold decimal_value. now rewrite P. }
  unfold number_value. rewrite <- V. exact Q.
Qed.
Lemma bandwidth_shown n f output : f <> [] -> forallb is_decimal f = true -> shows "MByte/s:" (number_text n f) output ->
  exists q, measured (Printed output) = Ok (Some q) /\ (q == number_value n f)%Q.
Proof.
  intros Nf F (a & w & w' & b & -> & L & B & N & B' & E).
  destruct (match_bandwidth_ok w n f w' b B N Nf F B' E) as (q & M & Q). exists q. split; [|exact Q]. unfold measured.
  rewrite (search_first match_bandwidth _ a _ q match_bandwidth_begins L M).
  destruct (a ++ codes "MByte/s:" ++ w ++ number_text n f ++ w' ++ b) eqn:X; [|reflexivity].
  apply (f_equal (@List.length _)) in X. rewrite !app_length in X. cbn in X. lia.
Qed.

(** ** The fastest kernel *)
Definition at_most (a b : Q * text) : Prop := (fst a < fst b)%Q \/ ((fst a == fst b)%Q /\ MachModel.text_leb (snd a) (snd b) = true).
Lemma greater_spec a b : if greater a b then at_most b a else at_most a b.
Proof.
  unfold greater, at_most. destruct (Qeq_bool_spec (fst a) (fst b)) as [E|N].
  - destruct (MachModel.text_leb (snd b) (snd a)) eqn:L; cbn [andb].
    + destruct (text_eqb_spec (snd a) (snd b)) as [T|T]; cbn [negb].
      * right. split; [exact E|]. rewrite T. apply MachProofs.text_leb_refl.
      * right. split; [symmetry; exact E|reflexivity].
    + right. split; [exact E|]. destruct (MachProofs.text_leb_total (snd a) (snd b)) as [X|X]; [exact X|congruence].
  - destruct (Qltb_spec (fst b) (fst a)) as [L|L]; left; [exact L|]. apply Qnot_lt_le in L. apply Qle_lteq in L as [L|L]; [exact L|now elim N].
Qed.
Lemma at_most_refl a : at_most a a.
Proof. right. split; [reflexivity|apply MachProofs.text_leb_refl]. Qed.
Lemma at_most_trans a b c : at_most a b -> at_most b c -> at_most a c.
Proof.
  intros [A|[A A']] [B|[B B']].
  - left. now apply Qlt_trans with (fst b).
  - left. now rewrite <- B.
  - left. now rewrite A.
  - right. split; [now rewrite A|now apply MachProofs.text_leb_trans with (snd b)].
Qed.
Lemma max_from_spec l : forall m, In (max_from m l) (m :: l) /\ forall x, In x (m :: l) -> at_most x (max_from m l).
Proof.
  induction l as [|y l IH]; intros m; cbn [max_from].
  - split; [now left|]. intros x [<-|[]]. apply at_most_refl.
  - assert (G := greater_spec y m). destruct (IH (if greater y m then y else m)) as (A & B). split.
    + destruct (greater y m); destruct A as [A|A]; [right; left|right; right|left|right; right]; assumption.
    + intros x [<-|[<-|I]].
      * apply at_most_trans with (if greater y m then y else m); [destruct (greater y m); [exact G|apply at_most_refl]|apply B; now left].
      * apply at_most_trans with (if greater y m then y else m); [destruct (greater y m); [apply at_most_refl|exact G]|apply B; now left].
      * apply B. now right.
Qed.
Lemma results_in bench ks : forall l, results bench ks = Ok l -> forall b k, In (b, k) l <-> In k ks /\ measured (bench k) = Ok (Some b).
Proof.
  induction ks as [|k0 ks IH]; intros l; cbn [results]; [injection 1 as <-; cbn; tauto|].
  destruct (measured (bench k0)) as [o|] eqn:M; [|discriminate]. cbn [bind]. destruct (results bench ks) as [rest|] eqn:R; [|discriminate].
  cbn [bind]. injection 1 as <-. intros b k. specialize (IH rest eq_refl b k). destruct o as [q|]; cbn [In]; rewrite IH.
  - split; [intros [E|I]; [injection E as <- <-; auto|tauto]|]. intros [[<-|I] E]; [left; congruence|tauto].
  - split; [tauto|]. intros [[<-|I] E]; [congruence|tauto].
Qed.
Lemma results_err bench ks : (exists e, results bench ks = Err e) <-> exists k, In k ks /\ bench k = Printed [].
Proof.
  induction ks as [|k0 ks IH]; cbn [results]; [split; [intros (e & E); discriminate|intros (k & [] & _)]|].
  assert (ME : (exists o, measured (bench k0) = Ok o /\ bench k0 <> Printed []) \/ (measured (bench k0) = Err SystemExit /\ bench k0 = Printed [])).
  { unfold measured. destruct (bench k0) as [|[|c s]]; [left|right|left]; try (eexists; split; [reflexivity|discriminate]). auto. }
  destruct ME as [(o & -> & N)|(-> & E0)]; cbn [bind].
  - destruct (results bench ks) as [rest|e]; cbn [bind].
    + split; [intros (e & E); discriminate|]. intros (k & [<-|I] & E); [congruence|].
      destruct (proj2 IH) as (e & X); [now exists k|discriminate].
    + split; [|now exists e]. intros _. destruct (proj1 IH) as (k & I & E); [now exists e|]. exists k. split; [now right|exact E].
  - split; [intros _; exists k0; split; [now left|exact E0]|now exists SystemExit].
Qed.
Lemma results_exit bench ks e : results bench ks = Err e -> e = SystemExit.
Proof.
  induction ks as [|k ks IH]; cbn [results]; [discriminate|]. destruct (measured (bench k)) as [o|e'] eqn:M; cbn [bind].
  - destruct (results bench ks); cbn [bind]; [discriminate|]. intros X; injection X as <-. now apply IH.
  - intros X; injection X as <-. unfold measured in M. destruct (bench k) as [|[|]]; congruence.
Qed.

(** ** Available kernels *)
Lemma contains_spec p s : contains p s = true <-> part p s.
Proof.
  induction s as [|c s IH]; cbn [contains]; rewrite orb_true_iff, starts_begins.
  - split; [intros [(t & E)|X]; [exists [], t; exact E|discriminate]|]. intros (a & b & E). left. symmetry in E. apply app_eq_nil in E as [-> E]. now exists b.
  - rewrite IH. split.
    + intros [(t & E)|(a & b & ->)]; [exists [], t; exact E|exists (c :: a), b; reflexivity].
    + intros ([|x a] & b & E); [left; now exists b|right]. injection E as <- E. now exists a, b.
Qed.
Lemma before_name n d : Forall (fun c => ~ white c) n -> before (codes " - ") (n ++ codes " - " ++ d) = n.
Proof.
  induction 1 as [|c n H F IH]; [reflexivity|]. cbn [app before].
  assert (E : starts_with (codes " - ") (c :: n ++ codes " - " ++ d) = false).
  { change (codes " - ") with [32; 45; 32]%N. cbn [starts_with]. destruct (N.eqb_spec 32 c) as [<-|]; [|reflexivity]. elim H. unfold white. lia. }
  rewrite E. f_equal. exact IH.
Qed.
Definition wanted_b (prefix : text) (excludes : list text) (n : text) : bool :=
  starts_with prefix n && negb (existsb (fun e => contains e n) excludes).
Lemma wanted_spec prefix excludes n : wanted_b prefix excludes n = true <-> wanted prefix excludes n.
Proof.
  unfold wanted_b, wanted. rewrite andb_true_iff, starts_begins, negb_true_iff. split; intros [A B]; (split; [exact A|]).
  - intros e I H. apply contains_spec in H. assert (X : existsb (fun e => contains e n) excludes = true) by (apply existsb_exists; eauto). congruence.
  - destruct (existsb _ excludes) eqn:X; [|reflexivity]. apply existsb_exists in X as (e & I & C). apply contains_spec in C. now elim (B e I).
Qed.
Definition entry_line (nd : text * text) : text := fst nd ++ codes " - " ++ snd nd.
Lemma listing_join l : l <> [] -> listing l = join 10 (map entry_line l) ++ [10%N].
Proof.
  induction l as [|nd l IH]; [congruence|]. intros _. unfold listing. cbn [flat_map]. fold (listing l).
  assert (E : (fst nd ++ codes " - " ++ snd nd ++ [10%N]) ++ listing l = entry_line nd ++ 10%N :: listing l).
  { unfold entry_line. now rewrite <- !app_assoc. }
  etransitivity; [exact E|]. destruct l as [|nd2 l]; [reflexivity|]. rewrite IH by discriminate.
  change (map entry_line (nd :: nd2 :: l)) with (entry_line nd :: map entry_line (nd2 :: l)). rewrite join_cons by discriminate.
  now rewrite <- app_assoc.
Qed.
Lemma join_last c (l : list text) x : join c (l ++ [x]) = match l with [] => x | _ => join c l ++ c :: x end.
Proof.
  induction l as [|y l IH]; [reflexivity|]. cbn [app]. rewrite join_cons by (now destruct l). rewrite IH.
  destruct l as [|t l]; [reflexivity|]. rewrite (join_cons c y (t :: l)) by discriminate. now rewrite <- app_assoc.
Qed.
Lemma strip_feed s : (exists c r, s = c :: r /\ ~ white c) -> (exists c r, s = r ++ [c] /\ ~ white c) -> strip (s ++ [10%N]) = s.
Proof.
  intros (c & r & E & N) (d & q & E' & N'). unfold strip. rewrite E at 1. cbn [app]. rewrite lstrip_other by exact N.
  change (c :: r ++ [10%N]) with ((c :: r) ++ [10%N]). rewrite <- E, rev_app_distr. cbn [rev app].
  change (lstrip (10%N :: rev s)) with (lstrip (rev s)). rewrite E', rev_app_distr. cbn [rev app]. rewrite lstrip_other by exact N'.
  cbn [rev]. now rewrite rev_involutive.
Qed.
Lemma listing_lines l : l <> [] -> Forall (fun nd => kernel_name (fst nd) /\ description (snd nd)) l ->
  PyText.split 10 (strip (listing l)) = map entry_line l.
Proof.
  intros N F. rewrite listing_join by exact N. rewrite strip_feed.
  - apply split_join; [now destruct l|]. intros p I. apply in_map_iff in I as ((n & d) & <- & I). rewrite Forall_forall in F.
    destruct (F _ I) as ((_ & W) & D & _). cbn [fst snd] in *. unfold entry_line. cbn [fst snd]. rewrite !in_app_iff. intros [X|[X|X]]; [|repeat (destruct X as [X|X]; [discriminate X|]); destruct X|now apply D].
    rewrite Forall_forall in W. apply (W _ X). unfold white. lia.
  - destruct l as [|(n & d) l]; [congruence|]. inversion_clear F as [|? ? ((Nn & W) & _) _]. cbn [fst] in *. destruct n as [|c n]; [congruence|].
    inversion_clear W as [|? ? Wc _]. cbn [map]. destruct (map entry_line l) as [|x m].
    + cbn. eexists; eexists; split; [reflexivity|exact Wc].
    + rewrite join_cons by discriminate. cbn. eexists; eexists; split; [reflexivity|exact Wc].
  - destruct (exists_last N) as (l' & (n & d) & ->). rewrite map_app. cbn [map]. rewrite join_last.
    apply Forall_app in F as [_ F]. inversion_clear F as [|? ? (_ & _ & c & r & E & W) _]. cbn [snd] in E.
    assert (EL : entry_line (n, d) = (n ++ codes " - " ++ r) ++ [c]) by (unfold entry_line; cbn [fst snd]; rewrite E, <- !app_assoc; reflexivity).
    rewrite EL. destruct (map entry_line l') as [|z m].
    + exists c, (n ++ codes " - " ++ r). split; [reflexivity|exact W].
    + exists c, (join 10 (z :: m) ++ 10%N :: n ++ codes " - " ++ r). split; [|exact W]. rewrite <- !app_assoc. cbn [app]. now rewrite <- !app_assoc.
Qed.
Lemma available_listing prefix excludes l : l <> [] -> Forall (fun nd => kernel_name (fst nd) /\ description (snd nd)) l ->
  available prefix excludes (listing l) = filter (wanted_b prefix excludes) (map fst l).
Proof.
  intros N F. unfold available. rewrite listing_lines by assumption. f_equal. rewrite map_map. apply map_ext_in. intros (n & d) I.
  rewrite Forall_forall in F. destruct (F _ I) as ((_ & W) & _). unfold entry_line. now apply before_name.
Qed.

(** ** Sizes *)
Lemma qmax_spec a b : (a <= qmax a b)%Q /\ (b <= qmax a b)%Q /\ (qmax a b = a \/ qmax a b = b).
Proof. unfold qmax. destruct (Qltb_spec a b) as [L|L]; [|apply Qnot_lt_le in L]; repeat split; auto; try apply Qle_refl. now apply Qlt_le_weak. Qed.
Lemma inject_pos z : 0 < z -> (0 < inject_Z z)%Q.
Proof. intros H. change 0%Q with (inject_Z 0). now rewrite <- Zlt_Qlt. Qed.
Lemma inject_neq z : 0 < z -> ~ (inject_Z z == 0)%Q.
Proof. intros H E. apply inject_pos in H. rewrite E in H. now apply Qlt_irrefl in H. Qed.
(** The share of a full group: all its cores, or all cores if they are fewer *)
Lemma share_full size g c x : 0 <= size -> 0 < g -> 0 < c -> share size g c = Ok x ->
  (x * inject_Z (Z.min g c) / inject_Z c == inject_Z size)%Q.
Proof.
  intros Hs Hg Hc. unfold share. destruct (Z.eqb_spec g 0); [lia|]. intros X; injection X as <-.
  assert (Ng := inject_neq g Hg). assert (Nc := inject_neq c Hc). assert (Pg := inject_pos g Hg). assert (Pc := inject_pos c Hc).
  unfold qmax. destruct (Qltb_spec (inject_Z (size * c) / inject_Z g) (inject_Z size)) as [L|L].
  - assert (c <= g \/ size = 0).
    { destruct (Z.le_gt_cases c g); [now left|]. exfalso.
      assert (inject_Z size <= inject_Z (size * c) / inject_Z g)%Q; [|now apply Qlt_not_le in L].
      apply Qle_shift_div_l; [exact Pg|]. rewrite <- inject_Z_mult, <- Zle_Qle. nia. }
    destruct H as [H| ->]; [|cbn in L; exfalso].
    + rewrite Z.min_r by lia. field. exact Nc.
    + apply Qlt_not_le in L. apply L. change (inject_Z (0 * c)) with 0%Q. unfold Qdiv. rewrite Qmult_0_l. apply Qle_refl.
  - apply Qnot_lt_le in L. destruct (Z.le_gt_cases g c) as [H|H].
    + rewrite Z.min_l by lia. rewrite inject_Z_mult. field. split; assumption.
    + rewrite Z.min_r by lia.
      assert (size = 0).
      { assert (X : (inject_Z size * inject_Z g <= inject_Z (size * c))%Q).
        { apply Qmult_le_compat_r with (z := inject_Z g) in L; [|now apply Qlt_le_weak].
          setoid_replace (inject_Z (size * c) / inject_Z g * inject_Z g)%Q with (inject_Z (size * c)) in L by (field; exact Ng). exact L. }
        rewrite <- inject_Z_mult, <- Zle_Qle in X. nia. }
      subst size. change (inject_Z (0 * c)) with 0%Q. change (inject_Z 0) with 0%Q. field. split; assumption.
Qed.
Lemma share_nonneg size g c x : 0 <= size -> 0 < g -> 0 < c -> share size g c = Ok x -> (0 <= x)%Q.
Proof.
  intros Hs Hg Hc. unfold share. destruct (Z.eqb_spec g 0); [lia|]. intros X; injection X as <-.
  apply Qle_trans with (inject_Z size); [change 0%Q with (inject_Z 0); now rewrite <- Zle_Qle|]. apply qmax_spec.
Qed.

(** ** Type of the processor *)
Lemma type_shown label v topology : (exists c r, v = c :: r /\ ~ white c) -> (exists c r, v = r ++ [c] /\ ~ white c) -> ~ In 10%N v ->
  shows label v topology -> search_line (match_type (codes label)) true topology = Some v.
Proof.
  intros (c & r & E & N) (d & q & E' & N') F (a & w & w' & b & -> & L & B & NE & B' & Eb).
  apply (search_first _ (codes label)); [|exact L|].
  { intros s. unfold match_type. destruct (starts_with (codes label) s) eqn:X; [intros _; now apply starts_begins|congruence]. }
  unfold match_type. rewrite starts_app, skipn_app_length. unfold match_words.
  rewrite span_app; [|now apply blanks_space|rewrite E; now apply not_white].
  destruct w as [|x w]; [congruence|]. rewrite app_assoc.
  assert (Ne : (v ++ w') ++ b <> []) by (rewrite E; discriminate).
  rewrite span_app.
  - destruct ((v ++ w') ++ b); [congruence|]. cbn [fst]. f_equal. rewrite rev_app_distr.
    rewrite lstrip_blanks by (unfold blanks; now apply Forall_rev). rewrite E', rev_app_distr. cbn [rev app]. rewrite lstrip_other by exact N'.
    cbn [rev]. now rewrite rev_involutive.
  - apply Forall_app. split; apply Forall_forall; intros y I; unfold not_feed; destruct (N.eqb_spec y 10) as [->|]; try reflexivity; [now elim F|].
    now destruct (blanks_not _ _ B' I).
  - destruct Eb as [->|(b' & ->)]; reflexivity.
Qed.
Lemma number_missing label topology : ~ part (codes label) topology -> number_in label topology = Err ValueError.
Proof.
  intros H. unfold number_in. rewrite search_none; [reflexivity|]. intros x y E. destruct (match_number (codes label) y) eqn:M; [|reflexivity].
  exfalso. apply H. destruct (match_number_begins (codes label) y) as (t & ->); [congruence|]. now exists x, t.
Qed.
(** ** Tests for examples *)
Lemma find_before p a rest : forall i, find_from p (a ++ rest) i = i + Z.of_nat (List.length a) -> begins p rest -> 0 <= i -> first_part p a rest.
Proof.
  induction a as [|c a IH]; intros i H B I.
  - intros x y E N. symmetry in E. apply app_eq_nil in E as [_ ->]. congruence.
  - cbn [app find_from] in H. destruct (starts_with p (c :: a ++ rest)) eqn:S'; [cbn [List.length] in H; lia|].
    intros [|x0 x] y E N; cbn [app] in E.
    + subst y. cbn [app]. now apply starts_false.
    + injection E as -> E. revert x y E N. apply (IH (i + 1)); [rewrite H; cbn [List.length]; lia|exact B|lia].
Qed.
Lemma find_first_part p a rest : find p (a ++ rest) = Z.of_nat (List.length a) -> begins p rest -> first_part p a rest.
Proof. intros H B. apply (find_before p a rest 0); [rewrite Z.add_0_l; exact H|exact B|lia]. Qed.
Fixpoint no_line (label : text) (at_ : bool) (a rest : text) : bool :=
  match a with [] => at_ | c :: a' => negb (at_ && starts_with label (a ++ rest)) && no_line label (c =? 10)%N a' rest end.
Lemma no_line_spec label a rest : forall at_ x0, (at_ = true <-> line_start x0) -> no_line label at_ a rest = true ->
  line_start (x0 ++ a) /\ forall x y, a = x ++ y -> y <> [] -> line_start (x0 ++ x) -> ~ begins label (y ++ rest).
Proof.
  induction a as [|c a IH]; intros at_ x0 A H; cbn [no_line] in H.
  - rewrite app_nil_r. split; [now apply A|]. intros x y E N. symmetry in E. apply app_eq_nil in E as [_ ->]. congruence.
  - apply andb_true_iff in H as [H1 H2]. destruct (IH (c =? 10)%N (x0 ++ [c])) as (L & F); [rewrite line_start_snoc; apply N.eqb_eq|exact H2|].
    rewrite <- app_assoc in L. split; [exact L|]. intros [|x1 x] y E N S'; cbn [app] in E.
    + subst y. rewrite app_nil_r in S'. apply A in S'. subst at_. cbn [andb] in H1. apply negb_true_iff in H1. now apply starts_false.
    + injection E as <- E. apply (F x y E N). now rewrite <- app_assoc.
Qed.
Lemma no_line_first label a rest : no_line label true a rest = true -> first_line label a rest.
Proof. intros H. apply (no_line_spec label a rest true []) in H; [exact H|]. split; [now left|reflexivity]. Qed.

(** ** Name of the processor *)
Lemma name_shown label v cpuinfo a w0 w w' b : (exists c r, v = c :: r /\ ~ white c) -> (exists c r, v = r ++ [c] /\ ~ white c) -> ~ In 10%N v ->
  cpuinfo = a ++ codes label ++ w0 ++ 58%N :: w ++ v ++ w' ++ b -> first_line (codes label) a (codes label ++ w0 ++ 58%N :: w ++ v ++ w' ++ b) ->
  blanks w0 -> w0 <> [] -> blanks w -> w <> [] -> blanks w' -> (b = [] \/ exists b', b = 10%N :: b') ->
  search_line (match_name (codes label)) true cpuinfo = Some v.
Proof.
  intros (c & r & E & N) (d & q & E' & N') F -> L B0 NE0 B NE B' Eb.
  apply (search_first _ (codes label)); [|exact L|].
  { intros s. unfold match_name. destruct (starts_with (codes label) s) eqn:X; [intros _; now apply starts_begins|congruence]. }
  unfold match_name. rewrite starts_app, skipn_app_length.
  rewrite span_app; [|now apply blanks_space|reflexivity]. destruct w0 as [|x0 w0]; [congruence|]. unfold match_words.
  rewrite span_app; [|now apply blanks_space|rewrite E; now apply not_white].
  destruct w as [|x w]; [congruence|]. rewrite app_assoc.
  assert (Ne : (v ++ w') ++ b <> []) by (rewrite E; discriminate).
  rewrite span_app.
  - destruct ((v ++ w') ++ b); [congruence|]. cbn [fst]. f_equal. rewrite rev_app_distr.
    rewrite lstrip_blanks by (unfold blanks; now apply Forall_rev). rewrite E', rev_app_distr. cbn [rev app]. rewrite lstrip_other by exact N'.
    cbn [rev]. now rewrite rev_involutive.
  - apply Forall_app. split; apply Forall_forall; intros y I; unfold not_feed; destruct (N.eqb_spec y 10) as [->|]; try reflexivity; [now elim F|].
    now destruct (blanks_not _ _ B' I).
  - destruct Eb as [->|(b' & ->)]; reflexivity.
Qed.
Lemma readouts_name topology cpuinfo w r : readouts topology cpuinfo w = Ok r -> r_name r = search_line (match_name (codes "model name")) true cpuinfo.
Proof.
  unfold readouts. destruct (found _) as [t|]; [|discriminate]. cbn [bind]. destruct (number_in "Threads per core:" topology); [|discriminate]. cbn [bind].
  destruct (number_in "Sockets:" topology); [|discriminate]. cbn [bind]. destruct (number_in "Cores per socket:" topology); [|discriminate]. cbn [bind].
  destruct (number_in "NUMA domains:" topology); [|discriminate]. cbn [bind]. destruct (_ =? 0); [discriminate|]. destruct (found _); [|discriminate]. cbn [bind].
  intros H. injection H as <-. reflexivity.
Qed.
