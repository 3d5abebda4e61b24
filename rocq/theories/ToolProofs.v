(** Lemmas for C80-C82. *)
From Coq Require Import Lia.
From Verif Require Import CtrModel CtrSpec CtrProofs MarkModel MarkSpec MarkProofs PerfModel PerfProofs PyNumFacts ToolModel PyText ToolSpec.
Local Open Scope N_scope.
Local Open Scope list_scope.

(** ** Search *)
Lemma search_here {A} (f : text -> option A) s x : f s = Some x -> search f s = Some x.
Proof. intros H. destruct s; cbn [search]; now rewrite H. Qed.
Lemma search_first {A} (f : text -> option A) p t b x :
  (forall s y, f s = Some y -> exists r, s = p ++ r) -> first p t b -> f (p ++ b) = Some x -> search f t = Some x.
Proof.
  intros P (a & E & M) F. revert t E M. induction a as [|c a IH]; intros t E M.
  - subst t. now apply search_here.
  - subst t. cbn [app search]. destruct (f (c :: a ++ p ++ b)) as [y|] eqn:Y.
    + apply P in Y as [r Y]. specialize (M [] r Y). cbn in M. lia.
    + apply IH; [reflexivity|]. intros a' b' E. specialize (M (c :: a') b'). cbn in M. rewrite E in M. specialize (M eq_refl). lia.
Qed.
Lemma search_found {A} (f : text -> option A) s x : search f s = Some x -> exists a b, s = a ++ b /\ f b = Some x.
Proof.
  induction s as [|c s IH]; cbn [search].
  - destruct (f []) eqn:F; [|discriminate]. intros [= <-]. now exists [], [].
  - destruct (f (c :: s)) eqn:F; [intros [= <-]; now exists [], (c :: s)|]. intros H. destruct (IH H) as (a & b & -> & E). now exists (c :: a), b.
Qed.
Lemma skip_app (p s : text) : skipn (List.length p) (p ++ s) = s.
Proof. now rewrite skipn_app, skipn_all, Nat.sub_diag. Qed.
Lemma starts_app p s : starts_with p (p ++ s) = true.
Proof. apply starts_with_spec. eauto. Qed.
Lemma span_class p (P : N -> Prop) a t : (forall c, p c = true <-> P c) -> Forall P a -> ends P t -> span p (a ++ t) = (a, t).
Proof.
  intros E H T. apply span_app; [eapply Forall_impl; [|exact H]; intros c; apply E|]. destruct t as [|c t]; [exact Logic.I|].
  destruct (p c) eqn:C; [|reflexivity]. apply E in C. now destruct (T c t eq_refl).
Qed.
Lemma spaces_forall s : spaces s -> Forall white s.
Proof. intros H. now apply Forall_forall. Qed.
Lemma id_char_spec c : id_char c = true <-> digit c \/ c = 46.
Proof. unfold id_char. now rewrite orb_true_iff, is_digit_spec, N.eqb_eq. Qed.
Lemma space_char_spec c : space_char c = true <-> white c.
Proof. apply is_space_spec. Qed.
Ltac white_no H := unfold white, blank, digit, letter_or_digit, lower, upper, digit in H; cbn [In] in H; lia.
Lemma show_nat_digits n : show_nat n <> [] /\ Forall digit (show_nat n) /\ value (show_nat n) = n.
Proof.
  destruct (show_nat_spec n) as (V & D & N). repeat split; [exact N| |exact V]. apply Forall_forall. intros c C.
  rewrite forallb_forall in D. apply is_decimal_spec, D, C.
Qed.
Lemma digits_end a t : a <> [] -> Forall digit a -> ends white (a ++ t).
Proof. intros N D. destruct D as [|x a X D]; [easy|]. intros c r [= <- _] W. unfold digit in X. white_no W. Qed.

(** ** Numbers behind labels *)
Lemma number_labelled label t n : labelled label t n -> number_of label t = Ok (Z.of_N n).
Proof.
  intros (a & rest & F & N & S & E). unfold number_of. rewrite (search_first (match_number label) label t _ (Z.of_N n)) with (2 := F).
  - reflexivity.
  - intros s y. unfold match_number. destruct (starts_with label s) eqn:W; [|discriminate]. intros _. now apply starts_with_spec.
  - unfold match_number. rewrite starts_app, skip_app. destruct (show_nat_digits n) as (DN & DD & DV).
    rewrite (span_class space_char white a (show_nat n ++ rest) space_char_spec (spaces_forall _ S)) by now apply digits_end.
    destruct a as [|c a]; [easy|]. rewrite (span_class is_digit digit (show_nat n) rest is_digit_spec DD E).
    destruct (show_nat n) as [|x d] eqn:X; [easy|]. now rewrite DV.
Qed.
Lemma span_parts p s a b : span p s = (a, b) -> s = a ++ b /\ Forall (fun c => p c = true) a /\ match b with [] => True | c :: _ => p c = false end.
Proof. intros E. assert (H := span_spec p s). rewrite E in H. exact H. Qed.
Lemma number_printed label t z : number_of label t = Ok z -> exists n, z = Z.of_N n /\ printed label t n.
Proof.
  unfold number_of, group. destruct (search (match_number label) t) as [x|] eqn:S; [|discriminate]. intros [= ->].
  apply search_found in S as (a & b & -> & M). unfold match_number in M. destruct (starts_with label b) eqn:W; [|discriminate].
  apply starts_with_spec in W as [r ->]. rewrite skip_app in M. destruct (span space_char r) as [s r1] eqn:E1. destruct s as [|c s]; [discriminate|].
  destruct (span is_digit r1) as [d r2] eqn:E2. destruct d as [|x d]; [discriminate|]. injection M as <-.
  apply span_parts in E1 as (-> & F1 & _). apply span_parts in E2 as (-> & F2 & B2). exists (value (x :: d)). split; [reflexivity|].
  exists a, (c :: s), (x :: d), r2. repeat split; try discriminate.
  - intros y Y. rewrite Forall_forall in F1. apply space_char_spec, F1, Y.
  - eapply Forall_impl; [|exact F2]. intros y. apply is_digit_spec.
  - intros y r' -> D. apply is_digit_spec in D. congruence.
Qed.

(** ** Names of ports *)
Lemma blanks_white s : blanks s -> Forall white s.
Proof. intros [_ H]. eapply Forall_impl; [|exact H]. intros c C. unfold blank in C. unfold white. cbn [In]. intuition. Qed.
Lemma match_unit u s : good_unit u -> match_port (unit_line u ++ s) = Some ((unit_id u, uname u), 10 :: s).
Proof.
  intros (IN & IF & L & R & NN & NF).
  assert (E : unit_line u ++ s = 91 :: uid u ++ 93 :: left u ++ 45 :: right u ++ uname u ++ 10 :: s).
  { unfold unit_line, unit_id. change (codes "[") with [91]. change (codes "]") with [93]. change (codes "-") with [45].
    repeat (rewrite <- app_assoc; cbn [app]). reflexivity. }
  rewrite E. clear E. unfold unit_id. cbn [match_port].
  rewrite (span_class id_char _ (uid u) (93 :: left u ++ 45 :: right u ++ uname u ++ 10 :: s) id_char_spec IF).
  2:{ intros c r [= <- _] W. unfold digit in W. lia. }
  destruct (uid u) as [|i0 i]; [easy|].
  rewrite (span_class space_char white (left u) (45 :: right u ++ uname u ++ 10 :: s) space_char_spec (blanks_white _ L)).
  2:{ intros c r [= <- _] W. white_no W. }
  destruct (left u) as [|l0 l]; [now destruct L|].
  rewrite (span_class space_char white (right u) (uname u ++ 10 :: s) space_char_spec (blanks_white _ R)).
  2:{ destruct NF as [|x n X NF]; [easy|]. intros c r [= <- _] W. unfold letter_or_digit, lower, upper, digit in X. white_no W. }
  destruct (right u) as [|r0 r]; [now destruct R|].
  rewrite (span_class alnum letter_or_digit (uname u) (10 :: s) alnum_spec NF).
  2:{ intros c t [= <- _] W. unfold letter_or_digit, lower, upper, digit in W. lia. }
  destruct (uname u) as [|x n]; [easy|]. reflexivity.
Qed.
Lemma find_skip p : ~ In 91 p -> forall fuel s, (List.length (p ++ s) <= fuel)%nat ->
  exists fuel', (List.length s <= fuel')%nat /\ find_ports fuel (p ++ s) = find_ports fuel' s.
Proof.
  induction p as [|c p IH]; intros N fuel s L; [now exists fuel|]. cbn [app List.length] in L. destruct fuel as [|fuel]; [lia|].
  destruct (IH (fun H => N (or_intror H)) fuel s ltac:(lia)) as (f' & L' & E). exists f'. split; [exact L'|]. rewrite <- E. cbn [app find_ports].
  assert (C : c <> 91) by (intros ->; apply N; now left). unfold match_port.
  destruct c as [|q]; [reflexivity|]. do 7 (destruct q as [q|q|]; try reflexivity). now destruct C.
Qed.
Lemma find_units us : Forall good_unit us -> forall fuel, (List.length (flat_map unit_line us) <= fuel)%nat ->
  find_ports fuel (flat_map unit_line us) = map (fun u => (unit_id u, uname u)) us.
Proof.
  induction 1 as [|u us G H IH]; intros fuel L; [now destruct fuel|]. cbn [flat_map map] in *.
  assert (NL : exists x r, unit_line u = x :: r) by (unfold unit_line, unit_id; cbn; eauto). destruct NL as (x & r & NL).
  assert (LL : (2 <= List.length (unit_line u))%nat).
  { unfold unit_line, unit_id. rewrite !app_length. cbn. lia. }
  rewrite app_length in L. destruct fuel as [|fuel]; [lia|].
  assert (M := match_unit u (flat_map unit_line us) G). rewrite NL in M |- *. cbn [app] in M |- *. cbn [find_ports]. rewrite M. f_equal.
  destruct fuel as [|fuel]; [lia|]. cbn [find_ports]. cbn [match_port]. apply IH. lia.
Qed.
Lemma nonempty_lines_app ls rest : Forall (fun l => l <> []) ls -> rest <> [] -> nonempty_lines (ls ++ [] :: rest) = ls.
Proof.
  intros H R. induction H as [|l ls N H IH]; [reflexivity|]. cbn [app]. destruct l as [|c l]; [easy|]. cbn [nonempty_lines].
  destruct (ls ++ [] :: rest) as [|y ys] eqn:E; [destruct ls; discriminate|]. now rewrite IH.
Qed.
Definition bare (u : unit_entry) : text := unit_id u ++ left u ++ codes "-" ++ right u ++ uname u.
Lemma bare_line u : unit_line u = bare u ++ [10].
Proof. unfold unit_line, bare. now rewrite <- !app_assoc. Qed.
Lemma bare_free u : good_unit u -> ~ In 10 (bare u) /\ bare u <> [].
Proof.
  intros (_ & IF & [_ L] & [_ R] & _ & NF). split; [|unfold bare, unit_id; cbn; discriminate].
  unfold bare, unit_id. rewrite !in_app_iff. change (codes "[") with [91]. change (codes "]") with [93]. change (codes "-") with [45].
  rewrite Forall_forall in *. intros H. repeat destruct H as [H|H]; try (cbn in H; lia); try discriminate H; try easy.
  - apply IF in H. unfold digit in H. lia.
  - apply L in H. unfold blank in H. lia.
  - apply R in H. unfold blank in H. lia.
  - apply NF in H. unfold letter_or_digit, lower, upper, digit in H. lia.
Qed.
Lemma split_units us s : Forall good_unit us -> split 10 (flat_map unit_line us ++ s) = map bare us ++ split 10 s.
Proof.
  induction 1 as [|u us G H IH]; [reflexivity|]. cbn [flat_map map]. rewrite bare_line, <- !app_assoc. cbn [app].
  rewrite split_app by now apply bare_free. now rewrite IH.
Qed.
Lemma fold_names us d : fold_left (fun d p => tset (fst p) (snd p) d) (map (fun u => (unit_id u, uname u)) us) d = tupdate d (map (fun u => (unit_id u, uname u)) us).
Proof. reflexivity. Qed.
Lemma unit_id_inj u v : unit_id u = unit_id v -> uid u = uid v.
Proof. unfold unit_id. intros H. apply app_inv_head in H. now apply app_inv_tail in H. Qed.
Lemma tupdate_keep {A} (e : tdict A) : forall d k, ~ In k (map fst e) -> tget k (tupdate d e) = tget k d.
Proof.
  induction e as [|[j v] e IH]; intros d k N; [reflexivity|]. unfold tupdate in *. cbn [fold_left fst snd] in *. rewrite IH; [|intros H; apply N; now right].
  rewrite tget_tset, text_eqb_neq; [reflexivity|]. intros ->. apply N. now left.
Qed.
Lemma tupdate_nodup {A} (e : tdict A) : forall d k v, NoDup (map fst e) -> In (k, v) e -> tget k (tupdate d e) = Some v.
Proof.
  induction e as [|[j w] e IH]; intros d k v N H; [easy|]. cbn [map fst] in N. inversion_clear N as [|? ? N1 N2]. destruct H as [E|H].
  - injection E as -> ->. change (tget k (tupdate (tset k v d) e) = Some v). rewrite tupdate_keep by easy. now rewrite tget_tset, text_eqb_refl.
  - exact (IH (tset j w d) k v N2 H).
Qed.
Lemma names_report t units row c i u : report t units row c i u ->
  exists d, port_names t = Ok d /\ forall k n, called units k n -> tget k d = Some n.
Proof.
  intros ((rest & F) & NE & G & ND & _). unfold port_names.
  rewrite (search_first match_resources (codes "Resources:" ++ [10]) t _ ((codes "Resources:" ++ [10]) ++ flat_map unit_line units)) with (2 := F).
  - cbn [group bind]. eexists. split; [reflexivity|]. intros k n (v & V & <- & <-).
    destruct (find_skip (codes "Resources:" ++ [10])) with (s := flat_map unit_line units) (fuel := List.length ((codes "Resources:" ++ [10]) ++ flat_map unit_line units)) as (f & L & E).
    { intros H. cbn in H. repeat destruct H as [H|H]; try discriminate H; easy. }
    { lia. }
    rewrite E, (find_units units G f L), fold_names. apply tupdate_nodup.
    + rewrite map_map. cbn [fst]. clear - ND. induction units as [|x us IH]; [constructor|]. cbn [map] in *. inversion_clear ND as [|? ? N1 N2].
      constructor; [|auto]. intros H. apply in_map_iff in H as (y & Y & H). apply N1. apply in_map_iff. exists y. split; [now apply unit_id_inj|exact H].
    + apply in_map_iff. now exists v.
  - intros s y. unfold match_resources. destruct (starts_with (codes "Resources:" ++ [10]) s) eqn:W; [|discriminate]. intros _. now apply starts_with_spec.
  - unfold match_resources. rewrite starts_app, skip_app, split_units by exact G.
    change (split 10 (10 :: rest)) with ([] :: split 10 rest).
    rewrite nonempty_lines_app; [|apply Forall_forall; intros l H; apply in_map_iff in H as (x & <- & H); rewrite Forall_forall in G; now apply bare_free, G|apply split_not_nil].
    replace (flat_map unit_line units) with (flat_map (fun l => l ++ [10]) (map bare units)).
    2:{ clear. induction units as [|x us IH]; [reflexivity|]. cbn [map flat_map]. now rewrite IH, bare_line. }
    destruct units as [|x us]; [easy|]. reflexivity.
Qed.

(** ** Pressure *)
Lemma words_fields s ws : words s ws -> fields s = ws.
Proof.
  induction 1 as [s S|a w r ws SA W R H IH].
  - unfold fields. rewrite <- (app_nil_r s). now rewrite fields_spaces.
  - unfold fields. rewrite fields_spaces by exact SA. change (fields (w ++ r) = w :: ws). rewrite fields_first by easy. now rewrite IH.
Qed.
Lemma words_nonempty s w ws : words s (w :: ws) -> s <> [].
Proof. intros H. inversion H as [|a w' r ws' SA [N W] R H' E1 E2]; subst. intros E. apply app_eq_nil in E as [_ E]. now apply app_eq_nil in E as [-> _]. Qed.
Lemma combine_pairs {A B} (l : list (A * B)) : combine (map fst l) (map snd l) = l.
Proof. induction l as [|[a b] l IH]; cbn; congruence. Qed.
Lemma pressure_report t units row c i u : report t units row c i u ->
  exists ls, search match_pressure t = Some ls /\ combine (fields (fst ls)) (fields (snd ls)) = row.
Proof.
  intros (_ & _ & _ & _ & (h & v & rest & F & LE & NH & NV & WH & WV) & NE & _). exists (h, v). split.
  - apply (search_first match_pressure (codes "Resource pressure per iteration:" ++ [10]) t (h ++ 10 :: v ++ rest)); [|exact F|].
    + intros s y. unfold match_pressure. destruct (starts_with (codes "Resource pressure per iteration:" ++ [10]) s) eqn:W; [|discriminate]. intros _. now apply starts_with_spec.
    + unfold match_pressure. rewrite starts_app, skip_app, split_app by exact NH.
      assert (E : exists x, split 10 (v ++ rest) = v :: x).
      { destruct LE as [->|[r ->]]; [exists []; rewrite app_nil_r; now apply split_single|exists (split 10 r); now apply split_app]. }
      destruct E as [x ->]. destruct row as [|w row]; [easy|]. cbn [map] in WH, WV. apply words_nonempty in WH, WV.
      destruct h as [|h0 h]; [easy|]. destruct v as [|v0 v]; [easy|]. reflexivity.
  - cbn [fst snd]. rewrite (words_fields _ _ WH), (words_fields _ _ WV). apply combine_pairs.
Qed.
Lemma pressure_value p q : pressure p q -> (if text_eqb p (codes "-") then Some (Fin 0) else py_float p) = Some (Fin q).
Proof. intros [[-> ->]|[N E]]; [reflexivity|]. rewrite text_eqb_neq by exact N. exact E. Qed.
Lemma nmax_fin a b : exists m, nmax (Fin a) (Fin b) = Fin m /\ (m = a \/ m = b) /\ (a <= m)%Q /\ (b <= m)%Q.
Proof.
  unfold nmax, ngtb, nltb. destruct (Qltb_spec a b) as [L|L]; [exists b|exists a]; repeat split; auto using Qle_refl, Qlt_le_weak.
  now apply Qnot_lt_le.
Qed.
(** What the dictionary holds while entries are added: the greatest pressure of every name so far *)
Definition tracks (P : text -> Q -> Prop) (d : tdict num) : Prop :=
  (forall n, (exists q, P n q) <-> exists v, tget n d = Some v)
  /\ (forall n v, tget n d = Some v -> exists q, v = Fin q /\ greatest (P n) q).
Lemma tracks_ext (P P' : text -> Q -> Prop) d : (forall n q, P n q <-> P' n q) -> tracks P d -> tracks P' d.
Proof.
  intros E [A B]. split.
  - intros n. rewrite <- A. split; intros [q H]; exists q; now apply E.
  - intros n v H. destruct (B n v H) as (q & -> & G & M). exists q. split; [reflexivity|]. split; [now apply E|]. intros r R. apply M. now apply E.
Qed.
Lemma tracks_add P d n q : tracks P d ->
  tracks (fun n' q' => P n' q' \/ (n' = n /\ q' = q)) (tset n (match tget n d with Some old => nmax (Fin q) old | None => Fin q end) d).
Proof.
  intros [A B]. split.
  - intros k. rewrite tget_tset. destruct (text_eqb_spec k n) as [->|N].
    + split; [eauto|]. intros _. exists q. now right.
    + rewrite <- A. split; intros [x H]; exists x; [|now left]. destruct H as [H|[E _]]; [exact H|congruence].
  - intros k v. rewrite tget_tset. destruct (text_eqb_spec k n) as [->|N].
    + intros [= <-]. destruct (tget n d) as [old|] eqn:O.
      * destruct (B n old O) as (o & -> & PO & MO). destruct (nmax_fin q o) as (m & -> & C & L1 & L2). exists m. split; [reflexivity|]. split.
        -- destruct C as [->| ->]; [now right|now left].
        -- intros r [R|[_ ->]]; [|exact L1]. apply Qle_trans with o; auto.
      * exists q. split; [reflexivity|]. split; [now right|]. intros r [R|[_ ->]]; [|apply Qle_refl].
        assert (exists v, tget n d = Some v) as [v V] by (apply A; eauto). congruence.
    + intros H. destruct (B k v H) as (x & -> & PX & MX). exists x. split; [reflexivity|]. split; [now left|]. intros r [R|[E _]]; [auto|congruence].
Qed.
Lemma called_unique units i n m : NoDup (map uid units) -> called units i n -> called units i m -> n = m.
Proof.
  intros ND (u & U & <- & <-) (v & V & E & <-). apply unit_id_inj in E. f_equal. clear - ND U V E.
  induction units as [|x us IH]; [easy|]. cbn [map] in ND. inversion_clear ND as [|? ? N1 N2].
  destruct U as [->|U], V as [->|V]; auto; destruct N1; apply in_map_iff; eauto.
Qed.
Lemma pressure_unique p q r : pressure p q -> pressure p r -> q = r.
Proof. intros [[A ->]|[A B]] [[C ->]|[C D]]; congruence. Qed.
Lemma add_ports_tracks units names row : NoDup (map uid units) -> (forall k n, called units k n -> tget k names = Some n) ->
  Forall (fun x => exists n q, called units (fst x) n /\ pressure (snd x) q) row ->
  forall P d, tracks P d -> exists d', add_ports names d row = Ok d' /\ tracks (fun n q => P n q \/ used units row n q) d'.
Proof.
  intros ND NM. induction 1 as [|[i p] row (n & q & C & Q) H IH]; intros P d T.
  - exists d. split; [reflexivity|]. apply (tracks_ext P); [|exact T]. intros n q. split; [now left|]. intros [K|(i & p & [] & _)]. exact K.
  - cbn [add_ports fst snd] in *. unfold add_port. rewrite (NM i n C), (pressure_value p q Q). cbn [bind].
    destruct (IH _ _ (tracks_add P d n q T)) as (d' & E & T'). exists d'. split; [exact E|]. eapply tracks_ext; [|exact T']. cbn beta. intros n' q'. split.
    + intros [[K|[-> ->]]|(i' & p' & I & U)]; [now left| |].
      * right. exists i, p. split; [now left|auto].
      * right. exists i', p'. split; [now right|auto].
    + intros [K|(i' & p' & [I|I] & C' & Q')]; [auto| |].
      * injection I as <- <-. left. right. split; [exact (called_unique units i n' n ND C' C)|exact (pressure_unique p q' q Q' Q)].
      * right. exists i', p'. auto.
Qed.

(** ** Timeline *)
Lemma index_column c l : (exists k, column c l k) -> exists k, index_of c l = Ok k /\ column c l k.
Proof.
  intros (k & a & b & -> & N & ->). exists (Z.of_nat (List.length a)). split; [|now exists a, b]. induction a as [|x a IH]; cbn [app index_of].
  - now rewrite N.eqb_refl.
  - destruct (N.eqb_spec x c) as [->|X]; [destruct N; now left|]. rewrite IH by (intros H; apply N; now right). cbn [bind List.length]. f_equal. lia.
Qed.
Lemma index_missing c l : ~ In c l -> index_of c l = Err ValueError.
Proof.
  induction l as [|x l IH]; intros N; [reflexivity|]. cbn [index_of]. destruct (N.eqb_spec x c) as [->|X]; [destruct N; now left|].
  rewrite IH; [reflexivity|]. intros H. apply N. now right.
Qed.
Lemma column_unique c l j k : column c l j -> column c l k -> j = k.
Proof.
  intros (a & b & -> & N & ->) (a' & b' & E & N' & ->). f_equal. revert a' E N'. induction a as [|x a IH]; intros [|y a'] E N'; cbn in E.
  - reflexivity.
  - injection E as E1 E2. destruct N'. left. congruence.
  - injection E as E1 E2. destruct N. left. congruence.
  - injection E as E1 E2. cbn. f_equal. apply IH; [|exact E2|]; intros H; [apply N|apply N']; now right.
Qed.
Definition first_lines (ls : list text) : list text := filter (starts_with (codes "[0,")) (filter is_timeline ls).
Lemma timeline_lines t l : In l (first_lines (split 10 t)) <-> in_timeline t l.
Proof.
  unfold first_lines, in_timeline. rewrite !filter_In. change (codes "[0,") with [91; 48; 44]. change (codes "]") with [93]. split.
  - intros [[I T] S]. split; [exact I|]. apply starts_with_spec in S as [r ->]. cbn in T. destruct (span is_digit r) as [i b] eqn:E.
    destruct i as [|x i]; [discriminate|]. destruct b as [|y b]; [discriminate|]. apply span_parts in E as (-> & F & _). exists (x :: i), b.
    assert (y = 93) as ->. { destruct y as [|q]; [discriminate|]. do 7 (destruct q as [q|q|]; try discriminate). reflexivity. }
    split; [reflexivity|]. split; [discriminate|]. eapply Forall_impl; [|exact F]. intros c. apply is_digit_spec.
  - intros (I & i & r & -> & N & D). split; [split; [exact I|]|apply starts_with_spec; eexists; reflexivity]. cbn.
    rewrite (span_class is_digit digit i (93 :: r) is_digit_spec D) by (intros c t' [= <- _] W; unfold digit in W; lia). now destruct i.
Qed.
Lemma path_range_spec ls : (forall l, In l (filter (starts_with (codes "[0,")) ls) -> (exists d, dispatched l d) /\ exists r, retired l r) ->
  forall start stop, exists s e, path_range ls start stop = Ok (s, e)
  /\ (match s with
      | None => start = None /\ filter (starts_with (codes "[0,")) ls = []
      | Some k => (start = Some k \/ exists l, In l (filter (starts_with (codes "[0,")) ls) /\ dispatched l k)
                  /\ (forall j, start = Some j -> (k <= j)%Z)
                  /\ forall l d, In l (filter (starts_with (codes "[0,")) ls) -> dispatched l d -> (k <= d)%Z
      end)
  /\ (e = stop \/ exists l, In l (filter (starts_with (codes "[0,")) ls) /\ retired l e)
  /\ (stop <= e)%Z /\ forall l r, In l (filter (starts_with (codes "[0,")) ls) -> retired l r -> (r <= e)%Z.
Proof.
  induction ls as [|l ls IH]; intros H start stop.
  - exists start, stop. cbn. split; [reflexivity|]. split; [|split; [now left|split; [lia|intros l r []]]].
    destruct start as [k|]; [|auto]. split; [now left|]. split; [intros j [= ->]; lia|intros l d []].
  - cbn [path_range filter] in *. destruct (starts_with (codes "[0,") l) eqn:S; [|exact (IH H start stop)].
    destruct (H l (or_introl eq_refl)) as [D R]. apply index_column in D as (d & D & D'). apply index_column in R as (r & R & R'). rewrite D, R. cbn [bind].
    destruct (IH (fun l' I => H l' (or_intror I)) (Some match start with Some s => Z.min d s | None => d end) (Z.max r stop)) as (s & e & E & A & B & C & M).
    exists s, e. split; [exact E|]. split; [|split; [|split]].
    + destruct s as [k|]; [|destruct A as [A _]; discriminate]. destruct A as (A1 & A2 & A3). specialize (A2 _ eq_refl). split; [|split].
      * destruct A1 as [A1|(l' & I & A1)]; [|right; exists l'; split; [now right|exact A1]]. injection A1 as A1. destruct start as [j|].
        -- destruct (Z.min_spec d j) as [[_ Y]|[_ Y]]; rewrite Y in A1; subst k; [right; exists l; split; [now left|exact D']|now left].
        -- subst k. right. exists l. split; [now left|exact D'].
      * intros j ->. lia.
      * intros l' d' [<-|I] X; [|now apply (A3 l')]. rewrite (column_unique _ _ _ _ X D'). destruct start; lia.
    + destruct B as [->|(l' & I & B)]; [|right; exists l'; split; [now right|exact B]].
      destruct (Z.max_spec r stop) as [[_ Y]|[_ Y]]; rewrite Y; [now left|right; exists l; split; [now left|exact R']].
    + lia.
    + intros l' r' [<-|I] X; [|now apply (M l')]. rewrite (column_unique _ _ _ _ X R'). lia.
Qed.
Lemma latency_complete t : complete t -> (exists l, in_timeline t l) -> exists k, latency t = Ok (Fin (inject_Z k)) /\ path_length t k.
Proof.
  intros C (l0 & L0). unfold latency. destruct (path_range_spec (filter is_timeline (split 10 t))) with (start := @None Z) (stop := 0%Z) as (s & e & E & A & B & Z0 & M).
  { intros l I. apply C. now apply timeline_lines. }
  rewrite E. cbn [bind fst snd]. fold (first_lines (split 10 t)) in *. destruct s as [k|].
  2:{ destruct A as [_ A]. apply timeline_lines in L0. rewrite A in L0. destruct L0. }
  destruct A as ([A1|(l & I & A1)] & _ & A3); [discriminate|]. exists (e - k)%Z. split; [reflexivity|]. exists k, e. split; [reflexivity|]. split; [|split; [|split]].
  - exists l. split; [now apply timeline_lines|exact A1].
  - intros l' d' I'. apply A3. now apply timeline_lines.
  - destruct B as [->|(l' & I' & B)]; [|exists l'; split; [now apply timeline_lines|exact B]].
    destruct (C l0 L0) as [_ [r R]]. exists l0. split; [exact L0|]. assert (r = 0)%Z as <-; [|exact R]. apply Z.le_antisymm.
    + apply (M l0); [now apply timeline_lines|exact R].
    + destruct R as (a & b & _ & _ & ->). lia.
  - intros l' r' I'. apply M. now apply timeline_lines.
Qed.
Lemma latency_none t : (forall l, ~ in_timeline t l) -> latency t = Ok NInf.
Proof.
  intros H. unfold latency. destruct (path_range_spec (filter is_timeline (split 10 t))) with (start := @None Z) (stop := 0%Z) as (s & e & E & A & _).
  { intros l I. apply timeline_lines in I. now destruct (H l). }
  rewrite E. cbn [bind fst snd]. fold (first_lines (split 10 t)) in A. destruct s as [k|]; [|reflexivity]. destruct A as ([A|(l & I & _)] & _); [discriminate|].
  apply timeline_lines in I. now destruct (H l).
Qed.

Lemma in_column c l : In c l -> exists k, column c l k.
Proof.
  induction l as [|x l IH]; intros I; [easy|]. destruct (N.eq_dec x c) as [->|X]; [exists 0%Z; now exists [], l|].
  destruct I as [I|I]; [contradiction|]. destruct (IH I) as (k & a & b & -> & N & ->). eexists. exists (x :: a), b.
  split; [reflexivity|]. split; [intros [K|K]; [now apply X|now apply N]|reflexivity].
Qed.
Lemma path_range_missing ls l : In l (filter (starts_with (codes "[0,")) ls) -> ~ In 68 l \/ ~ In 82 l ->
  forall start stop, path_range ls start stop = Err ValueError.
Proof.
  intros I N. induction ls as [|x ls IH]; [easy|]. intros start stop. cbn [path_range filter] in *. destruct (starts_with (codes "[0,") x); [|auto].
  destruct I as [->|I].
  - destruct N as [N|N]; rewrite (index_missing _ _ N); [reflexivity|].
    destruct (in_dec N.eq_dec 68 l) as [J|J]; [|now rewrite (index_missing _ _ J)]. destruct (index_column _ _ (in_column _ _ J)) as (k & E & _). now rewrite E.
  - destruct (in_dec N.eq_dec 68 x) as [J|J]; [|now rewrite (index_missing _ _ J)]. destruct (index_column _ _ (in_column _ _ J)) as (k & E & _). rewrite E. cbn [bind].
    destruct (in_dec N.eq_dec 82 x) as [J'|J']; [|now rewrite (index_missing _ _ J')]. destruct (index_column _ _ (in_column _ _ J')) as (k' & E' & _). rewrite E'. cbn [bind].
    now apply IH.
Qed.
Lemma latency_incomplete t : ~ complete t -> latency t = Err ValueError.
Proof.
  intros H. unfold latency.
  destruct (existsb (fun l => negb (existsb (N.eqb 68) l && existsb (N.eqb 82) l)) (first_lines (split 10 t))) eqn:E.
  - apply existsb_exists in E as (l & I & E). rewrite (path_range_missing _ l I); [reflexivity|].
    apply negb_true_iff, andb_false_iff in E. destruct E as [E|E]; [left|right]; intros J.
    + assert (existsb (N.eqb 68) l = true) by (apply existsb_exists; exists 68; split; [exact J|reflexivity]). congruence.
    + assert (existsb (N.eqb 82) l = true) by (apply existsb_exists; exists 82; split; [exact J|reflexivity]). congruence.
  - destruct H. intros l L. apply timeline_lines in L.
    assert (B : existsb (N.eqb 68) l && existsb (N.eqb 82) l = true).
    { destruct (existsb (N.eqb 68) l && existsb (N.eqb 82) l) eqn:B; [reflexivity|]. 
      assert (existsb (fun l => negb (existsb (N.eqb 68) l && existsb (N.eqb 82) l)) (first_lines (split 10 t)) = true); [|congruence].
      apply existsb_exists. exists l. now rewrite B. }
    apply andb_true_iff in B as [B1 B2]. apply existsb_exists in B1 as (x & X & EX). apply existsb_exists in B2 as (y & Y & EY).
    apply N.eqb_eq in EX, EY. subst x y. split; now apply in_column.
Qed.

(** ** IACA *)
Lemma first_line_found {A} (f : text -> option A) (P : text -> Prop) t l x :
  (forall s y, f s = Some y -> P s) -> first_line_with P t l -> f l = Some x -> first_line f (split 10 t) = Some x.
Proof.
  intros H (a & b & -> & _ & N) F. induction N as [|y a Y N IH]; cbn [app first_line]; [now rewrite F|].
  destruct (f y) eqn:E; [|exact IH]. apply H in E. contradiction.
Qed.
Lemma filter_found p t l : first_line_with (begins p) t l -> exists r, filter (starts_with p) (split 10 t) = l :: r.
Proof.
  intros (a & b & -> & B & N). induction N as [|y a Y N IH]; cbn [app filter].
  - assert (starts_with p l = true) as -> by (apply starts_with_spec; exact B). eauto.
  - destruct (starts_with p y) eqn:E; [|exact IH]. apply starts_with_spec in E. contradiction.
Qed.
Lemma lstrip_pad a s : padding a -> lstrip (a ++ s) = lstrip s.
Proof. induction 1 as [|c a E H IH]; [reflexivity|]. subst c. exact IH. Qed.
Lemma padding_rev a : padding a -> padding (rev a).
Proof. apply Forall_rev. Qed.
Definition solid (c : N) : Prop := PyFloat.is_space c = false.
Lemma plain_solid c : plain_char c -> solid c.
Proof. intros (H & _). unfold solid, PyFloat.is_space. apply orb_false_iff. split; apply andb_false_iff; right; apply N.leb_gt; lia. Qed.
Lemma strip_pad a x w y b : padding a -> padding b -> (exists z, x :: w = z ++ [y]) -> solid x -> solid y -> strip (a ++ (x :: w) ++ b) = x :: w.
Proof.
  intros A B [z Z] X Y. unfold strip. rewrite lstrip_pad by exact A. cbn [app lstrip]. unfold solid in X. rewrite X.
  change (x :: w ++ b) with ((x :: w) ++ b). rewrite rev_app_distr, lstrip_pad by now apply padding_rev.
  rewrite Z, rev_app_distr. cbn [rev app lstrip]. rewrite Y. cbn [rev]. now rewrite rev_involutive.
Qed.
Lemma strip_padding a : padding a -> strip a = [].
Proof. intros H. unfold strip. rewrite <- (app_nil_r a), lstrip_pad by exact H. reflexivity. Qed.
Lemma name_ends n : name n -> exists x w z y, n = x :: w /\ n = z ++ [y] /\ plain_char x /\ plain_char y.
Proof.
  intros [N F]. destruct n as [|x w]; [easy|]. destruct (exists_last N) as (z & y & E). exists x, w, z, y. rewrite Forall_forall in F.
  repeat split; try exact E; try (apply F; rewrite ?E; rewrite ?in_app_iff; cbn; now auto).
  all: try (apply (F x); now left). all: apply (F y); rewrite E; apply in_app_iff; right; now left.
Qed.
Lemma strip_name a n b : padding a -> padding b -> name n -> strip (a ++ n ++ b) = n.
Proof.
  intros A B N. destruct (name_ends n N) as (x & w & z & y & -> & E & X & Y). apply strip_pad with y; auto using plain_solid. eauto.
Qed.
(** Two names with something between them *)
Lemma strip_two a n m k b : padding a -> padding b -> name n -> name m -> strip (a ++ (n ++ k ++ m) ++ b) = n ++ k ++ m.
Proof.
  intros A B N M. destruct (name_ends n N) as (x & w & _ & _ & -> & _ & X & _). destruct (name_ends m M) as (_ & _ & z & y & _ & E & _ & Y).
  cbn [app]. apply (strip_pad a x (w ++ k ++ m) y b); auto using plain_solid. exists ((x :: w) ++ k ++ z). rewrite E. now rewrite <- !app_assoc.
Qed.
Lemma padding_free c a : c <> 32 -> padding a -> ~ In c a.
Proof. intros N H I. unfold padding in H. rewrite Forall_forall in H. apply H in I. congruence. Qed.
Lemma name_free n c : name n -> c = 45 \/ c = 124 \/ c <= 32 -> ~ In c n.
Proof. intros [_ F] C I. rewrite Forall_forall in F. apply F in I. unfold plain_char in I. lia. Qed.
Lemma split_padding e : padding e -> filter (fun w : text => match w with [] => false | _ => true end) (split 32 e) = [].
Proof. induction 1 as [|c e E H IH]; [reflexivity|]. subst c. cbn. exact IH. Qed.
Lemma split_words e f : padding e -> name f -> filter (fun w : text => match w with [] => false | _ => true end) (split 32 (e ++ f)) = [f].
Proof.
  intros E F. induction E as [|c e X E IH]; cbn [app].
  - rewrite split_single by (apply name_free; [exact F|lia]). destruct F as [F _]. now destruct f.
  - subst c. cbn [split]. rewrite N.eqb_refl. cbn [filter]. exact IH.
Qed.
Lemma split_pair d e f : name d -> padding e -> e <> [] -> name f -> filter (fun w : text => match w with [] => false | _ => true end) (split 32 (d ++ e ++ f)) = [d; f].
Proof.
  intros D E NE F. destruct E as [|c e X E]; [easy|]. subst c. cbn [app]. rewrite split_app by (apply name_free; [exact D|lia]). cbn [filter].
  rewrite split_words by easy. destruct D as [D _]. now destruct d.
Qed.
Lemma existsb_app_true c a b : existsb (N.eqb c) (a ++ c :: b) = true.
Proof. rewrite existsb_app. cbn. rewrite N.eqb_refl. now rewrite orb_true_r. Qed.
Lemma existsb_free c s : ~ In c s -> existsb (N.eqb c) s = false.
Proof. intros N. destruct (existsb (N.eqb c) s) eqn:E; [|reflexivity]. apply existsb_exists in E as (x & I & X). apply N.eqb_eq in X. now subst. Qed.
Lemma read_cell_spec p c e i cs : cell p c e -> nth_error cs i = Some (strip c) -> read_cell (strip p) cs i = Ok e.
Proof.
  intros H I. destruct H as [a n b c d e q A B C E N [D Q]|a n b s m z c d e f g q r A B S Z C E G NE N M [D Q] [F R]|a b A B].
  - rewrite strip_name in * by easy. unfold read_cell, item. destruct n as [|x n'] eqn:X; [now destruct N|]. rewrite <- X in *. rewrite I. cbn [bind].
    rewrite existsb_free by (apply name_free; [exact N|lia]). cbn [andb]. destruct d as [|y d'] eqn:Y; [now destruct D|]. rewrite <- Y in *.
    unfold to_float. now rewrite Q.
  - assert (EP : strip (a ++ n ++ b ++ codes "-" ++ s ++ m ++ z) = n ++ (b ++ [45] ++ s) ++ m).
    { rewrite <- (strip_two a n m (b ++ [45] ++ s) z A Z N M). change (codes "-") with [45]. now rewrite <- !app_assoc. }
    assert (EC : strip (c ++ d ++ e ++ f ++ g) = d ++ e ++ f).
    { rewrite <- (strip_two c d f e g C G D F). now rewrite <- !app_assoc. }
    rewrite EP. rewrite EC in I. unfold read_cell.
    replace (match n ++ (b ++ [45] ++ s) ++ m with [] => Ok [] | _ :: _ => _ end) with
      (do c <- item cs i;
       if existsb (N.eqb 45) (n ++ (b ++ [45] ++ s) ++ m) && existsb (N.eqb 32) c then
        let subports := map strip (split 45 (n ++ (b ++ [45] ++ s) ++ m)) in
        let subcycles := filter (fun w => match w with [] => false | _ => true end) (split 32 c) in
        do p0 <- item subports 0; do c0 <- item subcycles 0; do x0 <- to_float c0;
        do p1 <- item subports 1; do c1 <- item subcycles 1; do x1 <- to_float c1; Ok [(p0, x0); (p0 ++ p1, x1)]
       else match c with [] => Ok [] | _ => do x <- to_float c; Ok [(n ++ (b ++ [45] ++ s) ++ m, x)] end)
      by (destruct N as [N _]; destruct n; [easy|reflexivity]).
    unfold item at 1. rewrite I. cbn [bind].
    replace (n ++ (b ++ [45] ++ s) ++ m) with ((n ++ b) ++ 45 :: s ++ m) by (now rewrite <- !app_assoc).
    rewrite existsb_app_true. destruct e as [|e0 e]; [easy|]. assert (e0 = 32) as -> by (inversion E; congruence).
    replace (existsb (N.eqb 32) (d ++ (32 :: e) ++ f)) with true by (symmetry; apply existsb_app_true). cbn [andb]. cbv zeta.
    match goal with |- context [filter ?g ?l] => replace (filter g l) with [d; f] by (symmetry; exact (split_pair d (32 :: e) f D E NE F)) end. rewrite split_app.
    2:{ rewrite in_app_iff. intros [K|K]; [revert K; apply name_free; [exact N|lia]|revert K; apply padding_free; [lia|exact B]]. }
    rewrite split_single.
    2:{ rewrite in_app_iff. intros [K|K]; [revert K; apply padding_free; [lia|exact S]|revert K; apply name_free; [exact M|lia]]. }
    cbn [map item nth_error bind]. unfold to_float. rewrite Q, R. cbn [bind].
    assert (E1 : strip (n ++ b) = n) by exact (strip_name [] n b (Forall_nil _) B N).
    assert (E2 : strip (s ++ m) = m). { rewrite <- (app_nil_r m) at 1. exact (strip_name s m [] S (Forall_nil _) M). }
    now rewrite E1, E2.
  - rewrite strip_padding by exact A. reflexivity.
Qed.
Lemma read_cells_spec ps cs es : table ps cs es -> forall before, read_cells (map strip ps) (before ++ map strip cs) (List.length before) = Ok es.
Proof.
  induction 1 as [|p c e ps cs es C T IH]; intros before; [reflexivity|]. cbn [map read_cells].
  rewrite (read_cell_spec p c e) by (try exact C; rewrite nth_error_app2, Nat.sub_diag by lia; reflexivity). cbn [bind].
  specialize (IH (before ++ [strip c])). rewrite <- app_assoc, app_length, Nat.add_1_r in IH. cbn [app] in IH. now rewrite IH.
Qed.
Lemma cell_free p c e : cell p c e -> ~ In 124 p /\ ~ In 124 c.
Proof.
  intros H. destruct H as [a n b c d e q A B C E N [D Q]|a n b s m z c d e f g q r A B S Z C E G NE N M [D Q] [F R]|a b A B];
    split; change (codes "-") with [45]; rewrite ?in_app_iff; intros K; repeat destruct K as [K|K];
    try (cbn in K; lia); try discriminate K; try (revert K; first [apply padding_free; [lia|assumption]|apply name_free; [assumption|lia]]); try easy.
Qed.
Lemma table_free ps cs es : table ps cs es -> (forall p, In p ps -> ~ In 124 p) /\ (forall c, In c cs -> ~ In 124 c).
Proof.
  induction 1 as [|p c e ps cs es C T [IH1 IH2]]; [split; intros ? []|]. destruct (cell_free _ _ _ C) as [F1 F2].
  split; intros x [<-|I]; auto.
Qed.
Lemma cells_port cs : cs <> [] -> (forall p, In p cs -> ~ In 124 p) -> cells (row_of (codes "|  Port  |") cs) = map strip cs.
Proof.
  intros N F. unfold cells, row_of. change (codes "|  Port  |" ++ join 124 cs) with ([] ++ 124 :: codes "  Port  " ++ 124 :: join 124 cs).
  rewrite split_app by easy. rewrite split_app by (cbn; intros K; repeat destruct K as [K|K]; try discriminate K; easy). now rewrite split_join by easy.
Qed.
Lemma cells_cycles cs : cs <> [] -> (forall p, In p cs -> ~ In 124 p) -> cells (row_of (codes "| Cycles |") cs) = map strip cs.
Proof.
  intros N F. unfold cells, row_of. change (codes "| Cycles |" ++ join 124 cs) with ([] ++ 124 :: codes " Cycles " ++ 124 :: join 124 cs).
  rewrite split_app by easy. rewrite split_app by (cbn; intros K; repeat destruct K as [K|K]; try discriminate K; easy). now rewrite split_join by easy.
Qed.
Lemma tset_new {A} k (v : A) d : ~ In k (map fst d) -> tset k v d = d ++ [(k, v)].
Proof.
  induction d as [|[x w] d IH]; intros N; [reflexivity|]. cbn [map fst] in N. cbn [tset app]. rewrite text_eqb_neq by (intros ->; apply N; now left).
  rewrite IH; [reflexivity|]. intros H. apply N. now right.
Qed.
Lemma tupdate_new {A} (e : tdict A) : forall d, NoDup (map fst (d ++ e)) -> tupdate d e = d ++ e.
Proof.
  induction e as [|[k v] e IH]; intros d N; [now rewrite app_nil_r|]. change (tupdate d ((k, v) :: e)) with (tupdate (tset k v d) e).
  assert (K : ~ In k (map fst d)).
  { rewrite map_app in N. cbn [map fst] in N. apply NoDup_remove_2 in N. rewrite in_app_iff in N. tauto. }
  rewrite tset_new by exact K. rewrite IH; rewrite <- app_assoc; [reflexivity|exact N].
Qed.
Lemma show_nat_float n : py_float (show_nat n) = Some (Fin (inject_Z (Z.of_N n) * power10 0)).
Proof.
  destruct (show_nat_spec n) as (V & D & N). unfold py_float. rewrite strip_id.
  2:{ intros c C. rewrite forallb_forall in D. apply D, is_decimal_spec in C. unfold PyFloat.is_space. apply orb_false_iff.
      split; apply andb_false_iff; right; apply N.leb_gt; lia. }
  destruct (show_nat n) as [|c s] eqn:E; [easy|]. assert (C : 48 <= c <= 57) by (apply is_decimal_spec; cbn in D; now apply andb_true_iff in D).
  rewrite sign_part_other by lia. unfold unsigned. rewrite (digit_part_all (c :: s) D), app_nil_r. cbn [exponent_part List.length]. rewrite V.
  assert (X : forall x y, x <> c -> (65 <=? c) && (c <=? 90) = false -> text_eqb (lower_case (c :: s)) (x :: y) = false).
  { intros x y NX L. apply text_eqb_neq. unfold lower_case. cbn [map]. rewrite L. congruence. }
  assert (L : (65 <=? c) && (c <=? 90) = false) by (apply andb_false_iff; left; apply N.leb_gt; lia).
  change (codes "inf") with (105 :: codes "nf"). change (codes "infinity") with (105 :: codes "nfinity"). change (codes "nan") with (110 :: codes "an").
  rewrite !X by (try exact L; lia). reflexivity.
Qed.

(** ** OSACA *)
Lemma qmax_spec l : forall a, (qmax a l = a \/ In (qmax a l) l) /\ (a <= qmax a l)%Q /\ forall x, In x l -> (x <= qmax a l)%Q.
Proof.
  induction l as [|b l IH]; intros a; cbn [qmax]; [split; [now left|split; [apply Qle_refl|intros x []]]|].
  destruct (Qltb_spec a b) as [L|L].
  - destruct (IH b) as (A & B & C). split; [|split].
    + destruct A as [->|A]; right; [now left|now right].
    + apply Qle_trans with b; [now apply Qlt_le_weak|exact B].
    + intros x [<-|X]; auto.
  - destruct (IH a) as (A & B & C). split; [|split].
    + destruct A as [A|A]; [now left|right; now right].
    + exact B.
    + intros x [<-|X]; [|auto]. apply Qle_trans with a; [now apply Qnot_lt_le|exact B].
Qed.

(** ** For the examples *)
Definition behind (p s : text) : option text := if starts_with p s then Some (skipn (List.length p) s) else None.
Lemma first_search p t b : search (behind p) t = Some b -> first p t b.
Proof.
  revert b. induction t as [|c t IH]; intros b; cbn [search].
  - unfold behind at 1. destruct (starts_with p []) eqn:S; [|discriminate]. intros [= <-]. apply starts_with_spec in S as [r E]. exists []. cbn [app List.length].
    rewrite E, skip_app. split; [reflexivity|]. intros; lia.
  - unfold behind at 1. destruct (starts_with p (c :: t)) eqn:S.
    + intros [= <-]. apply starts_with_spec in S as [r E]. exists []. cbn [app List.length]. rewrite E, skip_app. split; [reflexivity|]. intros; lia.
    + intros H. destruct (IH b H) as (a & E & M). exists (c :: a). split; [now rewrite E|]. intros a' b' E'. destruct a' as [|x a'].
      * cbn [app] in E'. rewrite E', starts_app in S. discriminate.
      * injection E' as -> E'. specialize (M a' b' E'). cbn. lia.
Qed.
Lemma fields_words s : words s (fields s).
Proof.
  remember (List.length s) as k eqn:K. assert (L : (List.length s <= k)%nat) by lia. clear K. revert s L. induction k as [|k IH]; intros s L.
  - destruct s; [|cbn in L; lia]. constructor. intros c [].
  - destruct (fields_cons s) as [[E S]|(a & w & r & -> & SA & W & R & E)]; rewrite E; [now constructor|]. constructor; auto. apply IH.
    rewrite !app_length in L. destruct W as [W _]. destruct w; [easy|]. cbn in L. lia.
Qed.
