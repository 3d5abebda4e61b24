(** Lemmas for C96-C98. *)
From Coq Require Import Lia.
From Verif Require Import CtrModel CtrSpec LoopSpec PerfModel PerfSpec PerfProofs LoopModel BenchModel RegionModel RegionSpec.
Local Open Scope N_scope.
Local Open Scope list_scope.

Lemma begins_two k v l : begins_with [k; v] l <-> exists rest, PyText.split 44 l = k :: v :: rest.
Proof. split; intros [rest H]; exists rest; exact H. Qed.
Lemma header_two r l : header r l <-> exists rest, PyText.split 44 l = codes "TABLE" :: (codes "Region " ++ r) :: rest.
Proof. apply begins_two. Qed.
Lemma header_unique r r' l : header r l -> header r' l -> r = r'.
Proof.
  intros A B. apply (proj1 (header_two _ _)) in A, B. destruct A as [a A], B as [b B]. rewrite A in B. apply (f_equal (fun z => nth 1 z [])) in B. cbn [nth] in B.
  now apply app_inv_head in B.
Qed.
Lemma skipn_region r : skipn 7 (codes "Region " ++ r) = r.
Proof. reflexivity. Qed.
Lemma header_dec l : {r | header r l} + {forall r, ~ header r l}.
Proof.
  destruct (PyText.split 44 l) as [|k [|v rest]] eqn:E.
  - right. intros r H. apply (proj1 (header_two _ _)) in H. destruct H as [x H]. rewrite E in H. discriminate.
  - right. intros r H. apply (proj1 (header_two _ _)) in H. destruct H as [x H]. rewrite E in H. discriminate.
  - destruct (text_eqb_spec k (codes "TABLE")) as [->|N].
    + destruct (starts_with (codes "Region ") v) eqn:V.
      * left. exists (skipn 7 v). apply header_two. exists rest. rewrite E. apply starts_with_spec in V. destruct V as [t ->]. now rewrite skipn_region.
      * right. intros r H. apply (proj1 (header_two _ _)) in H. destruct H as [x H]. rewrite E in H. apply (f_equal (fun z => nth 1 z [])) in H. cbn [nth] in H. subst v.
        assert (W : starts_with (codes "Region ") (codes "Region " ++ r) = true) by (apply starts_with_spec; eauto). rewrite W in V. discriminate.
    + right. intros r H. apply (proj1 (header_two _ _)) in H. destruct H as [x H]. rewrite E in H. apply (f_equal (hd [])) in H. now apply N.
Qed.
Lemma region_after_exists ls : exists r, region_after ls r.
Proof.
  induction ls as [|l ls [r H]] using rev_ind; [exists []; constructor|].
  destruct (header_dec l) as [[r' h]|n]; [exists r'; now apply after_header|exists r; now apply after_other].
Qed.
Lemma region_after_nil r : region_after [] r -> r = [].
Proof. intro H. remember [] as z eqn:Z in H. destruct H as [|ls l r h|ls l r h n]; [reflexivity| |]; now destruct ls. Qed.
Lemma region_after_snoc ls l r : region_after (ls ++ [l]) r -> header r l \/ region_after ls r /\ forall r', ~ header r' l.
Proof.
  intro H. remember (ls ++ [l]) as z eqn:Z. destruct H as [|ls' l' r h|ls' l' r h n]; [now destruct ls| |];
    apply app_inj_tail in Z; destruct Z as [-> ->]; auto.
Qed.
Lemma region_after_unique ls : forall r r', region_after ls r -> region_after ls r' -> r = r'.
Proof.
  induction ls as [|l ls IH] using rev_ind; intros r r' A B.
  - apply region_after_nil in A, B. congruence.
  - apply region_after_snoc in A, B. destruct A as [A|[A n]], B as [B|[B m]].
    + now apply (header_unique _ _ l).
    + now destruct (m r).
    + now destruct (n r').
    + now apply IH.
Qed.

(** ** One line *)
Definition current_step (l : text) (st st' : state) : Prop :=
  (exists r, header r l /\ s_current st' = r /\ s_found st' = set_add r (s_found st))
  \/ ((forall r, ~ header r l) /\ s_current st' = s_current st /\ s_found st' = s_found st).
Definition stored (l : text) (cur : text) (rs : results) (r k : text) (e : entry) : Prop :=
  (exists x, r = cur /\ number_line k x l /\ e = Number x)
  \/ (exists reg n, r = cur /\ count_line k reg n l
        /\ (tget k (dict_of r rs) = None /\ e = Counts [(reg, n)] \/ exists d, tget k (dict_of r rs) = Some (Counts d) /\ e = Counts (tset reg n d)))
  \/ (exists v, r = cur /\ k = codes "call count" /\ begins_with [k; v] l /\ py_float v = None /\ e = if text_eqb cur [] then Nothing else Label v)
  \/ (exists v, r = [] /\ colon_at_end k /\ PyText.split 44 l = [k; v; []] /\ py_float v = None /\ e = Label v).
Lemma colon_end k : ends_with_colon k = true <-> colon_at_end k.
Proof.
  unfold ends_with_colon, colon_at_end. split.
  - destruct (rev k) as [|c t] eqn:E; [discriminate|]. intro H. exists (rev t). rewrite <- (rev_involutive k), E. simpl. f_equal. f_equal.
    destruct (N.eq_dec c 58) as [e|ne]; [exact e|]. exfalso. destruct c as [|p]; [discriminate|].
    repeat (destruct p as [p|p|]; try discriminate; try now apply ne).
  - intros [s ->]. rewrite rev_app_distr. reflexivity.
Qed.

Lemma plain_spec v : is_plain_register v = true <-> plain_register v.
Proof. apply some_of_spec, name_char_spec. Qed.
Lemma enter_step l st st1 : enter st (PyText.split 44 l) = Ok st1 -> current_step l st st1 /\ s_results st1 = s_results st.
Proof.
  unfold enter, current_step. intro H. destruct (header_dec l) as [[r h]|n].
  - pose proof h as h0. apply (proj1 (header_two _ _)) in h. destruct h as [rest h]. rewrite h in H.
    rewrite text_eqb_refl in H.
    assert (V : starts_with (codes "Region ") (codes "Region " ++ r) = true) by (apply starts_with_spec; eauto).
    rewrite V, skipn_region in H. injection H as <-. split; [left; exists r; auto|reflexivity].
  - assert (E : st1 = st).
    { destruct (PyText.split 44 l) as [|k rest] eqn:E; [congruence|]. destruct (text_eqb_spec k (codes "TABLE")) as [->|N]; [|congruence].
      destruct rest as [|v rest]; [discriminate|]. destruct (starts_with (codes "Region ") v) eqn:V; [|congruence].
      apply starts_with_spec in V. destruct V as [t ->]. destruct (n t). apply header_two. eauto. }
    subst st1. split; [right; auto|reflexivity].
Qed.
Lemma remaining_step l st k v rest : PyText.split 44 l = k :: v :: rest -> py_float v = None ->
  s_current (remaining st k v rest) = s_current st /\ s_found (remaining st k v rest) = s_found st
  /\ (s_results (remaining st k v rest) = s_results st
      \/ exists r k' e, s_results (remaining st k v rest) = put r k' e (s_results st) /\ stored l (s_current st) (s_results st) r k' e).
Proof.
  intros E F. split; [reflexivity|]. split; [reflexivity|]. unfold remaining, with_results. cbn [s_results].
  destruct (text_eqb_spec k (codes "call count")) as [->|N].
  - change (ends_with_colon (codes "call count")) with false. cbn [andb]. right. do 3 eexists. split; [reflexivity|].
    right. right. left. exists v. do 3 (split; [first [reflexivity|apply begins_two; eauto]|]). split; [exact F|reflexivity].
  - destruct (ends_with_colon k) eqn:C; cbn [andb]; [|now left].
    destruct rest as [|[|c t] [|x rest]]; cbn [andb]; try now left.
    right. do 3 eexists. split; [reflexivity|]. right. right. right. exists v. split; [reflexivity|]. split; [now apply colon_end|]. auto.
Qed.
Lemma read_line_step l st st' : read_line st l = Ok st' -> current_step l st st'
  /\ (s_results st' = s_results st \/ exists r k e, s_results st' = put r k e (s_results st) /\ stored l (s_current st') (s_results st) r k e).
Proof.
  unfold read_line. destruct (enter st (PyText.split 44 l)) as [st1|e] eqn:En; cbn [bind]; [|discriminate].
  apply enter_step in En. destruct En as [C R]. rewrite <- R. intro H.
  assert (G : s_current st' = s_current st1 /\ s_found st' = s_found st1
    /\ (s_results st' = s_results st1 \/ exists r k e, s_results st' = put r k e (s_results st1) /\ stored l (s_current st1) (s_results st1) r k e)).
  { unfold read_cells in H. destruct (PyText.split 44 l) as [|k [|v rest]] eqn:E; [injection H as <-; auto|injection H as <-; auto|].
    destruct (py_float v) as [x|] eqn:F.
    - injection H as <-. split; [reflexivity|]. split; [reflexivity|]. right. do 3 eexists. split; [reflexivity|]. left. exists x.
      split; [reflexivity|]. split; [exists v; split; [apply begins_two; eauto|exact F]|reflexivity].
    - destruct rest as [|c rest]; [injection H as <-; now apply remaining_step|].
      destruct (counter_value c) as [n|] eqn:Cv; [|injection H as <-; now apply remaining_step].
      destruct (is_event_name k && is_plain_register v) eqn:Nm; [|injection H as <-; now apply remaining_step].
      apply andb_prop in Nm. destruct Nm as [Ev Pl].
      assert (L : count_line k v n l).
      { split; [now apply is_event_name_spec|]. split; [now apply plain_spec|]. split; [exact F|]. exists c. split; [exists rest; exact E|].
        now apply counter_value_spec. }
      destruct (tget k (dict_of (s_current st1) (s_results st1))) as [[x|s|d|]|] eqn:T; try discriminate H; injection H as <-;
        (split; [reflexivity|]; split; [reflexivity|]; right; do 3 eexists; split; [reflexivity|]; right; left; exists v, n;
         split; [reflexivity|]; split; [exact L|]); [right; exists d; auto|left; auto]. }
  destruct G as (G1 & G2 & G3). split.
  - unfold current_step in *. rewrite G1, G2. exact C.
  - rewrite G1. exact G3.
Qed.
Lemma read_lines_app a b st : read_lines st (a ++ b) = bind (read_lines st a) (fun s => read_lines s b).
Proof. revert st. induction a as [|l a IH]; intro st; cbn; [reflexivity|]. destruct (read_line st l); cbn; auto. Qed.
Lemma read_lines_snoc a l st st' : read_lines st (a ++ [l]) = Ok st' -> exists st1, read_lines st a = Ok st1 /\ read_line st1 l = Ok st'.
Proof.
  rewrite read_lines_app. destruct (read_lines st a) as [st1|]; cbn; [|discriminate]. destruct (read_line st1 l) eqn:E; cbn; [|discriminate].
  intros [= <-]. eauto.
Qed.
Lemma current_correct found ls : forall st, read_lines (mkState [] [] found) ls = Ok st -> region_after ls (s_current st).
Proof.
  induction ls as [|l ls IH] using rev_ind; intros st H; [injection H as <-; constructor|].
  apply read_lines_snoc in H. destruct H as (st1 & A & B). apply read_line_step in B. destruct B as [[(r & h & -> & _)|(n & -> & _)] _].
  - now apply after_header.
  - apply after_other; [now apply IH|exact n].
Qed.
(** ** Entries *)
Lemma dict_put r r' k e rs : dict_of r (put r' k e rs) = if text_eqb r r' then tset k e (dict_of r rs) else dict_of r rs.
Proof. unfold put. unfold dict_of at 1. rewrite tget_tset. destruct (text_eqb_spec r r') as [->|N]; reflexivity. Qed.
Lemma get_put r r' k k' e rs :
  tget k (dict_of r (put r' k' e rs)) = if text_eqb r r' && text_eqb k k' then Some e else tget k (dict_of r rs).
Proof. rewrite dict_put. destruct (text_eqb r r'); cbn [andb]; [apply tget_tset|reflexivity]. Qed.
Lemma reported_get rs r k e : reported rs r k e <-> tget k (dict_of r rs) = Some e.
Proof.
  unfold reported, dict_of. split.
  - intros (d & -> & H). exact H.
  - destruct (tget r rs) as [d|]; [|discriminate]. eauto.
Qed.
Definition at_region (ls : list text) (r : text) (P : text -> Prop) : Prop :=
  exists a l b, ls = a ++ l :: b /\ region_after (a ++ [l]) r /\ P l.
Definition justified (ls : list text) (r k : text) (e : entry) : Prop :=
  match e with
  | Number x => at_region ls r (number_line k x)
  | Counts d => d <> [] /\ good_event k /\ forall reg n, tget reg d = Some n -> at_region ls r (count_line k reg n)
  | Label s => r <> [] /\ k = codes "call count" /\ at_region ls r (begins_with [k; s])
               \/ r = [] /\ colon_at_end k /\ exists l, In l ls /\ PyText.split 44 l = [k; s; []]
  | Nothing => r = [] /\ k = codes "call count"
  end.
Lemma at_more ls l r P : at_region ls r P -> at_region (ls ++ [l]) r P.
Proof. intros (a & x & b & -> & H). exists a, x, (b ++ [l]). split; [now rewrite <- app_assoc|exact H]. Qed.
Lemma at_last ls l r (P : text -> Prop) : region_after (ls ++ [l]) r -> P l -> at_region (ls ++ [l]) r P.
Proof. intros A H. now exists ls, l, []. Qed.
Lemma justified_more ls l r k e : justified ls r k e -> justified (ls ++ [l]) r k e.
Proof.
  destruct e as [x|s|d|]; cbn [justified].
  - apply at_more.
  - intros [(A & B & C)|(A & B & x & I & C)]; [left; do 2 (split; [assumption|]); now apply at_more|right].
    do 2 (split; [assumption|]). exists x. split; [apply in_or_app; now left|exact C].
  - intros (A & B & C). do 2 (split; [assumption|]). intros reg n H. now apply at_more, C.
  - auto.
Qed.
Lemma tset_not_nil {A} k (x : A) d : tset k x d <> [].
Proof. destruct d as [|[j y] d]; cbn; [discriminate|]. destruct (text_eqb k j); discriminate. Qed.
Lemma stored_justified ls l r k e cur rs : region_after (ls ++ [l]) cur -> stored l cur rs r k e ->
  (forall k e, tget k (dict_of r rs) = Some e -> justified ls r k e) -> justified (ls ++ [l]) r k e.
Proof.
  intros A [(x & -> & N & ->)|[(reg & n & -> & C & D)|[(v & -> & -> & B & F & ->)|(v & -> & K & B & F & ->)]]] J; cbn [justified].
  - now apply at_last.
  - destruct D as [[_ ->]|(d & D & ->)].
    + split; [discriminate|]. split; [apply C|]. intros reg' n'. cbn [tget]. destruct (text_eqb_spec reg' reg) as [->|]; [|discriminate].
      intros [= <-]. now apply at_last.
    + split; [apply tset_not_nil|]. split; [apply C|]. intros reg' n'. rewrite tget_tset. destruct (text_eqb_spec reg' reg) as [->|].
      * intros [= <-]. now apply at_last.
      * intro T. apply at_more. apply J in D. now apply D.
  - destruct (text_eqb_spec cur []) as [->|N]; cbn [justified]; [auto|]. left. do 2 (split; [auto|]). now apply at_last.
  - right. do 2 (split; [auto|]). exists l. split; [apply in_or_app; right; now left|exact B].
Qed.
Lemma read_justified found ls : forall st, read_lines (mkState [] [] found) ls = Ok st ->
  forall r k e, tget k (dict_of r (s_results st)) = Some e -> justified ls r k e.
Proof.
  induction ls as [|l ls IH] using rev_ind; intros st H r k e; [injection H as <-; discriminate|].
  pose proof (current_correct _ _ _ H) as A. apply read_lines_snoc in H. destruct H as (st1 & H & L).
  apply read_line_step in L. destruct L as [_ [->|(r' & k' & e' & -> & S)]].
  - intro T. now apply justified_more, (IH st1).
  - rewrite get_put. destruct (text_eqb_spec r r') as [->|]; cbn [andb]; [|intro T; now apply justified_more, (IH st1)].
    destruct (text_eqb_spec k k') as [->|]; [|intro T; now apply justified_more, (IH st1)].
    intros [= <-]. apply (stored_justified _ _ _ _ _ _ _ A S). intros k0 e0 T. now apply (IH st1).
Qed.
Lemma line_of_at output r P : at_region (PyText.split 10 output) r P <-> exists l, line_of r output l /\ P l.
Proof.
  split.
  - intros (a & l & b & E & A & H). exists l. split; [now exists a, b|exact H].
  - intros (l & (a & b & E & A) & H). now exists a, l, b.
Qed.
(** ** Events are neither the call count nor information *)
Lemma event_not_call k : good_event k -> k <> codes "call count".
Proof. intros [_ F] ->. inversion F as [|? ? H]; subst. unfold in_event, upper, digit in H. cbn in H. lia. Qed.
Lemma event_not_colon k : good_event k -> ~ colon_at_end k.
Proof. intros G H. apply colon_end in H. rewrite event_no_colon in H by exact G. discriminate. Qed.
Lemma stored_begins l cur rs r k e : stored l cur rs r k e -> begins_with [k] l.
Proof.
  intros [(x & _ & (v & [rest B] & _) & _)|[(reg & n & _ & (_ & _ & _ & s & [rest B] & _) & _)|[(v & _ & _ & [rest B] & _)|(v & _ & _ & B & _)]]];
    rewrite ?B; eexists; rewrite B; reflexivity.
Qed.
(** Nothing changes in region r under k unless a line of the region begins with k, or k ends with a colon. *)
Lemma step_keeps l st st' r k ls : region_after (ls ++ [l]) (s_current st') -> read_line st l = Ok st' -> ~ (r = [] /\ colon_at_end k) ->
  (region_after (ls ++ [l]) r -> ~ begins_with [k] l) -> tget k (dict_of r (s_results st')) = tget k (dict_of r (s_results st)).
Proof.
  intros A H C N. apply read_line_step in H. destruct H as [_ [->|(r' & k' & e & -> & S)]]; [reflexivity|].
  rewrite get_put. destruct (text_eqb_spec r r') as [->|]; cbn [andb]; [|reflexivity]. destruct (text_eqb_spec k k') as [->|]; [|reflexivity].
  exfalso. pose proof (stored_begins _ _ _ _ _ _ S) as B.
  destruct S as [(x & -> & _)|[(reg & n & -> & _)|[(v & -> & _)|(v & -> & K & _)]]]; [now apply N|now apply N|now apply N|now apply C].
Qed.
Lemma lines_keep (P : state -> Prop) before after found st1 st2 :
  read_lines (mkState [] [] found) before = Ok st1 -> read_lines st1 after = Ok st2 ->
  (forall a l b s s', after = a ++ l :: b -> region_after (before ++ a ++ [l]) (s_current s') -> read_line s l = Ok s' -> P s -> P s') -> P st1 -> P st2.
Proof.
  intros B. revert st2. induction after as [|l after IH] using rev_ind; intros st2 H K P1; [injection H as <-; exact P1|].
  pose proof H as H0. apply read_lines_snoc in H. destruct H as (s & H & L). apply (K after l [] s st2); [reflexivity| |exact L|].
  - apply (current_correct found). rewrite read_lines_app, B. exact H0.
  - apply (IH s); [exact H| |exact P1]. intros a x b s0 s1 E. apply (K a x (b ++ [l])). now rewrite E, <- app_assoc.
Qed.

(** ** Completeness *)
Lemma region_same ls r r' : region_after ls r -> region_after ls r' -> r = r'.
Proof. apply region_after_unique. Qed.
Lemma read_number found before line after st r k x : read_lines (mkState [] [] found) (before ++ line :: after) = Ok st ->
  region_after (before ++ [line]) r -> number_line k x line -> ~ (r = [] /\ colon_at_end k) ->
  (forall a l b, after = a ++ l :: b -> region_after (before ++ line :: a ++ [l]) r -> ~ begins_with [k] l) ->
  tget k (dict_of r (s_results st)) = Some (Number x).
Proof.
  intros H A N C U. change (before ++ line :: after) with (before ++ [line] ++ after) in H. rewrite app_assoc, read_lines_app in H.
  destruct (read_lines (mkState [] [] found) (before ++ [line])) as [st1|] eqn:B; [|discriminate]. cbn [bind] in H.
  apply (lines_keep (fun s => tget k (dict_of r (s_results s)) = Some (Number x)) (before ++ [line]) after found st1 st B H).
  - intros a l b s s' E A' L <-. apply (step_keeps l s s' r k ((before ++ [line]) ++ a)); [now rewrite <- app_assoc|exact L|exact C|].
    intro A2. apply (U a l b E). now rewrite <- !app_assoc in A2.
  - pose proof (current_correct _ _ _ B) as A1. pose proof (region_same _ _ _ A1 A) as <-. apply read_lines_snoc in B. destruct B as (s & _ & L).
    unfold read_line in L. destruct (enter s (PyText.split 44 line)) as [s1|] eqn:En; [|discriminate]. cbn [bind] in L.
    destruct N as (v & [rest E] & F). cbn [app] in E. rewrite E in L. cbn [read_cells] in L. rewrite F in L. injection L as <-.
    cbn [with_results s_results s_current]. rewrite get_put, !text_eqb_refl. reflexivity.
Qed.
Definition counted (r k reg : text) (n : Z) (st : state) : Prop := exists d, tget k (dict_of r (s_results st)) = Some (Counts d) /\ tget reg d = Some n.
Lemma read_count found before line after st r k reg n : read_lines (mkState [] [] found) (before ++ line :: after) = Ok st ->
  region_after (before ++ [line]) r -> count_line k reg n line ->
  (forall a l b, after = a ++ l :: b -> region_after (before ++ line :: a ++ [l]) r -> ~ begins_with [k; reg] l /\ forall x, ~ number_line k x l) ->
  counted r k reg n st.
Proof.
  intros H A N U. change (before ++ line :: after) with (before ++ [line] ++ after) in H. rewrite app_assoc, read_lines_app in H.
  destruct (read_lines (mkState [] [] found) (before ++ [line])) as [st1|] eqn:B; [|discriminate]. cbn [bind] in H.
  assert (G : good_event k) by apply N.
  apply (lines_keep (counted r k reg n) (before ++ [line]) after found st1 st B H).
  - intros a l b s s' E A' L (d & D & T).
    assert (V : region_after (before ++ line :: a ++ [l]) (s_current s')) by (rewrite <- !app_assoc in A'; exact A').
    unfold counted. apply read_line_step in L. destruct L as [_ [->|(r' & k' & e & -> & S)]]; [now exists d|]. rewrite get_put.
    destruct (text_eqb_spec r r') as [<-|]; cbn [andb]; [|now exists d]. destruct (text_eqb_spec k k') as [<-|]; [|now exists d].
    destruct S as [(x & -> & X & _)|[(reg' & n' & -> & X & Y)|[(v & _ & K & _)|(v & _ & K & _)]]].
    + destruct (U a l b E V) as [_ W]. now destruct (W x).
    + destruct Y as [[Y _]|(d' & Y & ->)]; [congruence|]. rewrite D in Y. injection Y as <-. eexists. split; [reflexivity|]. rewrite tget_tset.
      destruct (text_eqb_spec reg reg') as [<-|]; [|exact T]. destruct (U a l b E V) as [W _]. destruct W.
      destruct X as (_ & _ & _ & c & [rest X] & _). exists (c :: rest). exact X.
    + now destruct (event_not_call k G).
    + now destruct (event_not_colon k G).
  - pose proof (current_correct _ _ _ B) as A1. pose proof (region_same _ _ _ A1 A) as <-. apply read_lines_snoc in B. destruct B as (s & _ & L).
    unfold read_line in L. destruct (enter s (PyText.split 44 line)) as [s1|] eqn:En; [|discriminate]. cbn [bind] in L.
    destruct N as (_ & P & F & c & [rest E] & Cf). cbn [app] in E. rewrite E in L. cbn [read_cells] in L. rewrite F in L.
    apply counter_value_spec in Cf. apply plain_spec in P. rewrite Cf, P, (proj2 (is_event_name_spec k) G) in L. cbn [andb] in L.
    destruct (tget k (dict_of (s_current s1) (s_results s1))) as [[x|t|d|]|] eqn:T; try discriminate L; injection L as <-; unfold counted;
      cbn [with_results s_results s_current]; rewrite get_put, !text_eqb_refl; cbn [andb]; eexists; (split; [reflexivity|]).
    + rewrite tget_tset. now rewrite text_eqb_refl.
    + cbn [tget]. now rewrite text_eqb_refl.
Qed.
Lemma read_info found before line after st k v : read_lines (mkState [] [] found) (before ++ line :: after) = Ok st ->
  colon_at_end k -> PyText.split 44 line = [k; v; []] -> py_float v = None -> (forall l, In l after -> ~ begins_with [k] l) ->
  tget k (dict_of [] (s_results st)) = Some (Label v).
Proof.
  intros H C E F U. change (before ++ line :: after) with (before ++ [line] ++ after) in H. rewrite app_assoc, read_lines_app in H.
  destruct (read_lines (mkState [] [] found) (before ++ [line])) as [st1|] eqn:B; [|discriminate]. cbn [bind] in H.
  apply (lines_keep (fun s => tget k (dict_of [] (s_results s)) = Some (Label v)) (before ++ [line]) after found st1 st B H).
  - intros a l b s s' Ea _ L <-. apply read_line_step in L. destruct L as [_ [->|(r' & k' & e & -> & S)]]; [reflexivity|].
    rewrite get_put. destruct (text_eqb_spec [] r'); cbn [andb]; [|reflexivity]. destruct (text_eqb_spec k k') as [->|]; [|reflexivity].
    exfalso. apply (U l); [rewrite Ea; apply in_or_app; right; now left|]. now apply stored_begins in S.
  - apply read_lines_snoc in B. destruct B as (s & _ & L).
    unfold read_line in L. destruct (enter s (PyText.split 44 line)) as [s1|] eqn:En; [|discriminate]. cbn [bind] in L.
    rewrite E in L. cbn [read_cells] in L. rewrite F in L. change (counter_value []) with (@None Z) in L. cbv beta iota in L. injection L as <-.
    unfold remaining. rewrite (proj2 (colon_end k) C). cbn [andb with_results s_results]. rewrite get_put, !text_eqb_refl. reflexivity.
Qed.
(** ** Reading succeeds *)
Lemma read_succeeds found output : (forall l, In l (PyText.split 10 output) -> PyText.split 44 l <> [codes "TABLE"]) -> no_mixture output ->
  exists st, read_lines (mkState [] [] found) (PyText.split 10 output) = Ok st.
Proof.
  intros T M. assert (K : forall ls rest, PyText.split 10 output = ls ++ rest -> exists st, read_lines (mkState [] [] found) ls = Ok st).
  { induction ls as [|l ls IH] using rev_ind; intros rest E; [now eexists|]. rewrite <- app_assoc in E. cbn [app] in E.
    destruct (IH _ E) as [st H]. rewrite read_lines_app, H. cbn [bind read_lines].
    assert (L : exists st', read_line st l = Ok st'); [|destruct L as [st' ->]; cbn; eauto].
    assert (N : exists s1, enter st (PyText.split 44 l) = Ok s1).
    { unfold enter. destruct (PyText.split 44 l) as [|k [|v cells]] eqn:Sp; [eauto| |].
      - destruct (text_eqb_spec k (codes "TABLE")) as [->|]; [|eauto]. destruct (T l); [rewrite E; apply in_or_app; right; now left|exact Sp].
      - destruct (text_eqb k (codes "TABLE")); [|eauto]. destruct (starts_with (codes "Region ") v); eauto. }
    destruct N as [s1 En]. unfold read_line. rewrite En. cbn [bind].
    assert (A : region_after (ls ++ [l]) (s_current s1)).
    { pose proof (current_correct _ _ _ H) as A0. apply enter_step in En. destruct En as [[(r & h & -> & _)|(n & -> & _)] _].
      - now apply after_header.
      - now apply after_other. }
    apply enter_step in En. destruct En as [_ R]. unfold read_cells. destruct (PyText.split 44 l) as [|k [|v cells]] eqn:Sp; [eauto|eauto|].
    destruct (py_float v) as [x|] eqn:F; [eauto|]. destruct cells as [|c cells]; [eauto|]. destruct (counter_value c) as [n|] eqn:Cv; [|eauto].
    destruct (is_event_name k && is_plain_register v) eqn:Nm; [|eauto]. apply andb_prop in Nm. destruct Nm as [Ev Pl].
    apply is_event_name_spec in Ev. apply plain_spec in Pl.
    destruct (tget k (dict_of (s_current s1) (s_results s1))) as [e|] eqn:G; [|eauto]. rewrite R in G.
    pose proof (read_justified _ _ _ H _ _ _ G) as J. destruct e as [x|s|d|]; cbn [justified] in J; [|exfalso|eauto|exfalso].
    - exfalso. destruct J as (a & l' & b & E' & A' & N'). apply (M (s_current s1) k v n x l l').
      + now exists ls, rest.
      + exists a, (b ++ l :: rest). split; [rewrite E, E', <- app_assoc; reflexivity|exact A'].
      + split; [exact Ev|]. split; [exact Pl|]. split; [exact F|]. exists c. split; [exists cells; exact Sp|now apply counter_value_spec].
      + exact N'.
    - destruct J as [(_ & J & _)|(_ & J & _)]; [now apply (event_not_call k)|now apply (event_not_colon k)].
    - destruct J as [_ J]. now apply (event_not_call k). }
  apply (K _ []). now rewrite app_nil_r.
Qed.
(** ** One run *)
Lemma perfctr_ok clock ign found output rs f : perfctr clock ign found output = Ok (rs, f) ->
  exists st, read_lines (mkState [] [] found) (PyText.split 10 output) = Ok st /\ rs = s_results st /\ check_clock clock ign rs = Ok tt
    /\ f = match s_found st with [] => [[]] | l => l end.
Proof.
  unfold perfctr. destruct (read_lines _ _) as [st|]; [|discriminate]. cbn [bind]. destruct (check_clock clock ign (s_results st)) as [[]|] eqn:C; [|discriminate].
  cbn [bind]. intros [= <- <-]. exists st. auto.
Qed.
Definition tidy (rs : results) : Prop := NoDup (map fst rs) /\ forall r d, tget r rs = Some d -> d <> [] /\ NoDup (map fst d).
Lemma dict_nodup rs r : tidy rs -> NoDup (map fst (dict_of r rs)).
Proof. intros [_ H]. unfold dict_of. destruct (tget r rs) as [d|] eqn:E; [now apply (H r)|constructor]. Qed.
Lemma put_tidy rs r k e : tidy rs -> tidy (put r k e rs).
Proof.
  intros T. pose proof (dict_nodup rs r T) as D. destruct T as [N H]. split; [now apply tset_nodup|]. intros r' d. unfold put. rewrite tget_tset.
  destruct (text_eqb r' r); [|apply H]. intros [= <-]. split; [apply tset_not_nil|now apply tset_nodup].
Qed.
Lemma read_tidy found ls : forall st, read_lines (mkState [] [] found) ls = Ok st -> tidy (s_results st).
Proof.
  induction ls as [|l ls IH] using rev_ind; intros st H; [injection H as <-; split; [constructor|discriminate]|].
  apply read_lines_snoc in H. destruct H as (s & H & L). apply read_line_step in L. destruct L as [_ [->|(r & k & e & -> & _)]]; [now apply IH|].
  now apply put_tidy, IH.
Qed.
Lemma set_add_in r x l : In x (set_add r l) <-> x = r \/ In x l.
Proof.
  unfold set_add. destruct (existsb (text_eqb r) l) eqn:E.
  - apply existsb_exists in E. destruct E as (y & I & E). destruct (text_eqb_spec r y) as [<-|]; [|discriminate]. split; [auto|intros [->|H]; auto].
  - rewrite in_app_iff. cbn. intuition.
Qed.
Lemma found_correct found ls : forall st, read_lines (mkState [] [] found) ls = Ok st ->
  forall r, In r (s_found st) <-> In r found \/ exists l, In l ls /\ header r l.
Proof.
  induction ls as [|l ls IH] using rev_ind; intros st H r; [injection H as <-; cbn; split; [auto|intros [?|(? & [] & _)]; auto]|].
  apply read_lines_snoc in H. destruct H as (s & H & L). apply read_line_step in L. destruct L as [[(r' & h & _ & ->)|(n & _ & ->)] _].
  - rewrite set_add_in, (IH s H r). split.
    + intros [->|[I|(x & I & X)]]; [right; exists l; split; [apply in_or_app; right; now left|exact h]|now left|right; exists x; split; [apply in_or_app; now left|exact X]].
    + intros [I|(x & I & X)]; [auto|]. apply in_app_or in I. destruct I as [I|[<-|[]]]; [right; right; eauto|left; now apply (header_unique _ _ l)].
  - rewrite (IH s H r). split.
    + intros [I|(x & I & X)]; [now left|right; exists x; split; [apply in_or_app; now left|exact X]].
    + intros [I|(x & I & X)]; [now left|]. apply in_app_or in I. destruct I as [I|[<-|[]]]; [right; eauto|now destruct (n r)].
Qed.
Lemma clock_there clock ign rs : check_clock clock ign rs = Ok tt -> exists e, reported rs [] (codes "CPU clock:") e.
Proof.
  unfold check_clock. destruct (tget (codes "CPU clock:") (dict_of [] rs)) as [e|] eqn:E; [|discriminate]. intros _. exists e. now apply reported_get.
Qed.
Lemma clock_value clock ign rs t q : reported rs [] (codes "CPU clock:") (Label (t ++ codes " GHz")) -> ~ In 32 t -> py_float t = Some (Fin q) ->
  check_clock clock ign rs = if Qle_bool (Qabs (q * inject_Z 1000000000 - clock)) (clock * (1 # 100)) || ign then Ok tt else Err SystemExit.
Proof.
  intros G N F. apply reported_get in G. unfold check_clock. rewrite G, unit_removed, F by assumption. cbn [nmul nsub nadd nopp nabs].
  unfold ngtb, nltb, Qltb, Qminus. destruct (Qle_bool (Qabs (q * inject_Z 1000000000 + - clock)) (clock * (1 # 100))), ign; reflexivity.
Qed.
(** ** C97 *)
Lemma key_reported rs r : tidy rs -> In r (map fst rs) <-> exists k e, reported rs r k e.
Proof.
  intros [_ T]. split.
  - intro I. apply tget_some in I. destruct I as [d D]. destruct (T r d D) as [N _]. destruct d as [|[k e] d]; [easy|]. exists k, e, ((k, e) :: d).
    split; [exact D|]. cbn [tget]. now rewrite text_eqb_refl.
  - intros (k & e & d & D & _). apply tget_in in D. apply (in_map fst) in D. exact D.
Qed.
Lemma all_regions clock ign found output rs f : perfctr clock ign found output = Ok (rs, f) ->
  exists l, choose_regions [] rs = Ok l /\ NoDup l
    /\ forall r, In r l <-> (exists k e, reported rs r k e) /\ (r = [] -> forall r' k e, reported rs r' k e -> r' = []).
Proof.
  intro H. apply perfctr_ok in H. destruct H as (st & H & -> & C & _). apply read_tidy in H. set (rs := s_results st) in *.
  unfold choose_regions. eexists. split; [reflexivity|]. pose proof (proj1 H) as N. destruct (Nat.ltb_spec 1 (List.length (map fst rs))) as [L|L].
  - split; [now apply NoDup_filter|]. intro r. rewrite filter_In, (key_reported rs r H). split.
    + intros [I E]. split; [exact I|]. intros ->. discriminate.
    + intros [I E]. split; [exact I|]. destruct (text_eqb_spec r []) as [->|]; [exfalso|reflexivity].
      assert (A : forall x, In x (map fst rs) -> x = []) by (intros x (k & e & X)%(key_reported rs x H); now apply (E eq_refl x k e)).
      destruct (map fst rs) as [|a [|b m]]; cbn in L; [lia|lia|]. inversion_clear N as [|? ? M _]. apply M.
      rewrite (A a) by now left. rewrite (A b) by (right; now left). now left.
  - split; [exact N|]. intro r. rewrite (key_reported rs r H). split; [|intuition]. intro I. split; [exact I|]. intros ->.
    intros r' k e X. assert (I' : In r' (map fst rs)) by (apply (key_reported rs r' H); eauto).
    assert (I0 : In [] (map fst rs)) by (apply (key_reported rs [] H); exact I).
    destruct (map fst rs) as [|a [|b m]]; [easy| |cbn in L; lia]. destruct I' as [<-|[]], I0 as [->|[]]. reflexivity.
Qed.
Lemma given_regions regions rs : regions <> [] ->
  choose_regions regions rs = Ok regions /\ (forall r, In r regions -> In r (map fst rs))
  \/ choose_regions regions rs = Err SystemExit /\ exists r, In r regions /\ ~ In r (map fst rs).
Proof.
  intro N. assert (X : forall r, existsb (text_eqb r) (map fst rs) = true <-> In r (map fst rs)).
  { intro r. rewrite existsb_exists. split; [intros (y & I & E); destruct (text_eqb_spec r y) as [->|]; [exact I|discriminate]|].
    intro I. exists r. split; [exact I|apply text_eqb_refl]. }
  unfold choose_regions. destruct regions as [|a regions]; [easy|]. destruct (forallb _ (a :: regions)) eqn:E.
  - left. split; [reflexivity|]. rewrite forallb_forall in E. intros r I. now apply X, E.
  - right. split; [reflexivity|]. clear N. induction (a :: regions) as [|x l IH]; [discriminate|]. cbn [forallb] in E.
    destruct (existsb (text_eqb x) (map fst rs)) eqn:Y.
    + destruct (IH E) as (r & I & M). exists r. split; [now right|exact M].
    + exists x. split; [now left|]. intro I. apply X in I. congruence.
Qed.
(** ** C98 *)
Lemma merged_from e v l : (forall d, In d l -> NoDup (map fst d)) -> forall d : tdict entry, tget e (fold_left tupdate l d) = Some v ->
  tget e d = Some v \/ exists x, In x l /\ tget e x = Some v.
Proof.
  induction l as [|x l IH]; intros N d H; [now left|]. cbn [fold_left] in H. apply IH in H; [|intros; apply N; now right].
  destruct H as [H|(y & I & H)]; [|right; exists y; split; [now right|exact H]].
  rewrite tget_tupdate in H by (apply N; now left). destruct (tget e x) as [w|] eqn:X; [|now left]. right. exists x. split; [now left|congruence].
Qed.
Lemma merged_has e v l : (forall d, In d l -> NoDup (map fst d)) -> forall d : tdict entry,
  (forall x w, In x l -> tget e x = Some w -> w = v) -> (exists x, In x l /\ tget e x = Some v) \/ tget e d = Some v ->
  tget e (fold_left tupdate l d) = Some v.
Proof.
  induction l as [|x l IH]; intros N d U H; [destruct H as [(x & [] & _)|H]; exact H|]. cbn [fold_left].
  apply IH; [intros; apply N; now right|intros y w I; apply U; now right|].
  rewrite tget_tupdate by (apply N; now left). destruct H as [(y & [<-|I] & H)|H].
  - right. now rewrite H.
  - left. eauto.
  - right. destruct (tget e x) as [w|] eqn:X; [|exact H]. now rewrite (U x w (or_introl eq_refl) X).
Qed.
Lemma match_from m e regs n : forall found, last_match m e regs found = Ok (Some n) ->
  found = Some n \/ exists r d, In (Some r) regs /\ tget e m = Some (Counts d) /\ tget r d = Some n.
Proof.
  induction regs as [|r regs IH]; cbn [last_match]; intros found H; [left; congruence|].
  destruct (measured_value m e r) as [v|] eqn:M; [|discriminate]. cbn [bind] in H. apply IH in H. destruct H as [H|(x & d & I & H)].
  - destruct v as [z|]; [|now left]. right. unfold measured_value in M. destruct (tget e m) as [[| |d|]|]; try discriminate.
    destruct r as [r|]; [|discriminate]. exists r, d. split; [now left|]. split; [reflexivity|congruence].
  - right. exists x, d. split; [now right|exact H].
Qed.
Lemma match_only m e d regs r n : tget e m = Some (Counts d) -> tget r d = Some n -> (forall x z, In (Some x) regs -> tget x d = Some z -> x = r) ->
  forall found, In (Some r) regs \/ found = Some n -> (found = None \/ found = Some n) -> last_match m e regs found = Ok (Some n).
Proof.
  intros E R. induction regs as [|x regs IH]; intros U found H F; [destruct H as [[]|H]; cbn; congruence|]. cbn [last_match]. unfold measured_value.
  rewrite E. cbn [bind]. destruct x as [x|].
  - destruct (tget x d) as [z|] eqn:X.
    + pose proof (U x z (or_introl eq_refl) X) as ->. assert (z = n) by congruence. subst z. apply IH; [intros y w I; apply U; now right|now right|now right].
    + apply IH; [intros y w I; apply U; now right| |exact F]. destruct H as [[H|H]|H]; [|now left|now right]. injection H as ->. congruence.
  - apply IH; [intros y w I; apply U; now right| |exact F]. destruct H as [[H|H]|H]; [discriminate|now left|now right].
Qed.
(** ** C101 *)
Lemma region_unchanged r t vars : forall vars', adjust_region r t vars = Ok (vars', false) -> vars' = vars.
Proof.
  induction vars as [|v vars IH]; cbn [adjust_region]; intros vars' H; [congruence|].
  assert (K : (do (l, b) <- adjust_region r t vars; Ok (v :: l, b)) = Ok (vars', false) -> vars' = v :: vars).
  { destruct (adjust_region r t vars) as [[l b]|] eqn:E; cbn [bind]; [|discriminate]. intros [= <- ->]. now rewrite (IH l eq_refl). }
  destruct (v_adjustable v && existsb (text_eqb r) (v_regions v)); [|now apply K]. destruct (Qeq_bool t 0); [discriminate|].
  destruct (adjusted t v); [discriminate|now apply K].
Qed.
Lemma variables_unchanged rts : forall vars vars', adjust_variables rts vars = Ok (vars', false) -> vars' = vars.
Proof.
  induction rts as [|[r t] rts IH]; cbn [adjust_variables]; intros vars vars' H; [congruence|]. destruct (Qltb t (3 # 2)); [|now apply IH].
  destruct (adjust_region r t vars) as [[v1 b1]|] eqn:E; [|discriminate]. cbn [bind] in H.
  destruct (adjust_variables rts v1) as [[v2 b2]|] eqn:E2; [|discriminate]. cbn [bind] in H. injection H as <- B.
  apply orb_false_elim in B. destruct B as [-> ->]. apply IH in E2. subst v2. now apply (region_unchanged r t).
Qed.
Lemma session_last run fuel : forall i rts vars done vars' rts' done', session run fuel i rts vars done = Ok (vars', rts', done') ->
  (done = [] /\ i = O /\ rts = [([], 0%Q)] \/ done <> [] /\ List.length done = i /\ last done [] = map v_value vars /\ rts = run (last done []) (i - 1)%nat) ->
  done' <> [] /\ last done' [] = map v_value vars' /\ rts' = run (last done' []) (List.length done' - 1)%nat
  /\ hd [] done' = match done with [] => map v_value vars | a :: _ => a end.
Proof.
  induction fuel as [|fuel IH]; intros i rts vars done vars' rts' done' H I; cbn [session] in H;
    destruct (min_runtime rts) as [m|] eqn:M; try discriminate H; cbn [bind] in H; destruct (Qle_bool (3 # 2) m) eqn:Q.
  - injection H as <- <- <-. destruct I as [(-> & -> & ->)|(N & L & A & B)]; [injection M as <-; discriminate|]. subst i.
    do 3 (split; [assumption|]). now destruct done.
  - discriminate.
  - injection H as <- <- <-. destruct I as [(-> & -> & ->)|(N & L & A & B)]; [injection M as <-; discriminate|]. subst i.
    do 3 (split; [assumption|]). now destruct done.
  - destruct (if Qeq_bool m 0 then Ok (vars, true) else adjust_variables rts vars) as [[v1 []]|] eqn:E; cbn [bind] in H; [| |discriminate].
    + apply IH in H.
      * destruct H as (H1 & H2 & H3 & H4). do 3 (split; [assumption|]). rewrite H4. destruct I as [(-> & -> & ->)|(N & _)]; [|now destruct done].
        injection M as <-. change (Qeq_bool 0 0) with true in E. cbv iota in E. injection E as <-. reflexivity.
      * right. split; [now destruct done|]. rewrite app_length, last_last. split; [|split; [reflexivity|]].
        -- destruct I as [(-> & -> & _)|(_ & L & _)]; cbn; lia.
        -- f_equal. lia.
    + injection H as <- <- <-. destruct I as [(-> & -> & ->)|(N & L & A & B)].
      * injection M as <-. discriminate E.
      * destruct (Qeq_bool m 0); [discriminate|]. apply variables_unchanged in E. subst v1 i. do 3 (split; [assumption|]). now destruct done.
Qed.
(** ** C99 *)
Local Open Scope Q_scope.
Lemma metric_absent levels cache name : ~ In cache (map l_name levels) -> metric levels cache name = None.
Proof.
  induction levels as [|l levels IH]; intro N; [reflexivity|]. cbn [metric]. rewrite IH by (intro I; apply N; now right).
  destruct (text_eqb_spec cache (l_name l)) as [->|]; [|reflexivity]. destruct N. now left.
Qed.
Lemma metric_value levels cache name q : distinct_levels levels -> value_at levels cache name q -> get levels cache name = Ok q.
Proof.
  intros D (l & d & I & C & M & T). unfold get. assert (E : metric levels (codes cache) (codes name) = Some q); [|now rewrite E].
  revert D I. induction levels as [|x levels IH]; intros D I; [easy|]. inversion_clear D as [|? ? N D']. cbn [metric]. destruct I as [->|I].
  - rewrite metric_absent by (rewrite <- C; exact N). rewrite <- C, text_eqb_refl, M. exact T.
  - now rewrite (IH D' I).
Qed.
Lemma get_absent levels cache name : (forall q, ~ value_at levels cache name q) -> get levels cache name = Err KeyError.
Proof.
  intro N. unfold get. destruct (metric levels (codes cache) (codes name)) as [q|] eqn:E; [|reflexivity]. destruct (N q). clear N.
  induction levels as [|l levels IH]; [discriminate|]. cbn [metric] in E. destruct (metric levels (codes cache) (codes name)) as [z|].
  - destruct (IH E) as (x & d & I & H). exists x, d. split; [now right|exact H].
  - destruct (text_eqb_spec (codes cache) (l_name l)) as [C|]; [|discriminate]. destruct (l_metrics l) as [d|] eqn:M; [|discriminate].
    exists l, d. split; [now left|]. auto.
Qed.
Lemma get_error levels cache name e : get levels cache name = Err e -> e = KeyError.
Proof. unfold get. destruct (metric _ _ _); [discriminate|congruence]. Qed.
Lemma rate_value levels i l q : nth_error levels i = Some l -> l_throughput l = Rate q -> ~ q == 0 -> throughput_of levels i = Ok q.
Proof. intros N T Z. unfold throughput_of. rewrite N, T. destruct (Qeq_bool q 0) eqn:E; [now apply Qeq_bool_iff in E|reflexivity]. Qed.
Lemma metrics_all levels : (forall l, In l levels -> l_metrics l <> None) -> forallb has_metrics levels = true.
Proof. intro H. apply forallb_forall. intros l I. unfold has_metrics. specialize (H l I). now destruct (l_metrics l). Qed.
Lemma zero_test q : ~ q == 0 -> Qeq_bool q 0 = false.
Proof. intro H. destruct (Qeq_bool q 0) eqn:E; [now apply Qeq_bool_iff in E|reflexivity]. Qed.
