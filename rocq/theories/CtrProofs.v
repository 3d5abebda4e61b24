(** Proofs for C28-C32. *)
From Coq Require Import Permutation.
From Verif Require Import CtrModel CtrSpec.
Local Open Scope N_scope.
Local Open Scope list_scope.

(** ** Character classes *)
Lemma is_digit_spec c : is_digit c = true <-> digit c.
Proof. unfold is_digit, digit. rewrite andb_true_iff, !N.leb_le. tauto. Qed.
Lemma is_upper_spec c : is_upper c = true <-> upper c.
Proof. unfold is_upper, upper. rewrite andb_true_iff, !N.leb_le. tauto. Qed.
Lemma is_lower_spec c : is_lower c = true <-> lower c.
Proof. unfold is_lower, lower. rewrite andb_true_iff, !N.leb_le. tauto. Qed.
Lemma alnum_spec c : alnum c = true <-> letter_or_digit c.
Proof. unfold alnum, letter_or_digit. rewrite !orb_true_iff, is_digit_spec, is_upper_spec, is_lower_spec. tauto. Qed.
Lemma word_char_spec c : word_char c = true <-> identifier_char c.
Proof. unfold word_char, identifier_char. rewrite orb_true_iff, alnum_spec, N.eqb_eq. unfold letter_or_digit. tauto. Qed.

(** ** C28 *)
Lemma underscore_word : word_char 95 = true. Proof. reflexivity. Qed.
Lemma sanitize_length s : length (sanitize_symbolname s) = length s.
Proof. destruct s; cbn; [reflexivity|]. now rewrite map_length. Qed.
Lemma sanitize_identifier s : identifier (sanitize_symbolname s).
Proof.
  destruct s as [|c s]; cbn; [split; [constructor|discriminate]|]. split.
  - constructor.
    + apply word_char_spec. destruct (is_digit c || negb (word_char c)) eqn:E; [reflexivity|].
      apply orb_false_iff in E as [_ E]. now apply negb_false_iff in E.
    + apply Forall_forall. intros x Hx. apply in_map_iff in Hx as (y & <- & _). apply word_char_spec.
      destruct (word_char y) eqn:E; [exact E|reflexivity].
  - intros x [= <-]. destruct (is_digit c) eqn:E; cbn.
    + unfold digit. lia.
    + destruct (word_char c); cbn; [|unfold digit; lia]. rewrite <- is_digit_spec. congruence.
Qed.
Lemma sanitize_fixed s : identifier s -> sanitize_symbolname s = s.
Proof.
  intros [H1 H2]. destruct s as [|c s]; [reflexivity|]. cbn. inversion H1 as [|? ? Hc Hs]; subst. f_equal.
  - apply word_char_spec in Hc. rewrite Hc. cbn. destruct (is_digit c) eqn:E; [|reflexivity].
    apply is_digit_spec in E. now destruct (H2 c eq_refl).
  - rewrite <- (map_id s) at 2. apply map_ext_in. intros x Hx. rewrite Forall_forall in Hs.
    now rewrite (proj2 (word_char_spec x) (Hs x Hx)).
Qed.
Lemma sanitize_idempotent s : sanitize_symbolname (sanitize_symbolname s) = sanitize_symbolname s.
Proof. apply sanitize_fixed, sanitize_identifier. Qed.
Lemma sanitize_chars s i c : nth_error s i = Some c ->
  nth_error (sanitize_symbolname s) i = Some c
  \/ nth_error (sanitize_symbolname s) i = Some 95 /\ (~ identifier_char c \/ i = O /\ digit c).
Proof.
  destruct s as [|x s]; [now destruct i|]. destruct i as [|i]; cbn.
  - intros [= ->]. destruct (is_digit c) eqn:E; cbn; [right; split; [reflexivity|right; split; [reflexivity|now apply is_digit_spec]]|].
    destruct (word_char c) eqn:W; cbn; [now left|right]. split; [reflexivity|left]. rewrite <- word_char_spec. congruence.
  - intros H. rewrite (map_nth_error _ _ _ H). destruct (word_char c) eqn:W; cbn; [now left|right].
    split; [reflexivity|left]. rewrite <- word_char_spec. congruence.
Qed.

(** ** C29 *)
Lemma parse_print s e : parse_perfctr_event s = Ok e ->
  let '(ev, r, ps) := e in eventstr (Triple ev r (Some ps)) None = Ok s.
Proof.
  unfold parse_perfctr_event. destruct (split 58 s) as [|ev [|r ps]] eqn:E; try discriminate. intros [= <-].
  unfold eventstr. cbn [bind app]. f_equal. rewrite <- E. apply join_split.
Qed.
Lemma print_parse ev r ps kw s : ~ In 58 ev -> ~ In 58 r -> (forall p, In p ps -> ~ In 58 p) ->
  eventstr (Triple ev r (Some ps)) kw = Ok s -> parse_perfctr_event s = Ok (ev, r, ps).
Proof.
  intros H1 H2 H3 H. assert (s = join 58 (ev :: r :: ps)) as -> by (injection H; intros <-; reflexivity).
  unfold parse_perfctr_event.
  rewrite split_join; [reflexivity|discriminate|]. intros p [<-|[<-|Hp]]; auto.
Qed.
Lemma parse_defined s : (exists e, parse_perfctr_event s = Ok e) <-> In 58 s.
Proof.
  unfold parse_perfctr_event. split.
  - intros [e H]. destruct (in_dec N.eq_dec 58 s) as [|N]; [assumption|]. now rewrite split_single in H by assumption.
  - intros H. apply in_split in H as (a & b & ->). destruct (split 58 (a ++ 58 :: b)) as [|p [|q ps]] eqn:E; [| |eauto].
    + now apply split_not_nil in E.
    + exfalso. pose proof (join_split 58 (a ++ 58 :: b)) as J. rewrite E in J. cbn in J.
      apply (split_free 58 (a ++ 58 :: b) p); [rewrite E; now left|]. rewrite J. apply in_or_app. right. now left.
Qed.
Lemma parse_parts s ev r ps : parse_perfctr_event s = Ok (ev, r, ps) ->
  ~ In 58 ev /\ ~ In 58 r /\ forall p, In p ps -> ~ In 58 p.
Proof.
  unfold parse_perfctr_event. destruct (split 58 s) as [|e [|r' ps']] eqn:E; try discriminate.
  intros H. assert (e = ev /\ r' = r /\ ps' = ps) as (-> & -> & ->) by (repeat split; congruence).
  assert (F : forall p, In p (ev :: r :: ps) -> ~ In 58 p) by (rewrite <- E; apply split_free).
  split; [apply F; now left|]. split; [apply F; right; now left|]. intros p Hp. apply F. right. now right.
Qed.
Lemma no_parameters e r kw : eventstr (Triple e r None) kw = eventstr (Triple e r (Some [])) kw /\ eventstr (Pair e r) None = eventstr (Triple e r None) kw.
Proof. split; reflexivity. Qed.

(** ** C30 *)
Definition small_check (c : N) : bool :=
  negb (alnum c) || ((index_of c ordered_chars =? N.to_nat (rank c))%nat && (rank c <? 62)).
Lemma small_checked : forallb small_check (map N.of_nat (seq 0 128)) = true.
Proof. vm_compute. reflexivity. Qed.
Lemma index_rank c : letter_or_digit c -> index_of c ordered_chars = N.to_nat (rank c) /\ rank c < 62.
Proof.
  intros H. pose proof small_checked as K. rewrite forallb_forall in K.
  assert (I : In c (map N.of_nat (seq 0 128))).
  { apply in_map_iff. exists (N.to_nat c). rewrite N2Nat.id. split; [reflexivity|]. apply in_seq.
    unfold letter_or_digit, lower, upper, digit in H. lia. }
  apply K in I. unfold small_check in I. rewrite (proj2 (alnum_spec c) H) in I. cbn in I.
  apply andb_true_iff in I as [I1 I2]. apply Nat.eqb_eq in I1. now apply N.ltb_lt in I2.
Qed.
Definition nth_check (i : nat) : bool := let c := nth i ordered_chars 0 in alnum c && (N.to_nat (rank c) =? i)%nat.
Lemma nth_checked : forallb nth_check (seq 0 62) = true.
Proof. vm_compute. reflexivity. Qed.
Lemma nth_rank i : (i < 62)%nat -> letter_or_digit (nth i ordered_chars 0) /\ N.to_nat (rank (nth i ordered_chars 0)) = i.
Proof.
  intros H. pose proof nth_checked as K. rewrite forallb_forall in K.
  assert (I : nth_check i = true) by (apply K, in_seq; lia).
  unfold nth_check in I. apply andb_true_iff in I as [I1 I2]. apply alnum_spec in I1. now apply Nat.eqb_eq in I2.
Qed.
Lemma rank_inj c d : letter_or_digit c -> letter_or_digit d -> rank c = rank d -> c = d.
Proof.
  unfold letter_or_digit, lower, upper, digit, rank. intros H1 H2.
  destruct (N.leb_spec 97 c), (N.leb_spec 97 d), (N.leb_spec 65 c), (N.leb_spec 65 d); lia.
Qed.
Lemma char_range_in a b c : letter_or_digit a -> letter_or_digit b ->
  In c (char_range a b) <-> letter_or_digit c /\ rank a <= rank c <= rank b.
Proof.
  intros Ha Hb. unfold char_range. destruct (index_rank a Ha) as [-> La]. destruct (index_rank b Hb) as [-> Lb].
  rewrite in_map_iff. split.
  - intros (i & <- & Hi). apply in_seq in Hi. destruct (nth_rank i) as [H1 H2]; [lia|]. split; [assumption|]. lia.
  - intros [Hc Hr]. destruct (index_rank c Hc) as [_ Lc]. exists (N.to_nat (rank c)).
    destruct (nth_rank (N.to_nat (rank c))) as [H1 H2]; [lia|]. split.
    + apply rank_inj; [assumption..|]. lia.
    + apply in_seq. lia.
Qed.

Definition member_chars (m : member) : list N := match m with One c => [c] | Range a b => char_range a b end.
Definition item_chars (i : item) : list N := match i with Lit c => [c] | Grp ms => flat_map member_chars ms end.
Lemma letter_not_dash c : letter_or_digit c -> c <> 45.
Proof. unfold letter_or_digit, lower, upper, digit. lia. Qed.
Lemma members_no_dash ms c t : Forall good_member ms -> flat_map member_text ms = c :: t -> c <> 45.
Proof.
  destruct ms as [|[d|a b] ms]; cbn; intros H; inversion H as [|? ? Hm _]; subst; try discriminate.
  - intros [= <- _] ->. apply Hm. cbn. tauto.
  - intros [= <- _]. apply letter_not_dash, Hm.
Qed.
Lemma group_members ms : Forall good_member ms -> group_iterator (flat_map member_text ms) = flat_map member_chars ms.
Proof.
  induction ms as [|m ms IH]; [reflexivity|]. intros H. inversion H as [|? ? Hm Hms]; subst.
  destruct m as [c|a b].
  - cbn [flat_map member_text member_chars app]. rewrite <- IH by assumption.
    pose proof (members_no_dash ms) as D. destruct (flat_map member_text ms) as [|d t] eqn:E.
    + cbn. destruct (N.eqb_spec c 10) as [->|]; [|reflexivity]. exfalso. apply Hm. cbn. tauto.
    + specialize (D d t Hms eq_refl).
      assert (Ec : (c =? 10) = false). { apply N.eqb_neq. intros ->. apply Hm. cbn. tauto. }
      assert (Ed : (d =? 45) = false) by now apply N.eqb_neq.
      cbn [group_iterator]. destruct t as [|b r]; rewrite ?Ec, ?Ed, ?andb_false_r; cbn; reflexivity.
  - destruct Hm as [Ha Hb]. cbn [flat_map member_text member_chars app].
    cbn [group_iterator]. rewrite (proj2 (alnum_spec a) Ha), (proj2 (alnum_spec b) Hb). cbn [N.eqb Pos.eqb andb].
    now rewrite IH.
Qed.
Lemma item_chars_in i c : good_item i -> In c (item_chars i) <-> in_item c i.
Proof.
  destruct i as [d|ms]; cbn; [intros _; split; [intros [|[]]; congruence|auto]|]. intros [_ H]. rewrite in_flat_map.
  rewrite Forall_forall in H.
  assert (K : forall m, In m ms -> In c (member_chars m) <-> in_member c m).
  { intros m Hm. specialize (H m Hm). destruct m as [d|a b]; cbn in *; [|now apply char_range_in].
    split; [intros [E|[]]; congruence|intros ->; now left]. }
  split; intros (m & Hm & Hc); exists m; (split; [assumption|]); now apply K.
Qed.
Lemma until_members ms t : Forall good_member ms -> until_bracket (flat_map member_text ms ++ 93 :: t) = Some (flat_map member_text ms, t).
Proof.
  assert (K : forall l, ~ In 93 l -> until_bracket (l ++ 93 :: t) = Some (l, t)).
  { induction l as [|x l IH]; cbn; intros N; [reflexivity|]. destruct (N.eqb_spec x 93) as [->|]; [now exfalso; apply N; left|].
    now rewrite IH by tauto. }
  intros H. apply K. intros I. apply in_flat_map in I as (m & Hm & Hi). rewrite Forall_forall in H. specialize (H m Hm).
  destruct m as [c|a b]; cbn in H, Hi.
  - destruct Hi as [->|[]]. tauto.
  - destruct H as [Ha Hb]. unfold letter_or_digit, lower, upper, digit in *. lia.
Qed.
Lemma match_item i t : good_item i -> match_token (item_text i ++ t) = Some (item_chars i, t).
Proof.
  destruct i as [c|ms]; cbn [item_text item_chars good_item].
  - intros H. cbn [app match_token]. destruct (N.eqb_spec c 91) as [->|]; [exfalso; apply H; cbn; tauto|].
    destruct (N.eqb_spec c 10) as [->|]; [exfalso; apply H; cbn; tauto|]. reflexivity.
  - intros [H0 H]. cbn [app match_token N.eqb Pos.eqb]. rewrite <- app_assoc. cbn [app]. rewrite until_members by assumption.
    rewrite <- group_members by assumption. destruct (flat_map member_text ms) as [|x l] eqn:E; [|reflexivity].
    destruct ms as [|[c|a b] ms]; [congruence|discriminate|discriminate].
Qed.
Lemma item_text_good i : good_item i -> ~ In 124 (item_text i) /\ (0 < length (item_text i))%nat.
Proof.
  destruct i as [c|ms]; cbn.
  - intros H. split; [|lia]. intros [->|[]]. tauto.
  - intros [_ H]. split; [|lia]. intros [E|I]; [discriminate|]. apply in_app_or in I as [I|[E|[]]]; [|discriminate].
    apply in_flat_map in I as (m & Hm & Hi). rewrite Forall_forall in H. specialize (H m Hm).
    destruct m as [c|a b]; cbn in H, Hi; [destruct Hi as [->|[]]; tauto|].
    destruct H as [Ha Hb]. unfold letter_or_digit, lower, upper, digit in *. lia.
Qed.

Definition alternative (fuel : nat) (u : text) : gen text :=
  match match_token u with
  | None => ([], Some AttributeError)
  | Some (current, []) => (map (fun c => [c]) current, None)
  | Some (current, rest) => gseq (map (fun c => gmap (cons c) (register_rec fuel rest)) current)
  end.
Lemma register_rec_S fuel d : register_rec (S fuel) d = gseq (map (alternative fuel) (split 124 d)).
Proof. reflexivity. Qed.
Fixpoint words (a : list item) : list text :=
  match a with [] => [[]] | i :: a' => flat_map (fun c => map (cons c) (words a')) (item_chars i) end.
Lemma words_in a w : Forall good_item a -> In w (words a) <-> Forall2 in_item w a.
Proof.
  revert w. induction a as [|i a IH]; cbn [words]; intros w H.
  - split; [intros [<-|[]]; constructor|]. intros F. inversion F. now left.
  - inversion H as [|? ? Hi Ha]; subst. rewrite in_flat_map. split.
    + intros (c & Hc & Hw). apply in_map_iff in Hw as (v & <- & Hv). constructor; [now apply item_chars_in|now apply IH].
    + intros F. inversion F as [|c ? v ? Hc Hv]; subst. exists c. split; [now apply item_chars_in|].
      apply in_map_iff. exists v. split; [reflexivity|now apply IH].
Qed.
Lemma gseq_ok {A} (l : list (list A)) : gseq (map (fun y => (y, None)) l) = (concat l, None).
Proof. induction l as [|y l IH]; [reflexivity|]. cbn. now rewrite IH. Qed.
Lemma alternative_words a fuel : a <> [] -> Forall good_item a -> (length (flat_map item_text a) <= fuel)%nat ->
  alternative fuel (flat_map item_text a) = (words a, None).
Proof.
  revert fuel. induction a as [|i a IH]; [congruence|]. intros fuel _ H L. inversion H as [|? ? Hi Ha]; subst.
  cbn [flat_map] in *. rewrite app_length in L. destruct (item_text_good i Hi) as [_ Li].
  unfold alternative. rewrite match_item by assumption. cbn [words].
  destruct (list_eq_dec N.eq_dec (flat_map item_text a) []) as [E|NE].
  - rewrite E. destruct a as [|j a].
    + reflexivity.
    + exfalso. inversion Ha as [|? ? Hj _]; subst. apply item_text_good in Hj as [_ Hj]. cbn in E.
      apply app_eq_nil in E as [E _]. rewrite E in Hj. cbn in Hj. lia.
  - assert (Na : a <> []) by (intros ->; now apply NE).
    destruct (flat_map item_text a) as [|x t] eqn:E; [congruence|]. rewrite <- E in *.
    destruct fuel as [|fuel]; [lia|].
    assert (R : register_rec (S fuel) (flat_map item_text a) = (words a, None)).
    { rewrite register_rec_S. rewrite split_single.
      - cbn [map gseq]. rewrite IH by (assumption || lia). now rewrite app_nil_r.
      - intros I. apply in_flat_map in I as (j & Hj & Hin). rewrite Forall_forall in Ha. apply Ha in Hj. now apply item_text_good in Hj as [Hj _]. }
    clear - R. destruct (flat_map item_text a) as [|x t]; [rewrite R|rewrite R]; cycle 1.
    + induction (item_chars i) as [|c l IHl]; [reflexivity|]. cbn. now rewrite IHl.
    + cbn in R. discriminate.
Qed.
Lemma register_exact d : good d -> exists ys, register_options (description_text d) = (map Some ys, None) /\ forall w, In w ys <-> describes d w.
Proof.
  intros [Nd H]. exists (concat (map words d)). split.
  - assert (Sp : split 124 (description_text d) = map (flat_map item_text) d).
    { apply split_join; [destruct d; [congruence|discriminate]|].
      intros p Hp. apply in_map_iff in Hp as (a & <- & Ha). rewrite Forall_forall in H. destruct (H a Ha) as [_ Ga].
      intros I. apply in_flat_map in I as (j & Hj & Hin). rewrite Forall_forall in Ga. apply Ga in Hj. now apply item_text_good in Hj as [Hj _]. }
    unfold register_options. rewrite register_rec_S, Sp.
    assert (E : map (alternative (length (description_text d))) (map (flat_map item_text) d) = map (fun y => (y, None)) (map words d)).
    { rewrite !map_map. apply map_ext_in. intros a Ha. rewrite Forall_forall in H. destruct (H a Ha) as [Na Ga].
      apply alternative_words; [assumption..|]. unfold description_text.
      clear - Ha. induction d as [|b d IH]; [destruct Ha|]. cbn [map]. destruct d as [|b' d].
      - destruct Ha as [->|[]]. cbn. lia.
      - cbn [map] in *. rewrite join_cons by discriminate. rewrite app_length. cbn [length]. destruct Ha as [->|Ha]; [lia|]. specialize (IH Ha). lia. }
    rewrite E, gseq_ok. unfold gmap. cbn [fst snd].
    assert (T : description_text d <> []).
    { destruct d as [|a d]; [congruence|]. inversion H as [|? ? [Na Ga] _]; subst. unfold description_text. cbn [map].
      assert (X : flat_map item_text a <> []).
      { destruct a as [|i a]; [congruence|]. inversion Ga as [|? ? Gi _]; subst. apply item_text_good in Gi as [_ L]. cbn.
        destruct (item_text i); [cbn in L; lia|discriminate]. }
      destruct (map _ d) as [|q qs]; [exact X|]. rewrite join_cons by discriminate. destruct (flat_map item_text a); [congruence|discriminate]. }
    destruct (description_text d); [congruence|reflexivity].
  - intros w. rewrite <- flat_map_concat_map, in_flat_map. unfold describes. rewrite Forall_forall in H.
    split; intros (a & Ha & Hw); exists a; (split; [assumption|]); now apply words_in; [apply (H a Ha)|].
Qed.

(** ** C31 *)
Lemma event_in_spec e l : event_in e l = true <-> In e l.
Proof.
  unfold event_in. rewrite existsb_exists. split.
  - intros (x & Hx & H). destruct (event_eq_dec e x) as [->|]; [assumption|discriminate].
  - intros H. exists e. split; [assumption|]. now destruct (event_eq_dec e e).
Qed.
Lemma reg_in_spec r l : reg_in r l = true <-> In r l.
Proof.
  unfold reg_in. rewrite existsb_exists. split.
  - intros (x & Hx & H). destruct (reg_dec r x) as [->|]; [assumption|discriminate].
  - intros H. exists r. split; [assumption|]. now destruct (reg_dec r r).
Qed.
Lemma first_occurrences_spec l : forall seen, NoDup (first_occurrences seen l)
  /\ forall e, In e (first_occurrences seen l) <-> In e l /\ ~ In e seen.
Proof.
  induction l as [|x l IH]; intros seen; cbn [first_occurrences]; [split; [constructor|cbn; tauto]|].
  destruct (event_in x seen) eqn:E.
  - apply event_in_spec in E. destruct (IH seen) as [H1 H2]. split; [assumption|]. intros e. rewrite H2. cbn.
    split; [tauto|]. intros [[->|H] N]; tauto.
  - assert (N : ~ In x seen) by (rewrite <- event_in_spec; congruence). destruct (IH (x :: seen)) as [H1 H2]. split.
    + constructor; [|assumption]. rewrite H2. cbn. tauto.
    + intros e. cbn. rewrite H2. cbn. split; [intros [->|H]; tauto|]. intros [[->|H] N']; [tauto|].
      destruct (event_eq_dec x e) as [->|D]; [now left|right]. tauto.
Qed.
Lemma first_occurrences_perm l : Permutation (first_occurrences [] l) (nodup event_eq_dec l).
Proof.
  destruct (first_occurrences_spec l []) as [H1 H2]. apply NoDup_Permutation; [assumption|apply NoDup_nodup|].
  intros e. rewrite H2, nodup_In. cbn. tauto.
Qed.
Lemma free_register_some ys e used r : free_register ys e used = Ok (Some r) -> In r ys /\ ~ In r used.
Proof.
  induction ys as [|y ys IH]; cbn; [destruct e; discriminate|]. destruct (reg_in y used) eqn:E.
  - intros H. apply IH in H. tauto.
  - intros [= <-]. split; [now left|]. rewrite <- reg_in_spec. congruence.
Qed.
Lemma free_register_none ys e used : free_register ys e used = Ok None -> incl ys used.
Proof.
  induction ys as [|y ys IH]; cbn; [intros _ x []|]. destruct (reg_in y used) eqn:E; [|discriminate].
  intros H x [<-|Hx]; [now apply reg_in_spec|now apply IH].
Qed.
Lemma free_register_ok ys used : exists r, free_register ys None used = Ok r.
Proof. induction ys as [|y ys IH]; cbn; [eauto|]. destruct (reg_in y used); eauto. Qed.

Lemma NoDup_snoc {A} (l : list A) x : NoDup l -> ~ In x l -> NoDup (l ++ [x]).
Proof.
  intros H N. apply (NoDup_Add (a := x) (l := l)); [|now split]. rewrite <- (app_nil_r l) at 1. apply Add_app.
Qed.
Definition entry (x : event * option text) : option text * counter := (snd x, measured x).
Lemma fst_entries a : map fst (map entry a) = map snd a.
Proof. rewrite map_map. apply map_ext. now intros []. Qed.
Lemma snd_entries a : map snd (map entry a) = map measured a.
Proof. rewrite map_map. apply map_ext. now intros []. Qed.
Lemma one_run_spec events : forall run sched run' sched', one_run events run sched = Ok (run', sched') ->
  exists a, run' = run ++ map entry a /\ sched' = sched ++ map fst a
    /\ (forall e r, In (e, r) a -> In r (registers_of e) /\ In e events)
    /\ (NoDup (map fst run) -> NoDup (map fst run')) /\ (NoDup sched -> NoDup sched')
    /\ forall e, In e events -> ~ In e sched' -> incl (registers_of e) (map fst run').
Proof.
  induction events as [|[[ev rs] ps] events IH]; cbn [one_run]; intros run sched run' sched'.
  - intros [= <- <-]. exists []. cbn. rewrite !app_nil_r. tauto.
  - destruct (event_in (ev, rs, ps) sched) eqn:E.
    + intros H. apply IH in H as (a & -> & -> & H1 & H2 & H3 & H4). apply event_in_spec in E.
      exists a. do 2 (split; [reflexivity|]). split; [intros e r Hin; destruct (H1 e r Hin); split; [assumption|now right]|].
      do 2 (split; [assumption|]). intros e [<-|He]; [intros N; exfalso; apply N, in_or_app; now left|now apply H4].
    + assert (Ns : ~ In (ev, rs, ps) sched) by (rewrite <- event_in_spec; congruence).
      destruct (free_register _ _ _) as [[reg|]|] eqn:F; cbn [bind]; [| |discriminate].
      * apply free_register_some in F as [F1 F2]. intros H. apply IH in H as (a & -> & -> & H1 & H2 & H3 & H4).
        exists (((ev, rs, ps), reg) :: a). cbn [map entry measured snd fst]. rewrite <- !app_assoc in *. cbn [app] in *.
        do 2 (split; [reflexivity|]). split.
        { intros e r [[= <- <-]|Hin]; [split; [exact F1|now left]|]. destruct (H1 e r Hin). split; [assumption|now right]. }
        split; [|split].
        -- intros ND. apply H2. rewrite map_app. now apply NoDup_snoc.
        -- intros ND. apply H3. now apply NoDup_snoc.
        -- intros e [<-|He]; [|now apply H4]. intros N. exfalso. apply N. apply in_or_app. right. now left.
      * apply free_register_none in F. intros H. apply IH in H as (a & -> & -> & H1 & H2 & H3 & H4).
        exists a. do 2 (split; [reflexivity|]). split; [intros e r Hin; destruct (H1 e r Hin); split; [assumption|now right]|].
        do 2 (split; [assumption|]). intros e [<-|He]; [|now apply H4]. intros _ r Hr. rewrite map_app. apply in_or_app. left. now apply F.
Qed.

(** Every event of a later run finds all its registers taken in the earlier runs. *)
Definition late (a : list (list (event * option text))) : Prop :=
  forall a1 run a2, a = a1 ++ run :: a2 -> forall e, In e (map fst (concat a2)) -> incl (registers_of e) (map snd run).
Record progress (events : list event) (a : list (list (event * option text))) : Prop := {
  p_regs : forall e r, In (e, r) (concat a) -> In r (registers_of e) /\ In e events;
  p_runs : Forall (fun run => NoDup (map snd run) /\ run <> []) a;
  p_once : NoDup (map fst (concat a));
  p_late : late a;
  p_left : forall run, In run a -> forall e, In e events -> ~ In e (map fst (concat a)) -> incl (registers_of e) (map snd run)
}.
Lemma app_cons_last {A} (a : list A) x b r c : a ++ [x] = b ++ r :: c ->
  (c = [] /\ b = a /\ r = x) \/ exists c', c = c' ++ [x] /\ a = b ++ r :: c'.
Proof.
  destruct c as [|y c] using rev_ind.
  - intros H. apply app_inj_tail in H as [-> ->]. now left.
  - intros H. right. exists c. assert (E : a ++ [x] = (b ++ r :: c) ++ [y]) by (now rewrite <- app_assoc).
    apply app_inj_tail in E as [-> ->]. split; reflexivity.
Qed.
Lemma all_runs_spec events : forall fuel sched runs out a, NoDup events -> progress events a ->
  sched = map fst (concat a) -> runs = map (map measured) a -> all_runs fuel events sched runs = Ok out ->
  exists a', progress events a' /\ out = map (map measured) a' /\ Permutation (map fst (concat a')) events.
Proof.
  induction fuel as [|fuel IH]; intros sched runs out a ND P -> -> H; cbn [all_runs] in H.
  - destruct (Nat.eqb_spec (length (map fst (concat a))) (length events)) as [E|]; [|discriminate].
    injection H as <-. exists a. split; [assumption|]. split; [reflexivity|].
    apply NoDup_Permutation_bis; [apply P|lia|]. intros e He. apply in_map_iff in He as ([e' r] & <- & Hin). now apply P in Hin.
  - destruct (Nat.eqb_spec (length (map fst (concat a))) (length events)) as [E|_].
    + injection H as <-. exists a. split; [assumption|]. split; [reflexivity|].
      apply NoDup_Permutation_bis; [apply P|lia|]. intros e He. apply in_map_iff in He as ([e' r] & <- & Hin). now apply P in Hin.
    + destruct (one_run events [] _) as [[run sched']|] eqn:O; cbn [bind] in H; [|discriminate].
      apply one_run_spec in O as (b & -> & -> & H1 & H2 & H3 & H4). cbn [app] in *.
      rewrite fst_entries in *. destruct P as [P1 P2 P3 P4 P5].
      destruct b as [|x b].
      * cbn [map] in H. rewrite app_nil_r in H. refine (IH _ _ _ a ND _ eq_refl eq_refl H). constructor; assumption.
      * refine (IH _ _ _ (a ++ [x :: b]) ND _ _ _ H).
        -- assert (C : concat (a ++ [x :: b]) = concat a ++ x :: b) by (rewrite concat_app; cbn; now rewrite app_nil_r).
           constructor; rewrite ?C.
           ++ intros e r Hin. apply in_app_or in Hin as [Hin|Hin]; auto.
           ++ apply Forall_app. split; [assumption|]. constructor; [|constructor]. split; [apply H2; constructor|discriminate].
           ++ rewrite map_app. now apply H3.
           ++ intros a1 r a2 E e He. apply app_cons_last in E as [(-> & _ & _)|(a2' & -> & ->)]; [destruct He|].
              rewrite concat_app, map_app in He. apply in_app_or in He as [He|He].
              ** now apply (P4 a1 r a2' eq_refl).
              ** cbn [concat] in He. rewrite app_nil_r in He.
                 apply (P5 r); [apply in_or_app; right; now left| |].
                 --- apply in_map_iff in He as ([e' r'] & <- & Hin). now apply H1 in Hin.
                 --- intros Hc. specialize (H3 P3).  clear H. revert H3 Hc He.
                     generalize (map fst (concat (a1 ++ r :: a2'))) (map fst (x :: b)). intros l m N I1 I2.
                     apply in_split in I1 as (l1 & l2 & ->). rewrite <- app_assoc in N. apply NoDup_remove_2 in N. apply N.
                     rewrite !in_app_iff. tauto.
           ++ intros r Hr e He Ne. rewrite map_app in Ne. apply in_app_or in Hr as [Hr|[<-|[]]].
              ** apply P5; [assumption..|]. intros X. apply Ne, in_or_app. now left.
              ** apply H4; assumption.
        -- rewrite concat_app, map_app. cbn [concat]. now rewrite app_nil_r.
        -- rewrite map_app. cbn [map]. rewrite !snd_entries. reflexivity.
Qed.
Lemma progress_start events : progress events [].
Proof. constructor; cbn; try tauto; try constructor. intros [|? ?] ? ? E; discriminate. Qed.
Lemma runs_found fuel events out : build_minimal_runs fuel events = Ok out ->
  exists a, progress (first_occurrences [] events) a /\ out = map (map measured) a
    /\ Permutation (map fst (concat a)) (nodup event_eq_dec events).
Proof.
  intros H. destruct (all_runs_spec _ _ _ _ _ [] (proj1 (first_occurrences_spec events [])) (progress_start _) eq_refl eq_refl H)
    as (a & P & E & Pm).
  exists a. split; [assumption|]. split; [assumption|]. now rewrite Pm, first_occurrences_perm.
Qed.
Lemma runs_correct fuel events out : build_minimal_runs fuel events = Ok out -> is_schedule events out /\ ~ In [] out.
Proof.
  intros H. apply runs_found in H as (a & P & -> & Pm). split.
  - exists a. split; [reflexivity|]. split; [assumption|]. split; [intros e r Hin; now apply P in Hin|].
    eapply Forall_impl; [|apply P]. cbn. tauto.
  - intros I. apply in_map_iff in I as (r & E & Hr). pose proof (p_runs _ _ P) as F. rewrite Forall_forall in F.
    apply (F r Hr). now apply map_eq_nil in E.
Qed.

(** *** Termination *)
Lemma one_run_ok events : (forall e, In e events -> usable e) -> forall run sched, exists x, one_run events run sched = Ok x.
Proof.
  induction events as [|[[ev rs] ps] events IH]; intros U run sched; cbn [one_run]; [eauto|].
  assert (U' : forall e, In e events -> usable e) by (intros e He; apply U; now right).
  destruct (event_in _ _); [now apply IH|]. destruct (U _ (or_introl eq_refl)) as [_ E].
  cbn zeta. rewrite E. destruct (free_register_ok (fst (register_options rs)) (map fst run)) as [[r|] ->]; cbn [bind]; now apply IH.
Qed.
Lemma missing (events sched : list event) : NoDup events -> (length sched < length events)%nat -> exists e, In e events /\ ~ In e sched.
Proof.
  intros ND L. destruct (forallb (fun e => event_in e sched) events) eqn:E.
  - exfalso. rewrite forallb_forall in E. assert (I : incl events sched) by (intros e He; now apply event_in_spec, E).
    pose proof (NoDup_incl_length ND I). lia.
  - clear - E. induction events as [|x l IH]; [discriminate|]. cbn in E. destruct (event_in x sched) eqn:X.
    + destruct (IH E) as (e & He & Hn). exists e. split; [now right|assumption].
    + exists x. split; [now left|]. rewrite <- event_in_spec. congruence.
Qed.
Lemma all_runs_ok events : NoDup events -> (forall e, In e events -> usable e) -> forall fuel sched runs,
  NoDup sched -> incl sched events -> (length events <= fuel + length sched)%nat -> exists out, all_runs fuel events sched runs = Ok out.
Proof.
  intros ND U. induction fuel as [|fuel IH]; intros sched runs Ns Is L; cbn [all_runs];
    destruct (Nat.eqb_spec (length sched) (length events)) as [E|NE]; eauto; pose proof (NoDup_incl_length Ns Is).
  - lia.
  - destruct (one_run_ok events U [] sched) as [[run sched'] O]. rewrite O. cbn [bind].
    apply one_run_spec in O as (b & -> & -> & H1 & H2 & H3 & H4). apply IH; [now apply H3| |].
    + intros e He. apply in_app_or in He as [He|He]; [now apply Is|]. apply in_map_iff in He as ([e' r] & <- & Hin). now apply H1 in Hin.
    + destruct b as [|x b]; [|rewrite app_length, map_length; cbn [length]; lia].
      exfalso. cbn [map app] in *. rewrite app_nil_r in H4.
      destruct (missing events sched ND) as (e & He & Hn); [lia|].
      pose proof (H4 e He Hn) as I. destruct e as [[ev rs] ps]. destruct (U _ He) as [Ne _].
      unfold registers_of in I. destruct (fst (register_options rs)) as [|y ys]; [congruence|]. now destruct (I y (or_introl eq_refl)).
Qed.
Lemma runs_terminate events : (forall e, In e events -> usable e) ->
  forall fuel, (length events <= fuel)%nat -> exists out, build_minimal_runs fuel events = Ok out.
Proof.
  intros U fuel L. destruct (first_occurrences_spec events []) as [H1 H2]. apply all_runs_ok.
  - assumption.
  - intros e He. apply U. now apply H2 in He.
  - constructor.
  - intros x [].
  - cbn. rewrite Nat.add_0_r. etransitivity; [|exact L]. apply NoDup_incl_length; [assumption|]. intros e He. now apply H2 in He.
Qed.

(** ** C32 *)
Lemma filter_perm {A} (f : A -> bool) l m : Permutation l m -> Permutation (filter f l) (filter f m).
Proof.
  induction 1 as [|x l m H IH|x y l|l m o H1 IH1 H2 IH2]; cbn; [constructor|..].
  - destruct (f x); [now constructor|assumption].
  - destruct (f x), (f y); try reflexivity. apply perm_swap.
  - now transitivity (filter f m).
Qed.
Lemma filter_map_length {A B} (f : B -> bool) (g : A -> B) l : length (filter f (map g l)) = length (filter (fun x => f (g x)) l).
Proof. induction l as [|x l IH]; [reflexivity|]. cbn. destruct (f (g x)); cbn; now rewrite IH. Qed.
Lemma NoDup_map_filter {A B} (g : A -> B) f l : NoDup (map g l) -> NoDup (map g (filter f l)).
Proof.
  induction l as [|x l IH]; cbn; [constructor|]. intros H. inversion H as [|? ? N ND]; subst. destruct (f x); [|now apply IH].
  cbn. constructor; [|now apply IH]. intros I. apply N. apply in_map_iff in I as (y & <- & Hy). apply filter_In in Hy as [Hy _]. now apply in_map.
Qed.
Lemma concat_filter_le {A} (f : A -> bool) n a : (forall r, In r a -> (length (filter f r) <= n)%nat) -> (length (filter f (concat a)) <= length a * n)%nat.
Proof.
  induction a as [|r a IH]; cbn; intros H; [lia|]. rewrite filter_app, app_length. specialize (IH (fun r Hr => H r (or_intror Hr))).
  specialize (H r (or_introl eq_refl)). lia.
Qed.
Lemma concat_filter_ge {A} (f : A -> bool) n a : (forall r, In r a -> (n <= length (filter f r))%nat) -> (length a * n <= length (filter f (concat a)))%nat.
Proof.
  induction a as [|r a IH]; cbn; intros H; [lia|]. rewrite filter_app, app_length. specialize (IH (fun r Hr => H r (or_intror Hr))).
  specialize (H r (or_introl eq_refl)). lia.
Qed.
Definition shares (e x : event) : bool := existsb (fun r => reg_in r (registers_of e)) (registers_of x).
Lemma shares_spec e x : shares e x = true <-> exists r, In r (registers_of x) /\ In r (registers_of e).
Proof. unfold shares. rewrite existsb_exists. setoid_rewrite reg_in_spec. reflexivity. Qed.
Lemma minimal events fuel out other :
  (forall e1 e2, In e1 events -> In e2 events -> (exists r, In r (registers_of e1) /\ In r (registers_of e2)) ->
    forall r, In r (registers_of e1) <-> In r (registers_of e2)) ->
  build_minimal_runs fuel events = Ok out -> is_schedule events other -> (length out <= length other)%nat.
Proof.
  intros D H (o & -> & Po & Ro & No). apply runs_found in H as (a & P & -> & Pa). rewrite !map_length.
  destruct a as [|run b] using rev_ind; [cbn; lia|]. clear IHb.
  pose proof (p_runs _ _ P) as F. apply Forall_app in F as [_ F]. inversion F as [|? ? [_ Nr] _]; subst.
  destruct run as [|[e r] run]; [congruence|]. clear Nr F.
  assert (Ie : forall x, In x (map fst (concat (b ++ [(e, r) :: run]))) -> In x events).
  { intros x Hx. apply (Permutation_in _ Pa), nodup_In in Hx. assumption. }
  assert (Er : In (e, r) (concat (b ++ [(e, r) :: run]))).
  { rewrite concat_app. apply in_or_app. right. now left. }
  pose proof (proj1 (p_regs _ _ P e r Er)) as Rr.
  assert (He : In e events) by (apply Ie; now apply (in_map fst) in Er).
  set (S0 := nodup reg_dec (registers_of e)). set (f := fun x : event * option text => shares e (fst x)).
  assert (NS : NoDup S0) by apply NoDup_nodup.
  assert (Lo : (length b * length S0 <= length (filter f (concat b)))%nat).
  { apply concat_filter_ge. intros q Hq. rewrite <- (map_length snd). apply NoDup_incl_length; [assumption|].
    intros s Hs. apply nodup_In in Hs. pose proof Hq as Hq'. apply in_split in Hq as (b1 & b2 & ->).
    assert (I : incl (registers_of e) (map snd q)).
    { apply (p_late _ _ P b1 q (b2 ++ [(e, r) :: run])); [now rewrite <- app_assoc|]. rewrite concat_app, map_app. apply in_or_app. right. now left. }
    apply I in Hs as Hq2. apply in_map_iff in Hq2 as ([x s'] & E & Hx). cbn in E. subst s'. apply in_map_iff. exists (x, s). split; [reflexivity|].
    apply filter_In. split; [assumption|]. unfold f. cbn. apply shares_spec. exists s. split; [|assumption].
    apply (p_regs _ _ P x s). rewrite concat_app. apply in_or_app. left. apply in_concat. now exists q. }
  assert (Up : (length (filter f (concat o)) <= length o * length S0)%nat).
  { apply concat_filter_le. intros q Hq. rewrite <- (map_length snd). rewrite Forall_forall in No. apply NoDup_incl_length.
    - apply NoDup_map_filter. now apply No.
    - intros s Hs. apply in_map_iff in Hs as ([x s'] & E & Hx). cbn in E. subst s'. apply filter_In in Hx as [Hx Hf]. apply nodup_In.
      assert (Ix : In (x, s) (concat o)) by (apply in_concat; now exists q).
      apply shares_spec in Hf as (t & Ht1 & Ht2). apply (D e x); [assumption| |now exists t|now apply Ro].
      apply (in_map fst) in Ix. cbn in Ix. apply (Permutation_in _ Po), nodup_In in Ix. assumption. }
  assert (Eq : length (filter f (concat o)) = length (filter f (concat (b ++ [(e, r) :: run])))).
  { unfold f. rewrite <- (filter_map_length (shares e) fst (concat o)), <- (filter_map_length (shares e) fst (concat (b ++ _))). apply Permutation_length, filter_perm. now rewrite Po, Pa. }
  assert (f (e, r) = true) as Fe by (apply shares_spec; exists r; tauto).
  rewrite concat_app, filter_app, app_length in Eq. cbn [concat app filter] in Eq. rewrite Fe in Eq. cbn [length] in Eq.
  assert (0 < length S0)%nat.
  { assert (I : In r S0) by now apply nodup_In. destruct S0; [destruct I|cbn; lia]. }
  rewrite app_length. cbn [length]. nia.
Qed.

(** ** Counterexamples *)
Definition backwards : event := (codes "L1D_REPLACEMENT", codes "PMC[3-0]", []).
Lemma backwards_loops fuel : build_minimal_runs fuel [backwards] = Err OutOfFuel.
Proof.
  unfold build_minimal_runs. replace (first_occurrences [] [backwards]) with [backwards] by reflexivity.
  induction fuel as [|fuel IH]; [reflexivity|]. cbn [all_runs length Nat.eqb].
  replace (one_run [backwards] [] []) with (@Ok (list (option text * counter) * list event) ([], [])) by (vm_compute; reflexivity).
  exact IH.
Qed.
Definition without_register : list event := [(codes "A", [], []); (codes "B", [], [])].
Lemma without_register_fails fuel : build_minimal_runs (S fuel) without_register = Err AttributeError.
Proof. vm_compute. reflexivity. Qed.
Definition greedy : list event := [(codes "A", codes "PMC[01]", []); (codes "B", codes "PMC0", [])].
Lemma greedy_not_minimal : exists out other, build_minimal_runs 2 greedy = Ok out /\ is_schedule greedy other /\ (length other < length out)%nat.
Proof.
  exists [[(codes "A", Some (codes "PMC0"), [])]; [(codes "B", Some (codes "PMC0"), [])]],
    [[(codes "A", Some (codes "PMC1"), []); (codes "B", Some (codes "PMC0"), [])]].
  split; [vm_compute; reflexivity|]. split; [|cbn; lia].
  exists [[((codes "A", codes "PMC[01]", []), Some (codes "PMC1")); ((codes "B", codes "PMC0", []), Some (codes "PMC0"))]].
  split; [reflexivity|]. split; [vm_compute; apply Permutation_refl|]. split.
  - cbn [concat app]. intros e r [E|[E|[]]]; injection E as <- <-; vm_compute; tauto.
  - constructor; [|constructor]. cbn [map snd]. constructor; [intros [E|[]]; discriminate|]. constructor; [intros []|constructor].
Qed.
