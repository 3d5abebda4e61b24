(** Proofs for C73-C77. *)
From Verif Require Import LoopModel PerfModel CtrSpec CtrProofs LoopSpec LoopProofs PerfSpec.
Local Open Scope N_scope.
Local Open Scope list_scope.

(** ** Characters *)
Ltac chars := repeat first [rewrite orb_true_iff | rewrite andb_true_iff | rewrite N.leb_le | rewrite N.eqb_eq].
Lemma event_char_spec c : event_char c = true <-> in_event c.
Proof. unfold event_char, in_event. chars. rewrite is_upper_spec, is_digit_spec. tauto. Qed.
Lemma register_char_spec c : register_char c = true <-> in_registers c.
Proof.
  unfold register_char, in_registers, any_of. chars. rewrite is_upper_spec, is_digit_spec. cbn [codes In].
  change (N_of_ascii "[") with 91. change (N_of_ascii "]") with 93. change (N_of_ascii "|") with 124. change (N_of_ascii "-") with 45. intuition congruence.
Qed.
Lemma parameter_char_spec c : parameter_char c = true <-> in_parameter c.
Proof.
  unfold parameter_char, in_parameter, any_of. chars. rewrite alnum_spec. cbn [codes In].
  change (N_of_ascii "-") with 45. change (N_of_ascii "_") with 95. change (N_of_ascii "=") with 61. intuition congruence.
Qed.
Lemma any_of_5 c : any_of ":[]|=" c <-> c = 58 \/ c = 91 \/ c = 93 \/ c = 124 \/ c = 61.
Proof. unfold any_of. cbn [codes In]. vm_compute (N_of_ascii _). intuition congruence. Qed.
Ltac ranges := unfold in_event, in_registers, in_parameter, separator, identifier_char, letter_or_digit, upper, lower, digit in *.
Lemma separator_not_word c : separator c -> word_char c = false.
Proof. intros [H _]. apply not_true_is_false. now rewrite word_char_spec. Qed.
Lemma separator_not_event c : separator c -> event_char c = false.
Proof. intros [H _]. apply not_true_is_false. rewrite event_char_spec. ranges. intuition. Qed.
Lemma separator_not_colon c : separator c -> c <> 58.
Proof. intros [_ H] ->. apply H. rewrite any_of_5. auto. Qed.
Lemma separator_not_register c : separator c -> c <> 45 -> register_char c = false.
Proof.
  intros [H J] N. apply not_true_is_false. rewrite register_char_spec. rewrite any_of_5 in J. unfold in_registers, any_of. cbn [codes In].
  change (N_of_ascii "[") with 91. change (N_of_ascii "]") with 93. change (N_of_ascii "|") with 124. change (N_of_ascii "-") with 45.
  ranges. intuition congruence.
Qed.
Lemma separator_not_parameter c : separator c -> c <> 45 -> parameter_char c = false.
Proof.
  intros [H J] N. apply not_true_is_false. rewrite parameter_char_spec. rewrite any_of_5 in J. unfold in_parameter, any_of. cbn [codes In].
  change (N_of_ascii "-") with 45. change (N_of_ascii "_") with 95. change (N_of_ascii "=") with 61.
  ranges. intuition congruence.
Qed.

(** What may follow a word or a counter *)
Definition ends_word (t : text) : Prop := match t with [] => True | c :: _ => separator c end.
Definition ends_ref (t : text) : Prop := match t with [] => True | c :: _ => separator c /\ c <> 45 end.
Lemma ends_ref_word t : ends_ref t -> ends_word t.
Proof. destruct t; cbn; tauto. Qed.

(** ** Texts of counters *)
Definition ptext (ps : list text) : text := flat_map (cons 58) ps.
Lemma join_ptext p ps : join 58 (p :: ps) = p ++ ptext ps.
Proof.
  revert p. induction ps as [|q ps IH]; intros p; [cbn; now rewrite app_nil_r|].
  rewrite join_cons by discriminate. rewrite IH. reflexivity.
Qed.
Lemma ref_text_eq ev rs ps : ref_text (ev, rs, ps) = ev ++ 58 :: rs ++ ptext ps.
Proof. unfold ref_text. now rewrite join_cons, join_ptext by discriminate. Qed.

Lemma span_app p a t : Forall (fun c => p c = true) a -> match t with [] => True | c :: _ => p c = false end -> span p (a ++ t) = (a, t).
Proof.
  intros H T. induction H as [|c a C H IH]; cbn [app].
  - destruct t as [|c t]; cbn; [reflexivity|]. now rewrite T.
  - cbn [span]. now rewrite C, IH.
Qed.
Lemma parameters_match ps t fuel : Forall (fun p => p <> [] /\ Forall in_parameter p) ps -> ends_ref t -> (length (ptext ps) <= fuel)%nat ->
  match_parameters fuel (ptext ps ++ t) = (ptext ps, t).
Proof.
  intros H T. revert fuel. induction H as [|p ps [NE P] H IH]; intros fuel L.
  - cbn [ptext flat_map app]. destruct fuel as [|fuel]; [reflexivity|]. destruct t as [|c t]; [reflexivity|]. destruct T as [T _].
    apply separator_not_colon in T. cbn [match_parameters]. destruct c as [|q]; [easy|]. do 6 (destruct q as [q|q|]; try easy).
  - destruct p as [|c p]; [easy|]. change (ptext ((c :: p) :: ps)) with (58 :: (c :: p) ++ ptext ps) in *.
    rewrite <- app_comm_cons, <- app_assoc. destruct fuel as [|fuel]; [cbn in L; lia|]. cbn [match_parameters].
    rewrite span_app.
    + rewrite IH; [reflexivity|]. cbn [length] in L. rewrite app_length in L. cbn [length] in L. lia.
    + rewrite Forall_forall in *. intros x I. apply parameter_char_spec. auto.
    + destruct ps as [|q ps]; cbn [ptext flat_map app]; [|reflexivity]. destruct t as [|x t]; [exact I|]. destruct T. now apply separator_not_parameter.
Qed.
Lemma ref_match e t : good_ref e -> ends_ref t -> match_counter (ref_text e ++ t) = Some (ref_text e, t).
Proof.
  destruct e as [[ev rs] ps]. intros ((E & FE) & (R & FR) & P) T. rewrite ref_text_eq. rewrite <- app_assoc, <- app_comm_cons, <- app_assoc.
  unfold match_counter. rewrite span_app; [|rewrite Forall_forall in *; intros x I; apply event_char_spec; auto|reflexivity].
  destruct ev as [|c ev]; [easy|]. rewrite span_app.
  - destruct rs as [|d rs]; [easy|]. rewrite parameters_match; [reflexivity|assumption..|]. rewrite app_length. lia.
  - rewrite Forall_forall in *. intros x I. apply register_char_spec. auto.
  - destruct ps as [|q ps]; cbn [ptext flat_map app]; [|reflexivity]. destruct t as [|x t]; [exact I|]. destruct T. now apply separator_not_register.
Qed.
(** Words and signs are no counters. *)
Lemma span_spec p s : let (a, b) := span p s in s = a ++ b /\ Forall (fun c => p c = true) a /\ match b with [] => True | c :: _ => p c = false end.
Proof.
  induction s as [|c s IH]; cbn; [auto|]. destruct (p c) eqn:C; [|cbn; auto]. destruct (span p s) as [a b]. destruct IH as (-> & F & B). cbn. auto.
Qed.
Lemma no_colon_word w t : Forall identifier_char w -> ends_word t -> forall c r, snd (span event_char (w ++ t)) = c :: r -> c <> 58.
Proof.
  intros F T. induction F as [|x w X F IH]; cbn [app]; intros c r H.
  - destruct t as [|y t]; [discriminate|]. cbn [span] in H. cbn in T. rewrite (separator_not_event y T) in H. cbn in H.
    injection H as -> _. now apply separator_not_colon.
  - cbn [span] in H. destruct (event_char x) eqn:E.
    + revert IH H. destruct (span event_char (w ++ t)) as [a b]. cbn [snd]. eauto.
    + cbn in H. injection H as -> _. intros ->. ranges. intuition lia.
Qed.
Lemma word_no_match w t : Forall identifier_char w -> ends_word t -> match_counter (w ++ t) = None.
Proof.
  intros F T. assert (N := no_colon_word w t F T). unfold match_counter. destruct (span event_char (w ++ t)) as [a b]. cbn [snd] in N.
  destruct a as [|c a]; [reflexivity|]. destruct b as [|d b]; [reflexivity|]. specialize (N d b eq_refl).
  destruct d as [|q]; [easy|]. do 6 (destruct q as [q|q|]; try easy).
Qed.
Lemma sign_no_match c t : separator c -> match_counter (c :: t) = None.
Proof. intros H. unfold match_counter. cbn [span]. now rewrite (separator_not_event c H). Qed.

(** ** Finding the counters *)
Lemma find_gap g t fuel : Forall separator g -> (length (g ++ t) <= fuel)%nat -> find_counters fuel (g ++ t) = find_counters (fuel - length g) t.
Proof.
  intros H. revert fuel. induction H as [|c g C H IH]; intros fuel L; [cbn; now rewrite Nat.sub_0_r|].
  destruct fuel as [|fuel]; [cbn in L; lia|]. cbn [app find_counters]. rewrite sign_no_match by assumption.
  rewrite IH; [reflexivity|cbn in L; lia].
Qed.
Lemma find_word w t fuel : Forall identifier_char w -> ends_word t -> (length (w ++ t) <= fuel)%nat ->
  find_counters fuel (w ++ t) = find_counters (fuel - length w) t.
Proof.
  intros H T. revert fuel. induction H as [|c w C H IH]; intros fuel L; [cbn; now rewrite Nat.sub_0_r|].
  destruct fuel as [|fuel]; [cbn in L; lia|]. cbn [app find_counters]. change (c :: w ++ t) with ((c :: w) ++ t).
  rewrite word_no_match by auto. rewrite IH; [reflexivity|cbn in L; lia].
Qed.
Lemma ref_not_nil e : good_ref e -> ref_text e <> [].
Proof. destruct e as [[ev rs] ps]. intros ((E & _) & _). rewrite ref_text_eq. now destruct ev. Qed.
Lemma find_ref e t fuel : good_ref e -> ends_ref t -> (length (ref_text e ++ t) <= fuel)%nat ->
  find_counters fuel (ref_text e ++ t) = ref_text e :: find_counters (fuel - 1) t.
Proof.
  intros H T L. assert (M := ref_match e t H T). assert (N := ref_not_nil e H). destruct (ref_text e) as [|c r] eqn:E; [easy|].
  destruct fuel as [|fuel]; [cbn in L; lia|]. rewrite <- app_comm_cons in *. cbn [find_counters]. rewrite M. replace (S fuel - 1)%nat with fuel by lia. reflexivity.
Qed.
Lemma find_all m last : forall before fuel, good_metric before m last -> (length (metric_text m last) <= fuel)%nat ->
  find_counters fuel (metric_text m last) = map ref_text (refs m).
Proof.
  induction m as [|[g a] m IH]; intros before fuel H L.
  - cbn in *. destruct H as [H _]. rewrite <- (app_nil_r last). rewrite find_gap by (assumption || now rewrite app_nil_r). now destruct (fuel - length last)%nat.
  - destruct H as ([G _] & _ & A & H). assert (E : metric_text ((g, a) :: m) last = g ++ atom_text a ++ metric_text m last).
    { unfold metric_text. cbn [flat_map fst snd]. now rewrite !app_assoc. }
    rewrite E in *. rewrite find_gap by assumption. rewrite !app_length in L.
    assert (T : match a with Name _ => ends_word (metric_text m last) | Ref _ => ends_ref (metric_text m last) end).
    { destruct m as [|[g' a'] m].
      - destruct H as [H1 H2]. cbn. destruct a; destruct last as [|x last]; try exact I; inversion_clear H1; cbn; [assumption|]. split; [assumption|]. cbn in H2. congruence.
      - destruct H as ([H1 H2] & H3 & _). specialize (H3 ltac:(discriminate)). unfold metric_text. cbn [flat_map fst snd].
        destruct g' as [|x g']; [easy|]. cbn [app]. inversion_clear H1. destruct a; cbn; [assumption|]. split; [assumption|]. cbn in H2. congruence. }
    destruct a as [w|e]; cbn [atom_text] in *.
    + destruct A as [_ A]. rewrite find_word by (auto; rewrite app_length; lia). rewrite (IH _ _ H) by lia. reflexivity.
    + rewrite find_ref by (auto; rewrite app_length; lia). assert (N := ref_not_nil e A).
      assert (length (ref_text e) <> O) by (now destruct (ref_text e)). rewrite (IH _ _ H) by lia. reflexivity.
Qed.

(** ** Replacing them *)
Definition shown (D : text -> bool) (a : atom) : text :=
  match a with Name w => w | Ref e => if D (ref_text e) then temp_name (ref_text e) else ref_text e end.
Definition partly (D : text -> bool) (m : list (text * atom)) (last : text) : text := flat_map (fun x => fst x ++ shown D (snd x)) m ++ last.
Lemma partly_cons D g a m last : partly D ((g, a) :: m) last = g ++ shown D a ++ partly D m last.
Proof. unfold partly. cbn [flat_map fst snd]. now rewrite !app_assoc. Qed.
Lemma partly_none m last : partly (fun _ => false) m last = metric_text m last.
Proof. unfold partly, metric_text. f_equal. Qed.
Lemma starts_with_spec p s : starts_with p s = true <-> exists t, s = p ++ t.
Proof.
  revert s. induction p as [|x p IH]; intros s; cbn; [split; eauto|]. destruct s as [|y s]; [split; [discriminate|intros [t E]; discriminate]|].
  rewrite andb_true_iff, N.eqb_eq, IH. split.
  - intros [-> [t ->]]. now exists t.
  - intros [t E]. injection E as -> ->. eauto.
Qed.
Lemma replace_pass p v a t fuel :
  (forall x y, a = x ++ y -> y <> [] -> starts_with p (y ++ t) = false) -> (length (a ++ t) <= fuel)%nat ->
  replace fuel p v (a ++ t) = a ++ replace (fuel - length a) p v t.
Proof.
  revert fuel. induction a as [|c a IH]; intros fuel H L; [cbn; now rewrite Nat.sub_0_r|].
  destruct fuel as [|fuel]; [cbn in L; lia|]. assert (S0 := H [] (c :: a) eq_refl ltac:(discriminate)). rewrite <- app_comm_cons in *.
  cbn [replace]. rewrite S0. cbn [app length Nat.sub]. f_equal. apply IH; [|cbn in L; lia].
  intros x y -> N. apply (H (c :: x) y); auto.
Qed.
Lemma replace_hit p v t fuel : p <> [] -> (length (p ++ t) <= fuel)%nat -> replace fuel p v (p ++ t) = v ++ replace (fuel - 1) p v t.
Proof.
  intros N L. destruct p as [|c p]; [easy|]. destruct fuel as [|fuel]; [cbn in L; lia|].
  assert (E : starts_with (c :: p) ((c :: p) ++ t) = true) by (apply starts_with_spec; eauto).
  rewrite <- app_comm_cons in *. cbn [replace]. rewrite E. rewrite app_comm_cons, skipn_app, Nat.sub_diag, skipn_all. cbn [app skipn].
  replace (S fuel - 1)%nat with fuel by lia. reflexivity.
Qed.
(** Where a counter cannot begin *)
Lemma ref_first e c r : good_ref e -> ref_text e = c :: r -> word_char c = true.
Proof.
  destruct e as [[ev rs] ps]. intros ((E & F) & _). rewrite ref_text_eq. destruct ev as [|x ev]; [easy|]. cbn. intros [= -> _].
  inversion_clear F. apply word_char_spec. ranges. intuition.
Qed.
Lemma ref_chars e c : good_ref e -> In c (ref_text e) -> separator c -> c = 45.
Proof.
  destruct e as [[ev rs] ps]. intros ((_ & E) & (_ & R) & P) I S0. rewrite ref_text_eq in I. rewrite Forall_forall in E, R, P.
  apply in_app_or in I as [I|[I|I]].
  - apply E, event_char_spec in I. now rewrite separator_not_event in I.
  - apply separator_not_colon in S0; congruence.
  - apply in_app_or in I as [I|I].
    + destruct (N.eq_dec c 45) as [H|H]; [auto|]. apply R, register_char_spec in I. now rewrite separator_not_register in I.
    + unfold ptext in I. apply in_flat_map in I as (p & IP & [I|I]); [apply separator_not_colon in S0; congruence|].
      destruct (N.eq_dec c 45) as [H|H]; [auto|]. destruct (P p IP) as [_ F]. rewrite Forall_forall in F.
      apply F, parameter_char_spec in I. now rewrite separator_not_parameter in I.
Qed.
Lemma sign_no_start e c t : good_ref e -> separator c -> starts_with (ref_text e) (c :: t) = false.
Proof.
  intros G S0. apply not_true_is_false. rewrite starts_with_spec. intros [u E]. destruct (ref_text e) as [|x r] eqn:R; [now apply ref_not_nil in G|].
  injection E as -> ->. apply ref_first in R; [|assumption]. now rewrite separator_not_word in R.
Qed.
Lemma word_no_start e w t : good_ref e -> Forall identifier_char w -> w <> [] -> ends_word t -> starts_with (ref_text e) (w ++ t) = false.
Proof.
  intros G F NE T. apply not_true_is_false. rewrite starts_with_spec. intros [u E].
  destruct e as [[ev rs] ps]. rewrite ref_text_eq in E. destruct G as ((_ & FE) & _).
  rewrite <- app_assoc, <- app_comm_cons in E. assert (N := no_colon_word w t F T). rewrite E in N.
  rewrite span_app in N; [|rewrite Forall_forall in *; intros x I; apply event_char_spec; auto|reflexivity].
  now apply (N 58 _ eq_refl).
Qed.
Lemma ref_no_start c d x y t : good_ref c -> good_ref d -> ~ part (ref_text c) (ref_text d) -> ref_text d = x ++ y -> y <> [] -> ends_ref t ->
  starts_with (ref_text c) (y ++ t) = false.
Proof.
  intros C D P E NE T. apply not_true_is_false. rewrite starts_with_spec. intros [u H].
  destruct (le_lt_dec (length (ref_text c)) (length y)) as [L|L].
  - apply P. exists x. assert (H' := f_equal (firstn (length (ref_text c))) H). rewrite !firstn_app, Nat.sub_diag, firstn_all, firstn_O, app_nil_r in H'.
    replace (length (ref_text c) - length y)%nat with O in H' by lia. rewrite firstn_O, app_nil_r in H'.
    exists (skipn (length (ref_text c)) y). rewrite E. f_equal. rewrite <- H' at 1. symmetry. apply firstn_skipn.
  - assert (H' := f_equal (fun l => nth_error l (length y)) H). cbn beta in H'. rewrite nth_error_app2 in H' by lia. rewrite Nat.sub_diag in H'.
    rewrite (nth_error_app1 (ref_text c)) in H' by lia. destruct t as [|z t].
    + cbn in H'. symmetry in H'. apply nth_error_None in H'. lia.
    + cbn [nth_error] in H'. symmetry in H'. apply nth_error_In in H'. destruct T as [T1 T2]. apply T2. now apply (ref_chars c z C).
Qed.
(** *** Names *)
Lemma temp_name_eq s : temp_name s = codes "SYM" ++ plain s.
Proof.
  unfold temp_name, plain. f_equal. apply map_ext. intros c. unfold punctuation. cbn [codes existsb].
  change (N_of_ascii "[") with 91. change (N_of_ascii "]") with 93. change (N_of_ascii "|") with 124. change (N_of_ascii "-") with 45.
  change (N_of_ascii "=") with 61. change (N_of_ascii ":") with 58.
  destruct (c =? 91), (c =? 93), (c =? 45), (c =? 124), (c =? 61), (c =? 58); reflexivity.
Qed.
Lemma punctuation_spec c : punctuation c = true <-> c = 91 \/ c = 93 \/ c = 124 \/ c = 45 \/ c = 61 \/ c = 58.
Proof.
  unfold punctuation. rewrite existsb_exists. cbn [codes In].
  change (N_of_ascii "[") with 91. change (N_of_ascii "]") with 93. change (N_of_ascii "|") with 124. change (N_of_ascii "-") with 45.
  change (N_of_ascii "=") with 61. change (N_of_ascii ":") with 58. split.
  - intros (x & I & E). apply N.eqb_eq in E. subst. intuition.
  - intros H. exists c. rewrite N.eqb_refl. intuition.
Qed.
Lemma temp_name_word e : good_ref e -> Forall identifier_char (temp_name (ref_text e)).
Proof.
  intros G. rewrite temp_name_eq. apply Forall_app. split; [repeat constructor; ranges; vm_compute; intuition discriminate|].
  apply Forall_forall. unfold plain. intros x I. apply in_map_iff in I as (c & E & I). destruct (punctuation c) eqn:P; [subst; ranges; auto|]. subst x.
  assert (NP : ~ (c = 91 \/ c = 93 \/ c = 124 \/ c = 45 \/ c = 61 \/ c = 58)) by (rewrite <- punctuation_spec; congruence).
  destruct e as [[ev rs] ps]. destruct G as ((_ & E) & (_ & R) & Q). rewrite ref_text_eq in I. rewrite Forall_forall in E, R, Q.
  assert (K : in_event c \/ in_registers c \/ in_parameter c \/ c = 58).
  { apply in_app_or in I as [I|[I|I]]; [auto|auto|]. apply in_app_or in I as [I|I]; [auto|].
    unfold ptext in I. apply in_flat_map in I as (p & IP & [I|I]); [auto|]. destruct (Q p IP) as [_ F]. rewrite Forall_forall in F. auto. }
  unfold in_registers, in_parameter, any_of in K. cbn [codes In] in K.
  change (N_of_ascii "[") with 91 in K. change (N_of_ascii "]") with 93 in K. change (N_of_ascii "|") with 124 in K. change (N_of_ascii "-") with 45 in K.
  change (N_of_ascii "_") with 95 in K. change (N_of_ascii "=") with 61 in K. ranges. intuition congruence.
Qed.
Lemma partly_ends D m last a : good_metric (Some a) m last ->
  match a with Name _ => ends_word (partly D m last) | Ref _ => ends_ref (partly D m last) end.
Proof.
  intros H. destruct m as [|[g' a'] m].
  - destruct H as [H1 H2]. cbn. destruct a; destruct last as [|x last]; try exact I; inversion_clear H1; cbn; [assumption|]. split; [assumption|]. cbn in H2. congruence.
  - destruct H as ([H1 H2] & H3 & _). specialize (H3 ltac:(discriminate)). rewrite partly_cons.
    destruct g' as [|x g']; [easy|]. cbn [app]. inversion_clear H1. destruct a; cbn; [assumption|]. split; [assumption|]. cbn in H2. congruence.
Qed.
Lemma Forall_suffix {A} (P : A -> Prop) l x y : Forall P l -> l = x ++ y -> Forall P y.
Proof. intros F ->. now apply Forall_app in F. Qed.
Lemma ref_inj c d : good_ref c -> good_ref d -> ref_text c = ref_text d -> c = d.
Proof.
  assert (K : forall e, good_ref e -> parse_perfctr_event (ref_text e) = Ok e).
  { intros [[ev rs] ps] ((_ & E) & (_ & R) & Q). rewrite Forall_forall in E, R, Q.
    apply (print_parse ev rs ps None).
    - intros I. apply E in I. ranges. intuition lia.
    - intros I. apply R, register_char_spec in I. discriminate.
    - intros p IP I. destruct (Q p IP) as [_ F]. rewrite Forall_forall in F. apply F, parameter_char_spec in I. discriminate.
    - unfold eventstr. cbn [bind app]. reflexivity. }
  intros C D E. apply K in C, D. congruence.
Qed.
Lemma ref_parse e : good_ref e -> parse_perfctr_event (ref_text e) = Ok e.
Proof.
  destruct e as [[ev rs] ps]. intros ((_ & E) & (_ & R) & Q). rewrite Forall_forall in E, R, Q.
  apply (print_parse ev rs ps None).
  - intros I. apply E in I. ranges. intuition lia.
  - intros I. apply R, register_char_spec in I. discriminate.
  - intros p IP I. destruct (Q p IP) as [_ F]. rewrite Forall_forall in F. apply F, parameter_char_spec in I. discriminate.
  - unfold eventstr. cbn [bind app]. reflexivity.
Qed.
Lemma replace_one D c m last : good_ref c -> (forall d, In d (refs m) -> part (ref_text c) (ref_text d) -> c = d) ->
  forall before fuel, good_metric before m last -> (length (partly D m last) <= fuel)%nat ->
  replace fuel (ref_text c) (temp_name (ref_text c)) (partly D m last) = partly (fun s => D s || text_eqb s (ref_text c)) m last.
Proof.
  intros C. induction m as [|[g a] m IH]; intros P before fuel H L.
  - unfold partly in *. cbn [flat_map app] in *. destruct H as [H _]. rewrite <- (app_nil_r last) at 1. rewrite replace_pass.
    + destruct (fuel - length last)%nat; cbn; apply app_nil_r.
    + intros x y E NE. destruct y as [|z y]; [easy|]. apply sign_no_start; [assumption|]. apply (Forall_suffix _ _ x _ H) in E. now inversion_clear E.
    + now rewrite app_nil_r.
  - rewrite !partly_cons in *. destruct H as ([G _] & _ & A & H). assert (T := partly_ends D m last a H). rewrite !app_length in L.
    rewrite replace_pass.
    2:{ intros x y E NE. destruct y as [|z y]; [easy|]. apply sign_no_start; [assumption|]. apply (Forall_suffix _ _ x _ G) in E. now inversion_clear E. }
    2:{ rewrite !app_length. lia. }
    f_equal. specialize (IH (fun d I => P d (in_or_app _ _ _ (or_intror I)))).
    assert (W : forall w, Forall identifier_char w -> ends_word (partly D m last) -> (length w + length (partly D m last) <= fuel - length g)%nat ->
       replace (fuel - length g) (ref_text c) (temp_name (ref_text c)) (w ++ partly D m last)
       = w ++ partly (fun s => D s || text_eqb s (ref_text c)) m last).
    { intros w F T' L'. rewrite replace_pass.
      - f_equal. apply (IH _ _ H). lia.
      - intros x y E NE. apply word_no_start; auto. now apply (Forall_suffix _ _ x _ F) in E.
      - rewrite app_length. lia. }
    destruct a as [w|e]; cbn [shown] in *.
    + apply W; [apply A|assumption|lia].
    + destruct (D (ref_text e)) eqn:De; cbn [orb].
      * apply W; [now apply temp_name_word|now apply ends_ref_word|lia].
      * destruct (text_eqb_spec (ref_text e) (ref_text c)) as [E|NEq].
        -- rewrite E in *. assert (N := ref_not_nil c C). assert (length (ref_text c) <> O) by (now destruct (ref_text c)).
           rewrite replace_hit; [|assumption|rewrite app_length; lia]. f_equal. apply (IH _ _ H). lia.
        -- rewrite replace_pass.
           ++ f_equal. apply (IH _ _ H). lia.
           ++ intros x y E NE. apply (ref_no_start c e x); auto. intros Q. apply NEq. f_equal. symmetry. apply P; [now left|assumption].
           ++ rewrite app_length. lia.
Qed.
Lemma partly_ext D E m last : (forall e, In e (refs m) -> D (ref_text e) = E (ref_text e)) -> partly D m last = partly E m last.
Proof.
  induction m as [|[g a] m IH]; intros H; [reflexivity|]. rewrite !partly_cons, IH.
  - f_equal. f_equal. destruct a as [w|e]; [reflexivity|]. cbn [shown]. now rewrite H by now left.
  - intros e I. apply H. unfold refs. cbn [flat_map]. apply in_or_app. now right.
Qed.
Lemma metric_refs m last : forall before e, good_metric before m last -> In e (refs m) -> good_ref e.
Proof.
  induction m as [|[g a] m IH]; intros before e H I; [easy|]. destruct H as (_ & _ & A & H). apply in_app_or in I as [I|I]; [|eauto].
  cbn in I. destruct a as [w|d]; [easy|]. destruct I as [<-|[]]. exact A.
Qed.
Lemma replace_names m last : good_metric None m last ->
  (forall c d, In c (refs m) -> In d (refs m) -> part (ref_text c) (ref_text d) -> c = d) ->
  forall names D, (forall x, In x names -> exists c, In c (refs m) /\ x = (temp_name (ref_text c), ref_text c)) ->
  replace_counters names (partly D m last) = partly (fun s => D s || existsb (fun x => text_eqb s (snd x)) names) m last.
Proof.
  intros G P. induction names as [|x names IH]; intros D N.
  - cbn. apply partly_ext. intros. now rewrite orb_false_r.
  - destruct (N x (or_introl eq_refl)) as (c & C & ->). unfold replace_counters. cbn [fold_left fst snd].
    rewrite (replace_one D c m last (metric_refs m last None c G C)) with (before := None); auto.
    unfold replace_counters in IH. rewrite IH by (intros y I; apply N; now right). apply partly_ext. intros e _. cbn [existsb snd].
    now rewrite orb_assoc.
Qed.
(** *** The dictionary of names *)
Lemma temp_names_entries l : forall d x, In x (fold_left (fun d pc => tset (temp_name pc) pc d) l d) ->
  In x d \/ exists pc, In pc l /\ x = (temp_name pc, pc).
Proof.
  induction l as [|p l IH]; intros d x H; [auto|]. cbn [fold_left] in H. apply IH in H as [H|(q & I & ->)].
  - apply tset_in in H as [->|H]; [right; exists p; split; [now left|reflexivity]|auto].
  - right. exists q. split; [now right|reflexivity].
Qed.
Lemma temp_names_get l : forall d pc, (forall q, In q l -> temp_name q = temp_name pc -> q = pc) ->
  In pc l \/ tget (temp_name pc) d = Some pc -> tget (temp_name pc) (fold_left (fun d pc => tset (temp_name pc) pc d) l d) = Some pc.
Proof.
  induction l as [|p l IH]; intros d pc U H; [destruct H as [[]|H]; exact H|]. cbn [fold_left]. apply IH.
  - intros q I. apply U. now right.
  - rewrite tget_tset. destruct (text_eqb_spec (temp_name pc) (temp_name p)) as [E|N].
    + right. f_equal. apply U; [now left|congruence].
    + destruct H as [[->|H]|H]; [congruence|auto|auto].
Qed.
(** *** Tokens *)
Lemma tokens_word w t cur : Forall identifier_char w -> ends_word t -> tokens cur (w ++ t) = flush (cur ++ w) ++ tokens [] t.
Proof.
  intros H T. revert cur. induction H as [|c w C H IH]; intros cur.
  - rewrite app_nil_r. destruct t as [|c t]; cbn [app tokens]; [now rewrite app_nil_r|]. cbn in T. now rewrite (separator_not_word c T).
  - cbn [app tokens]. apply word_char_spec in C. rewrite C, IH. now rewrite <- app_assoc.
Qed.
Lemma tokens_gap g t : Forall separator g -> tokens [] (g ++ t) = signs g ++ tokens [] t.
Proof.
  induction 1 as [|c g C H IH]; [reflexivity|]. cbn [app tokens]. rewrite (separator_not_word c C), IH. cbn [flush app].
  unfold signs. cbn [flat_map]. now rewrite app_assoc.
Qed.
Definition all : text -> bool := fun _ => true.
Lemma tokens_all m last : forall before, good_metric before m last ->
  tokens [] (partly all m last) = flat_map (fun x => signs (fst x) ++ [Word (shown all (snd x))]) m ++ signs last.
Proof.
  induction m as [|[g a] m IH]; intros before H.
  - destruct H as [H _]. unfold partly. cbn [flat_map app]. rewrite <- (app_nil_r last) at 1. rewrite tokens_gap by assumption. apply app_nil_r.
  - destruct H as ([G _] & _ & A & H). rewrite partly_cons, tokens_gap by assumption. assert (T := partly_ends all m last a H).
    cbn [flat_map fst snd]. rewrite <- !app_assoc. f_equal. rewrite tokens_word.
    + rewrite (IH _ H). cbn [app]. destruct (shown all a) eqn:E; [|reflexivity]. exfalso. destruct a as [w|e]; cbn in E; [now destruct A|discriminate].
    + destruct a as [w|e]; cbn [shown]; [apply A|now apply temp_name_word].
    + destruct a; [assumption|now apply ends_ref_word].
Qed.
Lemma signs_rename names g : map (rename names) (signs g) = signs g.
Proof. induction g as [|c g IH]; [reflexivity|]. unfold signs in *. cbn [flat_map]. rewrite map_app, IH. now destruct (is_space c). Qed.
Lemma signs_events cs g ts : metric_events cs (signs g ++ ts) = metric_events cs ts.
Proof. induction g as [|c g IH]; [reflexivity|]. unfold signs in *. cbn [flat_map]. rewrite <- app_assoc. destruct (is_space c); cbn [app metric_events]; exact IH. Qed.
Lemma word_no_colon w : Forall identifier_char w -> ~ In 58 w.
Proof. intros F I. rewrite Forall_forall in F. apply F in I. ranges. intuition lia. Qed.
Lemma ref_colon e : In 58 (ref_text e).
Proof. destruct e as [[ev rs] ps]. rewrite ref_text_eq. apply in_or_app. right. now left. Qed.
Lemma events_all cs m last : forall before, good_metric before m last -> incl (map ref_text (refs m)) cs -> (forall c, In c cs -> In 58 c) ->
  metric_events cs (metric_tokens m last) = Ok (map (fun e => (ref_text e, e)) (refs m)).
Proof.
  induction m as [|[g a] m IH]; intros before H I C.
  - unfold metric_tokens. cbn [flat_map app]. rewrite <- (app_nil_r (signs last)), signs_events. reflexivity.
  - destruct H as (_ & _ & A & H). unfold metric_tokens in *. cbn [flat_map fst snd]. rewrite <- !app_assoc, signs_events. cbn [app metric_events].
    destruct a as [w|e]; cbn [atom_text].
    + replace (existsb (text_eqb w) cs) with false; [now apply (IH _ H)|]. symmetry. apply not_true_is_false. rewrite existsb_exists.
      intros (x & J & E). destruct (text_eqb_spec w x) as [->|]; [|discriminate]. destruct A as [_ A]. apply (word_no_colon _ A). auto.
    + replace (existsb (text_eqb (ref_text e)) cs) with true.
      2:{ symmetry. apply existsb_exists. exists (ref_text e). split; [apply I; now left|apply text_eqb_refl]. }
      rewrite ref_parse by exact A. cbn [bind]. rewrite (IH _ H); [reflexivity| |exact C]. intros x J. apply I. right. exact J.
Qed.
Lemma events_dict l : (forall c d, In c l -> In d l -> ref_text c = ref_text d -> c = d) -> forall d s e,
  tget s (fold_left (fun d x => tset (fst x) (snd x) d) (map (fun e => (ref_text e, e)) l) d) = Some e <->
  (In e l /\ s = ref_text e) \/ ((forall c, In c l -> s <> ref_text c) /\ tget s d = Some e).
Proof.
  induction l as [|c l IH]; intros U d s e.
  - cbn. split; [auto|]. intros [[[] _]|[_ H]]. exact H.
  - cbn [map fold_left fst snd]. rewrite IH by (intros; apply U; [now right|now right|assumption]). rewrite tget_tset. split.
    + intros [[I ->]|[N H]]; [left; split; [now right|reflexivity]|]. destruct (text_eqb_spec s (ref_text c)) as [->|M].
      * left. split; [left; congruence|congruence].
      * right. split; [|exact H]. intros x [<-|I]; auto.
    + intros [[[<-|I] ->]|[N H]].
      * destruct (in_dec event_eq_dec c l) as [J|J]; [auto|]. right. split.
        -- intros x I E. apply J. rewrite (U c x); auto; [now left|now right].
        -- now rewrite text_eqb_refl.
      * auto.
      * right. split; [intros x I; apply N; now right|]. now rewrite text_eqb_neq by (apply N; now left).
Qed.
Lemma metric_correct m last : good_metric None m last -> unambiguous m ->
  exists d, parse_perfmetric (metric_text m last) = Ok (metric_tokens m last, d)
    /\ forall s e, tget s d = Some e <-> In e (refs m) /\ s = ref_text e.
Proof.
  intros G (P & U & W). unfold parse_perfmetric. rewrite (find_all m last None) by auto. set (cs := map ref_text (refs m)).
  assert (UT : forall c d, In c (refs m) -> In d (refs m) -> temp_name (ref_text c) = temp_name (ref_text d) -> c = d).
  { intros c d C D E. apply U; auto. rewrite !temp_name_eq in E. now apply app_inv_head in E. }
  assert (N : forall x, In x (temp_names cs) -> exists c, In c (refs m) /\ x = (temp_name (ref_text c), ref_text c)).
  { intros x I. apply temp_names_entries in I as [[]|(pc & I & ->)]. apply in_map_iff in I as (c & <- & I). eauto. }
  assert (NG : forall c, In c (refs m) -> tget (temp_name (ref_text c)) (temp_names cs) = Some (ref_text c)).
  { intros c C. apply temp_names_get; [|left; now apply in_map]. intros q I E. apply in_map_iff in I as (d & <- & D). now rewrite (UT d c). }
  assert (R : replace_counters (temp_names cs) (metric_text m last) = partly all m last).
  { rewrite <- partly_none, (replace_names m last G P _ _ N). apply partly_ext. intros e I. cbn [orb]. unfold all.
    apply existsb_exists. exists (temp_name (ref_text e), ref_text e). split; [|apply text_eqb_refl].
    now apply tget_in, NG. }
  rewrite R, (tokens_all m last None G).
  assert (X : map (rename (temp_names cs)) (flat_map (fun x => signs (fst x) ++ [Word (shown all (snd x))]) m ++ signs last) = metric_tokens m last).
  { rewrite map_app, signs_rename. unfold metric_tokens. f_equal. clear R N.
    assert (K : forall g w, In (g, Name w) m -> tget w (temp_names cs) = None).
    { intros g w I. apply tget_none. intros J. apply in_map_iff in J as ([k v] & E & J). cbn in E. subst k.
      apply temp_names_entries in J as [[]|(pc & J & E)]. injection E as -> ->. apply in_map_iff in J as (c & <- & J).
      apply (W g (temp_name (ref_text c)) c I J). apply temp_name_eq. }
    assert (KR : forall e, In e (refs m) -> rename (temp_names cs) (Word (temp_name (ref_text e))) = Word (ref_text e)).
    { intros e I. cbn [rename]. now rewrite NG. }
    revert K KR. generalize (temp_names cs). clear. intros names K KR. induction m as [|[g a] m IH]; [reflexivity|]. cbn [flat_map fst snd].
    rewrite !map_app, signs_rename, IH.
    - cbn [map]. destruct a as [w|e]; cbn [shown atom_text]; [cbn [rename]; rewrite (K g w) by (now left); reflexivity|].
      unfold all. rewrite KR by (now left). reflexivity.
    - intros g' w I. apply (K g'). now right.
    - intros e I. apply KR. apply in_or_app. now right. }
  rewrite X, (events_all cs m last None G); [|apply incl_refl|].
  2:{ intros c I. apply in_map_iff in I as (e & <- & _). apply ref_colon. }
  cbn [bind]. eexists. split; [reflexivity|]. intros s e. rewrite events_dict.
  - split; [intros [H|[_ H]]; [exact H|discriminate]|auto].
  - intros c d C D E. apply ref_inj; [now apply (metric_refs m last None)..|assumption].
Qed.

(** ** C74 *)
Lemma is_event_name_spec e : is_event_name e = true <-> good_event e.
Proof.
  unfold is_event_name, good_event. destruct e as [|c e]; [split; [discriminate|intros [[] _]; reflexivity]|].
  rewrite forallb_forall, Forall_forall. split.
  - intros H. split; [discriminate|]. intros x I. now apply event_char_spec, H.
  - intros [_ H] x I. now apply event_char_spec, H.
Qed.
Lemma name_char_spec c : name_char c = true <-> in_name c.
Proof. unfold name_char, in_name. chars. now rewrite is_upper_spec, is_digit_spec. Qed.
Lemma some_of_spec p P s : (forall c, p c = true <-> P c) -> some_of p s = true <-> s <> [] /\ Forall P s.
Proof.
  intros H. unfold some_of. destruct s as [|c s]; [split; [discriminate|intros [[] _]; reflexivity]|]. rewrite forallb_forall, Forall_forall.
  split; [intros K; split; [discriminate|]|intros [_ K]]; intros x I; now apply H, K.
Qed.
Lemma hex_char_spec c : hex_char c = true <-> digit c \/ 97 <= c <= 102 \/ 65 <= c <= 70 \/ c = 120.
Proof. unfold hex_char. chars. rewrite is_digit_spec. tauto. Qed.
Lemma is_option_spec p : is_option p = true <-> good_option p.
Proof.
  unfold is_option, good_option. split.
  - destruct (split 61 p) as [|n [|v [|? ?]]] eqn:E; try discriminate. intros H. apply andb_true_iff in H as [A B].
    apply (some_of_spec _ _ _ name_char_spec) in A as [A1 A2]. apply (some_of_spec _ _ _ hex_char_spec) in B as [B1 B2].
    exists n, v. repeat split; auto. rewrite <- (join_split 61 p), E. reflexivity.
  - intros (n & v & -> & A1 & A2 & B1 & B2).
    assert (NI : ~ In 61 n). { intros I. rewrite Forall_forall in A2. apply A2 in I. unfold in_name in I. ranges. intuition lia. }
    assert (VI : ~ In 61 v). { intros I. rewrite Forall_forall in B2. apply B2 in I. ranges. intuition lia. }
    rewrite split_app, split_single by assumption. apply andb_true_iff. split.
    + now apply (some_of_spec _ _ _ name_char_spec).
    + now apply (some_of_spec _ _ _ hex_char_spec).
Qed.
Lemma option_no_colon p : good_option p -> ~ In 58 p.
Proof.
  intros (n & v & -> & _ & A & _ & B) I. rewrite Forall_forall in A, B. apply in_app_or in I as [I|[I|I]].
  - apply A in I. unfold in_name in I. ranges. intuition lia.
  - discriminate.
  - apply B in I. ranges. intuition lia.
Qed.
Lemma name_no_colon n : Forall in_name n -> ~ In 58 n.
Proof. intros A I. rewrite Forall_forall in A. apply A in I. unfold in_name in I. ranges. intuition lia. Qed.
Lemma good_register_name r : good_register r -> is_register_name r = true.
Proof.
  intros (c & n & ps & -> & C & N & P). unfold is_register_name.
  assert (CN : Forall in_name (c :: n)) by (constructor; [now left|assumption]).
  rewrite split_join; [|discriminate|].
  - apply andb_true_iff. split; [now apply (some_of_spec _ _ _ name_char_spec)|]. apply forallb_forall. intros p I. apply is_option_spec.
    rewrite Forall_forall in P. auto.
  - intros p [<-|I]; [now apply name_no_colon|]. rewrite Forall_forall in P. now apply option_no_colon, P.
Qed.
Lemma register_no_number r c : good_register r -> hd_error r = Some c -> c <> 73 -> c <> 78 -> py_float r = None.
Proof.
  intros (d & n & ps & -> & C & N & P) H I K. rewrite join_ptext in *. cbn [app hd_error] in *. injection H as ->.
  apply name_not_float; auto. intros x J.
  assert (x <> 9 /\ 32 < x) as [_ L]; [|unfold is_space; apply orb_false_iff; split; apply andb_false_iff; right; apply N.leb_gt; lia].
  rewrite Forall_forall in N, P. apply in_app_or in J as [J|J].
  - apply N in J. unfold in_name in J. ranges. intuition lia.
  - apply in_flat_map in J as (p & IP & [J|J]); [subst; lia|]. destruct (P p IP) as (a & b & -> & _ & A & _ & B). rewrite Forall_forall in A, B.
    apply in_app_or in J as [J|[J|J]]; [apply A in J; unfold in_name in J; ranges; intuition lia|subst; lia|apply B in J; ranges; intuition lia].
Qed.
Lemma counter_value_spec s n : counter_value s = Some n <-> count_of_field s n.
Proof.
  unfold counter_value, count_of_field. destruct (text_eqb_spec s (codes "-")) as [->|A]; cbn [orb].
  - split; [intros [= <-]; auto|]. intros [[_ ->]|[[_ ->]|H]]; [reflexivity..|]. discriminate.
  - destruct (text_eqb_spec s (codes "nan")) as [->|B]; cbn [orb].
    + split; [intros [= <-]; auto|]. intros [[_ ->]|[[_ ->]|H]]; [reflexivity..|]. discriminate.
    + split; [auto|]. intros [[-> _]|[[-> _]|H]]; [easy|easy|exact H].
Qed.
(** What one line changes *)
Lemma read_line_other line k results results' : read_line results line = Ok results' -> ~ begins_with [k] line -> tget k results' = tget k results.
Proof.
  unfold read_line, begins_with. intros H N. destruct (split 44 line) as [|j [|v rest]]; [congruence|congruence|].
  assert (M : text_eqb k j = false) by (apply text_eqb_neq; intros ->; apply N; now exists (v :: rest)).
  assert (T : forall x, tget k (tset j x results) = tget k results) by (intros x; rewrite tget_tset; now rewrite M).
  destruct (py_float v); [injection H as <-; apply T|].
  assert (I : tget k (if ends_with_colon j && match rest with [[]] => true | _ => false end then tset j (Label v) results else results) = tget k results).
  { destruct (ends_with_colon j && _); [apply T|reflexivity]. }
  destruct rest as [|c rest]; [injection H as <-; exact I|]. destruct (counter_value c); [|injection H as <-; exact I].
  destruct (is_event_name j && is_register_name v); [|injection H as <-; exact I].
  destruct (tget j results) as [[| | |]|]; try discriminate; injection H as <-; apply T.
Qed.
Lemma read_lines_other lines k : forall results results', read_lines results lines = Ok results' ->
  (forall l, In l lines -> ~ begins_with [k] l) -> tget k results' = tget k results.
Proof.
  induction lines as [|l lines IH]; cbn [read_lines]; intros results results' H N; [congruence|].
  destruct (read_line results l) as [r|] eqn:E; [|discriminate]. cbn [bind] in H. rewrite (IH _ _ H) by (intros; apply N; now right).
  apply (read_line_other l); [assumption|]. apply N. now left.
Qed.
Lemma read_lines_app a b results : read_lines results (a ++ b) = bind (read_lines results a) (fun r => read_lines r b).
Proof.
  revert results. induction a as [|l a IH]; intros results; [reflexivity|]. cbn [app read_lines]. destruct (read_line results l); cbn [bind]; [apply IH|reflexivity].
Qed.
Lemma read_metric text before line after k v x results : split 10 text = before ++ line :: after ->
  begins_with [k; v] line -> py_float v = Some x -> (forall l, In l after -> ~ begins_with [k] l) ->
  read_output text = Ok results -> tget k results = Some (Number x).
Proof.
  unfold read_output. intros -> [rest L] F N H. rewrite read_lines_app in H.
  destruct (read_lines _ before) as [r|]; [|discriminate]. cbn [bind read_lines] in H. unfold read_line at 1 in H. rewrite L in H. cbn [app] in H.
  rewrite F in H. cbn [bind] in H. rewrite (read_lines_other _ k _ _ H) by assumption. rewrite tget_tset. now rewrite text_eqb_refl.
Qed.
(** Counters stay until they are read again. *)
Definition counted (e r : text) (n : Z) (results : tdict result) : Prop := exists d, tget e results = Some (Counts d) /\ tget r d = Some n.
Lemma event_no_colon e : good_event e -> ends_with_colon e = false.
Proof.
  intros [_ H]. unfold ends_with_colon. destruct (rev e) as [|c l] eqn:E; [reflexivity|].
  assert (I : In c e) by (apply in_rev; rewrite E; now left). rewrite Forall_forall in H. apply H in I.
  assert (c <> 58) by (ranges; intuition lia). destruct c as [|q]; [easy|]. do 6 (destruct q as [q|q|]; try easy).
Qed.
Lemma counted_kept e r n line results results' : good_event e -> read_line results line = Ok results' -> counted e r n results ->
  ~ begins_with [e; r] line -> (forall v, begins_with [e; v] line -> py_float v = None) -> counted e r n results'.
Proof.
  intros G H (d & D & R) N F. destruct (split 44 line) as [|j [|v rest]] eqn:L.
  - unfold read_line in H. rewrite L in H. injection H as <-. now exists d.
  - unfold read_line in H. rewrite L in H. injection H as <-. now exists d.
  - destruct (text_dec j e) as [->|M].
    + assert (V : py_float v = None) by (apply F; now exists rest).
      assert (RV : r <> v) by (intros ->; apply N; now exists rest).
      unfold read_line in H. rewrite L, V, (event_no_colon e G) in H. cbn [andb] in H.
      destruct rest as [|c rest]; [injection H as <-; now exists d|]. destruct (counter_value c) as [z|]; [|injection H as <-; now exists d].
      rewrite D in H. destruct (is_event_name e && is_register_name v); injection H as <-; [|now exists d].
      exists (tset v z d). rewrite tget_tset, text_eqb_refl, tget_tset, text_eqb_neq by assumption. auto.
    + exists d. split; [|exact R]. rewrite (read_line_other line e results results' H); [exact D|]. intros [t E]. rewrite L in E. injection E as E _. congruence.
Qed.
Lemma counted_kept_lines e r n lines : good_event e -> forall results results', read_lines results lines = Ok results' -> counted e r n results ->
  (forall l, In l lines -> ~ begins_with [e; r] l) -> (forall l v, In l lines -> begins_with [e; v] l -> py_float v = None) -> counted e r n results'.
Proof.
  intros G. induction lines as [|l lines IH]; cbn [read_lines]; intros results results' H C N F; [now replace results' with results by congruence|].
  destruct (read_line results l) as [x|] eqn:E; [|discriminate]. cbn [bind] in H. apply (IH x results' H).
  - apply (counted_kept e r n l results x G E C); [apply N; now left|]. intros v. apply F. now left.
  - intros y I. apply N. now right.
  - intros y v I. apply F. now right.
Qed.
Lemma read_counter text before line after e r s n results : split 10 text = before ++ line :: after ->
  begins_with [e; r; s] line -> good_event e -> good_register r -> py_float r = None -> count_of_field s n ->
  (forall l, In l after -> ~ begins_with [e; r] l) -> (forall l v, In l after -> begins_with [e; v] l -> py_float v = None) ->
  read_output text = Ok results -> counted e r n results.
Proof.
  unfold read_output. intros -> [rest L] GE GR F S0 N NF H. rewrite read_lines_app in H.
  destruct (read_lines _ before) as [x|]; [|discriminate]. cbn [bind read_lines] in H. unfold read_line at 1 in H. rewrite L in H. cbn [app] in H.
  rewrite F in H. rewrite (proj2 (counter_value_spec s n) S0), (proj2 (is_event_name_spec e) GE), (good_register_name r GR) in H. cbn [andb] in H.
  assert (K : forall d, counted e r n (tset e (Counts (tset r n d)) x)).
  { intros d. exists (tset r n d). rewrite tget_tset, text_eqb_refl, tget_tset, text_eqb_refl. auto. }
  destruct (tget e x) as [[| |d|]|]; try discriminate; cbn [bind] in H; refine (counted_kept_lines e r n after GE _ _ H _ N NF); [apply K|apply (K [])].
Qed.
(** Nothing else is read. *)
Definition origin (lines : list text) (results : tdict result) : Prop :=
  (forall k x, tget k results = Some (Number x) -> exists l v, In l lines /\ begins_with [k; v] l /\ py_float v = Some x)
  /\ (forall e d r n, tget e results = Some (Counts d) -> tget r d = Some n -> exists l s, In l lines /\ begins_with [e; r; s] l /\ count_of_field s n).
Lemma read_line_origin lines line results results' : In line lines -> origin lines results -> read_line results line = Ok results' -> origin lines results'.
Proof.
  intros I [A B] H. unfold read_line in H. destruct (split 44 line) as [|j [|v rest]] eqn:L; [injection H as <-; now split..|].
  destruct (py_float v) as [x|] eqn:F.
  - injection H as <-. split.
    + intros k y. rewrite tget_tset. destruct (text_eqb_spec k j) as [->|M]; [|apply A]. intros [= <-]. exists line, v. repeat split; auto. now exists rest.
    + intros e d r n. rewrite tget_tset. destruct (text_eqb_spec e j) as [->|M]; [discriminate|apply B].
  - assert (K : origin lines (if ends_with_colon j && match rest with [[]] => true | _ => false end then tset j (Label v) results else results)).
    { destruct (ends_with_colon j && _); [|now split]. split.
      - intros k y. rewrite tget_tset. destruct (text_eqb_spec k j) as [->|M]; [discriminate|apply A].
      - intros e d r n. rewrite tget_tset. destruct (text_eqb_spec e j) as [->|M]; [discriminate|apply B]. }
    destruct rest as [|c rest]; [injection H as <-; exact K|]. destruct (counter_value c) as [z|] eqn:C; [|injection H as <-; exact K].
    destruct (is_event_name j && is_register_name v); [|injection H as <-; exact K].
    assert (Z0 : exists l s, In l lines /\ begins_with [j; v; s] l /\ count_of_field s z).
    { exists line, c. repeat split; [assumption|now exists rest|now apply counter_value_spec]. }
    destruct (tget j results) as [[| |d0|]|] eqn:T; try discriminate; injection H as <-; split.
    + intros k y. rewrite tget_tset. destruct (text_eqb_spec k j) as [->|M]; [discriminate|apply A].
    + intros e d r n. rewrite tget_tset. destruct (text_eqb_spec e j) as [->|M]; [|apply B]. intros [= <-]. rewrite tget_tset.
      destruct (text_eqb_spec r v) as [->|M]; [intros [= <-]; exact Z0|]. now apply B.
    + intros k y. rewrite tget_tset. destruct (text_eqb_spec k j) as [->|M]; [discriminate|apply A].
    + intros e d r n. rewrite tget_tset. destruct (text_eqb_spec e j) as [->|M]; [|apply B]. intros [= <-]. cbn [tget].
      destruct (text_eqb_spec r v) as [->|M]; [intros [= <-]; exact Z0|discriminate].
Qed.
Lemma read_lines_origin lines part : incl part lines -> forall results results', origin lines results -> read_lines results part = Ok results' -> origin lines results'.
Proof.
  induction part as [|l part IH]; cbn [read_lines]; intros I results results' O H; [now replace results' with results by congruence|].
  destruct (read_line results l) as [x|] eqn:E; [|discriminate]. cbn [bind] in H. apply (IH (fun y J => I y (or_intror J)) x); [|assumption].
  apply (read_line_origin lines l results); auto. apply I. now left.
Qed.
Lemma read_sound text results : read_output text = Ok results -> origin (split 10 text) results.
Proof.
  unfold read_output. intros H. refine (read_lines_origin _ _ (incl_refl _) _ _ _ H). split.
  - intros k x. cbn [tget]. destruct (text_eqb k _); discriminate.
  - intros e d r n. cbn [tget]. destruct (text_eqb e _); discriminate.
Qed.
(** Reading succeeds if no event has both a number and a count. *)
Definition kinds (results : tdict result) : Prop :=
  (forall k s, tget k results = Some (Label s) -> ends_with_colon k = true) /\ (forall k l, tget k results = Some (Raw l) -> k = codes "raw output").
Lemma kinds_set k x results : kinds results -> match x with Label _ => ends_with_colon k = true | Raw _ => k = codes "raw output" | _ => True end ->
  kinds (tset k x results).
Proof.
  intros [A B] H. split; intros j y; rewrite tget_tset; (destruct (text_eqb_spec j k) as [->|N]; [|eauto]); intros [= ->]; exact H.
Qed.
Lemma read_defined text :
  (forall e l v x l' w s n, In l (split 10 text) -> In l' (split 10 text) -> good_event e -> begins_with [e; v] l -> py_float v = Some x ->
     begins_with [e; w; s] l' -> py_float w = None -> count_of_field s n -> False) ->
  exists results, read_output text = Ok results.
Proof.
  unfold read_output. set (lines := split 10 text). intros H.
  assert (K : forall part results, incl part lines -> origin lines results -> kinds results -> exists r, read_lines results part = Ok r).
  { induction part as [|l part IH]; intros results I O Y; [eexists; reflexivity|]. cbn [read_lines].
    assert (L : In l lines) by (apply I; now left). assert (X : exists r, read_line results l = Ok r /\ kinds r).
    { unfold read_line. destruct (split 44 l) as [|j [|v rest]] eqn:E; [eauto..|]. destruct (py_float v) as [x|] eqn:F.
      - eexists. split; [reflexivity|]. now apply kinds_set.
      - assert (Z0 : kinds (if ends_with_colon j && match rest with [[]] => true | _ => false end then tset j (Label v) results else results)).
        { destruct (ends_with_colon j) eqn:EC; cbn [andb]; [|exact Y]. destruct (match rest with [[]] => true | _ => false end); [|exact Y]. now apply kinds_set. }
        destruct rest as [|c rest]; [eauto|]. destruct (counter_value c) as [z|] eqn:C; [|eauto].
        destruct (is_event_name j) eqn:EN; cbn [andb]; [|eauto]. destruct (is_register_name v); [|eauto]. apply is_event_name_spec in EN.
        destruct (tget j results) as [[x|s|d|q]|] eqn:T.
        + exfalso. destruct O as [O _]. destruct (O j x T) as (l' & v' & I' & B' & F').
          apply (H j l' v' x l v c z I' L EN B' F'); [now exists rest|assumption|now apply counter_value_spec].
        + exfalso. destruct Y as [Y _]. apply Y in T. now rewrite event_no_colon in T.
        + eexists. split; [reflexivity|]. now apply kinds_set.
        + exfalso. destruct Y as [_ Y]. apply Y in T. subst j. destruct EN as [_ EN]. rewrite Forall_forall in EN.
          specialize (EN 114 (or_introl eq_refl)). ranges. intuition lia.
        + eexists. split; [reflexivity|]. now apply kinds_set. }
    destruct X as (r & X & R). rewrite X. cbn [bind]. apply IH; [intros y J; apply I; now right| |assumption].
    apply (read_line_origin lines l results r L O X). }
  apply K; [apply incl_refl| |].
  - split; [intros k x|intros e d r n]; cbn [tget]; destruct (text_eqb _ _); discriminate.
  - split; [intros k s|intros k l]; cbn [tget]; destruct (text_eqb_spec k (codes "raw output")) as [->|N]; intros T; try discriminate. reflexivity.
Qed.
Lemma read_line_nodup line results results' : read_line results line = Ok results' -> NoDup (map fst results) -> NoDup (map fst results').
Proof.
  unfold read_line. intros H N. assert (T : forall k x, NoDup (map fst (tset k x results))) by (intros; now apply tset_nodup).
  destruct (split 44 line) as [|j [|v rest]]; [injection H as <-; exact N..|]. destruct (py_float v); [injection H as <-; apply T|].
  assert (I : NoDup (map fst (if ends_with_colon j && match rest with [[]] => true | _ => false end then tset j (Label v) results else results))).
  { destruct (ends_with_colon j && _); [apply T|exact N]. }
  destruct rest as [|c rest]; [injection H as <-; exact I|]. destruct (counter_value c); [|injection H as <-; exact I].
  destruct (is_event_name j && is_register_name v); [|injection H as <-; exact I].
  destruct (tget j results) as [[| | |]|]; try discriminate; injection H as <-; apply T.
Qed.
Lemma read_nodup text results : read_output text = Ok results -> NoDup (map fst results).
Proof.
  unfold read_output. set (lines := split 10 text). clearbody lines. assert (N : NoDup (map fst [(codes "raw output", Raw lines)])) by (repeat constructor; intros []).
  revert N. generalize [(codes "raw output", Raw lines)]. induction lines as [|l lines IH]; cbn [read_lines]; intros r N H; [now replace results with r by congruence|].
  destruct (read_line r l) as [x|] eqn:E; [|discriminate]. cbn [bind] in H. apply (IH x); [|assumption]. now apply (read_line_nodup l r).
Qed.

(** ** C75 *)
Lemma ordered_not_colon i : nth i ordered_chars 0 <> 58.
Proof.
  assert (H : forallb (fun c => negb (c =? 58)) ordered_chars = true) by reflexivity. rewrite forallb_forall in H.
  destruct (nth_in_or_default i ordered_chars 0) as [I|E]; [|now rewrite E]. apply H in I. intros E. now rewrite E in I.
Qed.
Lemma group_not_colon n : forall g, (length g <= n)%nat -> ~ In 58 g -> ~ In 58 (group_iterator g).
Proof.
  induction n as [|n IH]; intros g L N; [destruct g; [auto|cbn in L; lia]|]. destruct g as [|a rest]; [auto|].
  assert (S0 : ~ In 58 ((if a =? 10 then [] else [a]) ++ group_iterator rest)).
  { intros I. apply in_app_or in I as [I|I].
    - destruct (a =? 10); [easy|]. destruct I as [->|[]]. apply N. now left.
    - apply IH in I; [auto|cbn in L; lia|]. intros J. apply N. now right. }
  cbn [group_iterator]. destruct rest as [|d [|b r]]; [exact S0..|]. destruct (alnum a && (d =? 45) && alnum b); [|exact S0].
  intros I. apply in_app_or in I as [I|I].
  - unfold char_range in I. apply in_map_iff in I as (i & E & _). now apply ordered_not_colon in E.
  - apply IH in I; [auto|cbn in L; lia|]. intros J. apply N. right. right. now right.
Qed.
Lemma bracket_parts u : forall g t, until_bracket u = Some (g, t) -> u = g ++ 93 :: t.
Proof.
  induction u as [|c r IH]; cbn; intros g t H; [discriminate|]. destruct (N.eqb_spec c 93) as [->|N]; [now injection H as <- <-|].
  destruct (until_bracket r) as [[g' t']|]; [|discriminate]. injection H as <- <-. cbn. now rewrite (IH g' t').
Qed.
Lemma token_not_colon u cs t : match_token u = Some (cs, t) -> ~ In 58 u -> ~ In 58 cs /\ ~ In 58 t /\ (length t < length u)%nat.
Proof.
  destruct u as [|c r]; [discriminate|]. cbn [match_token]. intros H N.
  assert (S0 : (if c =? 10 then None else Some ([c], r)) = Some (cs, t) -> ~ In 58 cs /\ ~ In 58 t /\ (length t < length (c :: r))%nat).
  { destruct (c =? 10); [discriminate|]. intros [= <- <-]. repeat split; [intros [E|[]]; apply N; now left|intros I; apply N; now right|cbn; lia]. }
  destruct (c =? 91); [|auto]. destruct (until_bracket r) as [[[|x g] u]|] eqn:E; auto. assert (cs = group_iterator (x :: g) /\ t = u) as [-> ->] by (split; congruence). apply bracket_parts in E. subst r.
  repeat split.
  - apply group_not_colon with (n := length (x :: g)); [auto|]. intros I. apply N. right. apply in_or_app. now left.
  - intros I. apply N. right. apply in_or_app. right. now right.
  - cbn. rewrite app_length. cbn. lia.
Qed.
Lemma gseq_in {A} (l : list (gen A)) y : In y (fst (gseq l)) -> exists g, In g l /\ In y (fst g).
Proof.
  induction l as [|[ys [e|]] l IH]; cbn; [intros []| |].
  - intros I. exists (ys, Some e). auto.
  - destruct (gseq l) as [zs e]. cbn. intros I. apply in_app_or in I as [I|I]; [exists (ys, None); auto|]. destruct (IH I) as (g & G & J). eauto.
Qed.
Lemma join_in c p x l : In p l -> In x p -> In x (join c l).
Proof.
  intros H X. induction l as [|q l IH]; [easy|]. destruct l as [|q' l].
  - destruct H as [->|[]]. exact X.
  - rewrite join_cons by discriminate. apply in_or_app. destruct H as [->|H]; [now left|]. right. right. now apply IH.
Qed.
Lemma rec_not_colon fuel : forall d w, ~ In 58 d -> In w (fst (register_rec fuel d)) -> ~ In 58 w.
Proof.
  induction fuel as [|fuel IH]; intros d w N I; [easy|]. cbn [register_rec] in I. apply gseq_in in I as (g & G & I). apply in_map_iff in G as (u & <- & U).
  assert (NU : ~ In 58 u) by (intros J; apply N; rewrite <- (join_split 124 d); now apply (join_in 124 u)).
  destruct (match_token u) as [[cs [|c t]]|] eqn:E; [| |easy]; apply token_not_colon in E as (C & T & _); [|assumption| |assumption].
  - apply in_map_iff in I as (x & <- & X). intros [->|[]]. auto.
  - apply gseq_in in I as (g & G & I). apply in_map_iff in G as (x & <- & X). cbn in I. apply in_map_iff in I as (y & <- & Y).
    intros [->|J]; [auto|]. now apply (IH _ _ T Y).
Qed.
Lemma options_clean d r : ~ In 58 d -> d <> [] -> In r (fst (register_options d)) -> exists w, r = Some w /\ ~ In 58 w.
Proof.
  intros N E I. unfold register_options in I. destruct d as [|c d]; [easy|]. cbn [gmap fst] in I.
  apply in_map_iff in I as (w & <- & W). exists w. split; [reflexivity|]. now apply rec_not_colon in W.
Qed.
Lemma label_inj r ps r' ps' : colon_free r -> Forall colon_free ps -> colon_free r' -> Forall colon_free ps' ->
  register_label r ps = register_label r' ps' -> r = r' /\ ps = ps'.
Proof.
  intros A B C D E. unfold register_label in E. apply (f_equal (split 58)) in E. rewrite Forall_forall in B, D.
  rewrite !split_join in E; [now injection E as -> ->|discriminate| |discriminate|]; intros p [<-|I]; first [exact A|exact C|now apply B|now apply D].
Qed.
(** *** Results of all runs *)
Lemma merge_from e v l : (forall res, In res l -> NoDup (map fst res)) -> forall d : tdict result, tget e (fold_left tupdate l d) = Some v ->
  tget e d = Some v \/ exists i res, nth_error l i = Some res /\ tget e res = Some v.
Proof.
  induction l as [|x l IH]; intros N d H; [now left|]. cbn [fold_left] in H. apply IH in H; [|intros; apply N; now right].
  destruct H as [H|(i & res & I & H)]; [|right; now exists (S i), res].
  rewrite tget_tupdate in H by (apply N; now left). destruct (tget e x) as [w|] eqn:X; [|now left]. right. exists O, x. split; [reflexivity|congruence].
Qed.
Lemma merge_has e v l : (forall res, In res l -> NoDup (map fst res)) -> forall d : tdict result,
  (forall i res w, nth_error l i = Some res -> tget e res = Some w -> w = v) ->
  (exists i res, nth_error l i = Some res /\ tget e res = Some v) \/ tget e d = Some v -> tget e (fold_left tupdate l d) = Some v.
Proof.
  induction l as [|x l IH]; intros N d U H.
  - destruct H as [(i & res & I & _)|H]; [now destruct i|exact H].
  - cbn [fold_left]. apply IH; [intros; apply N; now right|intros i res w I; exact (U (S i) res w I)|].
    rewrite tget_tupdate by (apply N; now left). destruct H as [([|i] & res & I & H)|H].
    + injection I as ->. right. now rewrite H.
    + left. now exists i, res.
    + right. destruct (tget e x) as [w|] eqn:X; [|exact H]. now rewrite (U O x w eq_refl X).
Qed.
Lemma measurement_nth events runs counts results : measurement events runs counts results -> forall i res, nth_error results i = Some res ->
  exists run count, nth_error runs i = Some run /\ nth_error counts i = Some count /\ reports (map event_name events) count run res.
Proof.
  intros [F L]. revert counts results F L. induction runs as [|run runs IH]; intros [|count counts] results F L i res I; try discriminate.
  - cbn in F. inversion F; subst. now destruct i.
  - cbn [combine] in F. inversion F as [|? y ? ys R F']; subst. destruct i as [|i].
    + injection I as <-. exists run, count. auto.
    + apply (IH counts ys F' ltac:(now injection L) i res I).
Qed.
Lemma measurement_run events runs counts results : measurement events runs counts results -> forall i run, nth_error runs i = Some run ->
  exists res count, nth_error results i = Some res /\ nth_error counts i = Some count /\ reports (map event_name events) count run res.
Proof.
  intros [F L]. revert counts results F L. induction runs as [|r runs IH]; intros [|count counts] results F L i run I; try discriminate.
  - now destruct i.
  - cbn [combine] in F. inversion F as [|? y ? ys R F']; subst. destruct i as [|i].
    + injection I as <-. exists y, count. auto.
    + apply (IH counts ys F' ltac:(now injection L) i run I).
Qed.
Lemma measurement_nodup events runs counts results : measurement events runs counts results -> forall res, In res results -> NoDup (map fst res).
Proof. intros M res I. apply In_nth_error in I as [i I]. destruct (measurement_nth _ _ _ _ M i res I) as (run & count & _ & _ & R). apply R. Qed.
(** *** One symbol *)
Definition labelled (ps : list text) (r : option text) : option text := option_map (fun r => register_label r ps) r.
Lemma last_match_from measured e regs n : forall found, last_match measured e regs found = Ok (Some n) ->
  found = Some n \/ exists r, In r regs /\ measured_value measured e r = Ok (Some n).
Proof.
  induction regs as [|r regs IH]; cbn [last_match]; intros found H; [left; congruence|].
  destruct (measured_value measured e r) as [v|] eqn:M; [|discriminate]. cbn [bind] in H. apply IH in H as [H|(x & I & H)].
  - destruct v as [z|]; [|now left]. right. exists r. split; [now left|congruence].
  - right. exists x. split; [now right|assumption].
Qed.
Lemma last_match_has measured e regs : forall found, (forall r, In r regs -> exists v, measured_value measured e r = Ok v) ->
  (exists r n, In r regs /\ measured_value measured e r = Ok (Some n)) \/ found <> None -> exists n, last_match measured e regs found = Ok (Some n).
Proof.
  induction regs as [|r regs IH]; cbn [last_match]; intros found D H.
  - destruct H as [(r & n & [] & _)|H]. destruct found as [n|]; [now exists n|easy].
  - destruct (D r (or_introl eq_refl)) as [v V]. rewrite V. cbn [bind]. apply IH; [intros x I; apply D; now right|].
    destruct H as [(x & n & [<-|I] & X)|H].
    + right. rewrite V in X. injection X as ->. discriminate.
    + left. eauto.
    + right. destruct v; [discriminate|exact H].
Qed.
Lemma mapM_labels ps regs : (forall r, In r regs -> r <> None) -> ps <> [] ->
  mapM (fun r => match r with Some r => Ok (Some (r ++ 58 :: join 58 ps)) | None => Err TypeError end) regs = Ok (map (labelled ps) regs).
Proof.
  intros N P. induction regs as [|r regs IH]; [reflexivity|]. cbn [mapM map]. destruct r as [r|]; [|exfalso; apply (N None); [now left|reflexivity]].
  cbn [bind]. rewrite IH by (intros x I; apply N; now right). cbn [bind labelled option_map]. unfold register_label. now rewrite join_cons.
Qed.
Lemma match_symbol_eq measured e rs ps : clean_event (e, rs, ps) -> match_symbol measured (e, rs, ps) =
  match snd (register_options rs), ps with
  | Some x, _ :: _ => Err x
  | Some x, [] => do v <- last_match measured e (map (labelled ps) (fst (register_options rs))) None; Err x
  | None, _ => last_match measured e (map (labelled ps) (fst (register_options rs))) None
  end.
Proof.
  intros (C & _ & NE). unfold match_symbol. destruct ps as [|p ps].
  - assert (E : map (labelled []) (fst (register_options rs)) = fst (register_options rs)).
    { rewrite <- (map_id (fst (register_options rs))) at 2. apply map_ext. intros [r|]; reflexivity. }
    rewrite E. destruct (snd (register_options rs)); destruct (last_match _ _ _ _); reflexivity.
  - destruct (snd (register_options rs)); [reflexivity|]. rewrite mapM_labels; [reflexivity| |discriminate].
    intros r I. destruct (options_clean rs r C NE I) as (w & -> & _). discriminate.
Qed.
Lemma schedule_counter events runs i run e r ps : is_schedule events runs -> nth_error runs i = Some run -> In (e, r, ps) run ->
  exists rs, In (e, rs, ps) events /\ In r (registers_of (e, rs, ps)).
Proof.
  intros (a & -> & P & R & _) N I. apply nth_error_In in N. apply in_map_iff in N as (x & <- & X). apply in_map_iff in I as ([[[e' rs] ps'] r'] & E & I).
  cbn in E. injection E as -> -> ->. assert (J : In ((e, rs, ps), r) (concat a)) by (apply in_concat; eauto).
  exists rs. split; [|now apply R]. apply (nodup_In event_eq_dec), (Permutation.Permutation_in _ P). now apply (in_map fst) in J.
Qed.
Lemma schedule_event events runs e rs ps : is_schedule events runs -> In (e, rs, ps) events ->
  exists i run r, nth_error runs i = Some run /\ In (e, r, ps) run /\ In r (registers_of (e, rs, ps)).
Proof.
  intros (a & -> & P & R & _) I. apply (nodup_In event_eq_dec) in I. apply (Permutation.Permutation_in _ (Permutation.Permutation_sym P)) in I.
  apply in_map_iff in I as ([x r] & E & I). cbn in E. subst x. assert (J := R _ _ I). apply in_concat in I as (run & A & I).
  apply (in_map (map measured)) in A. apply In_nth_error in A as [i A]. exists i, (map measured run), r. split; [assumption|]. split; [|assumption].
  now apply (in_map measured) in I.
Qed.
Lemma match_sound fuel events runs counts results e n : build_minimal_runs fuel events = Ok runs -> Forall clean_event events ->
  measurement events runs counts results -> In e events -> match_symbol (merge_results results) e = Ok (Some n) -> genuine runs counts e n.
Proof.
  intros B C M IE0 H. apply runs_correct in B as [B _]. assert (CE : clean_event e) by (rewrite Forall_forall in C; auto).
  assert (NM := in_map event_name _ _ IE0). destruct e as [[ev rs] ps]. cbn [event_name fst] in NM. rewrite match_symbol_eq in H by assumption.
  assert (L : last_match (merge_results results) ev (map (labelled ps) (fst (register_options rs))) None = Ok (Some n)).
  { destruct (snd (register_options rs)); [|exact H]. destruct ps; [|discriminate]. destruct (last_match _ _ _ _); discriminate. }
  apply last_match_from in L as [L|(x & I & L)]; [discriminate|]. apply in_map_iff in I as (r & <- & I).
  destruct CE as (CR & CP & NE). destruct (options_clean rs r CR NE I) as (w & -> & W). cbn [labelled option_map] in L.
  unfold measured_value in L. destruct (tget ev (merge_results results)) as [[| |d|]|] eqn:G; try discriminate. injection L as L.
  apply merge_from in G; [|now apply (measurement_nodup events runs counts)]. destruct G as [G|(i & res & R & G)]; [discriminate|].
  destruct (measurement_nth _ _ _ _ M i res R) as (run & count & RN & CN & (_ & RP & RE)).
  destruct (List.in_dec (fun a b => text_dec a b) ev (map (fun c => fst (fst c)) run)) as [J|J].
  2:{ exfalso. rewrite (RE ev NM) in G; [discriminate|]. intros (r' & ps' & K). apply J. now apply (in_map (fun c => fst (fst c))) in K. }
  apply in_map_iff in J as ([[e' r0] ps0] & E & J). cbn in E. subst e'. destruct (RP ev) as (d' & D & K); [eauto|].
  assert (d' = d) by congruence. subst d'. apply K in L as (r' & ps' & IR & E & ->).
  destruct (schedule_counter events runs i run ev (Some r') ps' B RN IR) as (rs' & IE & IO).
  rewrite Forall_forall in C. destruct (C _ IE) as (CR' & CP' & NE'). destruct (options_clean rs' (Some r') CR' NE' IO) as (w' & [= <-] & W').
  apply label_inj in E as [-> ->]; auto. exists i, run, count, r'. auto.
Qed.
Lemma match_complete fuel events runs counts results e : build_minimal_runs fuel events = Ok runs -> Forall clean_event events ->
  (forall e, In e events -> usable e) -> measurement events runs counts results -> one_run_each runs -> In e events ->
  exists n, match_symbol (merge_results results) e = Ok (Some n) /\ genuine runs counts e n.
Proof.
  intros B C U M O I. assert (B' := B). apply runs_correct in B as [B _]. assert (CE : clean_event e) by (rewrite Forall_forall in C; auto).
  assert (H : exists n, match_symbol (merge_results results) e = Ok (Some n)).
  2:{ destruct H as [n H]. exists n. split; [exact H|]. now apply (match_sound fuel events runs counts results). }
  assert (NM := in_map event_name _ _ I). destruct e as [[ev rs] ps]. cbn [event_name fst] in NM. rewrite match_symbol_eq by assumption. destruct (U _ I) as [_ ->].
  destruct (schedule_event events runs ev rs ps B I) as (i & run & r & RN & IR & IO).
  destruct CE as (CR & CP & NE). destruct (options_clean rs r CR NE IO) as (w & -> & W).
  destruct (measurement_run _ _ _ _ M i run RN) as (res & count & RS & CN & RP). assert (RP' := RP). destruct RP' as (_ & RC & RE).
  destruct (RC ev) as (d & D & K); [eauto|].
  assert (G : tget ev (merge_results results) = Some (Counts d)).
  { apply merge_has; [now apply (measurement_nodup events runs counts)| |left; eauto]. intros j res' w' J W'.
    destruct (measurement_nth _ _ _ _ M j res' J) as (run' & count' & RN' & CN' & (_ & RC' & RE')).
    destruct (List.in_dec (fun a b => text_dec a b) ev (map (fun c => fst (fst c)) run')) as [A|A].
    - apply in_map_iff in A as ([[e' r0] ps0] & E & A). cbn in E. subst e'.
      assert (i = j) by (apply (O i j run run' ev (Some w) ps r0 ps0); auto). subst j. assert (X : Some res' = Some res) by (etransitivity; [symmetry; exact J|exact RS]). injection X as ->. assert (X : Some w' = Some (Counts d)) by (etransitivity; [symmetry; exact W'|exact D]). congruence.
    - rewrite (RE' ev NM) in W'; [discriminate|]. intros (r' & ps' & X). apply A. now apply (in_map (fun c => fst (fst c))) in X. }
  apply last_match_has.
  - intros x _. unfold measured_value. rewrite G. eauto.
  - left. exists (labelled ps (Some w)), (count (ev, Some w, ps)). split; [now apply in_map|]. unfold measured_value. rewrite G. cbn [labelled option_map].
    f_equal. apply K. exists w, ps. auto.
Qed.
Lemma nodup_concat_index {A B} (a : list (list (A * B))) : NoDup (map fst (concat a)) -> forall i j x y e r s,
  nth_error a i = Some x -> nth_error a j = Some y -> In (e, r) x -> In (e, s) y -> i = j.
Proof.
  induction a as [|l a IH]; intros N i j x y e r s I J X Y; [now destruct i|].
  cbn [concat] in N. rewrite map_app in N. assert (K : forall z t, In (e, z) l -> In t a -> forall u, In (e, u) t -> False).
  { intros z t Z T u U. assert (In e (map fst l)) by (now apply (in_map fst) in Z). assert (In e (map fst (concat a))).
    { apply (in_map fst (concat a) (e, u)). apply in_concat. eauto. }
    clear - N H H0. induction (map fst l) as [|q l' IHl]; [easy|]. cbn in N. inversion_clear N as [|? ? M D]. destruct H as [->|H]; [|now apply IHl].
    apply M. apply in_or_app. now right. }
  destruct i as [|i], j as [|j]; [reflexivity| | |].
  - injection I as <-. cbn [nth_error] in J. apply nth_error_In in J. destruct (K r y X J s Y).
  - injection J as <-. cbn [nth_error] in I. apply nth_error_In in I. destruct (K s x Y I r X).
  - f_equal. refine (IH _ i j x y e r s I J X Y). clear - N. induction (map fst l) as [|q l' IHl]; [exact N|]. inversion_clear N. auto.
Qed.
Lemma distinct_names fuel events runs : build_minimal_runs fuel events = Ok runs ->
  (forall e r1 ps1 r2 ps2, In (e, r1, ps1) events -> In (e, r2, ps2) events -> r1 = r2 /\ ps1 = ps2) -> one_run_each runs.
Proof.
  intros B D i j x y e r1 ps1 r2 ps2 I J X Y. apply runs_correct in B as [(a & -> & P & _ & _) _].
  assert (N : NoDup (map fst (concat a))) by (apply (Permutation.Permutation_NoDup (Permutation.Permutation_sym P)), NoDup_nodup).
  rewrite nth_error_map in I, J. destruct (nth_error a i) as [u|] eqn:AI; [|discriminate]. destruct (nth_error a j) as [v|] eqn:AJ; [|discriminate].
  injection I as <-. injection J as <-. apply in_map_iff in X as ([[[e1 s1] q1] t1] & E1 & X). apply in_map_iff in Y as ([[[e2 s2] q2] t2] & E2 & Y).
  cbn in E1, E2. injection E1 as -> -> ->. injection E2 as -> -> ->.
  assert (IN : forall k w c, nth_error a k = Some w -> In c w -> In (fst c) events).
  { intros k w c K W. apply (nodup_In event_eq_dec), (Permutation.Permutation_in _ P), in_map, in_concat. exists w. split; [now apply nth_error_In in K|assumption]. }
  assert (A1 := IN i u _ AI X). assert (A2 := IN j v _ AJ Y). cbn [fst] in A1, A2. destruct (D e s1 ps1 s2 ps2 A1 A2) as [-> ->].
  apply (nodup_concat_index a N i j u v (e, s2, ps2) r1 r2 AI AJ X Y).
Qed.

(** *** All symbols of a metric *)
Lemma symbols_values measured counters d : match_symbols measured counters = Ok d -> NoDup (map fst counters) ->
  forall s n, tget s d = Some n <-> exists e, In (s, e) counters /\ match_symbol measured e = Ok (Some n).
Proof.
  revert d. induction counters as [|[k c] counters IH]; cbn [match_symbols]; intros d H N s n.
  - replace d with (@nil (text * Z)) by congruence. split; [discriminate|intros (e & [] & _)].
  - destruct (match_symbol measured c) as [v|] eqn:V; [|discriminate]. cbn [bind] in H.
    destruct (match_symbols measured counters) as [d'|] eqn:D; [|discriminate]. cbn [bind] in H. cbn [map] in N. inversion_clear N as [|? ? NI N'].
    assert (R : tget s d' = Some n <-> exists e, In (s, e) counters /\ match_symbol measured e = Ok (Some n)) by (apply (IH d' eq_refl N')).
    assert (K : (exists e, In (s, e) ((k, c) :: counters) /\ match_symbol measured e = Ok (Some n)) <-> s = k /\ v = Some n \/ tget s d' = Some n).
    { split.
      - intros (e & [I|I] & M); [injection I as -> ->; left; split; [reflexivity|congruence]|right; apply R; eauto].
      - intros [[-> ->]|T]; [exists c; split; [now left|exact V]|]. apply R in T as (e & I & M). exists e. split; [now right|exact M]. }
    rewrite K. destruct v as [z|].
    + replace d with ((k, z) :: d') by congruence. cbn [tget]. destruct (text_eqb_spec s k) as [->|NE].
      * split; [intros [= ->]; auto|]. intros [[_ [= ->]]|T]; [reflexivity|]. apply R in T as (e & I & _). destruct NI. apply (in_map fst) in I. exact I.
      * split; [auto|]. intros [[-> _]|T]; [easy|exact T].
    + replace d with d' by congruence. split; [auto|]. intros [[_ T]|T]; [discriminate|exact T].
Qed.
Lemma symbols_defined measured counters : (forall s e, In (s, e) counters -> exists v, match_symbol measured e = Ok v) -> exists d, match_symbols measured counters = Ok d.
Proof.
  induction counters as [|[k c] counters IH]; intros H; [eexists; reflexivity|]. cbn [match_symbols].
  destruct (H k c (or_introl eq_refl)) as [v ->]. cbn [bind]. destruct IH as [d ->]; [intros s e I; apply (H s e); now right|]. eexists. reflexivity.
Qed.

(** *** From the output to the results *)
Lemma begins_dec fields line : {begins_with fields line} + {~ begins_with fields line}.
Proof.
  unfold begins_with. destruct (list_eq_dec text_dec (firstn (length fields) (split 44 line)) fields) as [E|N].
  - left. exists (skipn (length fields) (split 44 line)). rewrite <- E at 1. symmetry. apply firstn_skipn.
  - right. intros [rest E]. apply N. rewrite E, firstn_app, Nat.sub_diag, firstn_all, firstn_O. apply app_nil_r.
Qed.
Lemma last_line fields lines : (exists l, In l lines /\ begins_with fields l) ->
  exists before l after, lines = before ++ l :: after /\ begins_with fields l /\ forall x, In x after -> ~ begins_with fields x.
Proof.
  induction lines as [|l lines IH]; intros (x & I & B); [easy|].
  destruct (Exists_dec (begins_with fields) lines (begins_dec fields)) as [E|N].
  - rewrite Exists_exists in E. destruct (IH E) as (before & y & after & -> & Y & A). exists (l :: before), y, after. auto.
  - exists [], l, lines. split; [reflexivity|]. rewrite Exists_exists in N. split.
    + destruct I as [->|I]; [exact B|]. exfalso. eauto.
    + intros y J K. apply N. eauto.
Qed.
Lemma begins_prefix a b l : begins_with (a ++ b) l -> begins_with a l.
Proof. intros [rest E]. exists (b ++ rest). now rewrite app_assoc. Qed.
Lemma count_shown z n : count_of_field (show_int z) n -> n = z.
Proof.
  intros [[E ->]|[[E ->]|E]].
  - assert (R := show_int_read z). rewrite E in R. discriminate.
  - assert (R := show_int_read z). rewrite E in R. discriminate.
  - rewrite show_int_read in E. congruence.
Qed.
Lemma printed_reports names count run output : prints names count run output ->
  exists results, read_output output = Ok results /\ reports names count run results.
Proof.
  intros (PG & PN & PC & PO & PD). destruct (read_defined output PD) as [results H]. exists results. split; [exact H|]. destruct (read_sound output results H) as [SN SC].
  assert (CN : forall e r ps, In (e, Some r, ps) run -> counted e (register_label r ps) (count (e, Some r, ps)) results).
  { intros e r ps I. destruct (PN _ _ _ I) as (IN & FP & FR). assert (GE := PG e IN). destruct (PC _ _ _ I) as (GR & NF & l & IL & B).
    destruct (last_line [e; register_label r ps] (split 10 output)) as (before & l' & after & E & B' & A).
    { exists l. split; [assumption|]. now apply (begins_prefix [e; register_label r ps] [show_int (count (e, Some r, ps))]). }
    assert (IL' : In l' (split 10 output)) by (rewrite E; apply in_or_app; right; now left).
    destruct (PO e _ l' IN IL' B') as (r' & ps' & I' & LB & B''). destruct (PN _ _ _ I') as (_ & FP' & FR').
    unfold register_label in LB. apply label_inj in LB as [<- <-]; auto.
    refine (read_counter output before l' after e (register_label r ps) _ _ results E B'' GE GR NF _ A _ H).
    - right. right. apply show_int_read.
    - intros x v J V. destruct (PO e v x IN ltac:(rewrite E; apply in_or_app; right; now right) V) as (r2 & ps2 & I2 & -> & _). now destruct (PC _ _ _ I2) as (_ & F & _). }
  split; [now apply (read_nodup output)|]. split.
  - intros e (r0 & ps0 & I0). destruct (PN _ _ _ I0) as (IN & _ & F0). destruct r0 as [r0|]; [|easy].
    destruct (CN _ _ _ I0) as (d & D & _). exists d. split; [exact D|]. intros label n. split.
    + intros T. destruct (SC e d label n D T) as (l & s & IL & B & CF).
      destruct (PO e label l IN IL (begins_prefix [e; label] [s] l B)) as (r & ps & I & -> & B'). exists r, ps. repeat split; auto.
      destruct B as [x B], B' as [y B']. rewrite B in B'. injection B' as -> _. now apply count_shown.
    + intros (r & ps & I & -> & ->). destruct (CN _ _ _ I) as (d' & D' & T). rewrite D in D'. now injection D' as <-.
  - intros e IN N. assert (X : forall l v, In l (split 10 output) -> ~ begins_with [e; v] l).
    { intros l v IL B. destruct (PO e v l IN IL B) as (r & ps & I & _). apply N. eauto. }
    unfold read_output in H. assert (T : tget e [(codes "raw output", Raw (split 10 output))] = None).
    { cbn [tget]. destruct (text_eqb_spec e (codes "raw output")) as [->|M]; [|reflexivity]. exfalso. destruct (PG _ IN) as [_ G]. rewrite Forall_forall in G.
      specialize (G 114 (or_introl eq_refl)). ranges. intuition lia. }
    revert H T. generalize [(codes "raw output", Raw (split 10 output))]. revert X. generalize (split 10 output). clear. intros lines.
    induction lines as [|l lines IH]; cbn [read_lines]; intros X r0 H T; [now replace results with r0 by congruence|].
    destruct (read_line r0 l) as [r1|] eqn:E; [|discriminate]. cbn [bind] in H. apply (IH (fun y v J => X y v (or_intror J)) r1 H).
    destruct (split 44 l) as [|j [|v rest]] eqn:L; [unfold read_line in E; rewrite L in E; now injection E as <-..|].
    rewrite (read_line_other l e r0 r1 E); [exact T|]. intros [x B]. rewrite L in B. injection B as -> _. apply (X l v (or_introl eq_refl)). now exists rest.
Qed.

(** ** C76 *)
Lemma unit_removed t : ~ In 32 t -> without_unit (t ++ codes " GHz") = t.
Proof.
  intros N. unfold without_unit. rewrite replace_pass.
  - assert (E : forall n, (1 <= n)%nat -> replace n (codes " GHz") [] (codes " GHz") = []) by (intros [|[|n]] L; [lia|reflexivity|reflexivity]).
    rewrite E; [apply app_nil_r|]. rewrite app_length. cbn. lia.
  - intros x y -> NE. apply not_true_is_false. rewrite starts_with_spec. intros [u E]. destruct y as [|c y]; [easy|].
    cbn [app codes] in E. injection E as -> _. apply N. apply in_or_app. right. now left.
  - lia.
Qed.
Lemma clock_checked clock results t q : tget (codes "CPU clock:") results = Some (Label (t ++ codes " GHz")) -> ~ In 32 t ->
  py_float t = Some (Fin q) ->
  check_clock clock false results =
    if Qle_bool (Qabs (q * inject_Z 1000000000 - clock)) (clock * (1 # 100)) then Ok results else Err SystemExit.
Proof.
  intros G N F. unfold check_clock. rewrite G, unit_removed, F by assumption. cbn [nmul nsub nadd nopp nabs]. unfold ngtb, nltb, Qltb. cbn [negb].
  rewrite andb_true_r. unfold Qminus. now destruct (Qle_bool (Qabs (q * inject_Z 1000000000 + - clock)) (clock * (1 # 100))).
Qed.
(** ** C77 *)
Local Open Scope Q_scope.
Lemma Qeqb_false x : Qeq_bool x 0 = false -> ~ x == 0.
Proof. intros H E. apply Qeq_bool_iff in E. congruence. Qed.
Lemma derived_consistent loops cacheline bytes clock flops time repetitions volume r :
  derived loops cacheline bytes clock flops time repetitions volume = Ok r ->
  mits r * inject_Z 1000000 * time == bench_iterations loops
  /\ mlups r == mits r /\ mflops r == inject_Z flops * mits r
  /\ cy_per_cl r * (mits r * inject_Z 1000000) == clock * (cacheline / bytes)
  /\ mem_volume r = option_map (fun v => v * inject_Z 1000000000 / repetitions) volume
  /\ ~ time == 0 /\ ~ bytes == 0 /\ ~ repetitions == 0 /\ ~ bench_iterations loops == 0.
Proof.
  unfold derived. destruct (Qeq_bool bytes 0) eqn:B; [discriminate|]. destruct (Qeq_bool (bench_iterations loops) 0) eqn:I; [discriminate|].
  destruct (Qeq_bool time 0) eqn:T; [discriminate|]. destruct (Qeq_bool repetitions 0) eqn:R; [discriminate|]. cbn [orb]. intros H.
  assert (E : r = _) by (symmetry; injection H as H; exact H). subst r. cbn [mits mlups mflops cy_per_cl mem_volume].
  apply Qeqb_false in B, I, T, R. repeat split; auto; try (field; auto); try reflexivity.
  all: repeat split; auto; intros E; discriminate.
Qed.
