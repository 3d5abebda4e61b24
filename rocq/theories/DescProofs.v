(** Lemmas about kernel descriptions *)
From Coq Require Import String Ascii Lia.
From Verif Require Import PyBase PyVal AstModel AstSpec AstProofs FrontProofs CodeModel CodeSpec CodeProofs DescModel DescSpec.
Local Open Scope string_scope.
Local Open Scope list_scope.
Local Open Scope Z_scope.

(** ** Characters *)
Ltac all_ascii c := destruct c as [[] [] [] [] [] [] [] []].
Lemma is_digit_spec c : is_digit c = true <-> In c digits.
Proof. split; [|intros I; cbn in I; repeat destruct I as [<-|I]; try contradiction; reflexivity]. all_ascii c; intros H; try discriminate H; vm_compute; tauto. Qed.
Lemma is_letter_spec c : is_letter c = true <-> In c letters.
Proof. split; [|intros I; cbn in I; repeat destruct I as [<-|I]; try contradiction; reflexivity]. all_ascii c; intros H; try discriminate H; vm_compute; tauto. Qed.
Lemma code_inj c d : code c = code d -> c = d.
Proof. unfold code. intros H. apply N2Z.inj in H. rewrite <- (ascii_N_embedding c), <- (ascii_N_embedding d). now rewrite H. Qed.
Lemma is_word_spec c : is_word c = true <-> word_character c.
Proof.
  unfold is_word, word_character. rewrite !Bool.orb_true_iff, is_digit_spec, is_letter_spec, Z.eqb_eq. split.
  - intros [[H|H]|H]; auto. right. right. now apply code_inj.
  - intros [H|[H|H]]; auto. right. now subst.
Qed.
Lemma is_blank_spec c : is_blank c = true <-> blank c.
Proof.
  unfold is_blank, blank. rewrite Bool.orb_true_iff, !Z.eqb_eq. split.
  - intros [H|H]; [left|right]; now apply code_inj.
  - intros [-> | ->]; auto.
Qed.
Lemma digit_code c : In c digits -> exists d, nth_error digits d = Some c /\ code c - 48 = Z.of_nat d.
Proof. intros I. cbn in I. repeat destruct I as [<-|I]; try contradiction; [exists 0%nat|exists 1%nat|exists 2%nat|exists 3%nat|exists 4%nat|exists 5%nat|exists 6%nat|exists 7%nat|exists 8%nat|exists 9%nat]; split; reflexivity. Qed.
Lemma digit_nth c d : nth_error digits d = Some c -> code c - 48 = Z.of_nat d /\ In c digits.
Proof. intros H. split; [|now apply nth_error_In in H]. do 10 (destruct d as [|d]; [cbn in H; injection H as <-; reflexivity|]). destruct d; discriminate. Qed.
Lemma blank_not_word c : is_blank c = true -> is_word c = true -> False.
Proof. rewrite is_blank_spec. intros [-> | ->]; discriminate. Qed.
(** ** Numbers *)
Lemma digits_snoc w c : digits_value (w ++ [c]) = 10 * digits_value w + (code c - 48).
Proof. unfold digits_value. now rewrite fold_left_app. Qed.
Lemma decimal_spec w z : decimal w z <-> (forallb is_digit w = true /\ z = digits_value w).
Proof.
  split.
  - induction 1 as [|w z c d D [IH1 IH2] N]; [split; reflexivity|]. destruct (digit_nth _ _ N) as [E I]. split.
    + rewrite forallb_app, IH1. cbn. apply is_digit_spec in I. now rewrite I.
    + rewrite digits_snoc, E, IH2. reflexivity.
  - intros [F ->]. induction w as [|c w IH] using rev_ind; [constructor|]. rewrite forallb_app in F. apply andb_prop in F as [F1 F2]. cbn in F2. rewrite Bool.andb_true_r in F2.
    apply is_digit_spec in F2. destruct (digit_code c F2) as (d & N & E). rewrite digits_snoc, E. constructor; auto.
Qed.
Lemma digits_nonneg w : forallb is_digit w = true -> 0 <= digits_value w.
Proof.
  induction w as [|c w IH] using rev_ind; [reflexivity|]. rewrite forallb_app. intros F. apply andb_prop in F as [F1 F2]. cbn in F2. rewrite Bool.andb_true_r in F2. apply is_digit_spec, digit_code in F2 as (d & _ & E). rewrite digits_snoc, E. specialize (IH F1). lia.
Qed.
Lemma digits_zero w : forallb is_digit w = true -> (digits_value w = 0 <-> forallb (fun d => code d =? 48) w = true).
Proof.
  induction w as [|c w IH] using rev_ind; [easy|]. rewrite !forallb_app. intros F. apply andb_prop in F as [F1 F2]. cbn in F2. rewrite Bool.andb_true_r in F2. apply is_digit_spec, digit_code in F2 as (d & _ & E).
  rewrite digits_snoc, E. pose proof (digits_nonneg w F1). cbn [forallb]. rewrite Bool.andb_true_r, Bool.andb_true_iff, <- (IH F1), Z.eqb_eq. split; [intros; split; lia|intros [-> H2]; lia].
Qed.
Lemma hd_digits c w : In c digits -> forallb is_digit w = true -> (code c = 48 -> forallb (fun d => code d =? 48) w = true) <-> (c = "0"%char -> digits_value (c :: w) = 0).
Proof.
  intros I F. assert (FC : forallb is_digit (c :: w) = true) by (cbn; apply is_digit_spec in I; now rewrite I). rewrite (digits_zero _ FC). cbn [forallb]. rewrite Bool.andb_true_iff, Z.eqb_eq. split.
  - intros H E. subst c. split; [reflexivity|now apply H].
  - intros H E. apply H. now apply code_inj.
Qed.

(** ** Tokens *)
Lemma word_digits w z : spells_number w z -> Forall word_character w.
Proof. intros (_ & D & _). apply decimal_spec in D as [D _]. apply Forall_forall. intros c I. rewrite forallb_forall in D. apply is_word_spec. unfold is_word. now rewrite (D c I). Qed.
Lemma raws_word w t : w <> [] -> Forall word_character w -> word_ends t -> raws (w ++ t) = Word w :: raws t.
Proof.
  intros NE F E. induction F as [|c w C F IH]; [congruence|]. cbn [app raws]. apply is_word_spec in C. destruct (is_blank c) eqn:B; [now apply (blank_not_word c) in B|]. rewrite C.
  destruct w as [|c' w].
  - cbn [app]. destruct t as [|d t]; [reflexivity|]. cbn in E. destruct (is_word d) eqn:W; [now apply is_word_spec in W|]. reflexivity.
  - cbn [app]. inversion F as [|? ? C' F']; subst. apply is_word_spec in C'. rewrite C'. change (c' :: w ++ t) with ((c' :: w) ++ t). rewrite IH by discriminate. reflexivity.
Qed.
Lemma classify_number w z : classify (Word w) = Ok (TNumber z) <-> spells_number w z.
Proof.
  unfold spells_number. destruct w as [|c w]; [split; [discriminate|intros [H _]; congruence]|]. cbn [classify hd]. split.
  - destruct (is_digit c) eqn:D; [|discriminate]. destruct (forallb is_digit w) eqn:F; [|discriminate]. assert (FC : forallb is_digit (c :: w) = true) by (cbn; now rewrite D). apply is_digit_spec in D.
    pose proof (proj1 (hd_digits c w D F)) as HD. destruct (Z.eqb_spec (code c) 48) as [E|E]; cbn [andb].
    + destruct (forallb (fun d => code d =? 48) w) eqn:Z0; [|discriminate]. cbn [negb]. intros [= <-]. split; [discriminate|]. split; [now apply decimal_spec|]. intros H. apply HD; auto.
    + intros [= <-]. split; [discriminate|]. split; [now apply decimal_spec|]. intros H. now subst c.
  - intros (_ & DE & H). apply decimal_spec in DE as [FC ->]. cbn in FC. apply andb_prop in FC as [D F]. rewrite D, F. apply is_digit_spec in D. pose proof (proj2 (hd_digits c w D F) H) as HD.
    destruct (Z.eqb_spec (code c) 48) as [E|E]; cbn [andb]; [rewrite (HD E)|]; reflexivity.
Qed.
Lemma classify_name w n : Forall word_character w -> (classify (Word w) = Ok (TName n) <-> spells_name w n).
Proof.
  intros WC. unfold spells_name. destruct w as [|c w]; [split; [discriminate|intros (_ & H & _); congruence]|]. cbn [classify hd]. destruct (is_digit c) eqn:D.
  - split; [|intros (_ & _ & _ & H); now apply is_digit_spec in D]. destruct (forallb is_digit w); [|discriminate]. destruct (_ && _)%bool; discriminate.
  - split; [|intros (-> & _); reflexivity]. intros [= <-]. split; [reflexivity|]. split; [discriminate|]. split; [exact WC|]. intros I. apply is_digit_spec in I. congruence.
Qed.
Lemma classify_sign c k : classify (Other c) = Ok k <-> sign c k.
Proof.
  cbn [classify]. unfold sign. split.
  - destruct (Z.eqb_spec (code c) 43) as [E|_]; [intros [= <-]; rewrite (code_inj c "+" E); cbn; auto|]. destruct (Z.eqb_spec (code c) 45) as [E|_]; [intros [= <-]; rewrite (code_inj c "-" E); cbn; auto|].
    destruct (Z.eqb_spec (code c) 42) as [E|_]; [intros [= <-]; rewrite (code_inj c "*" E); cbn; auto|]. destruct (Z.eqb_spec (code c) 40) as [E|_]; [intros [= <-]; rewrite (code_inj c "(" E); cbn; auto|].
    destruct (Z.eqb_spec (code c) 41) as [E|_]; [intros [= <-]; rewrite (code_inj c ")" E); cbn; auto 10|]. discriminate.
  - intros I. cbn in I. repeat destruct I as [[= <- <-]|I]; try contradiction; reflexivity.
Qed.
Lemma sign_plain c k : sign c k -> is_blank c = false /\ is_word c = false.
Proof. intros I. cbn in I. repeat destruct I as [[= <- <-]|I]; try contradiction; split; reflexivity. Qed.
Lemma lexed_complete t l : lexed t l -> mapM classify (raws t) = Ok l.
Proof.
  induction 1 as [|c t l B L IH|c k t l S L IH|w n t l S E L IH|w z t l S E L IH].
  - reflexivity.
  - cbn [raws]. apply is_blank_spec in B. now rewrite B.
  - cbn [raws]. destruct (sign_plain c k S) as [-> ->]. cbn [mapM]. apply classify_sign in S. rewrite S. cbn [bind]. now rewrite IH.
  - pose proof S as (_ & NE & WC & _). rewrite (raws_word w t NE WC E). cbn [mapM]. rewrite (proj2 (classify_name w n WC) S). cbn [bind]. now rewrite IH.
  - pose proof S as (NE & _). rewrite (raws_word w t NE (word_digits w z S) E). cbn [mapM]. rewrite (proj2 (classify_number w z) S). cbn [bind]. now rewrite IH.
Qed.
(** The first word of a text *)
Lemma span_word t : exists w r, t = w ++ r /\ Forall word_character w /\ word_ends r.
Proof.
  induction t as [|c t (w & r & E & F & W)]; [exists [], []; repeat split; constructor|]. destruct (is_word c) eqn:C.
  - exists (c :: w), r. split; [cbn; now rewrite E|]. split; [constructor; [now apply is_word_spec|exact F]|exact W].
  - exists [], (c :: t). split; [reflexivity|]. split; [constructor|]. cbn. intros X. apply is_word_spec in X. congruence.
Qed.
Lemma lexed_sound n : forall t l, (length t <= n)%nat -> mapM classify (raws t) = Ok l -> lexed t l.
Proof.
  induction n as [|n IH]; intros t l LN H; (destruct t as [|c t]; [cbn in H; injection H as <-; constructor|]); [cbn in LN; lia|]. cbn [length] in LN. destruct (is_blank c) eqn:B.
  - cbn [raws] in H. rewrite B in H. constructor; [now apply is_blank_spec|]. apply IH; [lia|exact H].
  - destruct (is_word c) eqn:W.
    + destruct (span_word (c :: t)) as (w & r & E & F & WE). assert (NE : w <> []) by (intros ->; cbn in E; subst r; cbn in WE; apply WE; now apply is_word_spec).
      rewrite E in *. rewrite (raws_word w r NE F WE) in H. cbn [mapM] in H. destruct (classify (Word w)) as [k|] eqn:K; cbn [bind] in H; [|discriminate].
      destruct (mapM classify (raws r)) as [l'|] eqn:R; cbn [bind] in H; [|discriminate]. injection H as <-.
      assert (LR : (length r <= n)%nat) by (apply (f_equal (@length _)) in E; rewrite app_length in E; cbn [length] in E; destruct w; [congruence|cbn [length] in E; lia]).
      destruct k as [m|z| | | | |]; try (exfalso; destruct w as [|d w]; [congruence|]; cbn [classify] in K; destruct (is_digit d); [destruct (forallb is_digit w); [destruct (_ && _)%bool|]|]; discriminate K).
      * apply lex_name; [now apply classify_name|exact WE|now apply IH].
      * apply lex_number; [now apply classify_number|exact WE|now apply IH].
    + cbn [raws] in H. rewrite B, W in H. cbn [mapM] in H. destruct (classify (Other c)) as [k|] eqn:K; cbn [bind] in H; [|discriminate]. destruct (mapM classify (raws t)) as [l'|] eqn:R; cbn [bind] in H; [|discriminate]. injection H as <-.
      apply lex_sign; [now apply classify_sign|]. apply IH; [lia|exact R].
Qed.
Lemma tokens_spec s l : tokens s = Ok l <-> lexed (list_ascii_of_string s) l.
Proof. split; [now apply lexed_sound with (n := length (list_ascii_of_string s))|apply lexed_complete]. Qed.

(** ** Expressions *)
Scheme sum_ind' := Induction for is_sum Sort Prop with product_ind' := Induction for is_product Sort Prop with factor_ind' := Induction for is_factor Sort Prop.
Combined Scheme grammar_ind from sum_ind', product_ind', factor_ind'.
(** Soundness *)
Lemma parser_sound f :
  (forall ts s r, p_sum f ts = Ok (s, r) -> exists u, ts = u ++ r /\ is_sum u s) /\
  (forall v a ts s r, is_sum v a -> sum_rest f a ts = Ok (s, r) -> exists u, ts = u ++ r /\ is_sum (v ++ u) s) /\
  (forall ts s r, p_product f ts = Ok (s, r) -> exists u, ts = u ++ r /\ is_product u s) /\
  (forall v a ts s r, is_product v a -> product_rest f a ts = Ok (s, r) -> exists u, ts = u ++ r /\ is_product (v ++ u) s) /\
  (forall ts s r, p_factor f ts = Ok (s, r) -> exists u, ts = u ++ r /\ is_factor u s).
Proof.
  induction f as [|f (I1 & I2 & I3 & I4 & I5)]; [repeat split; intros; discriminate|]. repeat split.
  - intros ts s r H. cbn [p_sum] in H. destruct (p_product f ts) as [[a r1]|] eqn:P; cbn [bind fst snd] in H; [|discriminate]. destruct (I3 _ _ _ P) as (u & -> & U). destruct (I2 u a r1 s r (sum_one _ _ U) H) as (u' & -> & U'). exists (u ++ u'). split; [now rewrite app_assoc|exact U'].
  - intros v a ts s r V H. cbn [sum_rest] in H. assert (NIL : Ok (a, ts) = Ok (s, r) -> exists u, ts = u ++ r /\ is_sum (v ++ u) s) by (intros [= <- <-]; exists []; rewrite app_nil_r; auto).
    destruct ts as [|k ts]; [now apply NIL|]. destruct k; try (now apply NIL); clear NIL; (destruct (p_product f ts) as [[b r1]|] eqn:P; cbn [bind fst snd] in H; [|discriminate]); destruct (I3 _ _ _ P) as (u & -> & U).
    + destruct (I2 _ _ _ _ _ (sum_plus _ _ _ _ V U) H) as (u' & -> & U'). exists (TPlus :: u ++ u'). split; [cbn; now rewrite app_assoc|]. now rewrite <- app_assoc in U'.
    + destruct (I2 _ _ _ _ _ (sum_minus _ _ _ _ V U) H) as (u' & -> & U'). exists (TMinus :: u ++ u'). split; [cbn; now rewrite app_assoc|]. now rewrite <- app_assoc in U'.
  - intros ts s r H. cbn [p_product] in H. destruct (p_factor f ts) as [[a r1]|] eqn:P; cbn [bind fst snd] in H; [|discriminate]. destruct (I5 _ _ _ P) as (u & -> & U). destruct (I4 u a r1 s r (product_one _ _ U) H) as (u' & -> & U'). exists (u ++ u'). split; [now rewrite app_assoc|exact U'].
  - intros v a ts s r V H. cbn [product_rest] in H. assert (NIL : Ok (a, ts) = Ok (s, r) -> exists u, ts = u ++ r /\ is_product (v ++ u) s) by (intros [= <- <-]; exists []; rewrite app_nil_r; auto).
    destruct ts as [|k ts]; [now apply NIL|]. destruct k; try (now apply NIL); clear NIL. destruct (p_factor f ts) as [[b r1]|] eqn:P; cbn [bind fst snd] in H; [|discriminate]. destruct (I5 _ _ _ P) as (u & -> & U).
    destruct (I4 _ _ _ _ _ (product_times _ _ _ _ V U) H) as (u' & -> & U'). exists (TTimes :: u ++ u'). split; [cbn; now rewrite app_assoc|]. now rewrite <- app_assoc in U'.
  - intros ts s r H. cbn [p_factor] in H. destruct ts as [|k ts]; [discriminate|]. destruct k; try discriminate.
    + injection H as <- <-. exists [TName n]. split; [reflexivity|constructor].
    + injection H as <- <-. exists [TNumber z]. split; [reflexivity|constructor].
    + destruct (I5 _ _ _ H) as (u & -> & U). exists (TPlus :: u). split; [reflexivity|now constructor].
    + destruct (p_factor f ts) as [[b r1]|] eqn:P; cbn [bind fst snd] in H; [|discriminate]. injection H as <- <-. destruct (I5 _ _ _ P) as (u & -> & U). exists (TMinus :: u). split; [reflexivity|now constructor].
    + destruct (p_sum f ts) as [[b r1]|] eqn:P; cbn [bind fst snd] in H; [|discriminate]. destruct r1 as [|[] r1]; try discriminate. injection H as <- <-. destruct (I1 _ _ _ P) as (u & -> & U). exists (TOpen :: u ++ [TClose]). split; [cbn; now rewrite <- app_assoc|now constructor].
Qed.
(** More fuel does not change a result. *)
Definition settled {A} (x y : res A) : Prop := x = Err OutOfFuel \/ y = x.
Lemma settled_bind {A B} (x y : res A) (f g : A -> res B) : settled x y -> (forall a, settled (f a) (g a)) -> settled (bind x f) (bind y g).
Proof. intros [-> | ->] H; [now left|]. destruct x as [a|e]; cbn [bind]; [apply H|now right]. Qed.
Lemma settled_refl {A} (x : res A) : settled x x. Proof. now right. Qed.
Lemma parser_more f :
  (forall ts, settled (p_sum f ts) (p_sum (S f) ts)) /\ (forall a ts, settled (sum_rest f a ts) (sum_rest (S f) a ts)) /\ (forall ts, settled (p_product f ts) (p_product (S f) ts)) /\
  (forall a ts, settled (product_rest f a ts) (product_rest (S f) a ts)) /\ (forall ts, settled (p_factor f ts) (p_factor (S f) ts)).
Proof.
  induction f as [|f (I1 & I2 & I3 & I4 & I5)]; [repeat split; intros; now left|]. repeat split; intros.
  - change (settled (do x <- p_product f ts; sum_rest f (fst x) (snd x)) (do x <- p_product (S f) ts; sum_rest (S f) (fst x) (snd x))). apply settled_bind; auto.
  - destruct ts as [|[] ts]; try (apply settled_refl).
    + change (settled (do x <- p_product f ts; sum_rest f (SAdd a (fst x)) (snd x)) (do x <- p_product (S f) ts; sum_rest (S f) (SAdd a (fst x)) (snd x))). apply settled_bind; auto.
    + change (settled (do x <- p_product f ts; sum_rest f (SSub a (fst x)) (snd x)) (do x <- p_product (S f) ts; sum_rest (S f) (SSub a (fst x)) (snd x))). apply settled_bind; auto.
  - change (settled (do x <- p_factor f ts; product_rest f (fst x) (snd x)) (do x <- p_factor (S f) ts; product_rest (S f) (fst x) (snd x))). apply settled_bind; auto.
  - destruct ts as [|[] ts]; try (apply settled_refl).
    change (settled (do x <- p_factor f ts; product_rest f (SMul a (fst x)) (snd x)) (do x <- p_factor (S f) ts; product_rest (S f) (SMul a (fst x)) (snd x))). apply settled_bind; auto.
  - destruct ts as [|[] ts]; try (apply settled_refl).
    + change (settled (p_factor f ts) (p_factor (S f) ts)). auto.
    + change (settled (do x <- p_factor f ts; Ok (SMul (SInt (-1)) (fst x), snd x)) (do x <- p_factor (S f) ts; Ok (SMul (SInt (-1)) (fst x), snd x))). apply settled_bind; [auto|intros; apply settled_refl].
    + change (settled (do x <- p_sum f ts; match snd x with TClose :: r' => Ok (fst x, r') | _ => Err ValueError end) (do x <- p_sum (S f) ts; match snd x with TClose :: r' => Ok (fst x, r') | _ => Err ValueError end)). apply settled_bind; [auto|intros; apply settled_refl].
Qed.
Lemma settled_le {A} (p : nat -> res A) : (forall f, settled (p f) (p (S f))) -> forall f g, (f <= g)%nat -> settled (p f) (p g).
Proof. intros H f g L. induction L as [|g L IH]; [apply settled_refl|]. destruct IH as [IH|IH]; [now left|]. destruct (H g) as [E|E]; [left; congruence|right; congruence]. Qed.
Lemma settled_ok {A} (x y : res A) a : settled x y -> x = Ok a -> y = Ok a.
Proof. intros [E|E] X; congruence. Qed.
(** Completeness *)
Definition no_times (l : list token) : Prop := match l with TTimes :: _ => False | _ => True end.
Lemma more_sum ts f g r : p_sum f ts = Ok r -> (f <= g)%nat -> p_sum g ts = Ok r.
Proof. intros H L; exact (settled_ok _ _ _ (settled_le (fun f => p_sum f ts) (fun f => proj1 (parser_more f) ts) f g L) H). Qed.
Lemma more_sum_rest a ts f g r : sum_rest f a ts = Ok r -> (f <= g)%nat -> sum_rest g a ts = Ok r.
Proof. intros H L; exact (settled_ok _ _ _ (settled_le (fun f => sum_rest f a ts) (fun f => proj1 (proj2 (parser_more f)) a ts) f g L) H). Qed.
Lemma more_product ts f g r : p_product f ts = Ok r -> (f <= g)%nat -> p_product g ts = Ok r.
Proof. intros H L; exact (settled_ok _ _ _ (settled_le (fun f => p_product f ts) (fun f => proj1 (proj2 (proj2 (parser_more f))) ts) f g L) H). Qed.
Lemma more_product_rest a ts f g r : product_rest f a ts = Ok r -> (f <= g)%nat -> product_rest g a ts = Ok r.
Proof. intros H L; exact (settled_ok _ _ _ (settled_le (fun f => product_rest f a ts) (fun f => proj1 (proj2 (proj2 (proj2 (parser_more f)))) a ts) f g L) H). Qed.
Lemma more_factor ts f g r : p_factor f ts = Ok r -> (f <= g)%nat -> p_factor g ts = Ok r.
Proof. intros H L; exact (settled_ok _ _ _ (settled_le (fun f => p_factor f ts) (fun f => proj2 (proj2 (proj2 (proj2 (parser_more f)))) ts) f g L) H). Qed.
Lemma product_stops b us : (forall rest r f0, product_rest f0 b rest = Ok r -> exists f, p_product f (us ++ rest) = Ok r) -> forall rest, no_times rest -> exists f, p_product f (us ++ rest) = Ok (b, rest).
Proof. intros H rest NT. apply (H rest (b, rest) 1%nat). cbn [product_rest]. destruct rest as [|[] rest]; try reflexivity. destruct NT. Qed.
Lemma parser_complete :
  (forall u s, is_sum u s -> forall rest r f0, no_times rest -> sum_rest f0 s rest = Ok r -> exists f, p_sum f (u ++ rest) = Ok r) /\
  (forall u s, is_product u s -> forall rest r f0, product_rest f0 s rest = Ok r -> exists f, p_product f (u ++ rest) = Ok r) /\
  (forall u s, is_factor u s -> forall rest, exists f, p_factor f (u ++ rest) = Ok (s, rest)).
Proof.
  apply (grammar_ind (fun u s _ => forall rest r f0, no_times rest -> sum_rest f0 s rest = Ok r -> exists f, p_sum f (u ++ rest) = Ok r)
                     (fun u s _ => forall rest r f0, product_rest f0 s rest = Ok r -> exists f, p_product f (u ++ rest) = Ok r)
                     (fun u s _ => forall rest, exists f, p_factor f (u ++ rest) = Ok (s, rest))).
  - intros ts s P IH rest r f0 NT H. destruct (product_stops s ts IH rest NT) as [f1 F1]. exists (S (max f0 f1)). cbn [p_sum]. rewrite (more_product _ f1 (max f0 f1) _ F1) by lia. cbn [bind fst snd]. apply (more_sum_rest _ _ f0); [exact H|lia].
  - intros ts a us b A IHA B IHB rest r f0 NT H. destruct (product_stops b us IHB rest NT) as [f1 F1]. rewrite <- app_assoc. apply (IHA ((TPlus :: us) ++ rest) r (S (max f0 f1))); [exact I|]. cbn [app sum_rest]. rewrite (more_product _ f1 (max f0 f1) _ F1) by lia. cbn [bind fst snd]. apply (more_sum_rest _ _ f0); [exact H|lia].
  - intros ts a us b A IHA B IHB rest r f0 NT H. destruct (product_stops b us IHB rest NT) as [f1 F1]. rewrite <- app_assoc. apply (IHA ((TMinus :: us) ++ rest) r (S (max f0 f1))); [exact I|]. cbn [app sum_rest]. rewrite (more_product _ f1 (max f0 f1) _ F1) by lia. cbn [bind fst snd]. apply (more_sum_rest _ _ f0); [exact H|lia].
  - intros ts s P IH rest r f0 H. destruct (IH rest) as [f1 F1]. exists (S (max f0 f1)). cbn [p_product]. rewrite (more_factor _ f1 (max f0 f1) _ F1) by lia. cbn [bind fst snd]. apply (more_product_rest _ _ f0); [exact H|lia].
  - intros ts a us b A IHA B IHB rest r f0 H. destruct (IHB rest) as [f1 F1]. rewrite <- app_assoc. apply (IHA ((TTimes :: us) ++ rest) r (S (max f0 f1))). cbn [app product_rest]. rewrite (more_factor _ f1 (max f0 f1) _ F1) by lia. cbn [bind fst snd]. apply (more_product_rest _ _ f0); [exact H|lia].
  - intros n rest. now exists 1%nat.
  - intros z rest. now exists 1%nat.
  - intros ts s F IH rest. destruct (IH rest) as [f H]. exists (S f). exact H.
  - intros ts s F IH rest. destruct (IH rest) as [f H]. exists (S f). cbn [app p_factor]. now rewrite H.
  - intros ts s F IH rest. destruct (IH (TClose :: rest) (s, TClose :: rest) 1%nat I eq_refl) as [f H]. exists (S f). cbn [app p_factor]. rewrite <- app_assoc. cbn [app]. now rewrite H.
Qed.
(** The fuel is enough. *)
Lemma parser_fuel f :
  (forall ts, (6 * length ts + 5 <= f)%nat -> p_sum f ts <> Err OutOfFuel) /\
  (forall a ts, (6 * length ts + 1 <= f)%nat -> sum_rest f a ts <> Err OutOfFuel) /\
  (forall ts, (6 * length ts + 3 <= f)%nat -> p_product f ts <> Err OutOfFuel) /\
  (forall a ts, (6 * length ts + 1 <= f)%nat -> product_rest f a ts <> Err OutOfFuel) /\
  (forall ts, (6 * length ts + 1 <= f)%nat -> p_factor f ts <> Err OutOfFuel).
Proof.
  induction f as [|f (I1 & I2 & I3 & I4 & I5)]; [repeat split; intros; lia|].
  assert (SP : forall ts a r, p_product f ts = Ok (a, r) -> (length r <= length ts)%nat) by (intros ts a r H; destruct (proj1 (proj2 (proj2 (parser_sound f))) _ _ _ H) as (u & -> & _); rewrite app_length; lia).
  assert (SF : forall ts a r, p_factor f ts = Ok (a, r) -> (length r <= length ts)%nat) by (intros ts a r H; destruct (proj2 (proj2 (proj2 (proj2 (parser_sound f)))) _ _ _ H) as (u & -> & _); rewrite app_length; lia).
  repeat split.
  - intros ts L. cbn [p_sum]. destruct (p_product f ts) as [[a r]|e] eqn:P; cbn [bind fst snd]; [apply I2; apply SP in P; lia|]. rewrite <- P. apply I3; lia.
  - intros a ts L. cbn [sum_rest]. destruct ts as [|[] ts]; try discriminate; cbn [length] in L; (destruct (p_product f ts) as [[b r]|e] eqn:P; cbn [bind fst snd]; [apply I2; apply SP in P; lia|]; specialize (I3 ts); rewrite P in I3; intros [= ->]; apply I3; [lia|reflexivity]).
  - intros ts L. cbn [p_product]. destruct (p_factor f ts) as [[a r]|e] eqn:P; cbn [bind fst snd]; [apply I4; apply SF in P; lia|]. rewrite <- P. apply I5; lia.
  - intros a ts L. cbn [product_rest]. destruct ts as [|[] ts]; try discriminate; cbn [length] in L; (destruct (p_factor f ts) as [[b r]|e] eqn:P; cbn [bind fst snd]; [apply I4; apply SF in P; lia|]; specialize (I5 ts); rewrite P in I5; intros [= ->]; apply I5; [lia|reflexivity]).
  - intros ts L. cbn [p_factor]. destruct ts as [|[] ts]; try discriminate; cbn [length] in L.
    + apply I5; lia.
    + destruct (p_factor f ts) as [[b r]|e] eqn:P; cbn [bind fst snd]; [discriminate|]. rewrite <- P. intros E. apply (I5 ts); [lia|]. rewrite P in E. congruence.
    + destruct (p_sum f ts) as [[b r]|e] eqn:P; cbn [bind fst snd]; [destruct r as [|[] r]; discriminate|]. intros E. apply (I1 ts); [lia|]. congruence.
Qed.
Lemma settled_any {A} (p : nat -> res A) : (forall f, settled (p f) (p (S f))) -> forall f g a, p f = Ok a -> p g <> Err OutOfFuel -> p g = Ok a.
Proof. intros H f g a E N. destruct (PeanoNat.Nat.le_ge_cases f g) as [L|L]; pose proof (settled_le p H _ _ L) as [X|X]; congruence. Qed.
Lemma parse_tokens_spec ts s : parse_tokens ts = Ok s <-> is_sum ts s.
Proof.
  unfold parse_tokens. split.
  - destruct (p_sum _ ts) as [[a r]|e] eqn:P; cbn [bind fst snd]; [|discriminate]. destruct r; [|discriminate]. intros [= <-]. destruct (proj1 (parser_sound _) _ _ _ P) as (u & -> & U). now rewrite app_nil_r.
  - intros H. destruct (proj1 parser_complete ts s H [] (s, []) 1%nat I eq_refl) as [f F]. rewrite app_nil_r in F.
    rewrite (settled_any (fun f => p_sum f ts) (fun f => proj1 (parser_more f) ts) f _ _ F); [reflexivity|]. apply parser_fuel. lia.
Qed.
Lemma parse_tokens_fuel ts : parse_tokens ts <> Err OutOfFuel.
Proof.
  unfold parse_tokens. assert (F : p_sum (6 * length ts + 6) ts <> Err OutOfFuel) by (apply parser_fuel; lia). destruct (p_sum _ ts) as [[a r]|e]; cbn [bind fst snd]; [destruct r; discriminate|]. intros X. apply F. congruence.
Qed.

(** ** Names *)
Definition token_names (ts : list token) : list string := flat_map (fun t => match t with TName n => [n] | _ => [] end) ts.
Lemma grammar_names : (forall u s, is_sum u s -> token_names u = names_of s) /\ (forall u s, is_product u s -> token_names u = names_of s) /\ (forall u s, is_factor u s -> token_names u = names_of s).
Proof.
  apply (grammar_ind (fun u s _ => token_names u = names_of s) (fun u s _ => token_names u = names_of s) (fun u s _ => token_names u = names_of s)); intros; unfold token_names in *; try reflexivity; try assumption.
  - rewrite flat_map_app. cbn [flat_map app names_of]. congruence.
  - rewrite flat_map_app. cbn [flat_map app names_of]. congruence.
  - rewrite flat_map_app. cbn [flat_map app names_of]. congruence.
  - cbn [flat_map app]. rewrite flat_map_app. cbn. now rewrite app_nil_r.
Qed.
Lemma one_letter_spec n : one_letter n = true <-> single_letter n.
Proof.
  unfold one_letter, single_letter. split.
  - destruct n as [|c [|]]; try discriminate. intros H. exists c. split; [now apply is_letter_spec|reflexivity].
  - intros (c & L & ->). now apply is_letter_spec.
Qed.
Lemma understood_spec known ts : forallb (understood known) ts = true <-> forall n, In n (token_names ts) -> single_letter n \/ known n = false.
Proof.
  rewrite forallb_forall. split.
  - intros H n I. apply in_flat_map in I as (t & I1 & I2). specialize (H t I1). destruct t as [m| | | | | |]; try destruct I2 as [|[]]; try contradiction. subst m. cbn in H. apply Bool.orb_true_iff in H as [H|H]; [left; now apply one_letter_spec|right; now apply Bool.negb_true_iff].
  - intros H t I. destruct t as [m| | | | | |]; try reflexivity. cbn. apply Bool.orb_true_iff. destruct (H m) as [X|X]; [apply in_flat_map; exists (TName m); split; [exact I|now left]|left; now apply one_letter_spec|right; now rewrite X].
Qed.
Lemma parse_expr_spec known t s : parse_expr known t = Ok s <-> reads t s /\ free_names known s.
Proof.
  unfold parse_expr, reads, free_names. split.
  - destruct (tokens t) as [ts|] eqn:T; cbn [bind]; [|discriminate]. destruct (forallb (understood known) ts) eqn:U; [|discriminate]. intros H. apply parse_tokens_spec in H. apply tokens_spec in T. split; [eauto|]. rewrite <- (proj1 grammar_names _ _ H). now apply understood_spec.
  - intros [(ts & T & H) F]. apply tokens_spec in T. rewrite T. cbn [bind]. rewrite <- (proj1 grammar_names _ _ H) in F. apply understood_spec in F. rewrite F. now apply parse_tokens_spec.
Qed.
Lemma reads_unique t s s' : reads t s -> reads t s' -> s = s'.
Proof. intros R R'. assert (F : forall x, free_names (fun _ => false) x) by (intros x n _; now right). pose proof (proj2 (parse_expr_spec _ t s) (conj R (F s))). pose proof (proj2 (parse_expr_spec _ t s') (conj R' (F s'))). congruence. Qed.

(** ** Values *)
Definition sympy_all (known : string -> bool) : list value -> res (list DescModel.entry) :=
  fix go l := match l with [] => Ok [] | x :: l' => do y <- string_to_sympy known x; do ys <- go l'; Ok (y :: ys) end.
Lemma sympy_all_mapM known l : sympy_all known l = mapM (string_to_sympy known) l.
Proof. induction l as [|v l IH]; [reflexivity|]. cbn [sympy_all mapM]. now rewrite <- IH. Qed.
Lemma all_mean_forall known l es : all_mean known l es <-> Forall2 (means known) l es.
Proof. split; induction 1; constructor; auto. Qed.
Lemma sympy_spec known v : forall e, string_to_sympy known v = Ok e <-> means known v e.
Proof.
  induction v as [z|t|b|x| |l IH|l IH|l IH|m c|m] using value_induction; intros e; try (split; [discriminate|intros X; inversion X]; fail).
  - split; [intros [= <-]; constructor|intros X; now inversion X].
  - cbn [string_to_sympy]. split.
    + destruct (parse_expr known t) as [x|] eqn:P; cbn [bind]; [|discriminate]. intros [= <-]. apply parse_expr_spec in P as [R F]. now constructor.
    + intros X. inversion X as [| | | |? x R F|]; subst. now rewrite (proj2 (parse_expr_spec known t x) (conj R F)).
  - destruct b; (split; [intros [= <-]; constructor|intros X; now inversion X]).
  - split; [intros [= <-]; constructor|intros X; now inversion X].
  - change (string_to_sympy known (VList l)) with (do l' <- sympy_all known l; Ok (ETuple l')). rewrite sympy_all_mapM.
    assert (G : forall es, mapM (string_to_sympy known) l = Ok es <-> all_mean known l es).
    { intros es. rewrite mapM_ok, all_mean_forall. rewrite Forall_forall in IH. split; intros F.
      - induction F; constructor; [apply IH; auto; now left|apply IHF; intros x' I'; apply IH; now right].
      - induction F; constructor; [apply IH; auto; now left|apply IHF; intros x' I'; apply IH; now right]. }
    split.
    + destruct (mapM _ l) as [es|] eqn:M; cbn [bind]; [|discriminate]. intros [= <-]. constructor. now apply G.
    + intros X. inversion X as [| | | | |? es A]; subst. apply G in A. now rewrite A.
Qed.
Lemma sympy_list known l es : mapM (string_to_sympy known) l = Ok es <-> all_mean known l es.
Proof.
  rewrite mapM_ok, all_mean_forall. split; intros F; (induction F; constructor; [now apply sympy_spec|assumption]).
Qed.
(** ** Dictionaries *)
Lemma key_text a k : key_eqb a (VStr k) = true <-> a = VStr k.
Proof.
  destruct a; cbn; try (split; discriminate).
  rewrite String.eqb_eq. split; congruence.
Qed.
Lemma subscript_spec d k v : subscript d k = Ok v <-> field d k v.
Proof.
  unfold field. split.
  - destruct d as [| | | | | | |l| |]; try discriminate. cbn [subscript]. destruct (find _ l) as [p|] eqn:F; [|discriminate]. intros [= <-]. induction l as [|q l IH]; [discriminate|]. cbn [find] in F. destruct (key_eqb (fst q) (VStr k)) eqn:K.
    + injection F as <-. apply key_text in K. exists [], l. split; [|easy]. destruct q. cbn in *. now subst.
    + destruct (IH F) as (l1 & l2 & E & NI). injection E as ->. exists (q :: l1), l2. split; [reflexivity|]. cbn. intros [X|X]; [|easy]. apply key_text in X. congruence.
  - intros (l1 & l2 & -> & NI). cbn [subscript]. induction l1 as [|q l1 IH].
    + cbn. now rewrite String.eqb_refl.
    + cbn [app find]. destruct (key_eqb (fst q) (VStr k)) eqn:K; [apply key_text in K; exfalso; apply NI; now left|]. apply IH. intros X. apply NI. now right.
Qed.
Lemma iterate_spec v l : iterate v = Ok l <-> elements v l.
Proof. split; [destruct v; cbn; try discriminate; intros [= <-]; constructor|now destruct 1]. Qed.
Lemma items_spec v l : items v = Ok l <-> v = VDict l.
Proof. destruct v; cbn; split; congruence. Qed.
Ltac step H x E := match type of H with bind ?e _ = _ => destruct e as [x|] eqn:E; cbn [bind] in H; [|discriminate] end.
Lemma loop_spec known v l : describe_loop known v = Ok l <-> loop_says known v l.
Proof.
  unfold describe_loop, loop_says. split.
  - intros H. step H i E1. step H a E2. step H sa E3. step H b E4. step H sb E5. step H c E6. step H sc E7. injection H as <-. cbn. split; [now apply subscript_spec|]. exists a, b, c. repeat split; try (now apply subscript_spec); now apply sympy_spec.
  - destruct l as [i sa sb sc]. cbn. intros (E1 & a & b & c & E2 & E3 & E4 & E5 & E6 & E7). apply subscript_spec in E1, E2, E4, E6. apply sympy_spec in E3, E5, E7. rewrite E1. cbn [bind]. rewrite E2. cbn [bind]. rewrite E3. cbn [bind]. rewrite E4. cbn [bind]. rewrite E5. cbn [bind]. rewrite E6. cbn [bind]. now rewrite E7.
Qed.
Lemma names_eqb_spec a b : names_eqb a b = true <-> a = b.
Proof.
  revert b. induction a as [|x a IH]; intros [|y b]; cbn; try (split; congruence). rewrite Bool.andb_true_iff, String.eqb_eq, IH. split; [intros [-> ->]; reflexivity|intros [= -> ->]; auto].
Qed.
Lemma texts_spec l ns : texts l = Some ns <-> l = map VStr ns.
Proof.
  unfold texts. revert ns. induction l as [|v l IH]; intros ns; cbn [fold_right].
  - split; [intros [= <-]; reflexivity|]. destruct ns; [reflexivity|discriminate].
  - split.
    + destruct v; try discriminate. destruct (fold_right _ _ l) as [ms|]; [|discriminate]. intros [= <-]. cbn. f_equal. now apply IH.
    + destruct ns as [|n ns]; [discriminate|]. intros [= -> ->]. now rewrite (proj2 (IH ns) eq_refl).
Qed.
Lemma datatypes_spec ns : existsb (names_eqb ns) datatypes = true <-> supported ns.
Proof.
  rewrite existsb_exists. unfold supported. split.
  - intros (x & I & E). apply names_eqb_spec in E. subst x. cbn in *. tauto.
  - intros I. exists ns. split; [cbn in *; tauto|now apply names_eqb_spec].
Qed.
Lemma type_key_spec t ns : type_key t = Ok ns <-> t = VTuple (map VStr ns) /\ supported ns.
Proof.
  split.
  - destruct t as [| | | | | |l| | |]; try discriminate. cbn [type_key]. destruct (texts l) as [ms|] eqn:T; [|destruct (hashableb _); discriminate]. destruct (existsb _ datatypes) eqn:D; [|discriminate]. intros [= <-]. apply texts_spec in T. apply datatypes_spec in D. now subst.
  - intros [-> S]. cbn [type_key]. rewrite (proj2 (texts_spec _ _) eq_refl). apply datatypes_spec in S. now rewrite S.
Qed.
Lemma variable_spec known first p x : describe_variable known first p = Ok x <-> variable_says known (fst (snd x)) p x /\ supported (fst (snd x)) /\ (forall t, first = Some t -> t = fst (snd x)).
Proof.
  unfold describe_variable, variable_says. split.
  - intros H. step H t E1. step H d E2. step H sz E3. step H ns E4. step H u E5.
    assert (X : fst x = fst p /\ fst (snd x) = ns /\ sz = match snd (snd x) with Some l => ETuple l | None => ENone end) by (destruct sz; try discriminate; injection H as <-; auto).
    destruct X as (X1 & X2 & X3). apply type_key_spec in E4 as [-> SU]. apply subscript_spec in E1, E2. apply sympy_spec in E3. rewrite X2. split; [|split; [exact SU|]].
    + repeat split; auto. exists d. split; [exact E2|]. now rewrite <- X3.
    + intros t ->. destruct (names_eqb ns t) eqn:NE; [|discriminate]. now apply names_eqb_spec in NE.
  - intros ((X1 & _ & F1 & d & F2 & M) & SU & FI). apply subscript_spec in F1, F2. apply sympy_spec in M. rewrite F1. cbn [bind]. rewrite F2. cbn [bind]. rewrite M. cbn [bind]. rewrite (proj2 (type_key_spec _ _) (conj eq_refl SU)). cbn [bind].
    assert (F : match first with None => Ok tt | Some ns' => if names_eqb (fst (snd x)) ns' then Ok tt else Err AssertionError end = Ok tt) by (destruct first as [t|]; [|reflexivity]; rewrite (FI t eq_refl); now rewrite (proj2 (names_eqb_spec _ _) eq_refl)).
    rewrite F. cbn [bind]. destruct x as [n [t [l|]]]; cbn in *; now subst.
Qed.
Lemma variables_first known l : forall t xs, describe_variables known (Some t) l = Ok xs <-> Forall2 (variable_says known t) l xs /\ (l <> [] -> supported t).
Proof.
  induction l as [|p l IH]; intros t xs; cbn [describe_variables].
  - split; [intros [= <-]; split; [constructor|congruence]|intros [F _]; now inversion F].
  - split.
    + intros H. step H x E1. step H vs E2. injection H as <-. apply variable_spec in E1 as (V & SU & FI). rewrite <- (FI t eq_refl) in V, SU. apply IH in E2 as [F _]. split; [now constructor|auto].
    + intros [F SU]. inversion F as [|? x ? vs V F']; subst. assert (T : fst (snd x) = t) by apply V. specialize (SU ltac:(discriminate)).
      rewrite (proj2 (variable_spec known (Some t) p x)); [|rewrite T; split; [exact V|split; [exact SU|congruence]]]. cbn [bind]. rewrite (proj2 (IH t vs)); [reflexivity|split; auto].
Qed.
Lemma variables_spec known l xs : describe_variables known None l = Ok xs <-> match xs with [] => l = [] | x :: _ => Forall2 (variable_says known (fst (snd x))) l xs /\ supported (fst (snd x)) end.
Proof.
  destruct l as [|p l]; cbn [describe_variables].
  - split; [intros [= <-]; reflexivity|]. destruct xs as [|x xs]; [reflexivity|]. intros [F _]. inversion F.
  - split.
    + intros H. step H x E1. step H vs E2. injection H as <-. apply variable_spec in E1 as (V & SU & _). apply variables_first in E2 as [F _]. split; [now constructor|exact SU].
    + destruct xs as [|x xs]; [discriminate|]. intros [F SU]. inversion F as [|? ? ? ? V F']; subst. rewrite (proj2 (variable_spec known None p x)); [|split; [exact V|split; [exact SU|discriminate]]]. cbn [bind].
      rewrite (proj2 (variables_first known l _ xs)); [reflexivity|split; auto].
Qed.
Lemma accesses_spec known p x : describe_accesses known p = Ok x <-> accesses_say known p x.
Proof.
  unfold describe_accesses, accesses_say. split.
  - intros H. step H l E1. step H es E2. injection H as <-. cbn. split; [reflexivity|]. exists l. split; [now apply iterate_spec|now apply sympy_list].
  - destruct x as [n es]. cbn. intros (-> & l & E1 & E2). apply iterate_spec in E1. apply sympy_list in E2. rewrite E1. cbn [bind]. now rewrite E2.
Qed.
Lemma F2_imp {A B} (P Q : A -> B -> Prop) l m : (forall a b, P a b -> Q a b) -> Forall2 P l m -> Forall2 Q l m.
Proof. intros H. induction 1; constructor; auto. Qed.
Lemma describe_spec known v d : describe known v = Ok d <-> says known v d.
Proof.
  unfold describe, says. split.
  - intros H. step H lv E1. step H ls E2. step H lo E3. step H av E4. step H al E5. step H vs E6. step H t E7. step H sv E8. step H sl E9. step H so E10. step H dv E11. step H dl E12. step H de E13. step H fl E14. injection H as <-. cbn.
    apply subscript_spec in E1, E4, E8, E11, E14. apply iterate_spec in E2. apply items_spec in E5, E9, E12. subst av sv dv. apply mapM_ok in E3. apply mapM_ok in E10. apply mapM_ok in E13. apply variables_spec in E6.
    repeat split; auto.
    + exists lv, ls. repeat split; auto. revert E3. apply F2_imp. intros ? ?; apply loop_spec.
    + destruct vs as [|x vs]; [discriminate|]. injection E7 as <-. destruct E6 as [F SU]. exists al. repeat split; auto. intros ->. inversion F.
    + exists sl. split; [exact E8|]. revert E10. apply F2_imp. intros ? ?; apply accesses_spec.
    + exists dl. split; [exact E11|]. revert E13. apply F2_imp. intros ? ?; apply accesses_spec.
  - destruct d as [lo vs t so de fl]. cbn. intros ((lv & ls & E1 & E2 & E3) & (al & E4 & NE & SU & E6) & (sl & E8 & E10) & (dl & E11 & E13) & E14).
    apply subscript_spec in E1, E4, E8, E11, E14. apply iterate_spec in E2.
    assert (M3 : mapM (describe_loop known) ls = Ok lo) by (apply mapM_ok; revert E3; apply F2_imp; intros ? ?; apply loop_spec).
    assert (M10 : mapM (describe_accesses known) sl = Ok so) by (apply mapM_ok; revert E10; apply F2_imp; intros ? ?; apply accesses_spec).
    assert (M13 : mapM (describe_accesses known) dl = Ok de) by (apply mapM_ok; revert E13; apply F2_imp; intros ? ?; apply accesses_spec).
    destruct vs as [|x vs]; [inversion E6; congruence|]. assert (T : fst (snd x) = t) by (inversion E6 as [|? ? ? ? V F]; subst; apply V). 
    assert (M6 : describe_variables known None al = Ok (x :: vs)) by (apply variables_spec; rewrite T; auto).
    rewrite E1. cbn [bind]. rewrite E2. cbn [bind]. rewrite M3. cbn [bind]. rewrite E4. cbn [bind items]. rewrite M6. cbn [bind]. rewrite E8. cbn [bind items]. rewrite M10. cbn [bind]. rewrite E11. cbn [bind items]. rewrite M13. cbn [bind]. rewrite E14. cbn [bind]. now rewrite T.
Qed.

(** ** Descriptions of code *)
Lemma same_iterations ls : forall ds es e, Forall2 recorded ls es -> Forall plain_loop ls -> well_scoped (map fst e) ls -> Forall2 describes_loop ls ds -> Forall advances ls ->
  described_iterations ds e = iterations es e.
Proof.
  induction ls as [|l ls IH]; intros ds es e R P W D AD; inversion R as [|? en ? es' R1 R2]; subst; inversion D as [|? d ? ds' D1 D2]; subst; [reflexivity|].
  inversion P as [|? ? P1 P2]; subst. inversion AD as [|? ? A1 A2]; subst. destruct W as (W1 & W2 & W3). destruct R1 as (mn & mx & z & -> & MN & MX & SZ). destruct d as [i sa sb sc]. destruct D1 as (DI & a & b & c & z' & DA & SA & DB & SB & DC & ST & SC). cbn in DI, DA, DB, DC. subst i sa sb sc.
  cbn [described_iterations iterations]. unfold plain_loop in P1. rewrite !Forall_app in P1. destruct P1 as (PL1 & PL2 & PL3).
  assert (I1 : incl (names (first l)) (map fst e)) by (intros x X; apply W1, in_or_app; now left). assert (I2 : incl (names (bound l)) (map fst e)) by (intros x X; apply W1, in_or_app; now right).
  pose proof (value_agree e (first l) mn MN PL1 I1) as V1. rewrite (SA e I1) in V1. injection V1 as V1.
  pose proof (value_agree e (bound l) mx MX PL2 I2) as V2. rewrite (SB e I2) in V2. injection V2 as V2.
  rewrite V1, V2, SC. replace z with z'.
  - apply flat_map_ext. intros y. apply IH; auto.
  - unfold step_read in SZ. unfold step_text in ST. destruct (increment l) as [t|]; [|congruence]. inversion PL3 as [|? ? PT _]; subst. assert (X : c_integer t = Some z) by (now apply plain_agrees). congruence.
Qed.
Section DescribedElements.
  Variables (ls : list cloop) (es : list CodeModel.entry) (ds : list described_loop) (body : list cassign) (e : env).
  Hypothesis R : Forall2 recorded ls es.
  Hypothesis IT : described_iterations ds e = iterations es e.
  Hypothesis KS : known_subscripts (map fst e) ls body.
  Lemma described_elements (part : assignment -> list (string * list expr)) l n zs :
    (forall a, incl (part a) (stmt_reads a ++ stmt_writes a)) -> describes_references l (flat_map (fun a => part (statement a)) body) ->
    ((exists ev, In ev (run body es e) /\ exists subs, In (n, subs) (part (statement (snd ev))) /\ position (fst ev) subs zs) <->
     exists it a, In it (described_iterations ds e) /\ described_access l n a /\ access_at a it zs /\ body <> []).
  Proof.
    intros PA [D1 D2]. rewrite IT.
    split.
    - intros (ev & IE & subs & I1 & P). apply run_in in IE as [I2 I3]. destruct (D1 n subs) as (a & L & D); [apply in_flat_map; exists (snd ev); auto|].
      exists (fst ev), a. repeat split; auto; [eapply describes_position; eauto|]. intros E0. rewrite E0 in I3. destruct I3.
    - intros (it & a & I1 & L & A & _). destruct (D2 n a L) as (subs & I2 & D). apply in_flat_map in I2 as (b & I2 & I3). exists (it, b). split; [now apply run_in|]. exists subs. split; [exact I3|].
      eapply position_describes; eauto. intros s I4 m M. apply (iteration_names ls es e it R I1). exact (KS b n subs s I2 (PA _ _ I3) I4 m M).
  Qed.
End DescribedElements.

Lemma field_unique v k x y : field v k x -> field v k y -> x = y.
Proof. intros X Y. apply subscript_spec in X, Y. congruence. Qed.
Lemma F2_unique {A B} (P : A -> B -> Prop) l m m' : (forall a b b', P a b -> P a b' -> b = b') -> Forall2 P l m -> Forall2 P l m' -> m = m'.
Proof. intros U F. revert m'. induction F as [|a b l m H F IH]; intros m' G; inversion G; subst; [reflexivity|]. f_equal; eauto. Qed.
Lemma nest_described known v d ls body : describe known v = Ok d -> describes_nest known v ls body ->
  Forall2 describes_loop ls (described_loops d) /\ describes_references (described_sources d) (flat_map (fun a => stmt_reads (statement a)) body) /\
  describes_references (described_destinations d) (flat_map (fun a => stmt_writes (statement a)) body).
Proof.
  intros H ((lv & vs & F1 & E1 & L1) & (ss & xs & F2 & A2 & R2) & (ts & ys & F3 & A3 & R3)). apply describe_spec in H as ((lv' & vs' & F1' & E1' & L1') & _ & (ss' & F2' & A2') & (ts' & F3' & A3') & _).
  assert (UA : forall p x x', accesses_say known p x -> accesses_say known p x' -> x = x') by (intros p x x' X X'; apply accesses_spec in X, X'; congruence).
  split; [|split].
  - rewrite (field_unique _ _ _ _ F1' F1) in E1'. apply iterate_spec in E1, E1'. assert (vs' = vs) by congruence. subst vs'. clear -L1 L1'. revert L1'. generalize (described_loops d). induction L1 as [|l x ls vs (y & LS & DL) L1 IH]; intros m M; inversion M as [|? y' ? m' LS' M']; subst; constructor; [|auto].
    apply loop_spec in LS, LS'. congruence.
  - pose proof (field_unique _ _ _ _ F2' F2) as E. injection E as ->. now rewrite (F2_unique _ _ _ _ UA A2' A2).
  - pose proof (field_unique _ _ _ _ F3' F3) as E. injection E as ->. now rewrite (F2_unique _ _ _ _ UA A3' A3).
Qed.

(** ** Every expression can be written. *)
Lemma digit_at (d : nat) : (d < 10)%nat -> exists c, nth_error digits d = Some c.
Proof. intros L. destruct (nth_error digits d) as [c|] eqn:E; [eauto|]. apply nth_error_None in E. cbn in E. lia. Qed.
Lemma decimal_exists n : forall z, 0 < z <= Z.of_nat n -> exists w, w <> [] /\ decimal w z /\ hd "0"%char w <> "0"%char.
Proof.
  induction n as [|n IH]; intros z B; [lia|]. destruct (Z.lt_ge_cases z 10) as [L|L].
  - destruct (digit_at (Z.to_nat z)) as [c C]; [lia|]. exists [c]. split; [discriminate|]. split.
    + replace z with (10 * 0 + Z.of_nat (Z.to_nat z)) by lia. apply (dec_snoc [] 0 c _ dec_nil C).
    + cbn. intros ->. apply digit_nth in C as [C _]. vm_compute (code "0" - 48) in C. lia.
  - destruct (IH (z / 10)) as (w & NE & D & H). { split; [apply Z.div_str_pos; lia|]. assert (z / 10 < z) by (apply Z.div_lt; lia). lia. }
    pose proof (Z.mod_pos_bound z 10 ltac:(lia)) as M. destruct (digit_at (Z.to_nat (z mod 10))) as [c C]; [lia|]. exists (w ++ [c]). split; [destruct w; discriminate|]. split.
    + replace z with (10 * (z / 10) + Z.of_nat (Z.to_nat (z mod 10))); [now constructor|]. rewrite Z2Nat.id by lia. symmetry. apply Z.div_mod. lia.
    + destruct w; [congruence|exact H].
Qed.
Lemma number_exists z : 0 <= z -> exists w, spells_number w z.
Proof.
  intros H. destruct (Z.eq_dec z 0) as [->|N].
  - exists ["0"%char]. split; [discriminate|]. split; [apply (dec_snoc [] 0 "0" 0 dec_nil eq_refl)|auto].
  - destruct (decimal_exists (Z.to_nat z) z) as (w & NE & D & HD); [lia|]. exists w. split; [exact NE|]. split; [exact D|easy].
Qed.
(** Tokens which can be written *)
Definition writable (t : token) : Prop := match t with TName n => exists w, spells_name w n | TNumber z => 0 <= z | _ => True end.
Lemma text_exists ts : Forall writable ts -> exists t, lexed t ts /\ word_ends t.
Proof.
  assert (SP : forall t l, lexed t l -> lexed (" "%char :: t) l) by (intros t l L; apply lex_blank; [now left|exact L]).
  assert (NW : ~ word_character " "%char) by (intros X; apply is_word_spec in X; discriminate X).
  induction 1 as [|k ts W F (t & L & E)]; [exists []; split; [constructor|exact I]|]. destruct k as [n|z| | | | |].
  - destruct W as (w & W). exists (" "%char :: w ++ t). split; [|exact NW]. apply SP. now apply lex_name.
  - destruct (number_exists z W) as (w & W'). exists (" "%char :: w ++ t). split; [|exact NW]. apply SP. now apply lex_number.
  - exists (" "%char :: "+"%char :: t). split; [|exact NW]. apply SP. apply lex_sign; [cbn; tauto|exact L].
  - exists (" "%char :: "-"%char :: t). split; [|exact NW]. apply SP. apply lex_sign; [cbn; tauto|exact L].
  - exists (" "%char :: "*"%char :: t). split; [|exact NW]. apply SP. apply lex_sign; [cbn; tauto|exact L].
  - exists (" "%char :: "("%char :: t). split; [|exact NW]. apply SP. apply lex_sign; [cbn; tauto|exact L].
  - exists (" "%char :: ")"%char :: t). split; [|exact NW]. apply SP. apply lex_sign; [cbn; tauto|exact L].
Qed.
Lemma tokens_exist s : (forall n, In n (names_of s) -> exists w, spells_name w n) ->
  exists ts s', Forall writable ts /\ is_factor ts s' /\ names_of s' = names_of s /\ forall en, seval en s' = seval en s.
Proof.
  induction s as [n|z|a IHa b IHb|a IHa b IHb|a IHa b IHb]; intros H.
  1: { exists [TName n], (SVar n). split; [apply Forall_cons; [apply H; now left|apply Forall_nil]|]. split; [constructor|auto]. }
  1: { destruct (Z.lt_ge_cases z 0) as [L|L].
       - exists [TMinus; TNumber (- z)], (SMul (SInt (-1)) (SInt (- z))). split; [repeat apply Forall_cons; cbn; auto; lia|]. split; [repeat constructor|]. split; [reflexivity|]. intros en. cbn [seval]. lia.
       - exists [TNumber z], (SInt z). split; [apply Forall_cons; [exact L|apply Forall_nil]|]. split; [constructor|auto]. }
  all: destruct IHa as (ta & sa & WA & FA & NA & VA); [intros n I1; apply H; cbn; apply in_or_app; now left|];
       destruct IHb as (tb & sb & WB & FB & NB & VB); [intros n I1; apply H; cbn; apply in_or_app; now right|].
  - exists (TOpen :: (ta ++ TTimes :: tb) ++ [TClose]), (SMul sa sb). split; [apply Forall_cons; [exact I|]; rewrite !Forall_app; repeat split; auto; repeat apply Forall_cons; auto; exact I|].
    split; [constructor; constructor; apply product_times; [now constructor|exact FB]|]. split; [cbn; congruence|]. intros en. cbn [seval]. now rewrite VA, VB.
  - exists (TOpen :: (ta ++ TPlus :: tb) ++ [TClose]), (SAdd sa sb). split; [apply Forall_cons; [exact I|]; rewrite !Forall_app; repeat split; auto; repeat apply Forall_cons; auto; exact I|].
    split; [constructor; apply sum_plus; [now repeat constructor|now constructor]|]. split; [cbn; congruence|]. intros en. cbn [seval]. now rewrite VA, VB.
  - exists (TOpen :: (ta ++ TMinus :: tb) ++ [TClose]), (SSub sa sb). split; [apply Forall_cons; [exact I|]; rewrite !Forall_app; repeat split; auto; repeat apply Forall_cons; auto; exact I|].
    split; [constructor; apply sum_minus; [now repeat constructor|now constructor]|]. split; [cbn; congruence|]. intros en. cbn [seval]. now rewrite VA, VB.
Qed.
Lemma expression_exists known s : free_names known s -> (forall n, In n (names_of s) -> exists w, spells_name w n) ->
  exists t s', means known (VStr t) (EExpr s') /\ forall en, seval en s' = seval en s.
Proof.
  intros F W. destruct (tokens_exist s W) as (ts & s' & WT & FT & NS & V). destruct (text_exists ts WT) as (t & L & _). exists (string_of_list_ascii t), s'. split; [|exact V]. constructor.
  - exists ts. rewrite list_ascii_of_string_of_list_ascii. split; [exact L|]. now repeat constructor.
  - unfold free_names. now rewrite NS.
Qed.
