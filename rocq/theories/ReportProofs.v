(** Proofs about reports *)
From Coq Require Import String Lia Lqa Permutation Sorted.
From Verif Require Import PyBase PyNum PyNumFacts PyText PyInt PyFloat PyStr EcmModel EcmSpec EcmProofs BwModel BwSpec ReportModel ReportSpec.
Local Open Scope Q_scope.
Local Open Scope list_scope.

(** ** Printed numbers *)
Lemma digits_point d r : forallb is_decimal d = true -> d <> [] -> digit_part (d ++ 46%N :: r) = (d, 46%N :: r).
Proof.
  assert (M : forall d, forallb is_decimal d = true -> more_digits (d ++ 46%N :: r) = (d, 46%N :: r)).
  { induction d0 as [|c s IH]; intros D.
    - cbn [app more_digits]. change (is_decimal 46) with false. destruct r as [|x r']; reflexivity.
    - cbn [forallb] in D. apply andb_true_iff in D as (C & D). cbn [app more_digits]. now rewrite C, (IH D). }
  intros D N. destruct d as [|c s]; [easy|]. cbn [forallb] in D. apply andb_true_iff in D as (C & D). cbn [app digit_part]. now rewrite C, (M s D).
Qed.
Lemma digit_not_space c : is_decimal c = true -> is_space c = false.
Proof.
  intros D. apply is_decimal_spec in D. unfold is_space. apply orb_false_iff. split; apply andb_false_iff; right; apply N.leb_gt; lia.
Qed.
Lemma strip_padded s n : s <> [] -> (forall c, In c s -> is_space c = false) -> strip (s ++ repeat 32%N n) = s.
Proof.
  intros NE H. destruct s as [|c s]; [easy|]. unfold strip. cbn [app lstrip]. rewrite (H c (or_introl eq_refl)).
  replace (rev (c :: s ++ repeat 32%N n)) with (repeat 32%N n ++ rev (c :: s)).
  - assert (L : forall k t, lstrip (repeat 32%N k ++ t) = lstrip t) by (induction k; intros; cbn; auto). rewrite L.
    destruct (rev (c :: s)) as [|x r] eqn:E; [apply (f_equal (@rev N)) in E; rewrite rev_involutive in E; discriminate|].
    cbn [lstrip]. rewrite (H x); [rewrite <- E; apply rev_involutive|]. apply in_rev. rewrite E. now left.
  - change (c :: s ++ repeat 32%N n) with ((c :: s) ++ repeat 32%N n). rewrite rev_app_distr. f_equal.
    clear. induction n as [|n IH]; [reflexivity|]. cbn [repeat rev]. rewrite <- IH. clear. induction n as [|n IH]; [reflexivity|]. cbn. now f_equal.
Qed.
Lemma digit_text k : (k < 10)%N -> exists c, show_nat k = [c] /\ is_decimal c = true /\ (c - 48 = k)%N.
Proof.
  intros K. unfold show_nat. cbn [digits]. destruct (N.ltb_spec k 10); [|lia]. exists (48 + k)%N. split; [reflexivity|]. split; [apply is_decimal_spec; lia|lia].
Qed.
Lemma unsigned_fixed a k : (k < 10)%N -> unsigned (show_nat a ++ [46%N] ++ show_nat k) = Some (Fin (inject_Z (Z.of_N (10 * a + k)) * power10 (0 - 1))).
Proof.
  intros K. destruct (show_nat_spec a) as (V & D & N). destruct (digit_text k K) as (c & -> & C & E). unfold unsigned. cbn [app].
  rewrite (digits_point (show_nat a) [c] D N). replace ((46 =? 46)%N) with true by reflexivity. unfold digit_part. rewrite C. cbn [more_digits].
  assert (L : exists x l, show_nat a ++ [c] = x :: l) by (destruct (show_nat a) as [|x l]; [easy|now exists x, (l ++ [c])]).
  assert (W : value (show_nat a ++ [c]) = (10 * a + k)%N) by now rewrite value_snoc, V, E.
  destruct L as (x & l & L). rewrite L in W |- *. cbn [exponent_part List.length Z.of_nat]. rewrite W. reflexivity.
Qed.
Definition body (a k : N) : text := show_nat a ++ [46%N] ++ show_nat k.
Lemma body_chars a k c : In c (body a k) -> is_decimal c = true \/ c = 46%N.
Proof.
  intros I. unfold body in I. apply in_app_or in I as [I|I]; [left|apply in_app_or in I as [[I|[]]|I]; [right; now symmetry|left]].
  - destruct (show_nat_spec a) as (_ & D & _). rewrite forallb_forall in D. now apply D.
  - destruct (show_nat_spec k) as (_ & D & _). rewrite forallb_forall in D. now apply D.
Qed.
Lemma body_first a k : exists c l, body a k = c :: l /\ is_decimal c = true.
Proof.
  unfold body. destruct (show_nat_spec a) as (_ & D & N). destruct (show_nat a) as [|c l]; [easy|]. exists c, (l ++ [46%N] ++ show_nat k). split; [reflexivity|].
  cbn [forallb] in D. now apply andb_true_iff in D as [D _].
Qed.
Lemma body_float a k n (neg : bool) : (k < 10)%N ->
  py_float (((if neg then [45%N] else []) ++ body a k) ++ repeat 32%N n) = Some (Fin ((if neg then Qopp else (fun q => q)) (inject_Z (Z.of_N (10 * a + k)) * power10 (0 - 1)))).
Proof.
  intros K. unfold py_float. rewrite strip_padded.
  - assert (U : unsigned (body a k) = Some (Fin (inject_Z (Z.of_N (10 * a + k)) * power10 (0 - 1)))) by now apply unsigned_fixed.
    assert (S : sign_part ((if neg then [45%N] else []) ++ body a k) = (neg, body a k)).
    { destruct neg; [reflexivity|]. cbn [app]. destruct (body_first a k) as (c & l & -> & C). apply is_decimal_spec in C. apply sign_part_other; lia. }
    rewrite S.
    assert (I : forall x w, is_decimal x = false -> text_eqb (lower_case (body a k)) (x :: w) = false).
    { intros x w X. destruct (body_first a k) as (c & l & -> & C). unfold lower_case. cbn [map].
      destruct (text_eqb_spec ((if (65 <=? c)%N && (c <=? 90)%N then (c + 32)%N else c) :: map (fun c => if (65 <=? c)%N && (c <=? 90)%N then (c + 32)%N else c) l) (x :: w)) as [E|]; [|reflexivity].
      exfalso. injection E as E _. assert (D := C). apply is_decimal_spec in D. destruct (N.leb_spec 65 c); [lia|]. cbn [andb] in E. congruence. }
    change (codes "inf") with (105%N :: [110%N; 102%N]). change (codes "infinity") with (105%N :: [110%N; 102%N; 105%N; 110%N; 105%N; 116%N; 121%N]). change (codes "nan") with (110%N :: [97%N; 110%N]).
    rewrite !I by reflexivity. cbn [orb]. rewrite U. destruct neg; reflexivity.
  - destruct neg; [discriminate|]. destruct (body_first a k) as (c & l & -> & _). discriminate.
  - intros c J. apply in_app_or in J as [J|J]; [destruct neg; [destruct J as [<-|[]]; reflexivity|destruct J]|].
    apply body_chars in J as [J| ->]; [now apply digit_not_space|reflexivity].
Qed.
Lemma round10 q : q - (1 # 20) <= inject_Z (round_even (q * inject_Z 10)) / 10 <= q + (1 # 20).
Proof.
  pose proof (round_even_near (q * inject_Z 10)) as H. change (inject_Z 10) with (10 # 1) in *.
  apply Qabs_Qle_condition in H as [H1 H2]. set (r := inject_Z _) in *. change (10 : Q) with (10 # 1). unfold Qdiv. change (/ (10 # 1)) with (1 # 10). split; lra.
Qed.
Lemma fixed1_body q : exists a k, (k < 10)%N /\ fixed1 q = (if Qltb q 0 then [45%N] else []) ++ body a k
  /\ Z.of_N (10 * a + k) = Z.abs (round_even (q * inject_Z 10)).
Proof.
  unfold fixed1. set (z := Z.abs (round_even (q * inject_Z 10))). assert (0 <= z)%Z by (unfold z; lia). exists (Z.to_N (z / 10)), (Z.to_N (z mod 10)).
  assert (M := Z.mod_pos_bound z 10 ltac:(lia)). assert (D := Z.div_mod z 10 ltac:(lia)). assert (0 <= z / 10)%Z by (apply Z.div_pos; lia).
  split; [lia|]. split; [reflexivity|]. rewrite N2Z.inj_add, N2Z.inj_mul, !Z2N.id by lia. lia.
Qed.
Lemma shows_padded q n : shows (fixed1 q ++ repeat 32%N n) q.
Proof.
  destruct (fixed1_body q) as (a & k & K & -> & E). set (z := round_even (q * inject_Z 10)) in *.
  assert (S : (Qltb q 0 = true -> (z <= 0)%Z) /\ (Qltb q 0 = false -> (0 <= z)%Z)).
  { split; intros L; destruct (Qltb_spec q 0) as [L'|L']; try discriminate.
    - unfold z. pose proof (round_even_near (q * inject_Z 10)) as H. apply Qabs_Qle_condition in H as [_ H].
      assert (inject_Z (round_even (q * inject_Z 10)) < inject_Z 1) by (change (inject_Z 1) with 1; change (inject_Z 10) with (10 # 1) in *; lra).
      apply (proj1 (inject_Z_lt _ _)) in H0. lia.
    - apply round_even_nonneg. change (inject_Z 10) with (10 # 1). lra. }
  exists ((if Qltb q 0 then Qopp else (fun q => q)) (inject_Z (Z.of_N (10 * a + k)) * power10 (0 - 1))). split; [now apply body_float|].
  assert (V : (if Qltb q 0 then Qopp else (fun q => q)) (inject_Z (Z.of_N (10 * a + k)) * power10 (0 - 1)) == inject_Z z / 10).
  { rewrite E. change (power10 (0 - 1)) with (1 / inject_Z 10). change (inject_Z 10) with (10 # 1). change (10 : Q) with (10 # 1). unfold Qdiv. change (/ (10 # 1)) with (1 # 10).
    destruct S as (S1 & S2). destruct (Qltb q 0).
    - rewrite Z.abs_neq by auto. rewrite inject_Z_opp. lra.
    - rewrite Z.abs_eq by auto. lra. }
  split; [rewrite V; apply round10|]. exists z. exact V.
Qed.
Lemma shows_fixed q : shows (fixed1 q) q.
Proof. rewrite <- (app_nil_r (fixed1 q)). exact (shows_padded q 0). Qed.
Lemma fixed1_chars q c : In c (fixed1 q) -> is_decimal c = true \/ c = 46%N \/ c = 45%N.
Proof.
  destruct (fixed1_body q) as (a & k & K & -> & E). intros I. apply in_app_or in I as [I|I]; [destruct (Qltb q 0); [destruct I as [<-|[]]; auto|destruct I]|].
  apply body_chars in I. tauto.
Qed.
Lemma fixed1_plain q : plain_word (fixed1 q).
Proof.
  split; [|repeat split; intros I; apply fixed1_chars in I as [I|[I|I]]; try discriminate].
  destruct (fixed1_body q) as (a & k & K & -> & E). destruct (body_first a k) as (c & l & -> & _). destruct (Qltb q 0); discriminate.
Qed.

(** ** Formulas *)
Lemma glue_commas l : glue comma l = commas l.
Proof.
  destruct l as [|x l]; [reflexivity|]. cbn [commas]. revert x. induction l as [|y l IH]; intros x; [cbn; now rewrite app_nil_r|].
  cbn [glue flat_map]. f_equal. change (comma ++ glue comma (y :: l) = (codes ", " ++ y) ++ flat_map (fun y0 => codes ", " ++ y0) l). rewrite IH. now rewrite <- app_assoc.
Qed.
Lemma cut_unique c (a a' b b' : text) : ~ In c a -> ~ In c a' -> a ++ c :: b = a' ++ c :: b' -> a = a' /\ b = b'.
Proof.
  revert a'. induction a as [|x a IH]; intros [|y a'] N N' E; cbn in *.
  - now injection E.
  - exfalso. apply N'. left. congruence.
  - exfalso. apply N. left. congruence.
  - injection E as -> E. destruct (IH a') as (-> & ->); auto; tauto.
Qed.
Lemma split_commas x l : ~ In 44%N x -> Forall plain_word l -> PyText.split 44 (x ++ flat_map (fun y => codes ", " ++ y) l) = x :: map (cons 32%N) l.
Proof.
  revert x. induction l as [|y l IH]; intros x X F; [cbn; rewrite app_nil_r; now apply split_single|].
  cbn [flat_map map]. change (codes ", " ++ y) with (44%N :: 32%N :: y). inversion F as [|? ? (_ & Y & _) F']; subst. cbn [app]. rewrite (split_app 44 x _ X). f_equal.
  apply (IH (32%N :: y)); [|exact F']. intros [E|E]; [discriminate|contradiction].
Qed.
Lemma commas_inj l l' : Forall plain_word l -> Forall plain_word l' -> commas l = commas l' -> l = l'.
Proof.
  intros F F' E. destruct l as [|x l], l' as [|x' l']; [reflexivity| | |].
  - inversion F' as [|? ? (N & _) _]; subst. cbn in E. destruct x'; [easy|discriminate].
  - inversion F as [|? ? (N & _) _]; subst. cbn in E. destruct x; [easy|discriminate].
  - inversion F as [|? ? (_ & X & _) G]; subst. inversion F' as [|? ? (_ & X' & _) G']; subst. cbn [commas] in E.
    apply (f_equal (PyText.split 44)) in E. rewrite (split_commas x l X G), (split_commas x' l' X' G') in E. injection E as -> E. f_equal.
    clear - E. revert l' E. induction l as [|y l IH]; intros [|y' l'] E; try discriminate; [reflexivity|]. cbn in E. injection E as -> E. f_equal. now apply IH.
Qed.
Lemma commas_free l : Forall plain_word l -> ~ In 40%N (commas l).
Proof.
  intros F I. destruct l as [|x l]; [destruct I|]. cbn [commas] in I. inversion F as [|? ? (_ & _ & X & _) G]; subst. apply in_app_or in I as [I|I]; [contradiction|].
  apply in_flat_map in I as (y & Y & I). rewrite Forall_forall in G. destruct (G y Y) as (_ & _ & Z & _). apply in_app_or in I as [I|I]; [|contradiction].
  destruct I as [I|[I|[]]]; discriminate.
Qed.
Lemma formula_unique t l s l' s' : reads_formula t l s -> reads_formula t l' s' -> l = l' /\ s = s'.
Proof.
  intros (E & _ & L & S) (E' & _ & L' & S'). rewrite E in E'. apply app_inv_head in E'.
  change (codes ", sum(") with (codes ", sum" ++ [40%N]) in E'. rewrite <- !app_assoc in E'. rewrite !(app_assoc _ (codes ", sum") _) in E'. cbn [app] in E'.
  assert (M : forall w, Forall plain_word w -> ~ In 40%N (commas w ++ codes ", sum")).
  { intros w W I. apply in_app_or in I as [I|I]; [now apply (commas_free w W)|]. cbn in I. repeat (destruct I as [I|I]; [discriminate|]). exact I. }
  apply cut_unique in E' as (E1 & E2); [|now apply M|now apply M]. apply app_inv_tail in E1. apply app_inv_tail in E2. split; now apply commas_inj.
Qed.
Lemma formula_read l s : l <> [] -> Forall plain_word l -> Forall plain_word s -> reads_formula (formula l s) l s.
Proof. intros N L S. unfold formula. rewrite !glue_commas. now repeat split. Qed.

(** ** Contributions *)
Lemma named_spec levels : forall seen previous ol nol x, named_levels seen previous levels ol nol = Ok x ->
  x = (ol ++ map snd (filter fst (transfers previous levels)), nol ++ map snd (filter (fun t => negb (fst t)) (transfers previous levels))).
Proof.
  induction levels as [|[[name o] cy] levels IH]; intros seen previous ol nol x; cbn [named_levels transfers].
  - intros E. injection E as <-. cbn. now rewrite !app_nil_r.
  - destruct o.
    + destruct seen; [discriminate|]. intros E. apply IH in E. rewrite E. cbn [filter fst negb map snd]. now rewrite <- app_assoc.
    + intros E. apply IH in E. rewrite E. cbn [filter fst negb map snd]. now rewrite <- app_assoc.
Qed.
Lemma named_compose levels : forall seen previous ol nol,
  compose_levels seen (map (fun l => (snd (fst l), snd l)) levels) (map snd ol) (map snd nol)
  = match named_levels seen previous levels ol nol with Ok x => Ok (map snd (fst x), map snd (snd x)) | Err e => Err e end.
Proof.
  induction levels as [|[[name o] cy] levels IH]; intros seen previous ol nol; cbn [named_levels compose_levels map fst snd]; [reflexivity|].
  destruct o.
  - destruct seen; [reflexivity|]. rewrite <- (IH false name). now rewrite map_app.
  - rewrite <- (IH true name). now rewrite map_app.
Qed.
Lemma construction_compose comp regl1 first_name first levels penalty :
  compose comp regl1 first (map (fun l => (snd (fst l), snd l)) levels) penalty
  = match construction comp regl1 first_name first levels penalty with Ok x => Ok (map snd (fst x), map snd (snd x)) | Err e => Err e end.
Proof.
  unfold compose, construction. destruct first.
  - assert (H := named_compose levels false first_name [(codes "T_comp", comp); (codes "T_RegL1", regl1)] []). cbn [map snd] in H. rewrite H.
    destruct (named_levels _ _ _ _ _) as [x|]; cbn [bind]; [|reflexivity]. cbn [fst snd]. destruct (Qeq_bool penalty 0); [reflexivity|]. now rewrite map_app.
  - assert (H := named_compose levels true first_name [(codes "T_comp", comp)] [(codes "T_RegL1", regl1)]). cbn [map snd] in H. rewrite H.
    destruct (named_levels _ _ _ _ _) as [x|]; cbn [bind]; [|reflexivity]. cbn [fst snd]. destruct (Qeq_bool penalty 0); [reflexivity|]. now rewrite map_app.
Qed.
Lemma construction_spec comp regl1 first_name first levels penalty x : construction comp regl1 first_name first levels penalty = Ok x ->
  let all := (first, (codes "T_RegL1", regl1)) :: transfers first_name levels in
  fst x = (codes "T_comp", comp) :: map snd (filter fst all)
  /\ snd x = map snd (filter (fun t => negb (fst t)) all) ++ (if Qeq_bool penalty 0 then [] else [(codes "T_penalty", penalty)]).
Proof.
  unfold construction. destruct first; destruct (named_levels _ _ _ _ _) as [y|] eqn:E; cbn [bind]; try discriminate; apply named_spec in E as ->; intros H; injection H as <-; cbn [fst snd filter negb map app];
    (split; [reflexivity|]); destruct (Qeq_bool penalty 0); rewrite ?app_nil_r; reflexivity.
Qed.

(** ** Values of formulas *)
Definition near (d : Q) (v x : Q) : Prop := x - d <= v <= x + d.
Lemma biggest_near d b b' l l' : near d b b' -> Forall2 (near d) l l' -> near d (biggest b l) (biggest b' l').
Proof.
  intros B F. induction F as [|v x l l' H F IH]; [exact B|]. cbn [biggest]. cbv zeta. unfold near in *.
  destruct (Qle_bool_spec (biggest b l) v), (Qle_bool_spec (biggest b' l') x); lra.
Qed.
Lemma sum_near d l l' : Forall2 (near d) l l' -> near (d * inject_Z (Z.of_nat (List.length l))) (sum_up l) (sum_up l').
Proof.
  intros F. induction F as [|v x l l' H F IH]; cbn [sum_up List.length]; [unfold near; change (inject_Z (Z.of_nat 0)) with 0; lra|].
  rewrite Nat2Z.inj_succ, <- Z.add_1_r, inject_Z_plus. change (inject_Z 1) with 1. unfold near in *. lra.
Qed.
Lemma near_more d d' v x : d <= d' -> near d v x -> near d' v x.
Proof. unfold near. lra. Qed.
Lemma biggest_largest b l : largest (biggest b l) (b :: l).
Proof.
  induction l as [|x l ((y & I & E) & IH)]; cbn [biggest]; [split; [exists b; split; [now left|lra]|]; intros y [<-|[]]; lra|]. cbv zeta.
  destruct (Qle_bool_spec (biggest b l) x).
  - split; [exists x; split; [right; now left|lra]|]. intros z [<-|[<-|Z]]; [|lra|]; [assert (b <= biggest b l) by (apply IH; now left)|assert (z <= biggest b l) by (apply IH; now right)]; lra.
  - split; [exists y; split; [destruct I; [now left|right; now right]|exact E]|]. intros z [<-|[<-|Z]]; [apply IH; now left|lra|apply IH; now right].
Qed.
Lemma sum_same l : sum_up l = sum_of l.
Proof. induction l as [|x l IH]; [reflexivity|]. cbn. now rewrite IH. Qed.
Lemma biggest_proper b b' l : b == b' -> biggest b l == biggest b' l.
Proof.
  intros E. induction l as [|x l IH]; [exact E|]. cbn [biggest]. cbv zeta. destruct (Qle_bool_spec (biggest b l) x), (Qle_bool_spec (biggest b' l) x); lra.
Qed.
Lemma total_formula x : total x == formula_value (fst x) (snd x).
Proof.
  unfold total, formula_value. rewrite (biggest_proper _ (qsum (snd x))) by (rewrite sum_same; symmetry; apply qsum_spec).
  apply (largest_unique (qsum (snd x) :: fst x)); [apply qmax_from_spec|apply biggest_largest].
Qed.
Lemma formula_near vs ss xs ys : Forall2 (near (1 # 20)) vs xs -> Forall2 (near (1 # 20)) ss ys ->
  near ((1 # 20) * inject_Z (Z.max 1 (Z.of_nat (List.length ss)))) (formula_value vs ss) (formula_value xs ys).
Proof.
  intros F G. unfold formula_value.
  assert (A : (1 # 20) <= (1 # 20) * inject_Z (Z.max 1 (Z.of_nat (List.length ss)))).
  { assert (inject_Z 1 <= inject_Z (Z.max 1 (Z.of_nat (List.length ss)))) by (apply inject_Z_le; lia). change (inject_Z 1) with 1 in H. lra. }
  assert (B : (1 # 20) * inject_Z (Z.of_nat (List.length ss)) <= (1 # 20) * inject_Z (Z.max 1 (Z.of_nat (List.length ss)))).
  { assert (inject_Z (Z.of_nat (List.length ss)) <= inject_Z (Z.max 1 (Z.of_nat (List.length ss)))) by (apply inject_Z_le; lia). lra. }
  apply biggest_near; [apply (near_more _ _ _ _ B), sum_near, G|]. clear - F A. induction F as [|a b l l' H F IH]; constructor; [now apply (near_more _ _ _ _ A)|exact IH].
Qed.

(** ** Rows *)
Definition bars (l : list text) : text := match l with [] => [] | x :: l' => x ++ flat_map (fun y => codes " | " ++ y) l' end.
Lemma glue_bars l : glue bar l = bars l.
Proof.
  destruct l as [|x l]; [reflexivity|]. cbn [bars]. revert x. induction l as [|y l IH]; intros x; [cbn; now rewrite app_nil_r|].
  cbn [glue flat_map]. f_equal. change (bar ++ glue bar (y :: l) = (codes " | " ++ y) ++ flat_map (fun y0 => codes " | " ++ y0) l). rewrite IH. now rewrite <- app_assoc.
Qed.
(** Parts between the bars *)
Fixpoint parts (x : text) (l : list text) : list text := match l with [] => [x] | y :: l' => (x ++ [32%N]) :: parts (32%N :: y) l' end.
Lemma split_bars l : forall x, ~ In 124%N x -> Forall (fun c => ~ In 124%N c) l -> PyText.split 124 (x ++ flat_map (fun y => codes " | " ++ y) l) = parts x l.
Proof.
  induction l as [|y l IH]; intros x X F; [cbn; rewrite app_nil_r; now apply split_single|].
  cbn [flat_map parts]. change (codes " | " ++ y) with ([32%N] ++ 124%N :: 32%N :: y). inversion F as [|? ? Y F']; subst.
  replace (x ++ ([32%N] ++ 124%N :: 32%N :: y) ++ flat_map (fun y0 => codes " | " ++ y0) l) with ((x ++ [32%N]) ++ 124%N :: (32%N :: y) ++ flat_map (fun y0 => codes " | " ++ y0) l)
    by (rewrite <- !app_assoc; reflexivity).
  rewrite split_app; [f_equal; apply IH; [intros [E|E]; [discriminate|contradiction]|exact F']|].
  intros I. apply in_app_or in I as [I|[I|[]]]; [contradiction|discriminate].
Qed.
Lemma parts_inj l : forall x x' l', parts x l = parts x' l' -> x = x' /\ l = l'.
Proof.
  induction l as [|y l IH]; intros x x' [|y' l'] E; cbn [parts] in E.
  - injection E as ->. now split.
  - destruct l'; discriminate.
  - destruct l; discriminate.
  - injection E as E1 E2. apply app_inv_tail in E1 as ->. apply IH in E2 as (E2 & ->). injection E2 as ->. now split.
Qed.
Lemma row_unique head t l l' : l <> [] -> l' <> [] -> reads_row head t l -> reads_row head t l' -> l = l'.
Proof.
  intros N N' (-> & F) (E & F'). apply app_inv_head in E. destruct l as [|x l], l' as [|x' l']; try easy.
  inversion F; subst. inversion F'; subst. apply (f_equal (PyText.split 124)) in E. rewrite !split_bars in E by assumption. now apply parts_inj in E as (-> & ->).
Qed.
Lemma digits_no_bar s : forallb is_decimal s = true -> ~ In 124%N s.
Proof. intros D I. rewrite forallb_forall in D. specialize (D _ I). discriminate D. Qed.
Lemma pad_no_bar n s : ~ In 124%N s -> ~ In 124%N (pad n s).
Proof. intros N I. apply in_app_or in I as [I|I]; [contradiction|]. apply repeat_spec in I. discriminate. Qed.
Lemma read_cores n k : py_int (pad k (show_nat (N.of_nat n))) = Some (Z.of_nat n).
Proof.
  destruct (show_nat_spec (N.of_nat n)) as (V & D & NE). unfold py_int, pad. rewrite strip_padded; [|exact NE|].
  - destruct (show_nat (N.of_nat n)) as [|c l] eqn:E; [easy|]. assert (C : is_decimal c = true) by (cbn [forallb] in D; now apply andb_true_iff in D).
    apply is_decimal_spec in C. rewrite sign_part_other by lia. rewrite (digit_part_all (c :: l) D). cbv iota. rewrite V. f_equal. lia.
  - intros c I. rewrite forallb_forall in D. now apply digit_not_space, D.
Qed.

(** ** Chosen prediction *)
Lemma multi_core_spec {A} (l : list A) cores : (1 <= cores <= Z.of_nat (List.length l))%Z -> exists x, nth_error l (Z.to_nat (cores - 1)) = Some x /\ multi_core l cores = Ok (Some x).
Proof.
  intros H. destruct (nth_error l (Z.to_nat (cores - 1))) as [x|] eqn:E; [|apply nth_error_None in E; lia]. exists x. split; [reflexivity|].
  unfold multi_core, py_index. destruct (Z.eqb_spec cores 0); [lia|]. destruct (Z.ltb_spec (cores - 1) 0); [lia|]. destruct (Z.leb_spec 0 (cores - 1)); [|lia]. now rewrite E.
Qed.
Lemma multi_core_beyond {A} (l : list A) cores : (Z.of_nat (List.length l) < cores)%Z -> multi_core l cores = Err IndexError.
Proof.
  intros H. unfold multi_core, py_index. destruct (Z.eqb_spec cores 0); [lia|]. destruct (Z.ltb_spec (cores - 1) 0); [lia|]. destruct (Z.leb_spec 0 (cores - 1)); [|lia].
  destruct (nth_error l (Z.to_nat (cores - 1))) eqn:E; [|reflexivity]. exfalso. assert (X : nth_error l (Z.to_nat (cores - 1)) <> None) by congruence. apply nth_error_Some in X. lia.
Qed.
Lemma predictions_nth s i x : nth_error (scaling_times s) i = Some x -> nth_error (predictions s) i = Some (S i, x).
Proof.
  unfold predictions. generalize (scaling_times s). intros l. assert (G : forall k j, nth_error l j = Some x -> nth_error (combine (seq k (List.length l)) l) j = Some (k + j, x)%nat).
  { clear. induction l as [|y l IH]; intros k [|j] E; try discriminate; cbn in E.
    - cbn. injection E as ->. now rewrite Nat.add_0_r.
    - cbn [List.length seq combine nth_error]. rewrite (IH (S k) j E). f_equal. f_equal. lia. }
  intros E. now rewrite (G 1%nat i E).
Qed.

(** ** Layer conditions *)
Lemma fresh_agree per_set m kept cores lines : lc_model per_set m kept None cores = Ok lines ->
  forall name header size, In (name, header, size) lines -> header = (size / 1024)%Z.
Proof.
  unfold lc_model, lc_analyze. destruct (get_cachesim m kept 1) as [[s k]|] eqn:G; cbn [bind fst snd]; [|discriminate].
  assert (K : k = Some s).
  { unfold get_cachesim in G. destruct kept; [injection G as <- <-; reflexivity|]. destruct (build_sim m 1); cbn in G; [injection G as <- <-; reflexivity|discriminate]. }
  subst k. unfold lc_report. cbn [get_cachesim bind fst snd]. unfold sizes at 1. cbn [sim_levels]. intros E. injection E as <-. intros name header size I.
  apply in_map_iff in I as ([[n a] [n' b]] & E & I). cbn [fst snd] in E. injection E as <- <- <-. f_equal.
  fold (sizes per_set s) in I. clear - I. induction (sizes per_set s) as [|[x y] l IH]; [destruct I|]. destruct I as [E|I]; [now injection E as <- <- <- <-|now apply IH].
Qed.

(** ** Tables *)
Lemma sget_in {A} k (d : list (string * A)) v : sget k d = Some v -> In (k, v) d.
Proof.
  induction d as [|[x w] d IH]; cbn; [discriminate|]. destruct (String.eqb_spec k x) as [->|]; [intros E; injection E as ->; now left|]. intros E. right. now apply IH.
Qed.
Lemma sget_none {A} k (d : list (string * A)) : sget k d = None -> ~ In k (map fst d).
Proof.
  induction d as [|[x w] d IH]; cbn; [easy|]. destruct (String.eqb_spec k x) as [->|N]; [discriminate|]. intros E [I|I]; [congruence|]. now apply IH.
Qed.
Lemma bench_correct t : correct_table t (bench_table t).
Proof.
  intros level values I. unfold bench_table in *. cbn [fst snd] in *. apply in_map_iff in I as ([l ms] & E & I). cbn [fst snd] in E.
  assert (E1 := f_equal fst E). assert (E2 := f_equal snd E). cbn [fst snd] in E1, E2. subst level values. clear E.
  exists ms. split; [revert I; apply Permutation_in; symmetry; apply sort_with_perm'|]. split; [apply map_length|].
  intros i name v N V. rewrite nth_error_map, N in V. cbn [option_map] in V. injection V as <-. destruct (sget name ms) as [w|] eqn:S; [left; now apply sget_in|right].
  split; [reflexivity|now apply sget_none].
Qed.
Lemma str_total (a b : string) : String.leb a b = true \/ String.leb b a = true.
Proof. destruct (String.leb_total a b); auto. Qed.
Lemma sorted_names {A} (ms : list (string * A)) : StronglySorted (fun a b => String.leb a b = true) (map fst (sort_with by_name ms)).
Proof.
  assert (S : StronglySorted (fun a b : string * A => by_name a b = true) (sort_with by_name ms)).
  { apply (sort_with_sorted by_name); unfold by_name; [intros; apply str_total|intros a b c; apply str_leb_trans]. }
  induction S as [|a l S IH F]; [constructor|]. cbn [map]. constructor; [exact IH|]. rewrite Forall_forall in *. intros x X. apply in_map_iff in X as (y & <- & Y). now apply F.
Qed.
Lemma same_names {A} (a b : list (string * A)) : Permutation (map fst a) (map fst b) -> map fst (sort_with by_name a) = map fst (sort_with by_name b).
Proof.
  intros P. apply (sorted_unique String.leb); [apply String.leb_antisym|apply sorted_names|apply sorted_names|].
  transitivity (map fst a); [apply Permutation_map; symmetry; apply sort_with_perm'|]. transitivity (map fst b); [exact P|]. apply Permutation_map, sort_with_perm'.
Qed.
Lemma standalone_correct t : (forall l l' ms ms', In (l, ms) t -> In (l', ms') t -> Permutation (map fst ms) (map fst ms')) -> correct_table t (standalone_table t).
Proof.
  intros H level values I. unfold standalone_table in *. cbn [fst snd] in *. apply in_map_iff in I as ([l ms] & E & I). cbn [fst snd] in E.
  assert (E1 := f_equal fst E). assert (E2 := f_equal snd E). cbn [fst snd] in E1, E2. subst level values. clear E.
  assert (J : In (l, ms) t) by (revert I; apply Permutation_in; symmetry; apply sort_with_perm').
  exists ms. split; [exact J|]. destruct t as [|[l0 first] t']; [destruct J|].
  rewrite (same_names first ms) by (apply (H l0 l first ms); [now left|exact J]).
  split; [now rewrite !map_length|]. intros i name v N V. left. rewrite nth_error_map in N, V. destruct (nth_error (sort_with by_name ms) i) as [[n w]|] eqn:X; [|discriminate].
  cbn in N, V. injection N as <-. injection V as <-. apply nth_error_In in X. revert X. apply Permutation_in. symmetry. apply sort_with_perm'.
Qed.
Lemma standalone_complete t : complete_table t (standalone_table t).
Proof.
  intros level ms I. exists (map snd (sort_with by_name ms)). split.
  - unfold standalone_table. cbn [snd]. apply in_map_iff. exists (level, ms). split; [reflexivity|]. revert I. apply Permutation_in, sort_with_perm'.
  - intros name v J. apply in_map_iff. exists (name, v). split; [reflexivity|]. revert J. apply Permutation_in, sort_with_perm'.
Qed.
Lemma bench_complete t : (forall l ms, In (l, ms) t -> NoDup (map fst ms) /\ forall n, In n (map fst ms) -> In n bench_columns) -> complete_table t (bench_table t).
Proof.
  intros H level ms I. exists (map (fun n => match sget n ms with Some v => v | None => "-"%string end) bench_columns). split.
  - unfold bench_table. cbn [snd]. apply in_map_iff. exists (level, ms). split; [reflexivity|]. revert I. apply Permutation_in, sort_with_perm'.
  - intros name v J. destruct (H level ms I) as (ND & C). apply in_map_iff. exists name. split; [|apply C; change name with (fst (name, v)); now apply in_map].
    replace (sget name ms) with (Some v); [reflexivity|]. clear - ND J. induction ms as [|[x w] ms IH]; [destruct J|]. cbn in ND |- *. inversion ND as [|? ? N ND']; subst.
    destruct (String.eqb_spec name x) as [->|X]; [destruct J as [J|J]; [now injection J as ->|exfalso; apply N; change x with (fst (x, v)); now apply in_map]|].
    destruct J as [J|J]; [injection J as -> ->; congruence|now apply IH].
Qed.
