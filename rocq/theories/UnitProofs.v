From Coq Require Import String Ascii Lqa Qfield Setoid Morphisms Decimal DecimalString DecimalFacts DecimalN.
From Verif Require Import PyBase PyNum PyNumFacts UnitModel UnitSpec.
Local Open Scope string_scope.
Local Open Scope Q_scope.

Arguments factor : simpl never.
Arguments PREFIXES : simpl never.

(** * Factors *)
Lemma factor_in k f : factor k = Some f -> In (k, f) PREFIXES.
Proof.
  unfold factor. generalize PREFIXES. intros l. induction l as [|[k' v] l IH]; cbn; [discriminate|].
  destruct (String.eqb_spec k k') as [->|_]; intros H; [injection H as <-; now left|right; auto].
Qed.

Lemma in_factor k f : In (k, f) PREFIXES -> factor k = Some f.
Proof.
  intros H. repeat (destruct H as [[= <- <-]|H]; [reflexivity|]). destruct H.
Qed.

Lemma factor_pos k f : factor k = Some f -> (0 < f)%Z.
Proof.
  intros H. apply factor_in in H.
  repeat (destruct H as [[= <- <-]|H]; [reflexivity|]). destruct H.
Qed.

Lemma injpos f : (0 < f)%Z -> 0 < inject_Z f.
Proof. intros H. change 0 with (inject_Z 0). now apply inject_Z_lt. Qed.

Lemma nmul_div x f v :
  (0 < f)%Z -> ndiv x (Fin (inject_Z f)) = Ok v -> num_eq (nmul v (Fin (inject_Z f))) x.
Proof.
  intros Hf. pose proof (injpos f Hf) as Hp. cbn [ndiv].
  destruct (Qeq_bool_spec (inject_Z f) 0) as [E|E]; [rewrite E in Hp; discriminate|].
  destruct x as [x| | |]; intros [= <-]; rewrite ?inf_times_pos by assumption; cbn [nmul];
    rewrite ?inf_times_pos by assumption; cbn; try easy.
  field. lra.
Qed.

Lemma ndiv_total x f : (0 < f)%Z -> exists v, ndiv x (Fin (inject_Z f)) = Ok v.
Proof.
  intros Hf. cbn [ndiv]. pose proof (injpos f Hf) as Hp.
  destruct (Qeq_bool_spec (inject_Z f) 0) as [E|E]; [rewrite E in Hp; discriminate|].
  destruct x; eauto.
Qed.

Lemma with_prefix_ok q p f :
  factor p = Some f ->
  exists q', with_prefix q p = Ok q' /\ prefix q' = p /\ unit q' = unit q
    /\ num_eq (base_value q') (base_value q).
Proof.
  intros Hf. unfold with_prefix. rewrite Hf. pose proof (factor_pos _ _ Hf) as Hp.
  destruct (ndiv_total (base_value q) f Hp) as (v & Hv). rewrite Hv. cbn [bind].
  unfold make3. rewrite Hf. eexists. split; [reflexivity|]. cbn. repeat split.
  unfold base_value at 1. cbn [prefix value]. rewrite Hf. now apply nmul_div.
Qed.

Lemma with_prefix_unknown q p : factor p = None -> with_prefix q p = Err KeyError.
Proof. intros H. unfold with_prefix. now rewrite H. Qed.

(** * Choice of the prefix *)
Definition test (err : Q) (bv : num) (v : Z) : bool :=
  match ndiv bv (Fin (inject_Z v)) with
  | Ok x => (negb (ngtb (nabs (nsub (nmul (nround2 x) (Fin (inject_Z v))) bv)) (nmul bv (Fin err)))
             && negb (nltb (nabs (nround2 x)) (Fin (9 # 10))))%bool
  | Err _ => false
  end.
Definition allowedb (max : option string) (v : Z) : bool :=
  match max with
  | None => true
  | Some m => match factor m with Some fm => (v <=? fm)%Z | None => false end
  end.
Definition max_known (max : option string) : Prop :=
  match max with None => True | Some m => exists fm, factor m = Some fm end.

Lemma prefix_step_ok err bv max good g k v :
  max_known max -> factor good = Some g -> (0 < v)%Z ->
  prefix_step err bv max good (k, v)
  = Ok (if (allowedb max v && test err bv v && (g <=? v)%Z)%bool then k else good).
Proof.
  intros Hm Hg Hv. unfold prefix_step, test.
  destruct (ndiv_total bv v Hv) as (x & Hx).
  assert (Hb : (do too_large <- match max with
                  | None => Ok false
                  | Some m => match factor m with
                              | Some fm => Ok (fm <? v)%Z
                              | None => Err KeyError
                              end
                  end; Ok too_large) = Ok (negb (allowedb max v))).
  { destruct max as [m|]; cbn; [|reflexivity]. destruct Hm as (fm & Hfm). rewrite Hfm. cbn.
    now rewrite Z.ltb_antisym. }
  destruct (match max with None => _ | Some m => _ end) as [b|] eqn:Eb; [|discriminate].
  cbn [bind] in Hb |- *. injection Hb as ->. rewrite Hx. cbn [bind].
  destruct (allowedb max v); cbn [negb andb]; [|reflexivity].
  destruct (ngtb _ _); cbn [negb andb]; [reflexivity|].
  destruct (nltb _ _); cbn [negb andb]; [reflexivity|].
  rewrite Hg. rewrite Z.ltb_antisym. now destruct (g <=? v)%Z.
Qed.

Definition chosen err bv max (l : list (string * Z)) good g : string * Z :=
  fold_left (fun a kv => if (allowedb max (snd kv) && test err bv (snd kv) && (snd a <=? snd kv)%Z)%bool
                         then kv else a) l (good, g).

Lemma prefix_loop_ok err bv max l good g :
  max_known max -> factor good = Some g -> incl l PREFIXES ->
  prefix_loop err bv max good l = Ok (fst (chosen err bv max l good g))
  /\ factor (fst (chosen err bv max l good g)) = Some (snd (chosen err bv max l good g)).
Proof.
  intros Hm. unfold chosen. revert good g.
  induction l as [|[k v] l IH]; intros good g Hg Hincl; cbn [prefix_loop fold_left].
  - split; [reflexivity|assumption].
  - assert (Hk : factor k = Some v) by (apply in_factor, Hincl; now left).
    rewrite (prefix_step_ok err bv max good g k v Hm Hg (factor_pos _ _ Hk)). cbn [bind snd].
    assert (Hl : incl l PREFIXES) by (intros x Hx; apply Hincl; now right).
    destruct (_ && _ && _)%bool; now apply IH.
Qed.

Lemma chosen_spec err bv max l good g :
  let r := chosen err bv max l good g in
  (g <= snd r)%Z
  /\ (r = (good, g) \/ (In r l /\ allowedb max (snd r) = true /\ test err bv (snd r) = true))
  /\ (forall k v, In (k, v) l -> allowedb max v = true -> test err bv v = true -> (v <= snd r)%Z).
Proof.
  unfold chosen. cbv zeta. revert good g. induction l as [|[k v] l IH]; intros good g; cbn [fold_left].
  - split; [cbn; lia|]. split; [now left|]. now intros.
  - cbn [snd].
    destruct (allowedb max v && test err bv v && (g <=? v)%Z)%bool eqn:E.
    + apply andb_true_iff in E as [E Ele]. apply andb_true_iff in E as [Ea Et].
      apply Z.leb_le in Ele. destruct (IH k v) as (H1 & H2 & H3). split; [lia|]. split.
      * right. destruct H2 as [H2|(H2 & H4)]; [rewrite H2; split; [now left|auto]|split; [now right|auto]].
      * intros k' v' [[= <- <-]|Hin] Ha Ht; [assumption|eauto].
    + destruct (IH good g) as (H1 & H2 & H3). split; [assumption|]. split.
      * destruct H2 as [H2|(H2 & H4)]; [now left|right; split; [now right|auto]].
      * intros k' v' [[= <- <-]|Hin] Ha Ht; [|eauto]. rewrite Ha, Ht in E. cbn in E.
        apply Z.leb_gt in E. lia.
Qed.

Lemma test_admissible err bv v : (0 < v)%Z -> 0 <= bv -> (test err (Fin bv) v = true <-> admissible bv err v).
Proof.
  intros Hv Hbv. pose proof (injpos v Hv) as Hp. unfold test, admissible. cbn [ndiv].
  destruct (Qeq_bool_spec (inject_Z v) 0) as [E|E]; [rewrite E in Hp; discriminate|].
  cbn [nround2 nmul nsub nadd nopp nabs ngtb nltb]. rewrite (Qabs_pos bv Hbv).
  rewrite andb_true_iff, !negb_true_iff.
  destruct (Qltb_spec (bv * err)
     (Qabs (round2 (bv / inject_Z v) * inject_Z v + - bv))) as [H1|H1];
  destruct (Qltb_spec (Qabs (round2 (bv / inject_Z v))) (9 # 10)) as [H2|H2];
  (split; [intros [? ?]|intros [A B]]; try discriminate; try (exfalso; unfold Qminus in *; lra);
   try (split; unfold Qminus in *; lra)).
Qed.

Lemma allowedb_spec max v : max_known max -> (allowedb max v = true <-> allowed max v).
Proof.
  destruct max as [m|]; cbn; [|tauto]. intros (fm & Hm). rewrite Hm. split.
  - intros H fm' [= <-]. now apply Z.leb_le.
  - intros H. apply Z.leb_le. now apply H.
Qed.

Lemma good_prefix_largest q bv err min fmin max :
  base_value q = Fin bv -> 0 <= bv -> factor min = Some fmin -> max_known max ->
  exists r fr, good_prefix q err min max = Ok r /\ factor r = Some fr /\ (fmin <= fr)%Z
    /\ (r = min \/ (admissible bv err fr /\ allowed max fr))
    /\ (forall k f, factor k = Some f -> allowed max f -> admissible bv err f -> (f <= fr)%Z).
Proof.
  intros Hbv Hpos Hmin Hmax. unfold good_prefix. rewrite Hbv.
  destruct (prefix_loop_ok err (Fin bv) max PREFIXES min fmin Hmax Hmin (incl_refl _)) as [Hl Hf].
  destruct (chosen_spec err (Fin bv) max PREFIXES min fmin) as (H1 & H2 & H3).
  set (r := chosen _ _ _ _ _ _) in *. exists (fst r), (snd r). repeat split; try assumption.
  - destruct H2 as [H2|(Hin & Ha & Ht)]; [left; now rewrite H2|right].
    split; [|now apply allowedb_spec]. apply test_admissible; try assumption. now apply factor_pos in Hf.
  - intros k f Hk Ha Had. apply (H3 k f).
    + now apply factor_in.
    + now apply allowedb_spec.
    + apply test_admissible; try assumption. now apply factor_pos in Hk.
Qed.

Lemma good_prefix_total q err min fmin max :
  factor min = Some fmin -> max_known max ->
  exists r fr, good_prefix q err min max = Ok r /\ factor r = Some fr.
Proof.
  intros Hmin Hmax. unfold good_prefix.
  destruct (prefix_loop_ok err (base_value q) max PREFIXES min fmin Hmax Hmin (incl_refl _)) as [Hl Hf].
  eauto.
Qed.

Lemma test_proper err a b v : (0 < v)%Z -> num_eq a b -> test err a v = test err b v.
Proof.
  intros Hv H. unfold test.
  destruct (ndiv_proper a b (inject_Z v) H) as (x & y & Hx & Hy & Hxy).
  { pose proof (injpos v Hv). lra. }
  rewrite Hx, Hy. now rewrite Hxy, H.
Qed.

Lemma chosen_proper err a b max l good g :
  incl l PREFIXES -> num_eq a b -> chosen err a max l good g = chosen err b max l good g.
Proof.
  intros Hincl H. unfold chosen. revert good g.
  induction l as [|[k v] l IH]; intros good g; [reflexivity|]. cbn [fold_left snd].
  assert (Hk : factor k = Some v) by (apply in_factor, Hincl; now left).
  rewrite (test_proper err a b v (factor_pos _ _ Hk) H).
  assert (Hl : incl l PREFIXES) by (intros x Hx; apply Hincl; now right).
  destruct (_ && _ && _)%bool; now apply IH.
Qed.

Lemma good_prefix_proper q q' err :
  num_eq (base_value q) (base_value q') -> good_prefix q err "" None = good_prefix q' err "" None.
Proof.
  intros H. unfold good_prefix.
  destruct (prefix_loop_ok err (base_value q) None PREFIXES "" 1 I eq_refl (incl_refl _)) as [-> _].
  destruct (prefix_loop_ok err (base_value q') None PREFIXES "" 1 I eq_refl (incl_refl _)) as [-> _].
  now rewrite (chosen_proper err _ _ None PREFIXES "" 1 (incl_refl _) H).
Qed.

Lemma reduced_ok q :
  exists q', reduced q = Ok q' /\ unit q' = unit q /\ valid q'
    /\ num_eq (base_value q') (base_value q).
Proof.
  unfold reduced. destruct (good_prefix_total q 0 "" 1 None eq_refl I) as (r & fr & Hr & Hf).
  rewrite Hr. cbn [bind]. destruct (with_prefix_ok q r fr Hf) as (q' & H1 & H2 & H3 & H4).
  exists q'. repeat split; try assumption. exists fr. now rewrite H2.
Qed.

(** * Arithmetic *)
Lemma has_newline_spec s : has_newline s = false <-> no_newline s.
Proof.
  unfold no_newline. induction s as [|c s IH]; cbn.
  - split; [|reflexivity]. intros _ [|x a] b; discriminate.
  - destruct (Ascii.eqb_spec c newline) as [->|Hc]; cbn.
    + split; [discriminate|]. intros H. exfalso. now apply (H "" s).
    + rewrite IH. split; intros H [|x a] b; cbn.
      * intros [= -> _]. congruence.
      * intros [= _ E]. exact (H a b E).
      * intros E. apply (H (String c "") b). cbn. now rewrite E.
      * intros E. apply (H (String c (String x a)) b). cbn. cbn in E. now rewrite E.
Qed.

Lemma drop_final_newline_id s : has_newline s = false -> drop_final_newline s = s.
Proof.
  induction s as [|c s IH]; [reflexivity|]. cbn. intros H. apply orb_false_iff in H as [H1 H2].
  destruct s; [now rewrite H1|]. now rewrite IH.
Qed.

Lemma dot_star_end_id s : no_newline s -> dot_star_end s = Some s.
Proof.
  intros H. apply has_newline_spec in H. unfold dot_star_end.
  rewrite drop_final_newline_id by assumption. now rewrite H.
Qed.

Lemma is_parse_prefix_spec c : is_parse_prefix c = false <-> ~ In c prefix_chars.
Proof.
  unfold is_parse_prefix, prefix_chars. cbn [In].
  repeat rewrite orb_false_iff. rewrite !Ascii.eqb_neq. intuition congruence.
Qed.

Lemma make2_plain v u : plain_unit u -> make2 v u = Ok (mkq v "" u).
Proof.
  intros (Hn & c & r & -> & Hr). unfold make2, split_prefix_plus.
  rewrite dot_star_end_id by assumption.
  destruct Hr as [->|Hc]; [reflexivity|]. apply is_parse_prefix_spec in Hc. rewrite Hc.
  now destruct r.
Qed.

Lemma make2_reduced v u :
  plain_unit u -> exists r, (do q <- make2 v u; reduced q) = Ok r /\ unit r = u /\ num_eq (base_value r) v.
Proof.
  intros Hu. rewrite make2_plain by assumption. cbn [bind].
  destruct (reduced_ok (mkq v "" u)) as (q' & H1 & H2 & _ & H3). exists q'. split; [assumption|].
  split; [assumption|]. rewrite H3. unfold base_value. cbn [prefix value].
  change (factor "") with (Some 1%Z). change (inject_Z 1) with 1.
  destruct v as [x| | |]; cbn; try easy. ring.
Qed.

Lemma num_eq_Fin v y : num_eq v (Fin y) -> exists x, v = Fin x /\ x == y.
Proof. destruct v; cbn; try easy. eauto. Qed.

Lemma q_add_ok a o x y :
  base_value a = Fin x -> ofloat o = Fin y -> (forall b, o = OQ b -> unit b = unit a) ->
  plain_unit (unit a) ->
  exists r z, q_add a o = Ok r /\ unit r = unit a /\ base_value r = Fin z /\ z == x + y.
Proof.
  intros Ha Ho Hu Hp. unfold q_add, matching_unit.
  replace (match o with OQ b => _ | ON _ => true end) with true
    by (destruct o; [rewrite (Hu q eq_refl); now rewrite String.eqb_refl|reflexivity]).
  rewrite Ha, Ho. cbn [nadd]. destruct (make2_reduced (Fin (x + y)) (unit a) Hp) as (r & H1 & H2 & H3).
  apply num_eq_Fin in H3 as (z & Hz & Hz2). exists r, z. auto.
Qed.

Lemma q_sub_ok a o x y :
  base_value a = Fin x -> ofloat o = Fin y -> (forall b, o = OQ b -> unit b = unit a) ->
  plain_unit (unit a) ->
  exists r z, q_sub a o = Ok r /\ unit r = unit a /\ base_value r = Fin z /\ z == x - y.
Proof.
  intros Ha Ho Hu Hp. unfold q_sub, matching_unit.
  replace (match o with OQ b => _ | ON _ => true end) with true
    by (destruct o; [rewrite (Hu q eq_refl); now rewrite String.eqb_refl|reflexivity]).
  rewrite Ha, Ho. cbn [nsub nopp nadd].
  destruct (make2_reduced (Fin (x + - y)) (unit a) Hp) as (r & H1 & H2 & H3).
  apply num_eq_Fin in H3 as (z & Hz & Hz2). exists r, z. auto.
Qed.

Lemma q_add_mismatch a b : unit a <> unit b -> q_add a (OQ b) = Err ValueError.
Proof.
  intros H. unfold q_add, matching_unit. destruct (String.eqb_spec (unit a) (unit b)); [contradiction|reflexivity].
Qed.
Lemma q_sub_mismatch a b : unit a <> unit b -> q_sub a (OQ b) = Err ValueError.
Proof.
  intros H. unfold q_sub, matching_unit. destruct (String.eqb_spec (unit a) (unit b)); [contradiction|reflexivity].
Qed.

Lemma q_mul_ok a o x y u :
  base_value a = Fin x -> ofloat o = Fin y ->
  u = match o with OQ b => unit a ++ unit b | ON _ => unit a end -> plain_unit u ->
  exists r z, q_mul a o = Ok r /\ unit r = u /\ base_value r = Fin z /\ z == x * y.
Proof.
  intros Ha Ho Hu Hp. unfold q_mul. cbv zeta. rewrite <- Hu, Ha, Ho. cbn [nmul].
  destruct (make2_reduced (Fin (x * y)) u Hp) as (r & H1 & H2 & H3).
  apply num_eq_Fin in H3 as (z & Hz & Hz2). exists r, z. auto.
Qed.

Lemma q_div_ok a o x y u :
  base_value a = Fin x -> ofloat o = Fin y -> ~ y == 0 ->
  u = match o with OQ b => unit a ++ "/" ++ unit b | ON _ => unit a end -> plain_unit u ->
  exists r z, q_div a o = Ok r /\ unit r = u /\ base_value r = Fin z /\ z == x / y.
Proof.
  intros Ha Ho Hy Hu Hp. unfold q_div. cbv zeta. rewrite <- Hu, Ha, Ho. cbn [ndiv].
  destruct (Qeq_bool_spec y 0); [contradiction|]. cbn [bind].
  destruct (make2_reduced (Fin (x / y)) u Hp) as (r & H1 & H2 & H3).
  apply num_eq_Fin in H3 as (z & Hz & Hz2). exists r, z. auto.
Qed.

Lemma q_div_zero a o y :
  ofloat o = Fin y -> y == 0 -> q_div a o = Err ZeroDivisionError.
Proof.
  intros Ho Hy. unfold q_div. rewrite Ho. cbn [ndiv]. destruct (Qeq_bool_spec y 0); [reflexivity|contradiction].
Qed.

(** * Printing and parsing *)
Definition dchar (d : Z) : ascii := ascii_of_nat (48 + Z.to_nat d).

Lemma digits_of_one d : (0 <= d < 10)%Z -> digits_of d = String (dchar d) "" /\ digit (dchar d) = Some d.
Proof.
  intros H. assert (Hd : In d [0; 1; 2; 3; 4; 5; 6; 7; 8; 9]%Z) by (cbn; lia).
  cbn [In] in Hd. repeat (destruct Hd as [<-|Hd]; [split; reflexivity|]). destruct Hd.
Qed.

Fixpoint uval (acc : Z) (d : uint) : Z :=
  match d with
  | Nil => acc
  | D0 l => uval (10 * acc + 0) l | D1 l => uval (10 * acc + 1) l | D2 l => uval (10 * acc + 2) l
  | D3 l => uval (10 * acc + 3) l | D4 l => uval (10 * acc + 4) l | D5 l => uval (10 * acc + 5) l
  | D6 l => uval (10 * acc + 6) l | D7 l => uval (10 * acc + 7) l | D8 l => uval (10 * acc + 8) l
  | D9 l => uval (10 * acc + 9) l
  end.

Lemma uval_acc d p : uval (Zpos p) d = Zpos (Pos.of_uint_acc d p).
Proof.
  revert p. induction d; intros p; cbn [uval Pos.of_uint_acc]; try reflexivity;
    rewrite <- IHd; f_equal; lia.
Qed.

Lemma uval_of_uint d : uval 0 d = Z.of_N (Pos.of_uint d).
Proof.
  induction d; cbn [uval Pos.of_uint]; try reflexivity; try exact IHd;
    match goal with |- uval ?z _ = _ => change z with (Zpos (Z.to_pos z)) end;
    rewrite uval_acc; reflexivity.
Qed.

Definition not_digit_start (s : string) : Prop :=
  match s with EmptyString => True | String c _ => digit c = None end.

Lemma read_digits_uint d acc s :
  not_digit_start s ->
  read_digits acc (NilEmpty.string_of_uint d ++ s) = (uval acc d, nb_digits d, s).
Proof.
  intros Hs. revert acc. induction d; intros acc; cbn [NilEmpty.string_of_uint String.append].
  1: destruct s as [|c s]; cbn; [reflexivity|]; cbn in Hs; now rewrite Hs.
  all: cbn [read_digits];
    match goal with |- context [digit ?c] => let v := eval vm_compute in (digit c) in
      change (digit c) with v end; cbn [uval nb_digits]; rewrite IHd; reflexivity.
Qed.

Lemma read_digits_of z s acc0 :
  (0 <= z)%Z -> not_digit_start s -> acc0 = 0%Z ->
  exists n, read_digits acc0 (digits_of z ++ s) = (z, S n, s).
Proof.
  intros Hz Hs ->. unfold digits_of. rewrite read_digits_uint by assumption.
  rewrite uval_of_uint. change (Pos.of_uint ?d) with (N.of_uint d).
  rewrite DecimalN.Unsigned.of_to, Z2N.id by assumption.
  destruct (N.to_uint (Z.to_N z)) eqn:E; cbn [nb_digits]; eauto.
  exfalso. destruct (Z.to_N z); cbn in E; [discriminate|].
  now apply (DecimalPos.Unsigned.to_uint_nonnil p).
Qed.

Lemma append_assoc (a b c : string) : (a ++ b) ++ c = a ++ b ++ c.
Proof. induction a; cbn; congruence. Qed.
Lemma append_nil_r (a : string) : a ++ "" = a.
Proof. induction a; cbn; congruence. Qed.

Lemma read_two_digits z s :
  (0 <= z < 100)%Z -> not_digit_start s -> read_digits 0 (two_digits z ++ s) = (z, 2%nat, s).
Proof.
  intros Hz Hs. unfold two_digits. rewrite append_assoc.
  destruct (digits_of_one (z / 10)) as [-> H1]; [split; [apply Z.div_pos|apply Z.div_lt_upper_bound]; lia|].
  destruct (digits_of_one (z mod 10)) as [-> H2]; [apply Z.mod_pos_bound; lia|].
  cbn [String.append read_digits]. rewrite H1. cbn [read_digits]. rewrite H2.
  assert (E : (10 * (10 * 0 + z / 10) + z mod 10 = z)%Z) by (pose proof (Z_div_mod_eq_full z 10); lia).
  rewrite E. destruct s as [|c s]; cbn; [reflexivity|]. cbn in Hs. now rewrite Hs.
Qed.

Lemma read_number_format x s :
  0 <= x -> exists y, read_number (format_2f (Fin x) ++ " " ++ s) = Some (Fin y, s) /\ y == round2 x.
Proof.
  intros Hx. cbn [format_2f]. destruct (Qltb_spec x 0) as [H|_]; [lra|].
  assert (Hx100 : 0 <= x * inject_Z 100) by (change (inject_Z 100) with (100 # 1); lra).
  pose proof (round_even_nonneg _ Hx100) as Hz. rewrite Z.abs_eq by assumption.
  unfold round2. set (z := round_even _) in *.
  cbn [String.append]. rewrite !append_assoc. cbn [String.append].
  unfold read_number.
  destruct (read_digits_of (z / 100) (String "." (two_digits (z mod 100) ++ String " " s)) 0)
    as (n & ->); [apply Z.div_pos; lia|reflexivity|reflexivity|].
  change (Ascii.eqb "."%char "."%char) with true. cbv iota.
  rewrite read_two_digits; [|apply Z.mod_pos_bound; lia|reflexivity].
  change (Ascii.eqb " "%char " "%char) with true. cbv iota.
  eexists. split; [reflexivity|].
  change (inject_Z (10 ^ Z.of_nat 2)) with (100 # 1). change (inject_Z 100) with (100 # 1).
  assert (E : inject_Z z == (100 # 1) * inject_Z (z / 100) + inject_Z (z mod 100)).
  { change (100 # 1) with (inject_Z 100). rewrite <- inject_Z_mult, <- inject_Z_plus.
    now rewrite <- Z_div_mod_eq_full. }
  rewrite E. field.
Qed.

Lemma is_space_spec c : is_space c = true <-> white_space c.
Proof.
  split.
  - destruct c as [[] [] [] [] [] [] [] []]; intros H; try (vm_compute in H; discriminate); cbn; tauto.
  - unfold white_space. intros H. repeat (destruct H as [<-|H]; [reflexivity|]). destruct H.
Qed.
Lemma not_space c : is_space c = false <-> ~ white_space c.
Proof. rewrite <- is_space_spec. destruct (is_space c); split; intros H; congruence. Qed.
Lemma lstrip_start s c r : lstrip s = String c r -> is_space c = false.
Proof. induction s as [|x s IH]; [discriminate|]. cbn [lstrip]. destruct (is_space x) eqn:E; [exact IH|]. intros H. injection H as <- _. exact E. Qed.
Lemma rstrip_start s c r : rstrip s = String c r -> exists r', s = String c r'.
Proof.
  destruct s as [|x s]; [discriminate|]. cbn [rstrip]. destruct (rstrip s); [destruct (is_space x); [discriminate|]|]; intros H; injection H as <- _; eauto.
Qed.
Lemma rstrip_end s r c : rstrip s = r ++ String c "" -> is_space c = false.
Proof.
  revert r. induction s as [|x s IH]; intros r; [destruct r; discriminate|]. cbn [rstrip].
  destruct (rstrip s) as [|y t] eqn:E.
  - destruct (is_space x) eqn:X; [destruct r; discriminate|]. destruct r as [|z [|? ?]]; cbn; intros H; injection H; try discriminate. intros <-. exact X.
  - destruct r as [|z r]; cbn; intros H; injection H as <- H; [discriminate|]. now apply (IH r).
Qed.
Lemma strip_start s c r : strip s = String c r -> ~ white_space c.
Proof. unfold strip. intros H. apply rstrip_start in H as (r' & H). apply lstrip_start in H. now apply not_space. Qed.
Lemma strip_end s c r : strip s = r ++ String c "" -> ~ white_space c.
Proof. intros H. apply rstrip_end in H. now apply not_space. Qed.
Lemma last_printable u : (exists r c, u = r ++ String c "" /\ ~ white_space c) -> exists r c, u = r ++ String c "" /\ is_space c = false.
Proof. intros (r & c & E & W). exists r, c. split; [exact E|]. now apply not_space. Qed.
Lemma to_string_strip fuel q s : to_string fuel q = Ok s -> exists s', s = strip s'.
Proof.
  revert q. induction fuel as [|fuel IH]; intros q; cbn [to_string]; destruct (good_prefix _ _ _ _) as [g|]; cbn [bind]; try discriminate;
    destruct (String.eqb (prefix q) g); try discriminate; [intros H; injection H as <-; eauto..|].
  destruct (with_prefix q g); [apply IH|discriminate].
Qed.

Lemma rstrip_app_nonspace r c : is_space c = false -> rstrip (r ++ String c "") = r ++ String c "".
Proof.
  intros Hc. induction r as [|x r IH]; cbn; [now rewrite Hc|]. rewrite IH.
  destruct r; reflexivity.
Qed.

Lemma digit_not_space c d : digit c = Some d -> is_space c = false.
Proof.
  unfold digit, is_space. destruct ((48 <=? _) && _)%Z eqn:E; [|discriminate]. intros _.
  apply andb_true_iff in E as [E1 E2]. apply Z.leb_le in E1, E2.
  apply orb_false_iff. split; apply andb_false_iff; right; apply Z.leb_gt; lia.
Qed.

Lemma strip_line x p u s :
  0 <= x -> s = format_2f (Fin x) ++ " " ++ p ++ u ->
  (exists r c, u = r ++ String c "" /\ is_space c = false) -> strip s = s.
Proof.
  intros Hx -> (r & c & -> & Hc). unfold strip.
  assert (Hl : lstrip (format_2f (Fin x) ++ " " ++ p ++ r ++ String c "")
             = format_2f (Fin x) ++ " " ++ p ++ r ++ String c "").
  { cbn [format_2f]. destruct (Qltb_spec x 0) as [H|_]; [lra|]. cbn [String.append].
    rewrite append_assoc.
    set (z := Z.abs _). assert (Hz : (0 <= z / 100)%Z) by (apply Z.div_pos; [apply Z.abs_nonneg|lia]).
    destruct (read_digits_of (z / 100) "" 0 Hz I eq_refl) as (n & Hn). rewrite append_nil_r in Hn.
    destruct (digits_of (z / 100)) as [|d ds]; cbn in Hn; [discriminate|].
    destruct (digit d) eqn:Ed; [|discriminate]. cbn [String.append lstrip].
    now rewrite (digit_not_space _ _ Ed). }
  rewrite Hl. rewrite <- !append_assoc. now apply rstrip_app_nonspace.
Qed.

Lemma no_newline_tail c s : no_newline (String c s) -> no_newline s.
Proof. intros H a b ->. now apply (H (String c a) b). Qed.

(** What the parser makes of a printed prefix and a printable unit. *)
Lemma split_printed p u :
  In p [""; "k"; "M"; "G"; "T"; "P"] -> printable_unit u -> split_prefix_star (p ++ u) = Some (p, u).
Proof.
  intros Hp (Hn & (c & r & -> & Hc) & _). apply is_parse_prefix_spec in Hc.
  destruct Hp as [<-|Hp].
  - cbn [String.append split_prefix_star]. rewrite Hc. now rewrite dot_star_end_id.
  - repeat (destruct Hp as [<-|Hp];
      [cbn [String.append]; unfold split_prefix_star;
       match goal with |- context [is_parse_prefix ?x] => change (is_parse_prefix x) with true end;
       cbv iota; now rewrite dot_star_end_id|]).
    destruct Hp.
Qed.

Lemma to_string_ok fuel q bv :
  valid q -> base_value q = Fin bv -> 0 <= bv ->
  (exists r c, unit q = r ++ String c "" /\ is_space c = false) ->
  exists x p f, to_string (S fuel) q = Ok (format_2f (Fin x) ++ " " ++ p ++ unit q)
    /\ factor p = Some f /\ x * inject_Z f == bv
    /\ good_prefix q (1 # 100) "" None = Ok p.
Proof.
  intros (f0 & Hf0) Hbv Hpos Hu.
  destruct (good_prefix_total q (1 # 100) "" 1 None eq_refl I) as (g & fg & Hg & Hfg).
  assert (Hfin : forall q' y, valid q' -> base_value q' = Fin y -> y == bv -> unit q' = unit q -> prefix q' = g ->
     exists x, value q' = Fin x /\ x * inject_Z fg == bv /\
       strip (format_2f (value q') ++ " " ++ prefix q' ++ unit q') = format_2f (Fin x) ++ " " ++ g ++ unit q).
  { intros q' y _ Hy Hyb Hun Hpr. unfold base_value in Hy. rewrite Hpr, Hfg in Hy.
    pose proof (injpos fg (factor_pos _ _ Hfg)) as Hp.
    destruct (value q') as [x| | |] eqn:Ev; cbn [nmul] in Hy;
      rewrite ?inf_times_pos in Hy by assumption; try discriminate.
    injection Hy as Hy. assert (Hxb : x * inject_Z fg == bv) by (rewrite Hy; exact Hyb).
    exists x. split; [reflexivity|]. split; [assumption|]. rewrite Hpr, Hun.
    apply (strip_line x g (unit q)); try assumption; [|reflexivity].
    nra. }
  cbn [to_string]. rewrite Hg. cbn [bind]. destruct (String.eqb_spec (prefix q) g) as [E|E].
  - destruct (Hfin q bv) as (x & Hx & Hxb & Hs); try assumption; try reflexivity; [now exists f0|].
    exists x, g, fg. rewrite Hs. auto.
  - destruct (with_prefix_ok q g fg Hfg) as (q' & Hq' & Hp' & Hu' & Hb'). rewrite Hq'. cbn [bind].
    assert (Hg' : good_prefix q' (1 # 100) "" None = Ok g).
    { rewrite (good_prefix_proper q' q) by assumption. assumption. }
    rewrite Hbv in Hb'. apply num_eq_Fin in Hb' as (y & Hy & Hyb).
    destruct (Hfin q' y) as (x & Hx & Hxb & Hs); try assumption; [exists fg; now rewrite Hp'|].
    exists x, g, fg. repeat split; try assumption.
    destruct fuel; cbn [to_string]; rewrite Hg'; cbn [bind]; rewrite Hp', String.eqb_refl;
      rewrite <- Hp' at 1; now rewrite Hs.
Qed.

Lemma readable_prefix q bv p f :
  base_value q = Fin bv -> 0 <= bv -> bv < inject_Z (895 * 10 ^ 16) ->
  good_prefix q (1 # 100) "" None = Ok p -> factor p = Some f ->
  In p [""; "k"; "M"; "G"; "T"; "P"].
Proof.
  intros Hb H0 Hlt Hg Hf.
  destruct (good_prefix_largest q bv (1 # 100) "" 1 None Hb H0 eq_refl I)
    as (r & fr & Hr & Hfr & _ & Hor & _).
  rewrite Hr in Hg. injection Hg as ->. rewrite Hf in Hfr. injection Hfr as ->.
  destruct Hor as [->|[[_ Had] _]]; [now left|].
  assert (Hbig : ~ (10 ^ 19 <= fr)%Z).
  { intros Hge. pose proof (injpos fr ltac:(lia)) as Hp.
    set (x := bv / inject_Z fr) in *.
    assert (Hx : x * inject_Z fr == bv) by (unfold x; field; lra).
    assert (Hx0 : 0 <= x) by (unfold x; apply Qle_shift_div_l; lra).
    assert (Hx1 : x < 895 # 1000).
    { unfold x. apply Qlt_shift_div_r; [assumption|].
      apply Qlt_le_trans with (1 := Hlt).
      assert (Hi : inject_Z (10 ^ 19) <= inject_Z fr) by now apply inject_Z_le.
      apply Qle_trans with ((895 # 1000) * inject_Z (10 ^ 19)); [|nra].
      vm_compute. discriminate. }
    pose proof (round2_near x) as Hn. apply Qabs_Qle_condition in Hn as [_ Hn].
    rewrite Qabs_pos in Had by now apply round2_nonneg. lra. }
  assert (Hall : forallb (fun kf => (10 ^ 19 <=? snd kf)%Z
      || existsb (String.eqb (fst kf)) [""; "k"; "M"; "G"; "T"; "P"])%bool PREFIXES = true)
    by (vm_compute; reflexivity).
  rewrite forallb_forall in Hall. specialize (Hall _ (factor_in _ _ Hf)).
  apply orb_true_iff in Hall as [Hall|Hall].
  - apply Z.leb_le in Hall. now destruct Hbig.
  - apply existsb_exists in Hall as (y & Hy & E). apply String.eqb_eq in E.
    cbn [fst] in E. now subst y.
Qed.

Lemma print_parse fuel q bv :
  valid q -> base_value q = Fin bv -> 0 <= bv -> bv < inject_Z (895 * 10 ^ 16) ->
  printable_unit (unit q) ->
  exists s q' f x bv',
    to_string (S fuel) q = Ok s /\ parse s = Ok q' /\ unit q' = unit q
    /\ factor (prefix q') = Some f /\ x * inject_Z f == bv
    /\ base_value q' = Fin bv' /\ bv' == round2 x * inject_Z f
    /\ good_prefix q (1 # 100) "" None = Ok (prefix q').
Proof.
  intros Hv Hb H0 Hlt Hu.
  destruct (to_string_ok fuel q bv Hv Hb H0 (last_printable _ (proj2 (proj2 Hu)))) as (x & p & f & Hs & Hf & Hx & Hg).
  pose proof (injpos f (factor_pos _ _ Hf)) as Hp.
  assert (Hx0 : 0 <= x).
  { nra. }
  destruct (read_number_format x (p ++ unit q) Hx0) as (y & Hy & Hyx).
  exists (format_2f (Fin x) ++ " " ++ p ++ unit q), (mkq (Fin y) p (unit q)), f, x,
    (y * inject_Z f).
  split; [assumption|]. split.
  { unfold parse. rewrite Hy. rewrite (split_printed p (unit q)); [|eapply readable_prefix; eassumption|assumption].
    unfold make3. now rewrite Hf. }
  cbn [prefix unit]. repeat split; try assumption.
  - unfold base_value. cbn [prefix value]. now rewrite Hf.
  - now rewrite Hyx.
Qed.

Lemma print_parse_error fuel q bv :
  valid q -> base_value q = Fin bv -> 0 <= bv -> bv < inject_Z (895 * 10 ^ 16) ->
  printable_unit (unit q) ->
  exists s q' f bv',
    to_string (S fuel) q = Ok s /\ parse s = Ok q' /\ unit q' = unit q
    /\ factor (prefix q') = Some f /\ base_value q' = Fin bv'
    /\ Qabs (bv' - bv) <= (1 # 200) * inject_Z f
    /\ (9 # 10 <= bv -> Qabs (bv' - bv) <= (1 # 100) * bv).
Proof.
  intros Hv Hb H0 Hlt Hu.
  destruct (print_parse fuel q bv Hv Hb H0 Hlt Hu)
    as (s & q' & f & x & bv' & Hs & Hq & Hun & Hf & Hx & Hb' & Hr & Hg).
  pose proof (injpos f (factor_pos _ _ Hf)) as Hp.
  exists s, q', f, bv'. do 5 (split; [assumption|]).
  assert (E : bv' - bv == (round2 x - x) * inject_Z f) by (rewrite Hr, <- Hx; ring).
  assert (Herr : Qabs (bv' - bv) <= (1 # 200) * inject_Z f).
  { rewrite E, Qabs_Qmult, (Qabs_pos (inject_Z f)) by lra. pose proof (round2_near x). nra. }
  split; [assumption|]. intros Hge.
  destruct (good_prefix_largest q bv (1 # 100) "" 1 None Hb H0 eq_refl I)
    as (r & fr & Hr' & Hfr & _ & Hor & _).
  rewrite Hg in Hr'. injection Hr' as <-. rewrite Hf in Hfr. injection Hfr as ->.
  destruct Hor as [Hemp|[[Had _] _]].
  - rewrite Hemp in Hf. injection Hf as <-. change (inject_Z 1) with 1 in Herr. lra.
  - rewrite E.
    assert (Ex : round2 (bv / inject_Z fr) == round2 x).
    { apply round2_proper. rewrite <- Hx. field. lra. }
    rewrite Ex in Had. rewrite (Qabs_pos bv H0) in Had.
    assert (E2 : (round2 x - x) * inject_Z fr == round2 x * inject_Z fr - bv) by (rewrite <- Hx; ring).
    rewrite E2. lra.
Qed.

(** ** Comparisons, absolute value, integer division *)
Lemma q_cmp_ok a o x y :
  base_value a = Fin x -> ofloat o = Fin y ->
  (q_lt a o = true <-> x < y) /\ (q_gt a o = true <-> y < x) /\ (q_le a o = true <-> x <= y)
  /\ (q_ge a o = true <-> y <= x) /\ (q_eq a o = true <-> x == y) /\ (q_ne a o = true <-> ~ x == y).
Proof.
  intros Ha Ho. unfold q_lt, q_gt, q_le, q_ge, q_eq, q_ne, ngtb, ngeb, nleb. rewrite Ha, Ho. cbn [nltb neqb].
  destruct (Qltb_spec x y), (Qltb_spec y x), (Qeq_bool_spec x y), (Qeq_bool_spec y x); cbn [orb negb];
    intuition (try discriminate; try lra).
Qed.

Lemma q_abs_ok a x : base_value a = Fin x -> plain_unit (unit a) ->
  exists r z, q_abs a = Ok r /\ unit r = unit a /\ base_value r = Fin z /\ z == Qabs x.
Proof.
  intros Ha Hp. unfold q_abs. rewrite Ha. cbn [nabs].
  destruct (make2_reduced (Fin (Qabs x)) (unit a) Hp) as (r & H1 & H2 & H3).
  apply num_eq_Fin in H3 as (z & Hz & Hz2). exists r, z. auto.
Qed.

Lemma q_floordiv_ok a o x y u :
  base_value a = Fin x -> ofloat o = Fin y -> ~ y == 0 ->
  u = match o with OQ b => unit a ++ "/" ++ unit b | ON _ => unit a end -> plain_unit u ->
  exists r k z, q_floordiv a o = Ok r /\ unit r = u /\ base_value r = Fin z /\ z == inject_Z k
    /\ inject_Z k <= x / y < inject_Z (k + 1).
Proof.
  intros Ha Ho Hy -> Hp. unfold q_floordiv. rewrite Ha, Ho. cbn [nfloordiv].
  destruct (Qeq_bool_spec y 0); [contradiction|]. cbn [bind].
  destruct (make2_reduced (Fin (inject_Z (Qfloor (x / y)))) _ Hp) as (r & H1 & H2 & H3).
  apply num_eq_Fin in H3 as (z & Hz & Hz2). exists r, (Qfloor (x / y)), z.
  repeat (split; [assumption|]). split; [apply Qfloor_le|apply Qlt_floor].
Qed.

Lemma q_mod_ok a o x y :
  base_value a = Fin x -> ofloat o = Fin y -> ~ y == 0 -> (forall b, o = OQ b -> unit b = unit a) ->
  plain_unit (unit a) ->
  exists r z k, q_mod a o = Ok r /\ unit r = unit a /\ base_value r = Fin z /\ x == y * inject_Z k + z
    /\ (0 < y -> 0 <= z < y) /\ (y < 0 -> y < z <= 0).
Proof.
  intros Ha Ho Hy Hu Hp. unfold q_mod, matching_unit.
  replace (match o with OQ b => _ | ON _ => true end) with true
    by (destruct o; [rewrite (Hu q eq_refl); now rewrite String.eqb_refl|reflexivity]).
  rewrite Ha, Ho. cbn [nmod]. destruct (Qeq_bool_spec y 0); [contradiction|]. cbn [bind].
  destruct (make2_reduced (Fin (x - y * inject_Z (Qfloor (x / y)))) _ Hp) as (r & H1 & H2 & H3).
  apply num_eq_Fin in H3 as (z & Hz & Hz2). exists r, z, (Qfloor (x / y)).
  repeat (split; [assumption|]). split; [rewrite Hz2; ring|].
  pose proof (Qfloor_le (x / y)) as F1. pose proof (Qlt_floor (x / y)) as F2.
  rewrite inject_Z_plus in F2. change (inject_Z 1) with 1 in F2.
  set (k := inject_Z (Qfloor (x / y))) in *.
  assert (E : x == y * (x / y)) by (field; assumption).
  split; intros S; rewrite Hz2.
  - assert (G1 : y * k <= y * (x / y)) by (apply Qmult_le_l; assumption).
    assert (G2 : y * (x / y) < y * (k + 1)) by (apply Qmult_lt_l; assumption).
    split; lra.
  - assert (S' : 0 < - y) by lra.
    assert (G1 : - y * k <= - y * (x / y)) by (apply Qmult_le_l; assumption).
    assert (G2 : - y * (x / y) < - y * (k + 1)) by (apply Qmult_lt_l; assumption).
    split; lra.
Qed.

Lemma q_zero_ok a o y : ofloat o = Fin y -> y == 0 -> (forall b, o = OQ b -> unit b = unit a) ->
  q_floordiv a o = Err ZeroDivisionError /\ q_mod a o = Err ZeroDivisionError.
Proof.
  intros Ho Hy Hu. unfold q_floordiv, q_mod, matching_unit. rewrite Ho.
  replace (match o with OQ b => String.eqb _ _ | ON _ => true end) with true
    by (destruct o; [rewrite (Hu q eq_refl); now rewrite String.eqb_refl|reflexivity]).
  destruct (base_value a); cbn; (destruct (Qeq_bool_spec y 0); [|contradiction]); now split.
Qed.
