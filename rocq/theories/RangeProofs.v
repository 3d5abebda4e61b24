From Verif Require Import PyBase PyBaseFacts PyNum PyNumFacts PyText PyInt RangeModel RangeSpec.
From Coq Require Import Lia Lqa Qabs.
Local Open Scope N_scope.
Local Open Scope list_scope.

(** ** Reading *)
Definition no_digit (s : text) : Prop := forall c r, s = c :: r -> ~ 48 <= c <= 57.
Lemma take_digits_app d s : forallb is_decimal d = true -> no_digit s -> take_digits (d ++ s) = (d, s).
Proof.
  intros D N. induction d as [|c d IH]; cbn [app take_digits].
  - destruct s as [|c s]; [easy|]. cbn. destruct (is_decimal c) eqn:E; [|easy]. apply is_decimal_spec in E. now destruct (N c s eq_refl).
  - cbn in D. apply andb_true_iff in D as [C D]. rewrite C, (IH D). reflexivity.
Qed.
Lemma digits1_show n s : no_digit s -> digits1 (show_nat n ++ s) = Some (show_nat n, s).
Proof.
  intros N. destruct (show_nat_spec n) as (_ & D & NE). unfold digits1. rewrite (take_digits_app _ _ D N). now destruct (show_nat n).
Qed.
Lemma digits1_none s : digits1 s = None <-> no_digit s.
Proof.
  unfold digits1. destruct s as [|c s]; cbn; [split; [|easy]; intros _ c r; discriminate|]. destruct (is_decimal c) eqn:E.
  - split; [discriminate|]. intros N. apply is_decimal_spec in E. now destruct (N c s eq_refl).
  - split; [|easy]. intros _ c' r [= <- <-] I. apply is_decimal_spec in I. congruence.
Qed.
Lemma int_of_show n : int_of (show_nat n) = Z.of_N n.
Proof. unfold int_of. now rewrite (proj1 (show_nat_spec n)). Qed.
Lemma no_digit_cons c s : ~ 48 <= c <= 57 -> no_digit (c :: s).
Proof. intros H c' r [= <- <-]. exact H. Qed.
Lemma no_digit_nil : no_digit []. Proof. intros c r; discriminate. Qed.
#[local] Hint Resolve no_digit_nil : core.

Section Values.
  Variable logarithm : Z -> Z -> res Q.
  Variable power : Z -> Q -> Q.
  Notation values := (range_values logarithm power).
  Lemma values_single n rest : no_digit rest -> (forall r, rest = 45 :: r -> no_digit r) -> values (show_nat n ++ rest) = Ok [Z.of_N n].
  Proof.
    intros N M. unfold range_values, read_range. rewrite (digits1_show n rest N).
    assert (R : (match rest with 45 :: r1 => match digits1 r1 with None => Some (mkRange (show_nat n) None None false None) | Some (b, r2) =>
              match r2 with 58 :: r3 => match digits1 r3 with None => Some (mkRange (show_nat n) (Some b) None false None)
                  | Some (m, r4) => Some (mkRange (show_nat n) (Some b) (Some m) (fst (read_log r4)) (snd (read_log r4))) end
              | _ => Some (mkRange (show_nat n) (Some b) None false None) end end
            | _ => Some (mkRange (show_nat n) None None false None) end) = Some (mkRange (show_nat n) None None false None)).
    { destruct rest as [|c r]; [easy|]. destruct (N.eq_dec c 45) as [->|NE].
      - specialize (M r eq_refl). apply digits1_none in M. now rewrite M.
      - destruct c as [|p]; [easy|]. do 6 (destruct p as [p|p|]; try easy). }
    rewrite R. cbn [stop start]. now rewrite int_of_show.
  Qed.
  Lemma values_all a b : values (show_nat a ++ codes "-" ++ show_nat b) = Ok (int_range (Z.of_N a) (Z.of_N b + 1)).
  Proof.
    unfold range_values, read_range. change (codes "-") with [45]. cbn [app]. rewrite digits1_show by (apply no_digit_cons; lia).
    rewrite <- (app_nil_r (show_nat b)). rewrite digits1_show by easy. cbn [stop count start]. now rewrite !int_of_show.
  Qed.
  Lemma values_num a b n : values (show_nat a ++ codes "-" ++ show_nat b ++ codes ":" ++ show_nat n) = space logarithm power (Z.of_N a) (Z.of_N b) (Z.of_N n) true false 10.
  Proof.
    unfold range_values, read_range. change (codes "-") with [45]. change (codes ":") with [58]. cbn [app]. rewrite digits1_show by (apply no_digit_cons; lia).
    rewrite digits1_show by (apply no_digit_cons; lia). rewrite <- (app_nil_r (show_nat n)). rewrite digits1_show by easy. cbn [stop count start log base read_log skip fst snd]. now rewrite !int_of_show.
  Qed.
  Lemma values_log a b n : values (show_nat a ++ codes "-" ++ show_nat b ++ codes ":" ++ show_nat n ++ codes "log") = space logarithm power (Z.of_N a) (Z.of_N b) (Z.of_N n) true true 10.
  Proof.
    unfold range_values, read_range. change (codes "-") with [45]. change (codes ":") with [58]. change (codes "log") with [108; 111; 103]. cbn [app]. rewrite digits1_show by (apply no_digit_cons; lia).
    rewrite digits1_show by (apply no_digit_cons; lia). rewrite digits1_show by (apply no_digit_cons; lia). change (read_log [108; 111; 103]) with (true, @None text). cbn [stop count start log base fst snd]. now rewrite !int_of_show.
  Qed.
  Lemma values_log_base a b n m : values (show_nat a ++ codes "-" ++ show_nat b ++ codes ":" ++ show_nat n ++ codes "log" ++ show_nat m) =
    space logarithm power (Z.of_N a) (Z.of_N b) (Z.of_N n) true true (Z.of_N m).
  Proof.
    unfold range_values, read_range. change (codes "-") with [45]. change (codes ":") with [58]. change (codes "log") with [108; 111; 103]. cbn [app]. rewrite digits1_show by (apply no_digit_cons; lia).
    rewrite digits1_show by (apply no_digit_cons; lia). rewrite digits1_show by (apply no_digit_cons; lia). cbn [stop count start log base].
    assert (R : read_log (108 :: 111 :: 103 :: show_nat m) = (true, Some (show_nat m))).
    { unfold read_log. cbn [skip]. change (108 =? 58) with false. cbv iota.
      assert (S : skip 58 (show_nat m) = show_nat m).
      { destruct (show_nat_spec m) as (_ & D & _). destruct (show_nat m) as [|c r]; [easy|]. cbn in D. apply andb_true_iff in D as [C _]. apply is_decimal_spec in C.
        cbn [skip]. destruct (N.eqb_spec c 58); [lia|easy]. }
      rewrite S. rewrite <- (app_nil_r (show_nat m)) at 1. rewrite digits1_show by easy. reflexivity. }
    rewrite R. cbn [fst snd]. now rewrite !int_of_show.
  Qed.
  Lemma values_log_colon a b n m : values (show_nat a ++ codes "-" ++ show_nat b ++ codes ":" ++ show_nat n ++ codes ":log:" ++ show_nat m) =
    space logarithm power (Z.of_N a) (Z.of_N b) (Z.of_N n) true true (Z.of_N m).
  Proof.
    unfold range_values, read_range. change (codes "-") with [45]. change (codes ":") with [58]. change (codes ":log:") with [58; 108; 111; 103; 58]. cbn [app]. rewrite digits1_show by (apply no_digit_cons; lia).
    rewrite digits1_show by (apply no_digit_cons; lia). rewrite digits1_show by (apply no_digit_cons; lia). cbn [stop count start log base].
    assert (R : read_log (58 :: 108 :: 111 :: 103 :: 58 :: show_nat m) = (true, Some (show_nat m))).
    { change (read_log (58 :: 108 :: 111 :: 103 :: 58 :: show_nat m)) with (true, match digits1 (show_nat m) with Some (d, _) => Some d | None => None end).
      rewrite <- (app_nil_r (show_nat m)) at 1. rewrite digits1_show by easy. reflexivity. }
    rewrite R. cbn [fst snd]. now rewrite !int_of_show.
  Qed.
  Lemma values_rejected s : values s = Err SystemExit -> (forall a b, logarithm a b <> Err SystemExit) -> no_digit s.
  Proof.
    unfold range_values, read_range. intros H L. apply digits1_none. destruct (digits1 s) as [[a r]|]; [exfalso|easy].
    destruct (match r with 45 :: _ => _ | _ => _ end) as [x|] eqn:E.
    - destruct (stop x); [|discriminate]. destruct (count x); [|discriminate]. unfold space in H. destruct (_ <? 2)%Z; [discriminate|].
      destruct (log x).
      + destruct (logarithm (int_of (start x)) _) as [|e] eqn:L1; [|cbn in H; now apply (L _ _ (eq_trans L1 ltac:(congruence)))]. cbn [bind] in H.
        destruct (logarithm (int_of t) _) as [|e] eqn:L2; [discriminate|]. cbn in H. now apply (L _ _ (eq_trans L2 ltac:(congruence))).
      + discriminate.
    - destruct r as [|c r]; [discriminate|]. destruct c as [|p]; [discriminate|]. do 6 (destruct p as [p|p|]; try discriminate).
      destruct (digits1 r) as [[b r2]|]; [|discriminate]. destruct r2 as [|c r2]; [discriminate|]. destruct c as [|p]; [discriminate|]. do 6 (destruct p as [p|p|]; try discriminate).
      destruct (digits1 r2) as [[m r4]|]; discriminate.
  Qed.
  Lemma values_rejects s : no_digit s -> values s = Err SystemExit.
  Proof. intros N. unfold range_values, read_range. apply digits1_none in N. now rewrite N. Qed.

  (** ** Spaces *)
  Local Open Scope Q_scope.
  Lemma int_range_spec a b x : In x (int_range a b) <-> (a <= x < b)%Z.
  Proof.
    unfold int_range. rewrite in_map_iff. split.
    - intros (i & <- & I). apply in_seq in I. lia.
    - intros H. exists (Z.to_nat (x - a)). split; [lia|]. apply in_seq. lia.
  Qed.
  Lemma int_range_nth a b i : nth_error (int_range a b) i = if (Z.of_nat i <? b - a)%Z then Some (a + Z.of_nat i)%Z else None.
  Proof.
    unfold int_range. rewrite nth_error_map. destruct (Z.ltb_spec (Z.of_nat i) (b - a)) as [L|L].
    - assert (E : nth_error (seq 0 (Z.to_nat (b - a))) i = Some i).
      { rewrite (nth_error_nth' _ 0%nat) by (rewrite seq_length; lia). now rewrite seq_nth by lia. }
      now rewrite E.
    - assert (E : nth_error (seq 0 (Z.to_nat (b - a))) i = None) by (apply nth_error_None; rewrite seq_length; lia). now rewrite E.
  Qed.
  Lemma round_unique q z : Qabs (q - inject_Z z) < 1 # 2 -> round_even q = z.
  Proof.
    intros H. assert (N := round_even_near q). apply Qabs_Qlt_condition in H. apply Qabs_Qle_condition in N.
    assert (inject_Z (round_even q) < inject_Z (z + 1)) by (rewrite inject_Z_plus; change (inject_Z 1) with 1; lra).
    assert (inject_Z (z - 1) < inject_Z (round_even q)) by (unfold Z.sub; rewrite inject_Z_plus; change (inject_Z (-(1))) with (-(1)); lra).
    apply (proj1 (inject_Z_lt _ _)) in H0. apply (proj1 (inject_Z_lt _ _)) in H1. lia.
  Qed.
  Lemma round_int z : round_even (inject_Z z) = z.
  Proof. apply round_unique. assert (E : inject_Z z - inject_Z z == 0) by ring. rewrite E. reflexivity. Qed.
  Lemma round_mono x y : x <= y -> (round_even x <= round_even y)%Z.
  Proof.
    intros H. destruct (Z.le_gt_cases (round_even x) (round_even y)) as [|G]; [easy|exfalso].
    assert (N := round_even_near x). assert (M := round_even_near y). apply Qabs_Qle_condition in N. apply Qabs_Qle_condition in M.
    assert (I : inject_Z (round_even y + 1) <= inject_Z (round_even x)) by (apply inject_Z_le; lia).
    rewrite inject_Z_plus in I. change (inject_Z 1) with 1 in I. assert (E : x == y) by lra. rewrite E in G. lia.
  Qed.
  Lemma steps_nth num i : nth_error (steps num) i = if (Z.of_nat i <? num)%Z then Some (Z.of_nat i) else None.
  Proof.
    assert (H := int_range_nth 0 num i). unfold int_range in H. rewrite Z.sub_0_r in H. cbn [Z.add] in H. exact H.
  Qed.
  Lemma steps_length num : length (steps num) = Z.to_nat num.
  Proof. unfold steps. now rewrite map_length, seq_length. Qed.
  Lemma int_q_pos n : (1 < n)%Z -> 0 < int_q (n - 1).
  Proof. intros H. change 0 with (inject_Z 0). apply inject_Z_lt. lia. Qed.
  (** Linear *)
  Lemma linear_spec a b n : (2 <= n)%Z -> exists l, space logarithm power a b n true false 10 = Ok l /\ length l = Z.to_nat n /\
    nth_error l 0 = Some a /\ nth_error l (Z.to_nat n - 1) = Some b /\
    (forall i x, nth_error l i = Some x -> rounded (inject_Z a + inject_Z (Z.of_nat i) * (inject_Z (b - a) / inject_Z (n - 1))) x) /\
    (if (a <=? b)%Z then ascending l else descending l).
  Proof.
    intros N. unfold space. destruct (Z.ltb_spec n 2); [lia|]. cbn [bind]. cbv zeta. eexists. split; [reflexivity|].
    set (step := (int_q b - int_q a) / int_q (n - 1)). assert (P := int_q_pos n ltac:(lia)).
    assert (NT : forall i x, nth_error (map (fun i0 => round_even (int_q a + int_q i0 * step)) (steps n)) i = Some x -> x = round_even (int_q a + int_q (Z.of_nat i) * step) /\ (Z.of_nat i < n)%Z).
    { intros i x E. rewrite nth_error_map, steps_nth in E. destruct (Z.ltb_spec (Z.of_nat i) n); [|discriminate]. cbn in E. split; [congruence|easy]. }
    split; [now rewrite map_length, steps_length|]. split; [|split; [|split]].
    - rewrite nth_error_map, steps_nth. destruct (Z.ltb_spec (Z.of_nat 0) n); [|lia]. cbn [option_map]. f_equal. change (Z.of_nat 0) with 0%Z.
      assert (E : int_q a + int_q 0 * step == inject_Z a) by (unfold int_q; change (inject_Z 0) with 0; ring). rewrite E. apply round_int.
    - rewrite nth_error_map, steps_nth. destruct (Z.ltb_spec (Z.of_nat (Z.to_nat n - 1)) n); [|lia]. cbn [option_map]. f_equal. replace (Z.of_nat (Z.to_nat n - 1)) with (n - 1)%Z by lia.
      assert (E : int_q a + int_q (n - 1) * step == inject_Z b) by (unfold step; unfold int_q in *; field; lra). rewrite E. apply round_int.
    - intros i x E. apply NT in E as [-> _]. unfold rounded. assert (RN := round_even_near (int_q a + int_q (Z.of_nat i) * step)). unfold step, int_q in *.
      assert (E : inject_Z (b - a) == inject_Z b - inject_Z a) by (unfold Z.sub; rewrite inject_Z_plus, inject_Z_opp; reflexivity). now rewrite E.
    - assert (ST : if (a <=? b)%Z then 0 <= step else step <= 0).
      { unfold step. destruct (Z.leb_spec a b) as [L|L].
        - apply Qle_shift_div_l; [easy|]. apply (proj2 (inject_Z_le _ _)) in L. unfold int_q. lra.
        - apply Qle_shift_div_r; [easy|]. assert (L' : (b <= a)%Z) by lia. apply (proj2 (inject_Z_le _ _)) in L'. unfold int_q. lra. }
      assert (IQ : forall i j, (i <= j)%nat -> int_q (Z.of_nat i) <= int_q (Z.of_nat j)) by (intros i j I; apply inject_Z_le; lia).
      destruct (a <=? b)%Z; intros i j x y IJ I J; apply NT in I as [-> _]; apply NT in J as [-> _]; apply round_mono; specialize (IQ i j IJ); nra.
  Qed.
  (** Logarithmic *)
  Lemma log_spec a b n base la lb : (2 <= n)%Z -> logarithm a base = Ok la -> logarithm b base = Ok lb ->
    (forall x y, x == y -> power base x == power base y) ->
    Qabs (power base la - inject_Z a) < 1 # 2 -> Qabs (power base lb - inject_Z b) < 1 # 2 ->
    exists l, space logarithm power a b n true true base = Ok l /\ length l = Z.to_nat n /\
    nth_error l 0 = Some a /\ nth_error l (Z.to_nat n - 1) = Some b /\
    (forall i x, nth_error l i = Some x -> rounded (power base (la + inject_Z (Z.of_nat i) * ((lb - la) / inject_Z (n - 1)))) x) /\
    ((forall x y, x <= y -> power base x <= power base y) -> la <= lb -> ascending l).
  Proof.
    intros N LA LB PP PA PB. unfold space. destruct (Z.ltb_spec n 2); [lia|]. rewrite LA, LB. cbn [bind]. cbv zeta. eexists. split; [reflexivity|].
    set (step := (lb - la) / int_q (n - 1)). assert (P := int_q_pos n ltac:(lia)).
    assert (NT : forall i x, nth_error (map (fun i0 => round_even (power base (la + int_q i0 * step))) (steps n)) i = Some x -> x = round_even (power base (la + int_q (Z.of_nat i) * step)) /\ (Z.of_nat i < n)%Z).
    { intros i x E. rewrite nth_error_map, steps_nth in E. destruct (Z.ltb_spec (Z.of_nat i) n); [|discriminate]. cbn in E. split; [congruence|easy]. }
    split; [now rewrite map_length, steps_length|]. split; [|split; [|split]].
    - rewrite nth_error_map, steps_nth. destruct (Z.ltb_spec (Z.of_nat 0) n); [|lia]. cbn [option_map]. f_equal. change (Z.of_nat 0) with 0%Z.
      assert (E : la + int_q 0 * step == la) by (unfold int_q; change (inject_Z 0) with 0; ring). apply PP in E. rewrite E. now apply round_unique.
    - rewrite nth_error_map, steps_nth. destruct (Z.ltb_spec (Z.of_nat (Z.to_nat n - 1)) n); [|lia]. cbn [option_map]. f_equal. replace (Z.of_nat (Z.to_nat n - 1)) with (n - 1)%Z by lia.
      assert (E : la + int_q (n - 1) * step == lb) by (unfold step; unfold int_q in *; field; lra). apply PP in E. rewrite E. now apply round_unique.
    - intros i x E. apply NT in E as [-> _]. apply round_even_near.
    - intros PM L.
      assert (ST : 0 <= step) by (unfold step; apply Qle_shift_div_l; [easy|]; lra).
      assert (IQ : forall i j, (i <= j)%nat -> int_q (Z.of_nat i) <= int_q (Z.of_nat j)) by (intros i j I; apply inject_Z_le; lia).
      intros i j x y IJ I J; apply NT in I as [-> _]; apply NT in J as [-> _]; apply round_mono, PM; specialize (IQ i j IJ); nra.
  Qed.
End Values.
