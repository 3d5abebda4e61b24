From Verif Require Import PyBase PyBaseFacts PyNum PyNumFacts UnitModel UnitSpec UnitProofs EcmModel EcmProofs RoofModel RoofSpec.
From Coq Require Import Lia Lqa String.
Local Open Scope Q_scope.
Local Open Scope list_scope.

Lemma plain_hi : plain_unit "Hz/It/s". Proof. split; [apply has_newline_spec; reflexivity|]. exists "H"%char, "z/It/s"%string. split; [reflexivity|right]. cbn. intuition discriminate. Qed.
Lemma plain_h : plain_unit "Hz". Proof. split; [apply has_newline_spec; reflexivity|]. exists "H"%char, "z"%string. split; [reflexivity|right]. cbn. intuition discriminate. Qed.
Lemma make2_it v : make2 v "It/s" = Ok (mkq v "" "It/s").
Proof. apply make2_plain. apply plain_it. Qed.
Lemma base_it v : num_eq (base_value (mkq v "" "It/s")) v.
Proof. unfold base_value. cbn [prefix UnitModel.value]. change (factor "") with (Some 1%Z). change (inject_Z 1) with 1. destruct v as [x| | |]; try easy. change (x * 1 == x). ring. Qed.

(** ** Conversions *)
Section Conv.
  Variables (clock : quantity) (line element flops : Z) (f : Q).
  Hypothesis Hclock : unit clock = "Hz"%string.
  Hypothesis Hf : base_value clock = Fin f.
  Hypothesis He : (0 < element)%Z.
  Let n := inject_Z line / inject_Z element.
  Lemma conv_fin_unit i x : plain_unit (unit i) -> plain_unit ("Hz/" ++ unit i) -> base_value i = Fin x -> ~ x == 0 ->
    exists r, conv_perf clock line element flops (Some i) = Ok r /\ it_s r = i /\ agrees line element flops f r.
  Proof.
    intros Ui Uh Bi X. unfold conv_perf.
    destruct (q_mul_ok i (of_int flops) x (inject_Z flops) (unit i) Bi eq_refl ltac:(easy) Ui) as (p & zp & -> & Up & Bp & Ep). cbn [bind].
    destruct (Z.eqb_spec element 0); [lia|]. cbn zeta. fold n.
    destruct (q_div_ok clock (OQ i) f x ("Hz/" ++ unit i) Hf Bi X ltac:(now rewrite Hclock) Uh) as (t & zt & E & Ut & Bt & Et). rewrite !E. cbn [bind].
    destruct (q_mul_ok t (ON (Fin n)) zt n ("Hz/" ++ unit i) Bt eq_refl ltac:(easy) Uh) as (c & zc & -> & Uc & Bc & Ec). cbn [bind].
    eexists. split; [reflexivity|]. cbn [it_s cy_cl cy_it flop_s]. split; [easy|]. unfold agrees. cbn [it_s cy_cl cy_it flop_s]. split; [|easy].
    rewrite !set_unit_base, Bi. cbn [agree]. exists zc, zt, zp. repeat (split; [easy|]). split; [|split; easy]. rewrite Et. field. easy.
  Qed.
  Lemma conv_fin i x : unit i = "It/s"%string -> base_value i = Fin x -> ~ x == 0 ->
    exists r, conv_perf clock line element flops (Some i) = Ok r /\ it_s r = i /\ agrees line element flops f r.
  Proof. intros U. apply conv_fin_unit; rewrite U; [apply plain_it|apply plain_hi]. Qed.
  Lemma conv_inf i : unit i = "It/s"%string -> base_value i = PInf ->
    exists r, conv_perf clock line element flops (Some i) = Ok r /\ it_s r = i /\ agrees line element flops f r.
  Proof.
    intros Ui Bi. unfold conv_perf.
    assert (P : exists p, q_mul i (of_int flops) = Ok p /\ (0 < inject_Z flops -> base_value p = PInf)).
    { unfold q_mul. cbn [of_int ofloat]. rewrite Bi, Ui. cbn [nmul]. destruct (make2_reduced (inf_times PInf (inject_Z flops)) "It/s" plain_it) as (r & -> & _ & E).
      exists r. split; [easy|]. intros F. rewrite inf_times_pos in E by easy. now destruct (base_value r). }
    destruct P as (p & -> & Bp). cbn [bind]. destruct (Z.eqb_spec element 0); [lia|]. cbn zeta. fold n.
    assert (T : exists t z, q_div clock (OQ i) = Ok t /\ unit t = "Hz/It/s"%string /\ base_value t = Fin z /\ z == 0).
    { unfold q_div. cbn [ofloat]. rewrite Bi, Ui, Hclock, Hf. cbn [ndiv bind]. destruct (make2_reduced (Fin 0) "Hz/It/s" plain_hi) as (r & E1 & E2 & E3).
      apply num_eq_Fin in E3 as (z & E3 & Z). exists r, z. easy. }
    destruct T as (t & zt & E & Ut & Bt & Zt). rewrite !E. cbn [bind].
    destruct (q_mul_ok t (ON (Fin n)) zt n "Hz/It/s" Bt eq_refl ltac:(easy) plain_hi) as (c & zc & -> & Uc & Bc & Ec). cbn [bind].
    eexists. split; [reflexivity|]. cbn [it_s cy_cl cy_it flop_s]. split; [easy|]. unfold agrees. cbn [it_s cy_cl cy_it flop_s]. split; [|easy].
    rewrite !set_unit_base, Bi. cbn [agree]. exists zc, zt. repeat (split; [easy|]). split; [rewrite Ec, Zt; ring|]. split; easy.
  Qed.
  Lemma conv_zero i x : unit i = "It/s"%string -> base_value i = Fin x -> x == 0 -> conv_perf clock line element flops (Some i) = Err ZeroDivisionError.
  Proof.
    intros Ui Bi X. unfold conv_perf.
    destruct (q_mul_ok i (of_int flops) x (inject_Z flops) "It/s" Bi eq_refl ltac:(easy) plain_it) as (p & zp & -> & Up & Bp & Ep). cbn [bind].
    destruct (Z.eqb_spec element 0); [lia|]. cbn zeta. rewrite (q_div_zero clock (OQ i) x Bi X). reflexivity.
  Qed.
  Lemma conv_rate i : unit i = "It/s"%string -> rate_ok (base_value i) ->
    exists r, conv_perf clock line element flops (Some i) = Ok r /\ it_s r = i /\ agrees line element flops f r.
  Proof.
    intros Ui Ri. destruct (base_value i) as [x| | |] eqn:B; try easy; [|now apply conv_inf]. cbn in Ri. apply (conv_fin i x); [easy|easy|lra].
  Qed.
End Conv.

(** ** Order of rates *)
Lemma at_most_refl a : rate_ok a -> at_most a a.
Proof. destruct a; cbn; try easy. intros. lra. Qed.
Lemma at_most_trans a b c : at_most a b -> at_most b c -> at_most a c.
Proof. destruct a, b, c; cbn; try easy. intros. lra. Qed.
Lemma q_lt_spec a b : rate_ok (base_value a) -> rate_ok (base_value b) -> if q_lt a (OQ b) then ~ at_most (base_value b) (base_value a) /\ at_most (base_value a) (base_value b) else at_most (base_value b) (base_value a).
Proof.
  unfold q_lt, ofloat. destruct (base_value a) as [x| | |], (base_value b) as [y| | |]; cbn; try easy.
  intros _ _. destruct (Qltb_spec x y); lra.
Qed.

Lemma nth_app_one {A} (l : list A) x i y : nth_error (l ++ [x]) i = Some y -> nth_error l i = Some y \/ (i = List.length l /\ y = x).
Proof.
  intros E. destruct (Nat.lt_ge_cases i (List.length l)).
  - left. now rewrite nth_error_app1 in E.
  - rewrite nth_error_app2 in E by easy. destruct (i - List.length l)%nat as [|k] eqn:K; cbn in E; [|now destruct k]. right. split; [lia|congruence].
Qed.
Lemma slowest_app_new l v b x : slowest l b -> nth_error l b = Some x -> ~ at_most x v -> at_most v x -> rate_ok v -> slowest (l ++ [v]) (List.length l).
Proof.
  intros (w & W & A & B) X N L R. assert (w = x) as -> by congruence. exists v. split; [|split].
  - rewrite nth_error_app2 by easy. now rewrite Nat.sub_diag.
  - intros j y E. apply nth_app_one in E as [E|[-> ->]]; [|now apply at_most_refl]. eapply at_most_trans; [exact L|]. now apply (A j).
  - intros j y J E. rewrite nth_error_app1 in E by easy. intros Y. apply N. eapply at_most_trans; [apply (A _ _ E)|exact Y].
Qed.
Lemma slowest_app_old l v b x : slowest l b -> nth_error l b = Some x -> at_most x v -> slowest (l ++ [v]) b.
Proof.
  intros (w & W & A & B) X L. assert (w = x) as -> by congruence. assert (b < List.length l)%nat by (apply nth_error_Some; congruence). exists x. split; [|split].
  - now rewrite nth_error_app1.
  - intros j y E. apply nth_app_one in E as [E|[-> ->]]; [|easy]. now apply (A j).
  - intros j y J E. rewrite nth_error_app1 in E by lia. now apply (B j).
Qed.

(** ** All levels *)
Section Levels.
  Variables (clock : quantity) (line element flops : Z) (f : Q) (bwf : nat -> Q -> Q -> res quantity).
  Hypothesis Hclock : unit clock = "Hz"%string.
  Hypothesis Hf : base_value clock = Fin f.
  Hypothesis He : (0 < element)%Z.
  Hypothesis Hl : (element <= line)%Z.
  Hypothesis Hb : forall i l s, exists bw b, bwf i l s = Ok bw /\ base_value bw = Fin b /\ 0 < b.
  Let n := inject_Z (line / element).
  Lemma n_pos' : 0 < n.
  Proof. apply injpos. apply Z.div_str_pos. lia. Qed.
  Definition inv (r : roofs) : Prop :=
    slowest (map rate (bottlenecks r)) (bottleneck r) /\ (exists e, nth_error (bottlenecks r) (bottleneck r) = Some e /\ minimum r = performance e) /\
    (forall e, In e (bottlenecks r) -> rate_ok (rate e)).
  Lemma intens_eq b bytes : ~ bytes == 0 -> b * (1 / (bytes / n)) * bytes == b * n.
  Proof. intros B. assert (N := n_pos'). field. split; lra. Qed.
  Lemma intens_pos b bytes : 0 < b -> 0 < bytes -> 0 < b * (1 / (bytes / n)).
  Proof.
    intros B1 B2. assert (N := n_pos'). assert (0 < bytes / n) by (apply Qlt_shift_div_l; lra). assert (0 < 1 / (bytes / n)) by (apply Qlt_shift_div_l; lra). nra.
  Qed.
  Lemma first_spec reads writes : reads ++ writes <> [] ->
    exists r e, first_level clock line element flops bwf reads writes = Ok r /\ bottlenecks r = [e] /\ inv r /\
      entry_ok line element flops f bwf e 0 (streams reads writes) 0 (streams reads writes * inject_Z element).
  Proof.
    intros NE. unfold first_level. destruct (Z.eqb_spec element 0); [lia|]. cbn zeta.
    assert (P : (0 < line / element)%Z) by (apply Z.div_str_pos; lia). destruct (Z.leb_spec (line / element) 0); [lia|].
    fold (streams reads writes). set (k := (Z.of_nat (List.length (nodup Z.eq_dec reads)) + Z.of_nat (List.length (nodup Z.eq_dec writes)))%Z).
    assert (K : (0 < k)%Z).
    { unfold k. assert (nodup Z.eq_dec reads <> [] \/ nodup Z.eq_dec writes <> []) as [N|N].
      { destruct reads as [|x reads]; [right|left]; intros E.
        - destruct writes as [|x writes]; [easy|]. assert (I : In x (nodup Z.eq_dec (x :: writes))) by (apply nodup_In; now left). now rewrite E in I.
        - assert (I : In x (nodup Z.eq_dec (x :: reads))) by (apply nodup_In; now left). now rewrite E in I. }
      - destruct (nodup Z.eq_dec reads); [easy|cbn [List.length]; lia].
      - destruct (nodup Z.eq_dec writes); [easy|cbn [List.length]; lia]. }
    destruct (Hb 0%nat (inject_Z k) 0) as (bw & b & Eb & Bb & Pb). unfold streams. fold k. rewrite Eb. cbn [bind].
    destruct (Z.eqb_spec (k * element) 0); [nia|]. fold n. set (x := 1 / (inject_Z (k * element) / n)).
    rewrite make2_it. cbn [bind]. set (i := mkq (nmul (base_value bw) (Fin x)) "" "It/s").
    assert (KE : 0 < inject_Z (k * element)) by (apply injpos; nia).
    assert (Bi : exists z, base_value i = Fin z /\ z == b * x).
    { assert (Y := base_it (nmul (base_value bw) (Fin x))). fold i in Y. rewrite Bb in Y. now apply num_eq_Fin in Y. }
    destruct Bi as (z & Bi & Z).
    assert (ZP : 0 < z). { rewrite Z. now apply intens_pos. }
    destruct (conv_rate clock line element flops f Hclock Hf He i eq_refl ltac:(rewrite Bi; exact ZP)) as (p & -> & Ip & Ap). cbn [bind].
    do 2 eexists. split; [reflexivity|]. cbn [bottlenecks]. split; [reflexivity|].
    assert (RT : base_value (it_s p) = Fin z) by now rewrite Ip.
    split.
    - unfold inv. cbn [bottlenecks bottleneck minimum map nth_error]. split; [|split].
      + unfold slowest, rate at 1. cbn [nth_error performance]. rewrite RT. exists (Fin z). split; [easy|]. split; [|intros; lia].
        intros [|[|j]] w E; cbn [nth_error] in E; try discriminate. unfold rate in E. cbn [performance] in E. rewrite RT in E. assert (w = Fin z) as -> by congruence. cbn. lra.
      + eexists. split; [reflexivity|]. easy.
      + intros e [<-|[]]. unfold rate. cbn [performance]. rewrite RT. exact ZP.
    - unfold entry_ok, rate. cbn [entry_level transferred bandwidth performance]. rewrite RT, Ip. split; [easy|]. split; [now rewrite inject_Z_mult|]. split; [easy|]. split.
      + exists b. split; [easy|]. right. split; [rewrite <- inject_Z_mult; lra|]. exists z. split; [easy|]. rewrite <- inject_Z_mult, Z. apply intens_eq. lra.
      + split; [easy|]. split; [exact ZP|easy].
  Qed.
  Lemma next_spec i l s r : inv r -> 0 <= l -> 0 <= s ->
    exists r' e, next_level clock line element flops bwf i l s r = Ok r' /\ bottlenecks r' = bottlenecks r ++ [e] /\ inv r' /\
      entry_ok line element flops f bwf e i l s ((l + s) * inject_Z line).
  Proof.
    intros (S & (e0 & E0 & M0) & RO) L0 S0. unfold next_level. destruct (Hb i l s) as (bw & b & Eb & Bb & Pb). rewrite Eb. cbn [bind]. cbn zeta.
    fold n. set (bytes := l * inject_Z line + s * inject_Z line).
    assert (LP : 0 < inject_Z line) by (apply injpos; lia).
    assert (BY : bytes == (l + s) * inject_Z line) by (unfold bytes; ring). assert (B0 : 0 <= bytes) by (rewrite BY; apply Qmult_le_0_compat; lra).
    set (X := if Qeq_bool bytes 0 then _ else _).
    assert (HX : exists iv q, X = Ok (iv, q) /\ unit q = "It/s"%string /\ rate_ok (base_value q) /\ roof b bytes n (base_value q)).
    { unfold X. destruct (Qeq_bool_spec bytes 0) as [Z|NZ]; rewrite make2_it; cbn [bind].
      - do 2 eexists. split; [reflexivity|]. split; [easy|]. assert (Y := base_it PInf). destruct (base_value (mkq PInf "" "It/s")); try easy. split; [easy|]. left. easy.
      - do 2 eexists. split; [reflexivity|]. split; [easy|]. assert (Y := base_it (nmul (base_value bw) (Fin (1 / (bytes / n))))). rewrite Bb in *. cbn [nmul] in Y |- *.
        apply num_eq_Fin in Y as (z & -> & Z). cbn [rate_ok]. split; [rewrite Z; apply intens_pos; [easy|lra]|]. right. split; [easy|]. exists z. split; [easy|].
        rewrite Z. now apply intens_eq. }
    destruct HX as (iv & q & -> & Uq & Rq & Rf). cbn [bind fst snd].
    destruct (conv_rate clock line element flops f Hclock Hf He q Uq Rq) as (p & Ep & Ip & Ap). rewrite !Ep. cbn [bind].
    set (e := mkEntry p i iv bw bytes).
    assert (EO : entry_ok line element flops f bwf e i l s ((l + s) * inject_Z line)).
    { unfold entry_ok, rate, e. cbn [entry_level transferred bandwidth performance]. rewrite Ip. split; [easy|]. split; [easy|]. split; [easy|]. split; [|easy].
      exists b. split; [easy|]. destruct Rf as [[R1 R2]|[R1 (x & R2 & R3)]]; [left; split; [lra|easy]|]. right. split; [lra|]. exists x. split; [easy|]. now rewrite <- BY. }
    assert (RE : rate e = base_value q) by (unfold rate, e; cbn [performance]; now rewrite Ip).
    assert (N0 : nth_error (map rate (bottlenecks r)) (bottleneck r) = Some (base_value (it_s (minimum r)))) by (rewrite nth_error_map, E0, M0; reflexivity).
    assert (RO' : forall e', In e' (bottlenecks r ++ [e]) -> rate_ok (rate e')) by (intros e' I; apply in_app_iff in I as [I|[<-|[]]]; [now apply RO|now rewrite RE]).
    assert (R0 : rate_ok (base_value (it_s (minimum r)))) by (rewrite M0; apply RO; now apply nth_error_In in E0).
    assert (Q := q_lt_spec q (it_s (minimum r)) Rq R0).
    destruct (q_lt q (OQ (it_s (minimum r)))); cbn [bind]; do 2 eexists; (split; [reflexivity|]); cbn [bottlenecks]; (split; [reflexivity|]); (split; [|exact EO]); unfold inv; cbn [bottlenecks bottleneck minimum].
    - rewrite app_length. cbn [List.length]. replace (List.length (bottlenecks r) + 1 - 1)%nat with (List.length (bottlenecks r)) by lia. split; [|split; [|exact RO']].
      + rewrite map_app. cbn [map]. rewrite RE. rewrite <- (map_length rate (bottlenecks r)). destruct Q as [Q1 Q2]. exact (slowest_app_new _ _ _ _ S N0 Q1 Q2 Rq).
      + exists e. split; [rewrite nth_error_app2 by easy; now rewrite Nat.sub_diag|reflexivity].
    - split; [|split; [|exact RO']].
      + rewrite map_app. cbn [map]. rewrite RE. exact (slowest_app_old _ _ _ _ S N0 Q).
      + exists e0. split; [|easy]. rewrite nth_error_app1; [easy|]. apply nth_error_Some. congruence.
  Qed.
  Lemma nth_res_ok {A} (l : list A) i : (i < List.length l)%nat -> exists x, nth_error l i = Some x /\ nth_res l i = Ok x.
  Proof. intros H. unfold nth_res. destruct (nth_error l i) as [x|] eqn:E; [eauto|]. apply nth_error_None in E. lia. Qed.
  Lemma levels_spec k : forall i loads stores r, (i + k <= List.length loads)%nat -> (i + k <= List.length stores)%nat ->
    (forall x, In x loads -> 0 <= x) -> (forall x, In x stores -> 0 <= x) -> inv r -> List.length (bottlenecks r) = i ->
    exists r' es, next_levels clock line element flops bwf i k loads stores r = Ok r' /\ inv r' /\ bottlenecks r' = bottlenecks r ++ es /\ List.length es = k /\
      forall j e, nth_error es j = Some e -> exists l s, nth_error loads (i + j) = Some l /\ nth_error stores (i + j) = Some s /\ entry_ok line element flops f bwf e (i + j) l s ((l + s) * inject_Z line).
  Proof.
    induction k as [|k IH]; intros i loads stores r HL HS PL PS I LR; cbn [next_levels].
    - exists r, []. split; [easy|]. split; [easy|]. split; [now rewrite app_nil_r|]. split; [easy|]. intros [|j] e E; discriminate.
    - destruct (nth_res_ok loads i ltac:(lia)) as (l & El & ->). destruct (nth_res_ok stores i ltac:(lia)) as (s & Es & ->). cbn [bind].
      destruct (next_spec i l s r I (PL _ (nth_error_In _ _ El)) (PS _ (nth_error_In _ _ Es))) as (r1 & e & -> & B1 & I1 & EO). cbn [bind].
      destruct (IH (S i) loads stores r1 ltac:(lia) ltac:(lia) PL PS I1 ltac:(rewrite B1, app_length; cbn; lia)) as (r2 & es & -> & I2 & B2 & L2 & H2).
      exists r2, (e :: es). split; [easy|]. split; [easy|]. split; [rewrite B2, B1, <- app_assoc; reflexivity|]. split; [cbn; lia|].
      intros [|j] e' E'; cbn [nth_error] in E'.
      + assert (e = e') as <- by congruence. exists l, s. rewrite Nat.add_0_r. easy.
      + destruct (H2 j e' E') as (l' & s' & H). exists l', s'. now replace (i + S j)%nat with (S i + j)%nat by lia.
  Qed.
  Lemma cache_access_spec levels reads writes loads stores : (1 <= levels)%nat -> reads ++ writes <> [] ->
    (levels <= List.length loads)%nat -> (levels <= List.length stores)%nat ->
    (forall x, In x loads -> 0 <= x) -> (forall x, In x stores -> 0 <= x) ->
    exists r, cache_access clock line element flops bwf levels reads writes loads stores = Ok r /\
      List.length (bottlenecks r) = levels /\ slowest (map rate (bottlenecks r)) (bottleneck r) /\
      (exists e, nth_error (bottlenecks r) (bottleneck r) = Some e /\ minimum r = performance e) /\
      (forall j e, nth_error (bottlenecks r) j = Some e -> exists l s bytes, entry_ok line element flops f bwf e j l s bytes /\
         match j with
         | O => l = streams reads writes /\ s = 0 /\ bytes == l * inject_Z element
         | S _ => nth_error loads j = Some l /\ nth_error stores j = Some s /\ bytes == (l + s) * inject_Z line
         end).
  Proof.
    intros LV NE HL HS PL PS. unfold cache_access. destruct (first_spec reads writes NE) as (r & e & -> & B & I & EO). cbn [bind].
    destruct (levels_spec (levels - 1) 1 loads stores r ltac:(lia) ltac:(lia) PL PS I ltac:(now rewrite B)) as (r' & es & -> & I' & B' & L' & H').
    exists r'. split; [easy|]. rewrite B' , B. split; [cbn; lia|]. destruct I' as (I1 & I2 & I3). rewrite B', B in I1, I2. split; [easy|]. split; [easy|].
    intros [|j] e' E'; cbn [nth_error app] in E'.
    - assert (e = e') as <- by congruence. exists (streams reads writes), 0, (streams reads writes * inject_Z element). split; [easy|]. split; [easy|]. split; [easy|reflexivity].
    - destruct (H' j e' E') as (l & s & E1 & E2 & E3). exists l, s, ((l + s) * inject_Z line). cbn [Nat.add] in *. split; [easy|]. split; [easy|]. split; [easy|reflexivity].
  Qed.
End Levels.

(** ** Reports *)
Lemma reevaluate_spec es : forall i b m, rate_ok (base_value (it_s m)) -> (forall e, In e es -> rate_ok (rate e)) ->
  exists b' m', reevaluate i es b m = (b', m') /\ at_most (base_value (it_s m')) (base_value (it_s m)) /\
    (forall e, In e es -> at_most (base_value (it_s m')) (rate e)) /\
    ((b' = b /\ m' = m) \/ exists j e, nth_error es j = Some e /\ b' = Some (i + j)%nat /\ m' = performance e).
Proof.
  induction es as [|e es IH]; intros i b m RM RE; cbn [reevaluate].
  - exists b, m. split; [easy|]. split; [now apply at_most_refl|]. split; [easy|now left].
  - assert (R0 : rate_ok (rate e)) by (apply RE; now left). assert (Q := q_lt_spec (it_s (performance e)) (it_s m) R0 RM). fold (rate e) in Q.
    assert (RE' : forall e', In e' es -> rate_ok (rate e')) by (intros e' I; apply RE; now right).
    destruct (q_lt (it_s (performance e)) (OQ (it_s m))).
    + destruct (IH (S i) (Some i) (performance e) R0 RE') as (b' & m' & -> & H1 & H2 & H3). exists b', m'. split; [easy|]. fold (rate e) in H1.
      split; [eapply at_most_trans; [exact H1|tauto]|]. split; [intros e' [<-|I]; [easy|now apply H2]|]. right.
      destruct H3 as [[-> ->]|(j & e' & E & -> & ->)]; [exists O, e; split; [easy|split; [now rewrite Nat.add_0_r|easy]]|].
      exists (S j), e'. split; [easy|]. split; [f_equal; lia|easy].
    + destruct (IH (S i) b m RM RE') as (b' & m' & -> & H1 & H2 & H3). exists b', m'. split; [easy|]. split; [easy|].
      split; [intros e' [<-|I]; [eapply at_most_trans; [exact H1|exact Q]|now apply H2]|].
      destruct H3 as [[-> ->]|(j & e' & E & -> & ->)]; [now left|]. right. exists (S j), e'. split; [easy|]. split; [f_equal; lia|easy].
Qed.
Lemma q_gt_spec a b : rate_ok (base_value a) -> rate_ok (base_value b) -> if q_gt a (OQ b) then at_most (base_value b) (base_value a) else at_most (base_value a) (base_value b).
Proof.
  unfold q_gt, ngtb, ofloat. destruct (base_value a) as [x| | |], (base_value b) as [y| | |]; cbn; try easy.
  intros _ _. destruct (Qltb_spec y x); lra.
Qed.
Section Reports.
  Variables (clock : quantity) (line element flops : Z) (f : Q).
  Hypothesis Hclock : unit clock = "Hz"%string.
  Hypothesis Hf : base_value clock = Fin f.
  Hypothesis He : (0 < element)%Z.
  Hypothesis Hl : (0 < line)%Z.
  Hypothesis Hp : 0 < f.
  Lemma asm_spec r tp increment cores : 0 < tp -> increment <> 0%Z -> (0 < cores)%Z -> (forall e, In e (bottlenecks r) -> rate_ok (rate e)) ->
    exists a v x c, asm_analyze clock line element flops r tp increment cores = Ok a /\
      base_value (it_s (cpu_performance a)) = Fin x /\ x * tp * inject_Z element == f * inject_Z (Z.abs increment) * inject_Z cores /\
      agrees line element flops f (cpu_performance a) /\
      asm_cl_throughput a == tp * (inject_Z line / inject_Z (Z.abs increment)) /\
      base_value (cy_cl (cpu_performance a)) = Fin c /\ c * inject_Z cores == asm_cl_throughput a /\
      asm_report a = Ok v /\ smallest (verdict_rate v) (base_value (it_s (cpu_performance a)) :: map rate (tl (bottlenecks r))).
  Proof.
    intros TP IN CP RO. unfold asm_analyze. destruct (Z.eqb_spec element 0); [lia|]. cbn zeta.
    assert (EP := injpos element He). assert (LP := injpos line Hl). assert (CQ := injpos cores CP). assert (AI : 0 < inject_Z (Z.abs increment)) by (apply injpos; lia).
    set (pb := Qabs (inject_Z increment / inject_Z element)).
    assert (PB : pb * inject_Z element == inject_Z (Z.abs increment)).
    { unfold pb. unfold Qdiv. rewrite Qabs_Qmult. assert (X : Qabs (/ inject_Z element) == / inject_Z element) by (apply Qabs_pos; apply Qlt_le_weak; now apply Qinv_lt_0_compat).
      rewrite X. rewrite <- Qmult_assoc, (Qmult_comm (/ inject_Z element)), Qmult_inv_r by lra. rewrite Qmult_1_r. reflexivity. }
    assert (PP : 0 < pb) by (apply (Qmult_lt_r _ _ (inject_Z element)); [easy|]; rewrite PB; lra).
    destruct (Qeq_bool_spec (pb * inject_Z element) 0); [exfalso; rewrite PB in *; lra|].
    rewrite !make2_it. cbn [bind]. set (i0 := mkq PInf "" "It/s").
    assert (B0 : base_value i0 = PInf) by (assert (Y := base_it PInf); fold i0 in Y; now destruct (base_value i0)).
    destruct (conv_inf clock line element flops f Hclock Hf He i0 eq_refl B0) as (m & -> & Im & _). cbn [bind].
    destruct (q_div_ok clock (ON (Fin tp)) f tp "Hz" Hf eq_refl ltac:(lra) ltac:(easy) plain_h) as (a1 & z1 & -> & U1 & B1 & E1). cbn [bind].
    destruct (q_mul_ok a1 (ON (Fin pb)) z1 pb "Hz" B1 eq_refl ltac:(easy) plain_h) as (a2 & z2 & -> & U2 & B2 & E2). cbn [bind].
    destruct (q_mul_ok a2 (of_int cores) z2 (inject_Z cores) "Hz" B2 eq_refl ltac:(easy) plain_h) as (a3 & z3 & -> & U3 & B3 & E3). cbn [bind].
    rewrite B3. rewrite make2_it. cbn [bind]. set (i := mkq (Fin z3) "" "It/s").
    assert (Bi : exists z, base_value i = Fin z /\ z == z3) by (assert (Y := base_it (Fin z3)); fold i in Y; now apply num_eq_Fin in Y). destruct Bi as (x & Bx & Ex).
    assert (XE : x * tp * inject_Z element == f * inject_Z (Z.abs increment) * inject_Z cores).
    { rewrite Ex, E3, E2, E1, <- PB. field. lra. }
    assert (XP : 0 < x). { assert (0 < f * inject_Z (Z.abs increment) * inject_Z cores) by (apply Qmult_lt_0_compat; [apply Qmult_lt_0_compat|]; easy).
      rewrite <- XE in H. destruct (Qlt_le_dec 0 x) as [|LE]; [easy|exfalso]. assert (0 < tp * inject_Z element) by (now apply Qmult_lt_0_compat). nra. }
    destruct (conv_fin clock line element flops f Hclock Hf He i x eq_refl Bx ltac:(lra)) as (p & -> & Ip & Ap). cbn [bind].
    assert (RM : rate_ok (base_value (it_s m))) by (now rewrite Im, B0).
    assert (RT : forall e, In e (tl (bottlenecks r)) -> rate_ok (rate e)) by (intros e I; apply RO; destruct (bottlenecks r); [easy|now right]).
    destruct (reevaluate_spec (tl (bottlenecks r)) 1 None m RM RT) as (b' & m' & -> & H1 & H2 & H3). cbn [fst snd].
    assert (AP := proj1 Ap). rewrite Ip, Bx in AP. cbn [agree] in AP. destruct AP as (c & t & fl & Bc & Bt & _ & A1 & A2 & _).
    assert (CL : c * inject_Z cores == tp * (inject_Z line / inject_Z (Z.abs increment))).
    { assert (T : t == f / x) by (rewrite <- A1; field; lra). rewrite A2, T.
      assert (FX : f == x * tp * inject_Z element / (inject_Z (Z.abs increment) * inject_Z cores)) by (rewrite XE; field; split; lra). rewrite FX. field. repeat split; lra. }
    assert (TL : tp * (inject_Z line / (pb * inject_Z element)) == tp * (inject_Z line / inject_Z (Z.abs increment))) by now rewrite PB.
    eexists. assert (RX : rate_ok (base_value (it_s p))) by (rewrite Ip, Bx; exact XP).
    assert (RM' : rate_ok (base_value (it_s m'))). { destruct H3 as [[_ ->]|(j & e & E & _ & ->)]; [easy|]. apply RT. now apply nth_error_In in E. }
    assert (Q := q_gt_spec (it_s m') (it_s p) RM' RX).
    assert (V : exists v, (if q_gt (it_s m') (OQ (it_s p)) then Ok (CpuBound p) else match b' with None => Err TypeError | Some b => do e <- nth_res (bottlenecks r) b; Ok (MemoryBound e) end) = Ok v /\
        smallest (verdict_rate v) (base_value (it_s p) :: map rate (tl (bottlenecks r)))).
    { destruct (q_gt (it_s m') (OQ (it_s p))) eqn:G.
      - exists (CpuBound p). split; [easy|]. cbn [verdict_rate]. split; [now left|]. intros y [<-|I]; [now apply at_most_refl|]. apply in_map_iff in I as (e & <- & I).
        eapply at_most_trans; [exact Q|now apply H2].
      - destruct H3 as [[-> ->]|(j & e & E & -> & ->)].
        + exfalso. unfold q_gt, ngtb, ofloat in G. rewrite Im, B0, Ip, Bx in G. discriminate.
        + exists (MemoryBound e). assert (NE : nth_error (bottlenecks r) (S j) = Some e) by (destruct (bottlenecks r); [destruct j; discriminate|exact E]).
          cbn [Nat.add]. unfold nth_res. rewrite NE. cbn [bind]. split; [easy|]. cbn [verdict_rate]. split; [right; apply in_map_iff; exists e; split; [easy|now apply nth_error_In in E]|].
          intros y [<-|I]; [exact Q|]. apply in_map_iff in I as (e' & <- & I). now apply H2. }
    destruct V as (v & EV & SV). exists v, x, c. split; [reflexivity|]. unfold asm_report. cbn [cpu_performance asm_cl_throughput asm_minimum asm_bottleneck asm_entries].
    rewrite Ip, Bx. split; [easy|]. split; [easy|]. split; [easy|]. split; [easy|]. split; [easy|]. split; [lra|]. rewrite <- Bx, <- Ip. split; [exact EV|exact SV].
  Qed.
  Lemma asm_no_increment r tp cores : asm_analyze clock line element flops r tp 0 cores = Err SystemExit.
  Proof. unfold asm_analyze. destruct (Z.eqb_spec element 0); [lia|]. reflexivity. Qed.

  (** RooflineFLOP *)
  Lemma max_perf_spec l dp sp cores : (0 < sp)%Z -> (0 < cores)%Z ->
    exists p x o, max_perf clock line element flops (Tup l) dp sp cores = Ok p /\
      base_value (it_s p) = Fin x /\ x == f * inject_Z cores * inject_Z sp /\ base_value (flop_s p) = Fin o /\ o == f * inject_Z cores * inject_Z sp * inject_Z flops /\ agrees line element flops f p.
  Proof.
    intros S C. unfold max_perf. cbn [precision_peak]. assert (SP := injpos sp S). assert (CP := injpos cores C).
    destruct (q_mul_ok clock (of_int cores) f (inject_Z cores) "Hz" Hf eq_refl ltac:(now rewrite Hclock) plain_h) as (a & z & -> & U & B & E). cbn [bind].
    destruct (q_mul_ok a (of_int sp) z (inject_Z sp) "Hz" B eq_refl ltac:(easy) plain_h) as (a2 & z2 & -> & U2 & B2 & E2). cbn [bind].
    assert (Z2 : 0 < z2). { rewrite E2, E. repeat apply Qmult_lt_0_compat; easy. }
    destruct (conv_fin_unit clock line element flops f Hclock Hf He a2 z2 ltac:(rewrite U2; apply plain_h)
      ltac:(rewrite U2; split; [apply has_newline_spec; reflexivity|exists "H"%char, "z/Hz"%string; split; [reflexivity|right; cbn; intuition discriminate]]) B2 ltac:(lra)) as (p & -> & Ip & Ap).
    assert (AP := proj1 Ap). rewrite Ip, B2 in AP. cbn [agree] in AP. destruct AP as (c & t & o & _ & _ & Bo & _ & _ & A3).
    exists p, z2, o. split; [easy|]. rewrite Ip. split; [easy|]. split; [now rewrite E2, E|]. split; [easy|]. split; [now rewrite A3, E2, E|easy].
  Qed.
  Lemma flop_gt a b : (0 < flops)%Z -> agrees line element flops f a -> agrees line element flops f b -> rate_ok (base_value (it_s a)) -> rate_ok (base_value (it_s b)) ->
    q_gt (flop_s a) (OQ (flop_s b)) = q_gt (it_s a) (OQ (it_s b)).
  Proof.
    intros F [A _] [B _] RA RB. assert (FP := injpos flops F). unfold q_gt, ngtb, ofloat.
    destruct (base_value (it_s a)) as [x| | |], (base_value (it_s b)) as [y| | |]; try easy; cbn [agree] in A, B.
    - destruct A as (c & t & p & _ & _ & -> & _ & _ & P1), B as (c' & t' & p' & _ & _ & -> & _ & _ & P2). cbn [nltb].
      destruct (Qltb_spec y x) as [L|L], (Qltb_spec p' p) as [L'|L']; try easy; exfalso.
      + apply L'. rewrite P1, P2. apply Qmult_lt_r; easy.
      + apply L. rewrite P1, P2 in L'. apply Qmult_lt_r in L'; easy.
    - destruct A as (c & t & p & _ & _ & P & _ & _ & P1), B as (c' & t' & _ & _ & _ & _ & P2). now rewrite P, (P2 FP).
    - destruct A as (c & t & _ & _ & _ & _ & P1), B as (c' & t' & p' & _ & _ & P2 & _). now rewrite P2, (P1 FP).
    - destruct A as (c & t & _ & _ & _ & _ & P1), B as (c' & t' & _ & _ & _ & _ & P2). now rewrite (P1 FP), (P2 FP).
  Qed.
  Lemma flop_report_spec r peak : (0 < flops)%Z -> slowest (map rate (bottlenecks r)) (bottleneck r) ->
    (exists e, nth_error (bottlenecks r) (bottleneck r) = Some e /\ minimum r = performance e) ->
    (forall e, In e (bottlenecks r) -> rate_ok (rate e) /\ agrees line element flops f (performance e)) ->
    agrees line element flops f peak -> rate_ok (base_value (it_s peak)) ->
    exists v, flop_report r peak = Ok v /\ smallest (verdict_rate v) (base_value (it_s peak) :: map rate (bottlenecks r)).
  Proof.
    intros F (w & W & A & _) (e & E & M) ALL AP RP. destruct (ALL e (nth_error_In _ _ E)) as [RE AE].
    assert (w = rate e) as -> by (rewrite nth_error_map, E in W; cbn in W; congruence).
    unfold flop_report. rewrite M, (flop_gt (performance e) peak F AE AP RE RP).
    assert (Q := q_gt_spec (it_s (performance e)) (it_s peak) RE RP). fold (rate e) in Q.
    assert (AA : forall y, In y (map rate (bottlenecks r)) -> at_most (rate e) y) by (intros y I; apply In_nth_error in I as [j J]; now apply (A j)).
    destruct (q_gt (it_s (performance e)) (OQ (it_s peak))).
    - exists (CpuBound peak). split; [easy|]. cbn [verdict_rate]. split; [now left|]. intros y [<-|I]; [now apply at_most_refl|]. eapply at_most_trans; [exact Q|now apply AA].
    - unfold nth_res. rewrite E. exists (MemoryBound e). split; [easy|]. cbn [verdict_rate]. split; [right; apply in_map; now apply nth_error_In in E|].
      intros y [<-|I]; [exact Q|now apply AA].
  Qed.
End Reports.
