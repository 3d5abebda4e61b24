From Coq Require Import Lia Lqa Permutation String.
From Verif Require Import PyBaseFacts PyNumFacts UnitModel UnitSpec UnitProofs.
From Verif Require Import EcmModel EcmSpec.
Local Open Scope Q_scope.
Local Open Scope list_scope.

(** ** Helpers *)
Lemma qtrunc_int z : qtrunc (inject_Z z) = z.
Proof. unfold qtrunc. destruct (Qltb _ _); [apply Qceiling_Z|apply Qfloor_Z]. Qed.
Lemma qtrunc_proper a b : a == b -> qtrunc a = qtrunc b.
Proof.
  intros E. unfold qtrunc. destruct (Qltb_spec a 0), (Qltb_spec b 0); try lra.
  - now apply Qceiling_comp.
  - now apply Qfloor_comp.
Qed.
Lemma round_spec x base : (0 < base)%Z -> exists z, round_to_next x (inject_Z base) = Ok z /\ next_multiple x base z.
Proof.
  intros B. assert (B' : 0 < inject_Z base) by now apply injpos.
  unfold round_to_next. destruct (Qeq_bool_spec (inject_Z base) 0); [lra|].
  set (c := Qceiling (x / inject_Z base)). exists (base * c)%Z. split.
  - f_equal. rewrite <- (qtrunc_int (base * c)). apply qtrunc_proper. now rewrite inject_Z_mult.
  - assert (E : x == x / inject_Z base * inject_Z base) by (field; lra). split; [now exists c|]. split.
    + rewrite inject_Z_mult. assert (H := Qle_ceiling (x / inject_Z base)). fold c in H. rewrite E. nra.
    + intros k H. apply Z.mul_le_mono_nonneg_l; [lia|]. rewrite inject_Z_mult in H.
      assert (L : x / inject_Z base <= inject_Z k). { apply Qle_shift_div_r; [easy|]. lra. }
      apply Qceiling_resp_le in L. now rewrite Qceiling_Z in L.
Qed.
Lemma blocks_of_spec indices size boundary : size <> 0%Z -> forall acc, NoDup acc -> exists l,
  blocks_of indices size boundary acc = Ok l /\ NoDup l /\
  (forall b, In b l <-> In b acc \/ exists i, In i indices /\ b = ((i - boundary) / size)%Z).
Proof.
  intros S. induction indices as [|i indices IH]; intros acc N; cbn [blocks_of].
  - exists acc. split; [easy|]. split; [easy|]. intros b. split; [now left|]. intros [|(i & [] & _)]; easy.
  - destruct (Z.eqb_spec size 0) as [|_]; [easy|]. set (b0 := ((i - boundary) / size)%Z).
    destruct (existsb (Z.eqb b0) acc) eqn:E.
    + destruct (IH acc N) as (l & -> & NL & H). exists l. split; [easy|]. split; [easy|]. intros b. rewrite H.
      apply existsb_exists in E as (y & I & E). apply Z.eqb_eq in E. split.
      * intros [|(j & J & ->)]; [now left|]. right. exists j. split; [now right|easy].
      * intros [|(j & [<-|J] & ->)]; [now left| |right; eauto]. left. fold b0. congruence.
    + assert (NI : ~ In b0 acc). { intros I. assert (existsb (Z.eqb b0) acc = true) by (apply existsb_exists; exists b0; split; [easy|apply Z.eqb_refl]). congruence. }
      destruct (IH (acc ++ [b0])) as (l & -> & NL & H). { apply (Permutation_NoDup (l := b0 :: acc)); [apply Permutation_cons_append|now constructor]. }
      exists l. split; [easy|]. split; [easy|]. intros b. rewrite H, in_app_iff. cbn [In]. split.
      * intros [[I|[<-|[]]]|(j & J & ->)]; [now left| |right; exists j; split; [now right|easy]]. right. exists i. split; [now left|easy].
      * intros [|(j & [<-|J] & ->)]; [now left; left|left; right; now left|right; eauto].
Qed.
From Coq Require Import Sorted.
Lemma sorted_strict l : Sorted Z.le l -> NoDup l -> StronglySorted Z.lt l.
Proof.
  intros S N. apply Sorted_StronglySorted in S; [|intros x y z; lia]. induction S as [|a l S IH F]; [constructor|].
  apply NoDup_cons_iff in N as [NI N]. constructor; [auto|]. rewrite Forall_forall in *. intros x I. specialize (F x I).
  assert (a <> x) by congruence. lia.
Qed.
Lemma blocking_spec indices size boundary : size <> 0%Z -> exists l, blocking indices size boundary = Ok l /\ StronglySorted Z.lt l /\
  (forall b, In b l <-> exists i, In i indices /\ b = ((i - boundary) / size)%Z).
Proof.
  intros S. unfold blocking. destruct (blocks_of_spec indices size boundary S [] (NoDup_nil _)) as (l & -> & N & H). cbn [bind].
  exists (sort_by (fun z => z) l). split; [easy|]. split.
  - apply sorted_strict; [apply sort_by_sorted|]. eapply Permutation_NoDup; [apply sort_by_perm|easy].
  - intros b. rewrite sort_by_in, H. split; [intros [[]|]; easy|now right].
Qed.

(** ** Sums and maxima *)
Lemma fold_plus l a : fold_left Qplus l a == a + sum_of l.
Proof. revert a. induction l as [|x l IH]; intros a; cbn [fold_left sum_of]; [lra|]. rewrite IH. lra. Qed.
Lemma qsum_spec l : qsum l == sum_of l.
Proof. unfold qsum. rewrite fold_plus. lra. Qed.
Lemma sum_app a b : sum_of (a ++ b) == sum_of a + sum_of b.
Proof. induction a as [|x a IH]; cbn [app sum_of]; [lra|]. rewrite IH. lra. Qed.
Lemma qmax_from_spec l b : largest (qmax_from b l) (b :: l).
Proof.
  revert b. induction l as [|x l IH]; intros b; cbn [qmax_from fold_left].
  - split; [exists b; split; [now left|lra]|]. intros y [<-|[]]. lra.
  - destruct (IH (qmax2 b x)) as [(y & I & E) H]. fold (qmax_from (qmax2 b x) l). split.
    + destruct I as [<-|I]; [|exists y; split; [now right; right|easy]]. unfold qmax2 in *. destruct (Qltb b x); [exists x|exists b]; split; auto; [right; now left|now left].
    + assert (M : b <= qmax2 b x /\ x <= qmax2 b x) by (unfold qmax2; destruct (Qltb_spec b x); split; lra).
      assert (H' := H (qmax2 b x) ltac:(now left)). intros z [<-|[<-|J]]; [lra|lra|]. apply H. now right.
Qed.
Lemma largest_unique l a b : largest a l -> largest b l -> a == b.
Proof. intros [(x & I & E) H] [(y & J & F) G]. specialize (H y J). specialize (G x I). lra. Qed.

(** ** Composition *)
Lemma compose_levels_spec levels : forall seen ol nol,
  match compose_levels seen levels ol nol with
  | Ok x => ~ back_and_forth levels /\ (seen = true -> overlapping levels = []) /\ x = (ol ++ overlapping levels, nol ++ serial levels)
  | Err e => e = ValueError /\ (back_and_forth levels \/ seen = true /\ overlapping levels <> [])
  end.
Proof.
  induction levels as [|[o cy] levels IH]; intros seen ol nol; cbn [compose_levels].
  - split; [|split; [easy|unfold overlapping, serial; cbn; now rewrite !app_nil_r]]. intros (a & x & b & y & c & E). destruct a; discriminate.
  - destruct o.
    + destruct seen.
      * split; [easy|]. right. split; [easy|]. discriminate.
      * specialize (IH false (ol ++ [cy]) nol). destruct (compose_levels false levels (ol ++ [cy]) nol) as [x|e].
        -- destruct IH as (B & _ & ->). split; [|split; [easy|]].
           ++ intros (a & x & b & y & c & E). destruct a as [|z a]; [discriminate|]. apply B. exists a, x, b, y, c. cbn in E. congruence.
           ++ unfold overlapping, serial. cbn [filter fst negb map snd]. now rewrite <- app_assoc.
        -- destruct IH as [-> H]. split; [easy|]. left. destruct H as [(a & x & b & y & c & ->)|[H _]]; [|easy]. now exists ((true, cy) :: a), x, b, y, c.
    + specialize (IH true ol (nol ++ [cy])). destruct (compose_levels true levels ol (nol ++ [cy])) as [x|e].
      * destruct IH as (B & O & ->). specialize (O eq_refl). split; [|split].
        -- intros (a & x & b & y & c & E). destruct a as [|z a].
           ++ assert (EL : levels = b ++ (true, y) :: c) by (cbn in E; congruence). rewrite EL in O. unfold overlapping in O.
              rewrite filter_app, map_app in O. apply app_eq_nil in O as [_ O]. discriminate.
           ++ apply B. exists a, x, b, y, c. cbn in E. congruence.
        -- intros _. exact O.
        -- unfold overlapping, serial. cbn [filter fst negb map snd]. now rewrite <- app_assoc.
      * destruct IH as [-> H]. split; [easy|]. left. destruct H as [(a & x & b & y & c & ->)|[_ H]].
        -- now exists ((false, cy) :: a), x, b, y, c.
        -- unfold overlapping in H. destruct (filter fst levels) as [|[f y] r] eqn:F; [easy|].
           assert (I : In (f, y) (filter fst levels)) by (rewrite F; now left). apply filter_In in I as [I FE]. cbn in FE. subst f.
           apply in_split in I as (b & c & ->). now exists [], cy, b, y, c.
Qed.
Lemma compose_spec comp regl1 first levels penalty :
  match compose comp regl1 first levels penalty with
  | Ok x => ~ back_and_forth ((first, regl1) :: levels) /\
      fst x = comp :: overlapping ((first, regl1) :: levels) /\ sum_of (snd x) == sum_of (serial ((first, regl1) :: levels)) + penalty
  | Err e => e = ValueError /\ back_and_forth ((first, regl1) :: levels)
  end.
Proof.
  unfold compose.
  assert (P : forall l, sum_of (if Qeq_bool penalty 0 then l else l ++ [penalty]) == sum_of l + penalty).
  { intros l. destruct (Qeq_bool_spec penalty 0) as [E|_]; [lra|]. rewrite sum_app. cbn [sum_of]. lra. }
  destruct first.
  - assert (H := compose_levels_spec levels false [comp; regl1] []). destruct (compose_levels false levels [comp; regl1] []) as [x|e]; cbn [bind fst snd].
    + destruct H as (B & _ & ->). cbn [fst snd]. split; [|split; [easy|]].
      * intros (a & x & b & y & c & E). destruct a as [|z a]; [discriminate|]. apply B. exists a, x, b, y, c. cbn in E. congruence.
      * rewrite P. unfold serial. cbn [filter fst negb app]. lra.
    + destruct H as [-> [(a & x & b & y & c & ->)|[H _]]]; [|easy]. split; [easy|]. now exists ((true, regl1) :: a), x, b, y, c.
  - assert (H := compose_levels_spec levels true [comp] [regl1]). destruct (compose_levels true levels [comp] [regl1]) as [x|e]; cbn [bind fst snd].
    + destruct H as (B & O & ->). specialize (O eq_refl). cbn [fst snd]. split; [|split; [easy|]].
      * intros (a & x & b & y & c & E). destruct a as [|z a].
        -- assert (EL : levels = b ++ (true, y) :: c) by (cbn in E; congruence). rewrite EL in O. unfold overlapping in O.
           rewrite filter_app, map_app in O. apply app_eq_nil in O as [_ O]. discriminate.
        -- apply B. exists a, x, b, y, c. cbn in E. congruence.
      * rewrite P. unfold serial. cbn [filter fst negb app map snd sum_of]. lra.
    + destruct H as [-> H]. split; [easy|]. destruct H as [(a & x & b & y & c & ->)|[_ H]].
      * now exists ((false, regl1) :: a), x, b, y, c.
      * unfold overlapping in H. destruct (filter fst levels) as [|[f y] r] eqn:F; [easy|].
        assert (I : In (f, y) (filter fst levels)) by (rewrite F; now left). apply filter_In in I as [I FE]. cbn in FE. subst f.
        apply in_split in I as (b & c & ->). now exists [], regl1, b, y, c.
Qed.
Lemma total_spec comp regl1 first levels penalty x : compose comp regl1 first levels penalty = Ok x ->
  largest (total x) ((sum_of (serial ((first, regl1) :: levels)) + penalty) :: comp :: overlapping ((first, regl1) :: levels)).
Proof.
  intros C. assert (H := compose_spec comp regl1 first levels penalty). rewrite C in H. destruct H as (_ & E1 & E2).
  unfold total. rewrite E1. assert (Q := qsum_spec (snd x)). destruct (qmax_from_spec (comp :: overlapping ((first, regl1) :: levels)) (qsum (snd x))) as [(y & I & E) H].
  split.
  - destruct I as [<-|I]; [|exists y; split; [now right|easy]]. eexists. split; [now left|]. rewrite E, Q. exact E2.
  - intros z [<-|J]; [|apply H; now right]. rewrite <- E2, <- Q. apply H. now left.
Qed.

(** ** Data transfers *)
Lemma qdiv_ok a b c : qdiv a b = Ok c -> ~ b == 0 /\ c = a / b.
Proof. unfold qdiv. destruct (Qeq_bool_spec b 0); [discriminate|]. split; [easy|congruence]. Qed.
Lemma qdiv_do a b : ~ b == 0 -> qdiv a b = Ok (a / b).
Proof. unfold qdiv. now destruct (Qeq_bool_spec b 0). Qed.
Lemma qmax2_div a b t : 0 < t -> qmax2 (a / t) (b / t) == qmax2 a b / t.
Proof.
  intros T. unfold qmax2. assert (I : 0 < / t) by now apply Qinv_lt_0_compat.
  destruct (Qltb_spec (a / t) (b / t)) as [L|L], (Qltb_spec a b) as [L'|L']; unfold Qdiv in *; nra.
Qed.
Lemma cache_cycles line element clock bw i lv l s t cy pen : (0 < line)%Z -> 0 < t ->
  upstream lv = Bytes t -> level_cycles line element clock bw i lv l s = Ok (cy, pen) ->
  pen = 0 /\ duplexness lv <> OtherDuplex /\
  cy * t == (match duplexness lv with Half => l + s | _ => qmax2 l s end) * inject_Z line.
Proof.
  intros L T U. unfold level_cycles. rewrite U. assert (L' := injpos line L).
  rewrite qdiv_do by lra. cbn [bind]. assert (TT : 0 < t / inject_Z line) by (apply Qlt_shift_div_l; lra).
  destruct (duplexness lv) eqn:D.
  - rewrite qdiv_do by lra. cbn [bind]. intros E. split; [congruence|]. split; [easy|]. assert (cy = (l + s) / (t / inject_Z line)) as -> by congruence.
    field. split; lra.
  - rewrite !qdiv_do by lra. cbn [bind]. intros E. split; [congruence|]. split; [easy|].
    assert (cy = qmax2 (l / (t / inject_Z line)) (s / (t / inject_Z line))) as -> by congruence. rewrite qmax2_div by easy. field. split; lra.
  - discriminate.
Qed.
Lemma cache_cycles_ok line element clock bw i lv l s t : (0 < line)%Z -> 0 < t -> upstream lv = Bytes t -> duplexness lv <> OtherDuplex ->
  exists cy, level_cycles line element clock bw i lv l s = Ok (cy, 0).
Proof.
  intros L T U D. unfold level_cycles. rewrite U. assert (L' := injpos line L). rewrite qdiv_do by lra. cbn [bind].
  assert (TT : 0 < t / inject_Z line) by (apply Qlt_shift_div_l; lra).
  destruct (duplexness lv); [rewrite qdiv_do by lra; cbn; eauto|rewrite !qdiv_do by lra; cbn; eauto|easy].
Qed.
Lemma memory_cycles line element clock bw i lv l s b : (0 < element)%Z -> (element | line)%Z -> 0 < b ->
  upstream lv = MemoryBandwidth -> bw i l s = Ok b ->
  exists cy pen, level_cycles line element clock bw i lv l s = Ok (cy, pen) /\
  cy * b == (match duplexness lv with Half => l + s | _ => qmax2 l s end) * inject_Z line * clock /\
  pen == times (load_penalty lv) l + times (store_penalty lv) s.
Proof.
  intros E D B U BW. unfold level_cycles. rewrite U, BW. destruct (Z.eqb_spec element 0); [lia|]. cbn [bind]. rewrite qdiv_do by lra. cbn [bind].
  do 2 eexists. split; [reflexivity|]. split; [|reflexivity].
  assert (LE : inject_Z (line / element) * inject_Z element == inject_Z line).
  { rewrite <- inject_Z_mult. destruct D as [k ->]. rewrite Z.div_mul by lia. reflexivity. }
  destruct (duplexness lv); rewrite LE; field; lra.
Qed.

(** ** Scaling *)
(** The recursion relative to the memory time: [t] = T / M *)
Fixpoint w (t : Q) (c : nat) : Q :=
  match c with
  | O => 0
  | S c' => let d := t + w t c' * q_of c' * (1 # 2) in if Qltb d (q_of (S c')) then 1 else q_of (S c') / d
  end.
Lemma q_of_S c : q_of (S c) == q_of c + 1.
Proof. unfold q_of. rewrite Nat2Z.inj_succ, <- Z.add_1_r, inject_Z_plus. reflexivity. Qed.
Lemma q_of_nonneg c : 0 <= q_of c.
Proof. unfold q_of. change 0 with (inject_Z 0). rewrite inject_Z_le. lia. Qed.
Lemma q_of_le a b : (a <= b)%nat -> q_of a <= q_of b.
Proof. intros H. unfold q_of. rewrite inject_Z_le. lia. Qed.
Section W.
  Variable t : Q.
  Hypothesis Ht : 0 < t.
  Lemma w_bounds c : 0 <= w t c <= 1.
  Proof.
    induction c as [|c IH]; cbn [w]; [lra|]. assert (N := q_of_nonneg c). assert (N' := q_of_S c).
    set (d := t + w t c * q_of c * (1 # 2)). assert (D : 0 < d) by (unfold d; assert (0 <= w t c * q_of c) by (apply Qmult_le_0_compat; lra); lra).
    destruct (Qltb_spec d (q_of (S c))) as [L|L]; [lra|]. split.
    - apply Qle_shift_div_l; [easy|]. lra.
    - apply Qle_shift_div_r; [easy|]. lra.
  Qed.
  Lemma w_pos c : 0 < w t (S c).
  Proof.
    assert (B := w_bounds c). assert (N := q_of_nonneg c). assert (N' := q_of_S c). cbn [w].
    set (d := t + w t c * q_of c * (1 # 2)). assert (D : 0 < d) by (unfold d; assert (0 <= w t c * q_of c) by (apply Qmult_le_0_compat; lra); lra).
    destruct (Qltb_spec d (q_of (S c))) as [L|L]; [lra|]. apply Qlt_shift_div_l; [easy|]. lra.
  Qed.
  (** Saturated at [c + 1] cores, by the test of the program *)
  Definition satd (c : nat) : Prop := t + w t c * q_of c * (1 # 2) < q_of (S c).
  Lemma w_sat c : satd c -> w t (S c) == 1.
  Proof. intros S. unfold satd in S. cbn [w]. destruct (Qltb_spec (t + w t c * q_of c * (1 # 2)) (q_of (Datatypes.S c))); [reflexivity|lra]. Qed.
  Lemma w_unsat c : ~ satd c -> w t (S c) * (t + w t c * q_of c * (1 # 2)) == q_of (S c).
  Proof.
    intros S. unfold satd in S. cbn [w]. set (d := t + w t c * q_of c * (1 # 2)) in *. assert (D : 0 < d). { unfold d. assert (B := w_bounds c). assert (N := q_of_nonneg c). assert (0 <= w t c * q_of c) by (apply Qmult_le_0_compat; lra). lra. }
    destruct (Qltb_spec d (q_of (Datatypes.S c))) as [L|L]; [lra|]. field. lra.
  Qed.
  Lemma satd_dec c : satd c \/ ~ satd c.
  Proof. unfold satd. destruct (Qltb_spec (t + w t c * q_of c * (1 # 2)) (q_of (S c))); [now left|right; lra]. Qed.
  (** Also if the bus is just fully used *)
  Lemma sat_bound c : t + w t c * q_of c * (1 # 2) <= q_of (S c) -> 2 * t < q_of c + 3.
  Proof.
    intros H. destruct (Qlt_le_dec (2 * t) (q_of c + 3)) as [|G]; [easy|exfalso]. rewrite q_of_S in H.
    destruct c as [|c].
    - change (q_of 0) with 0 in *. change (w t 0) with 0 in H. lra.
    - rewrite q_of_S in *. assert (B := w_bounds c). assert (N := q_of_nonneg c). assert (B' := w_bounds (S c)).
      destruct (satd_dec c) as [Sc|Sc].
      + assert (E := w_sat c Sc). rewrite E in H. lra.
      + assert (E := w_unsat c Sc). rewrite q_of_S in E. set (u := w t (S c)) in *. set (v := w t c) in *. set (k := q_of c) in *.
        (* (c+1)^2 <= u (c+1) (t + k/2), u (c+1)/2 <= c + 2 - t *)
        assert (V : v * k <= k) by nra. assert (X : 0 <= u * (k - v * k)) by (apply Qmult_le_0_compat; lra).
        assert (E1 : k + 1 <= u * (t + k * (1 # 2))) by lra.
        assert (H1 : u * (k + 1) * (1 # 2) <= k + 2 - t) by lra.
        assert (H2 : (k + 1) * (k + 1) <= 2 * (k + 2 - t) * (t + k * (1 # 2))).
        { apply Qle_trans with (u * (k + 1) * (t + k * (1 # 2))).
          - apply Qle_trans with ((u * (t + k * (1 # 2))) * (k + 1)); [apply Qmult_le_compat_r; lra|]. lra.
          - apply Qmult_le_compat_r; [lra|nra]. }
        assert (T : exists s, t == k * (1 # 2) + 2 + s /\ 0 <= s) by (exists (t - k * (1 # 2) - 2); split; lra).
        destruct T as (s & Es & Hs). rewrite Es in H2. nra.
  Qed.
  Lemma bound_sat c : 2 * t < q_of c + 2 -> satd c.
  Proof. intros H. unfold satd. rewrite q_of_S. assert (B := w_bounds c). assert (N := q_of_nonneg c). nra. Qed.
  Lemma sat_next c : t + w t c * q_of c * (1 # 2) <= q_of (S c) -> satd (S c).
  Proof. intros H. apply sat_bound in H. apply bound_sat. rewrite q_of_S. lra. Qed.
  Lemma sat_forever c n : (c < n)%nat -> t + w t c * q_of c * (1 # 2) <= q_of (S c) -> satd n.
  Proof.
    intros L H. apply sat_bound in H. apply bound_sat. assert (q_of (S c) <= q_of n) by (apply q_of_le; lia). rewrite q_of_S in *. lra.
  Qed.
  Lemma w_mono2 c : w t c <= w t (S c) /\ w t (S c) <= w t (S (S c)).
  Proof.
    assert (P := w_pos).
    induction c as [|c [IH1 IH2]].
    - split; [apply Qlt_le_weak, w_pos|]. destruct (satd_dec 1) as [S1|S1]; [rewrite (w_sat 1 S1); apply w_bounds|].
      assert (S0 : ~ satd 0). { intros S0. apply S1. apply sat_next. unfold satd in S0. lra. }
      assert (E0 := w_unsat 0 S0). assert (E1 := w_unsat 1 S1). change (q_of 2) with 2 in *. change (q_of 1) with 1 in *. change (q_of 0) with 0 in *.
      assert (B1 := w_bounds 1). assert (B2 := w_bounds 2). assert (P1 := w_pos 0). set (u := w t 1) in *. set (v := w t 2) in *. clearbody u v.
      destruct (Qlt_le_dec v u) as [L|]; [exfalso|easy].
      assert (v * (t + u * 1 * (1 # 2)) < u * (t + u * 1 * (1 # 2))) by (apply Qmult_lt_r; nra). assert (u * t == 1) by nra. nra.
    - split; [easy|]. destruct (satd_dec (S (S c))) as [S3|S3]; [rewrite (w_sat _ S3); apply w_bounds|].
      assert (S2 : ~ satd (S c)). { intros S2. apply S3. apply sat_next. unfold satd in S2. lra. }
      assert (S1 : ~ satd c). { intros S1. apply S2. apply sat_next. unfold satd in S1. lra. }
      assert (E1 := w_unsat _ S1). assert (E2 := w_unsat _ S2). assert (E3 := w_unsat _ S3).
      assert (B0 := w_bounds c). assert (B1 := w_bounds (S c)). assert (B2 := w_bounds (S (S c))). assert (P1 := w_pos c). assert (P2 := w_pos (S c)).
      assert (K := q_of_nonneg c). rewrite !q_of_S in *.
      set (u0 := w t c) in *. set (u1 := w t (S c)) in *. set (u2 := w t (S (S c))) in *. set (u3 := w t (S (S (S c)))) in *. set (k := q_of c) in *. clearbody u0 u1 u2 u3 k.
      clear S1 S2 S3.
      (* increments of c * u *)
      assert (D : (u2 * (k + 2) - u1 * (k + 1)) * (t + u1 * (k + 1) * (1 # 2)) <= 2 * k + 3).
      { assert (A2 : u2 * (k + 2) * (t + u1 * (k + 1) * (1 # 2)) == (k + 2) * (k + 2)).
        { assert (X : u2 * (k + 2) * (t + u1 * (k + 1) * (1 # 2)) == (u2 * (t + u1 * (k + 1) * (1 # 2))) * (k + 2)) by ring. rewrite X, E2. ring. }
        assert (A1 : u1 * (k + 1) * (t + u0 * k * (1 # 2)) == (k + 1) * (k + 1)).
        { assert (X : u1 * (k + 1) * (t + u0 * k * (1 # 2)) == (u1 * (t + u0 * k * (1 # 2))) * (k + 1)) by ring. rewrite X, E1. ring. }
        assert (M : u0 * k <= u1 * (k + 1)) by nra.
        assert (M' : u1 * (k + 1) * (t + u0 * k * (1 # 2)) <= u1 * (k + 1) * (t + u1 * (k + 1) * (1 # 2))).
        { apply Qmult_le_l; [nra|]. lra. }
        assert (X : (u2 * (k + 2) - u1 * (k + 1)) * (t + u1 * (k + 1) * (1 # 2)) == u2 * (k + 2) * (t + u1 * (k + 1) * (1 # 2)) - u1 * (k + 1) * (t + u1 * (k + 1) * (1 # 2))) by ring.
        rewrite X, A2. lra. }
      set (d := u2 * (k + 2) - u1 * (k + 1)) in *.
      assert (D0 : 0 <= d) by (unfold d; nra).
      (* d (k + 2) <= (2 k + 3) u2 *)
      assert (D2 : d * (k + 2) <= (2 * k + 3) * u2).
      { assert (X : d * (k + 2) == d * (t + u1 * (k + 1) * (1 # 2)) * u2). { assert (Y : k + 2 == u2 * (t + u1 * (k + 1) * (1 # 2))) by (rewrite E2; ring). rewrite Y at 1. ring. }
        rewrite X. apply Qmult_le_compat_r; lra. }
      assert (D3 : d <= 2) by nra.
      destruct (Qlt_le_dec u3 u2) as [L|]; [exfalso|easy].
      assert (PD : 0 < t + u2 * (k + 1 + 1) * (1 # 2)) by nra.
      assert (L' : u3 * (t + u2 * (k + 1 + 1) * (1 # 2)) < u2 * (t + u2 * (k + 1 + 1) * (1 # 2))) by (apply Qmult_lt_r; easy).
      rewrite E3 in L'.
      assert (X : u2 * (t + u2 * (k + 1 + 1) * (1 # 2)) == u2 * (t + u1 * (k + 1) * (1 # 2)) + u2 * d * (1 # 2)) by (unfold d; field).
      rewrite X, E2 in L'. nra.
  Qed.
  Lemma w_mono a b : (a <= b)%nat -> w t a <= w t b.
  Proof. intros H. induction H as [|b H IH]; [lra|]. destruct (w_mono2 b). lra. Qed.
End W.

Section Scale.
  Variables T M : Q.
  Hypothesis HT : 0 < T.
  Hypothesis HM : 0 < M.
  Let t := T / M.
  Lemma t_pos : 0 < t.
  Proof. unfold t. apply Qlt_shift_div_l; lra. Qed.
  Lemma t_eq : T == t * M.
  Proof. unfold t. field. lra. Qed.
  Lemma step_eq c p : p == w t c -> T + p * (q_of (S c) - 1) * M / 2 == (t + w t c * q_of c * (1 # 2)) * M.
  Proof.
    intros P. assert (E := t_eq). rewrite P, q_of_S. assert (X : w t c * (q_of c + 1 - 1) * M / 2 == w t c * q_of c * (1 # 2) * M) by field.
    rewrite X, E. ring.
  Qed.
  Lemma utilizations_spec n : forall c p, p == w t c ->
    forall sat, (forall s, sat = Some s -> (s <= c)%nat) ->
    exists us sat', utilizations T M (S c) n p sat = Ok (us, sat') /\ length us = n /\
      (forall i u, nth_error us i = Some u -> u == w t (S c + i)) /\
      match sat with
      | Some s => sat' = Some s
      | None => match sat' with
                | Some s => (S c <= s < S c + n)%nat /\ satd t (s - 1) /\ (forall j, (c <= j)%nat -> (S j < s)%nat -> ~ satd t j)
                | None => forall j, (c <= j < c + n)%nat -> ~ satd t j
                end
      end.
  Proof.
    induction n as [|n IH]; intros c p P sat HS; cbn [utilizations].
    - exists [], sat. repeat split; try easy; [intros [|i] u; discriminate|]. destruct sat; [easy|]. intros j J. lia.
    - assert (D := step_eq c p P). assert (TP := t_pos). assert (B := w_bounds t TP c). assert (NN := q_of_nonneg c).
      assert (DP : 0 < t + w t c * q_of c * (1 # 2)) by (assert (0 <= w t c * q_of c) by (apply Qmult_le_0_compat; lra); lra).
      assert (A : forall us (x : Q), x == w t (S c) -> (forall i u, nth_error us i = Some u -> u == w t (S (S c) + i)) ->
                  forall i u, nth_error (x :: us) i = Some u -> u == w t (S c + i)).
      { intros us x X H [|i] u E; cbn [nth_error] in E.
        - assert (x = u) as <- by congruence. now rewrite Nat.add_0_r.
        - rewrite (H i u E). replace (S c + S i)%nat with (S (S c) + i)%nat by lia. reflexivity. }
      destruct (Qltb_spec (T + p * (q_of (S c) - 1) * M / 2) (q_of (S c) * M)) as [L|L].
      + assert (SC : satd t c). { unfold satd. rewrite D in L. apply Qmult_lt_r in L; easy. }
        destruct (IH (S c) 1 ltac:(now rewrite (w_sat t c SC)) (match sat with Some s => Some (Nat.min s (S c)) | None => Some (S c) end)) as (us & sat' & E & LU & WU & SU).
        { intros s Es. destruct sat as [s'|]; [|assert (s = S c) by congruence; lia]. assert (s = Nat.min s' (S c)) as -> by congruence. lia. }
        rewrite E. cbn [bind fst snd]. exists (1 :: us), sat'. split; [easy|]. split; [cbn; lia|]. split.
        * apply A; [now rewrite (w_sat t c SC)|easy].
        * destruct sat as [s|]; [rewrite SU; f_equal; specialize (HS s eq_refl); lia|]. rewrite SU. split; [lia|]. split.
          -- now replace (S c - 1)%nat with c by lia.
          -- intros j J1 J2. lia.
      + assert (SC : ~ satd t c). { unfold satd. intros S. apply L. rewrite D. apply Qmult_lt_r; easy. }
        assert (DN : 0 < T + p * (q_of (S c) - 1) * M / 2) by (rewrite D; nra).
        assert (SS : exists d', T + p * (q_of (S c) - 1) * M / 2 == d' /\ True) by (eexists; split; [reflexivity|easy]). clear SS.
        rewrite qdiv_do by lra. cbn [bind].
        set (u := q_of (S c) * M / (T + p * (q_of (S c) - 1) * M / 2)).
        assert (U : u == w t (S c)).
        { unfold u. rewrite D. assert (W := w_unsat t TP c SC). rewrite <- W at 1. field. split; [lra|]. nra. }
        destruct (IH (S c) u U sat) as (us & sat' & E & LU & WU & SU). { intros s Es. specialize (HS s Es). lia. }
        rewrite E. cbn [bind fst snd]. exists (u :: us), sat'. split; [easy|]. split; [cbn; lia|]. split; [now apply A|].
        destruct sat as [s|]; [easy|]. destruct sat' as [s|].
        * destruct SU as (S1 & S2 & S3). split; [lia|]. split; [easy|]. intros j J1 J2. destruct (Nat.eq_dec j c) as [->|]; [easy|]. apply S3; lia.
        * intros j J. destruct (Nat.eq_dec j c) as [->|]; [easy|]. apply SU. lia.
  Qed.

  Definition time_of (numa cores : nat) : Q := if (cores <=? numa)%nat then M / w t cores else M / w t numa * q_of numa / q_of cores.
  Lemma mapM_all {A B} (f : A -> res B) (R : A -> B -> Prop) l : (forall a, In a l -> exists b, f a = Ok b /\ R a b) ->
    exists r, mapM f l = Ok r /\ Forall2 R l r.
  Proof.
    induction l as [|a l IH]; intros H; [exists []; split; [easy|constructor]|].
    destruct (H a ltac:(now left)) as (b & E & RB). destruct IH as (r & ER & F). { intros x I. apply H. now right. }
    exists (b :: r). cbn [mapM]. rewrite E. cbn [bind]. rewrite ER. split; [easy|now constructor].
  Qed.
  Lemma prediction_spec numa socket sockets us sat cores : (1 <= numa)%nat -> (1 <= cores <= socket)%nat -> (1 <= sockets)%nat ->
    length us = numa -> (forall i u, nth_error us i = Some u -> u == w t (S i)) ->
    exists x, prediction T M numa socket sockets us sat cores = Ok x /\ x == time_of numa cores.
  Proof.
    intros N C S L U. unfold prediction, time_of. assert (TP := t_pos).
    assert (NT : exists m, (if (match sat with Some s => (cores <=? s)%nat | None => true end) then do r <- qdiv T M; qdiv T r else Ok M) = Ok m /\ m == M).
    { destruct (match sat with Some s => (cores <=? s)%nat | None => true end); [|exists M; split; [easy|lra]].
      rewrite qdiv_do by lra. cbn [bind]. fold t. rewrite qdiv_do by lra. eexists. split; [reflexivity|]. unfold t. field. split; lra. }
    destruct NT as (m & -> & EM). cbn [bind]. destruct (Nat.leb_spec cores numa) as [Le|Gt].
    - unfold nth_res. destruct (nth_error us (cores - 1)) as [u|] eqn:E; [|apply nth_error_None in E; lia]. cbn [bind].
      assert (EU := U _ _ E). replace (Datatypes.S (cores - 1)) with cores in EU by lia.
      assert (P : 0 < w t cores) by (destruct cores; [lia|now apply w_pos]). rewrite qdiv_do by lra. eexists. split; [reflexivity|]. rewrite EM, EU. reflexivity.
    - destruct (Nat.leb_spec cores (socket * sockets)) as [Le|Gt']; [|nia]. destruct numa as [|n]; [lia|].
      unfold nth_res. destruct (nth_error us n) as [u|] eqn:E; [|apply nth_error_None in E; lia]. cbn [bind].
      assert (EU := U _ _ E). assert (P := w_pos t TP n). rewrite qdiv_do by lra. cbn [bind].
      assert (QC : 0 < q_of cores). { assert (q_of 1 <= q_of cores) by (apply q_of_le; lia). change (q_of 1) with 1 in *. lra. }
      rewrite qdiv_do by lra. eexists. split; [reflexivity|]. rewrite EM, EU. reflexivity.
  Qed.
  Lemma time_decreasing numa a b : (1 <= numa)%nat -> (1 <= a <= b)%nat -> time_of numa b <= time_of numa a.
  Proof.
    intros N AB. unfold time_of. assert (TP := t_pos).
    assert (W : forall x y, (1 <= x <= y)%nat -> M / w t y <= M / w t x).
    { intros x y XY. assert (Px : 0 < w t x) by (destruct x; [lia|now apply w_pos]). assert (Py : 0 < w t y) by (destruct y; [lia|now apply w_pos]).
      assert (Mo := w_mono t TP x y ltac:(lia)). apply Qle_shift_div_r; [easy|]. assert (E : M == M / w t x * w t x) by (field; lra).
      assert (Q0 : 0 < M / w t x) by (apply Qlt_shift_div_l; lra). rewrite E at 1. nra. }
    assert (Pn : 0 < w t numa) by (destruct numa; [lia|now apply w_pos]).
    assert (Qn : 0 < M / w t numa) by (apply Qlt_shift_div_l; lra).
    assert (Q1 : 1 <= q_of a). { change 1 with (q_of 1). apply q_of_le. lia. }
    assert (Qab : q_of a <= q_of b) by (apply q_of_le; lia).
    destruct (Nat.leb_spec b numa) as [Lb|Lb].
    - destruct (Nat.leb_spec a numa); [|lia]. now apply W.
    - assert (NB : q_of numa <= q_of b) by (apply q_of_le; lia).
      assert (X : M / w t numa * q_of numa / q_of b <= M / w t numa).
      { apply Qle_shift_div_r; [lra|]. nra. }
      destruct (Nat.leb_spec a numa) as [La|La].
      + assert (Y := W a numa ltac:(lia)). lra.
      + assert (Y := q_of_nonneg numa). assert (NN : 0 <= M / w t numa * q_of numa) by nra.
        apply Qle_shift_div_r; [lra|]. assert (E : M / w t numa * q_of numa == M / w t numa * q_of numa / q_of a * q_of a) by (field; lra).
        assert (Z0 : 0 <= M / w t numa * q_of numa / q_of a) by (apply Qle_shift_div_l; lra). rewrite E at 1. nra.
  Qed.
  Lemma forall2_nth {A B} (R : A -> B -> Prop) l r : Forall2 R l r -> forall i y, nth_error r i = Some y -> exists x, nth_error l i = Some x /\ R x y.
  Proof.
    intros F. induction F as [|x y l r H F IH]; intros [|i] z E; try discriminate; cbn [nth_error] in *.
    - exists x. split; [easy|]. congruence.
    - auto.
  Qed.
  Lemma nth_seq i n x : nth_error (seq 1 n) i = Some x -> x = S i /\ (i < n)%nat.
  Proof.
    intros E. assert (L : (i < n)%nat). { rewrite <- (seq_length n 1). apply nth_error_Some. congruence. }
    split; [|easy]. apply nth_error_nth with (d := O) in E. rewrite seq_nth in E by easy. lia.
  Qed.
  Lemma scale_spec numa socket sockets : (1 <= numa)%nat -> (1 <= sockets)%nat ->
    exists r, scale T M numa socket sockets = Ok r /\
      length (scaling_utilization r) = numa /\ length (scaling_times r) = socket /\
      (forall u, In u (scaling_utilization r) -> 0 < u <= 1) /\ nondecreasing (scaling_utilization r) /\
      nonincreasing (scaling_times r) /\
      (M <= T -> forall x, nth_error (scaling_times r) 0 = Some x -> x == T) /\
      (forall i x u, (i < numa)%nat -> nth_error (scaling_times r) i = Some x -> nth_error (scaling_utilization r) i = Some u -> x * u == M) /\
      (forall i x u, (numa <= i)%nat -> nth_error (scaling_times r) i = Some x -> nth_error (scaling_utilization r) (numa - 1) = Some u -> x * u * q_of (S i) == M * q_of numa) /\
      match scaling_cores r with
      | Some s => (1 <= s <= numa)%nat /\ (forall i u, nth_error (scaling_utilization r) i = Some u -> (s <= S i)%nat -> u == 1) /\
                  (forall i u, nth_error (scaling_utilization r) i = Some u -> (S (S i) < s)%nat -> u < 1)
      | None => forall i u, nth_error (scaling_utilization r) i = Some u -> (S i < numa)%nat -> u < 1
      end.
  Proof.
    intros N S. assert (TP := t_pos). unfold scale. destruct (Qeq_bool_spec M 0); [lra|].
    destruct (utilizations_spec numa 0 0 ltac:(reflexivity) None ltac:(easy)) as (us & sat & E & L & U & SU). rewrite E. cbn [bind fst snd].
    change (1 + 0)%nat with 1%nat in *. cbn [Nat.add] in U.
    destruct (mapM_all (prediction T M numa socket sockets us sat) (fun c x => x == time_of numa c) (seq 1 socket)) as (r & ER & F).
    { intros c I. apply in_seq in I. apply prediction_spec; try lia; auto. }
    rewrite ER. cbn [bind]. eexists. split; [reflexivity|]. cbn [scaling_utilization scaling_cores scaling_times].
    assert (LR : length r = socket) by (apply F2_length in F; now rewrite <- F, seq_length).
    assert (TM : forall i x, nth_error r i = Some x -> x == time_of numa (Datatypes.S i) /\ (i < socket)%nat).
    { intros i x I. destruct (forall2_nth _ _ _ F i x I) as (c & C & X). apply nth_seq in C as [-> C]. easy. }
    split; [easy|]. split; [easy|]. split.
    { intros u I. apply In_nth_error in I as [i I]. assert (X := U _ _ I). assert (P := w_pos t TP i). assert (B := w_bounds t TP (Datatypes.S i)). lra. }
    split.
    { intros i j x y IJ I J. rewrite (U _ _ I), (U _ _ J). apply w_mono; [easy|lia]. }
    split.
    { intros i j x y IJ I J. destruct (TM _ _ I) as [-> _]. destruct (TM _ _ J) as [-> _]. apply time_decreasing; lia. }
    split.
    { intros MT x I. destruct (TM _ _ I) as [-> _]. unfold time_of. destruct (Nat.leb_spec 1 numa); [|lia].
      assert (NS : ~ satd t 0). { unfold satd. change (w t 0) with 0. change (q_of 1) with 1. change (q_of 0) with 0. assert (X := t_eq). nra. }
      assert (W := w_unsat t TP 0 NS). change (w t 0) with 0 in W. change (q_of 1) with 1 in W. change (q_of 0) with 0 in W.
      assert (P := w_pos t TP 0). assert (X := t_eq). apply Qeq_sym. rewrite X. rewrite <- (Qdiv_mult_l (t * M) (w t 1)) by lra.
      assert (Y : t * M * w t 1 == M) by (assert (t * w t 1 == 1) by lra; nra). unfold Qdiv. now rewrite Y. }
    split.
    { intros i x u I X Y. destruct (TM _ _ X) as [-> _]. rewrite (U _ _ Y). unfold time_of. destruct (Nat.leb_spec (Datatypes.S i) numa); [|lia].
      assert (P := w_pos t TP i). field. lra. }
    split.
    { intros i x u I X Y. destruct (TM _ _ X) as [-> _]. rewrite (U _ _ Y). unfold time_of. destruct (Nat.leb_spec (Datatypes.S i) numa); [lia|].
      replace (Datatypes.S (numa - 1)) with numa by lia. assert (P : 0 < w t numa) by (destruct numa; [lia|now apply w_pos]).
      assert (QI : 1 <= q_of (Datatypes.S i)). { change 1 with (q_of 1). apply q_of_le. lia. } field. split; lra. }
    assert (LT1 : forall j, ~ satd t j -> ~ satd t (Datatypes.S j) -> w t (Datatypes.S j) < 1).
    { intros j S1 S2. assert (B := w_bounds t TP (Datatypes.S j)). destruct (Qlt_le_dec (w t (Datatypes.S j)) 1) as [|G]; [easy|exfalso].
      apply S2. apply sat_next; [easy|]. assert (W := w_unsat t TP j S1). assert (EQ : w t (Datatypes.S j) == 1) by lra. rewrite EQ in W. lra. }
    destruct sat as [s|].
    - destruct SU as (S1 & S2 & S3). split; [lia|]. split.
      + intros i u I LE. rewrite (U _ _ I). apply w_sat. destruct (Nat.eq_dec i (s - 1)) as [->|]; [easy|]. apply (sat_forever t TP (s - 1)); [lia|]. unfold satd in S2. lra.
      + intros i u I LE. rewrite (U _ _ I). apply LT1; apply S3; lia.
    - intros i u I LE. rewrite (U _ _ I). apply LT1; apply SU; lia.
  Qed.
  Lemma scale_steps numa socket sockets r : scale T M numa socket sockets = Ok r ->
    (forall u, nth_error (scaling_utilization r) 0 = Some u -> (u == 1 /\ T < M) \/ (M <= T /\ u * T == M)) /\
    (forall i p u, nth_error (scaling_utilization r) i = Some p -> nth_error (scaling_utilization r) (S i) = Some u ->
       let need := q_of (i + 2) * M in let time := T + p * q_of (i + 1) * M / 2 in
       (u == 1 /\ time < need) \/ (need <= time /\ u * time == need)).
  Proof.
    unfold scale. assert (TP := t_pos). assert (E := t_eq). destruct (Qeq_bool_spec M 0); [lra|].
    destruct (utilizations_spec numa 0 0 ltac:(reflexivity) None ltac:(easy)) as (us & sat & -> & L & U & SU). cbn [bind fst snd].
    destruct (mapM (prediction T M numa socket sockets us sat) (seq 1 socket)) as [ts|]; [|discriminate]. cbn [bind].
    intros R. assert (us = scaling_utilization r) as EU by (assert (X : mkScaling us sat ts = r) by congruence; now rewrite <- X). rewrite <- EU. clear R.
    assert (K : forall c u p, p == w t c -> u == w t (S c) -> let need := q_of (c + 1) * M in let time := T + p * q_of c * M / 2 in
      (u == 1 /\ time < need) \/ (need <= time /\ u * time == need)).
    { intros c u p P UU. cbn zeta. assert (D := step_eq c p P). assert (Q1 : q_of (c + 1) == q_of (S c)) by now replace (c + 1)%nat with (S c) by lia.
      assert (D' : T + p * q_of c * M / 2 == (t + w t c * q_of c * (1 # 2)) * M).
      { rewrite <- D. assert (Y := q_of_S c). assert (Z : q_of (S c) - 1 == q_of c) by lra. now rewrite Z. }
      rewrite D', Q1, UU. destruct (Qlt_le_dec (t + w t c * q_of c * (1 # 2)) (q_of (S c))) as [S1|S1].
      - left. split; [now apply w_sat|]. now apply Qmult_lt_r.
      - right. split; [now apply Qmult_le_compat_r; [|lra]|]. assert (W := w_unsat t TP c ltac:(unfold satd; lra)). nra. }
    split.
    - intros u I. assert (X := U _ _ I). destruct (K 0%nat u 0 ltac:(reflexivity) X) as [[H1 H2]|[H1 H2]]; change (q_of (0 + 1)) with 1 in *; change (q_of 0) with 0 in *.
      + left. split; [easy|]. assert (Z : T + 0 * 0 * M / 2 == T) by field. lra.
      + assert (Z : T + 0 * 0 * M / 2 == T) by field. rewrite Z in *. right. split; lra.
    - intros i p u I J. cbn zeta. assert (X := U _ _ I). assert (Y := U _ _ J). cbn [Nat.add] in X, Y.
      assert (H := K (S i) u p X Y). cbn zeta in H. replace (i + 2)%nat with (S i + 1)%nat by lia. replace (i + 1)%nat with (S i) by lia. exact H.
  Qed.
End Scale.

(** In caches only *)
Lemma scale_incache T M numa socket sockets : M == 0 ->
  exists r, scale T M numa socket sockets = Ok r /\ scaling_cores r = None /\ length (scaling_times r) = socket /\
    (forall i x, nth_error (scaling_times r) i = Some x -> x * q_of (S i) == T).
Proof.
  intros HM. unfold scale. destruct (Qeq_bool_spec M 0); [|lra].
  destruct (mapM_all (fun c => qdiv T (q_of c)) (fun c x => x * q_of c == T) (seq 1 socket)) as (r & -> & F).
  { intros c I. apply in_seq in I. assert (1 <= q_of c). { change 1 with (q_of 1). apply q_of_le. lia. }
    rewrite qdiv_do by lra. eexists. split; [reflexivity|]. field. lra. }
  cbn [bind]. eexists. split; [reflexivity|]. cbn [scaling_times scaling_cores]. split; [easy|]. split; [apply F2_length in F; now rewrite <- F, seq_length|].
  intros i x I. destruct (forall2_nth _ _ _ F i x I) as (c & C & X). apply nth_seq in C as [-> C]. easy.
Qed.

(** ** The whole analysis *)
Lemma level_list_spec line element clock bw levels : forall i loads stores cs,
  level_list line element clock bw i levels loads stores = Ok cs ->
  length cs = length levels /\
  forall j lv, nth_error levels j = Some lv -> exists l s x, nth_error loads (i + j) = Some l /\ nth_error stores (i + j) = Some s /\
    nth_error cs j = Some x /\ level_cycles line element clock bw (i + j) lv l s = Ok x.
Proof.
  induction levels as [|lv levels IH]; intros i loads stores cs; cbn [level_list].
  - intros E. assert (cs = []) as -> by congruence. split; [easy|]. intros [|j] lv; discriminate.
  - unfold nth_res at 1 2. destruct (nth_error loads i) as [l|] eqn:EL; [|discriminate]. destruct (nth_error stores i) as [s|] eqn:ES; [|discriminate]. cbn [bind].
    destruct (level_cycles line element clock bw i lv l s) as [x|] eqn:EC; [|discriminate]. cbn [bind].
    destruct (level_list line element clock bw (S i) levels loads stores) as [xs|] eqn:EX; [|discriminate]. cbn [bind].
    intros E. assert (cs = x :: xs) as -> by congruence. destruct (IH _ _ _ _ EX) as [L H]. split; [cbn; lia|].
    intros [|j] lv' E'; cbn [nth_error] in E'.
    + assert (lv = lv') as <- by congruence. rewrite Nat.add_0_r. exists l, s, x. easy.
    + destruct (H j lv' E') as (l' & s' & x' & H1 & H2 & H3 & H4). replace (i + S j)%nat with (S i + j)%nat by lia. exists l', s', x'. easy.
Qed.
Lemma sum_nonneg l : (forall x, In x l -> 0 <= x) -> 0 <= sum_of l.
Proof. induction l as [|x l IH]; intros H; cbn [sum_of]; [lra|]. assert (0 <= x) by (apply H; now left). assert (0 <= sum_of l) by (apply IH; intros y I; apply H; now right). lra. Qed.
Lemma sum_member l x : (forall y, In y l -> 0 <= y) -> In x l -> x <= sum_of l.
Proof.
  intros H. induction l as [|y l IH]; [easy|]. intros [<-|I]; cbn [sum_of].
  - assert (0 <= sum_of l) by (apply sum_nonneg; intros z I; apply H; now right). lra.
  - assert (0 <= y) by (apply H; now left). assert (x <= sum_of l) by (apply IH; [intros z J; apply H; now right|easy]). lra.
Qed.
Lemma in_serial (o : bool) (y : Q) l : In (o, y) l -> In y (if o then overlapping l else serial l).
Proof.
  intros I. destruct o.
  - unfold overlapping. apply in_map_iff. exists (true, y). split; [easy|]. now apply filter_In.
  - unfold serial. apply in_map_iff. exists (false, y). split; [easy|]. now apply filter_In.
Qed.
Lemma ecm_spec line element clock bw first levels loads stores core numa socket sockets T s :
  ecm line element clock bw first levels loads stores core numa socket sockets = Ok (T, s) ->
  exists cs, level_list line element clock bw 1 levels loads stores = Ok cs /\ levels <> [] /\
    let contributions := (first, t_regl1 core) :: combine (map overlaps levels) (map fst cs) in
    ~ back_and_forth contributions /\
    largest T ((sum_of (serial contributions) + qsum (map snd cs)) :: t_comp core :: overlapping contributions) /\
    scale T (last (map fst cs) 0) numa socket sockets = Ok s /\
    (0 <= t_regl1 core -> (forall x, In x cs -> 0 <= fst x /\ 0 <= snd x) -> last (map fst cs) 0 <= T).
Proof.
  unfold ecm. destruct (level_list line element clock bw 1 levels loads stores) as [cs|] eqn:EL; [|discriminate]. cbn [bind].
  destruct (level_list_spec _ _ _ _ _ _ _ _ _ EL) as [LL _].
  destruct cs as [|c0 cs]; [discriminate|]. set (cc := c0 :: cs) in *.
  destruct (compose (t_comp core) (t_regl1 core) first (combine (map overlaps levels) (map fst cc)) (qsum (map snd cc))) as [x|] eqn:C; [|discriminate]. cbn [bind].
  destruct (scale (total x) (last (map fst cc) 0) numa socket sockets) as [sc|] eqn:S; [|discriminate]. cbn [bind].
  intros E. assert (ET : total x = T) by congruence. assert (sc = s) as -> by congruence. rewrite ET in S.
  exists cc. split; [easy|]. split; [intros ->; discriminate|]. cbn zeta.
  assert (H := compose_spec (t_comp core) (t_regl1 core) first (combine (map overlaps levels) (map fst cc)) (qsum (map snd cc))). rewrite C in H.
  assert (LG := total_spec _ _ _ _ _ _ C). rewrite ET in LG. split; [easy|]. split; [easy|]. split; [easy|].
  intros R0 C0. set (M := last (map fst cc) 0). set (contr := (first, t_regl1 core) :: combine (map overlaps levels) (map fst cc)) in *.
  assert (IM : exists o, In (o, M) contr).
  { assert (LEN : length (map overlaps levels) = length (map fst cc)) by (rewrite !map_length; lia).
    assert (NE : map fst cc <> []) by discriminate.
    assert (LST : In M (map fst cc)). { unfold M. rewrite (app_removelast_last 0 NE) at 2. apply in_app_iff. right. now left. }
    apply In_nth_error in LST as [i I]. destruct (nth_error (map overlaps levels) i) as [o|] eqn:O.
    - exists o. right. clear - I O. revert i I O. generalize (map overlaps levels), (map fst cc). intros a. induction a as [|x a IH]; intros b [|i] I O; try discriminate; destruct b as [|y b]; try discriminate; cbn [nth_error combine] in *.
      + left. congruence.
      + right. eauto.
    - apply nth_error_None in O. assert (i < length (map fst cc))%nat by (apply nth_error_Some; congruence). lia. }
  assert (NN : forall o y, In (o, y) contr -> 0 <= y).
  { intros o y [E'|I]; [assert (y = t_regl1 core) as -> by congruence; easy|]. apply in_combine_r in I. apply in_map_iff in I as (z & <- & I). now apply C0. }
  assert (PEN : 0 <= qsum (map snd cc)). { rewrite qsum_spec. apply sum_nonneg. intros y I. apply in_map_iff in I as (z & <- & I). now apply C0. }
  destruct IM as [o IM]. apply in_serial in IM. destruct LG as [_ LG]. destruct o.
  - apply LG. right. now right.
  - assert (SS : forall y, In y (serial contr) -> 0 <= y).
    { intros y I. unfold serial in I. apply in_map_iff in I as ([o y'] & <- & I). apply filter_In in I as [I _]. eapply NN. exact I. }
    assert (X := sum_member _ _ SS IM). assert (Y := LG _ (or_introl eq_refl)). lra.
Qed.
Lemma ecm_refused line element clock bw first levels loads stores core numa socket sockets cs :
  level_list line element clock bw 1 levels loads stores = Ok cs -> levels <> [] ->
  back_and_forth ((first, t_regl1 core) :: combine (map overlaps levels) (map fst cs)) ->
  ecm line element clock bw first levels loads stores core numa socket sockets = Err ValueError.
Proof.
  intros EL NE B. destruct (level_list_spec _ _ _ _ _ _ _ _ _ EL) as [LL _]. unfold ecm. rewrite EL. cbn [bind].
  destruct cs as [|c0 cs]; [destruct levels; [easy|discriminate]|]. set (cc := c0 :: cs) in *.
  assert (H := compose_spec (t_comp core) (t_regl1 core) first (combine (map overlaps levels) (map fst cc)) (qsum (map snd cc))).
  destruct (compose (t_comp core) (t_regl1 core) first (combine (map overlaps levels) (map fst cc)) (qsum (map snd cc))) as [x|e]; [now destruct H|].
  destruct H as [-> _]. reflexivity.
Qed.

(** ** In-core part *)
Lemma in_list_spec k l : in_list k l = true <-> In k l.
Proof.
  unfold in_list. rewrite existsb_exists. split.
  - intros (x & I & E). destruct (text_eqb_spec k x); [congruence|discriminate].
  - intros I. exists k. split; [easy|]. now destruct (text_eqb_spec k k).
Qed.
Lemma port_max_spec ports names : exists m, port_max ports names = Ok m /\
  0 <= m /\ (forall k x, In (k, x) ports -> In k names -> x <= m) /\ (m == 0 \/ exists k x, In (k, x) ports /\ In k names /\ m == x).
Proof.
  unfold port_max. set (sel := map snd (filter (fun p => in_list (fst p) names) ports)).
  assert (A : forall x, In x sel <-> exists k, In (k, x) ports /\ In k names).
  { intros x. unfold sel. rewrite in_map_iff. split.
    - intros ([k y] & <- & I). apply filter_In in I as [I K]. apply in_list_spec in K. exists k. easy.
    - intros (k & I & K). exists (k, x). split; [easy|]. apply filter_In. split; [easy|]. now apply in_list_spec. }
  destruct (sel ++ [0]) as [|y l] eqn:E; [now destruct sel|]. exists (qmax_from y l). split; [easy|].
  destruct (qmax_from_spec l y) as [(z & I & EZ) H]. rewrite <- E in I, H. split; [|split].
  - apply H. apply in_app_iff. right. now left.
  - intros k x IP K. apply H. apply in_app_iff. left. apply A. eauto.
  - apply in_app_iff in I as [I|[<-|[]]]; [|now left]. apply A in I as (k & I & K). right. exists k, z. easy.
Qed.
Lemma incore_spec line element increment ports tp ol nol : (0 < element)%Z -> increment <> 0%Z -> (element | increment)%Z ->
  exists r, incore_part line element increment ports tp ol nol = Ok r /\
    let per := inject_Z line / inject_Z (Z.abs increment) in
    cl_throughput r == tp * per /\
    (forall m, (exists k x, In (k, x) ports /\ In k nol /\ m == x * per) -> m <= t_regl1 r) /\ 0 <= t_regl1 r /\
    (t_regl1 r == 0 \/ exists k x, In (k, x) ports /\ In k nol /\ t_regl1 r == x * per) /\
    (t_regl1 r < cl_throughput r -> t_comp r == cl_throughput r) /\
    (cl_throughput r <= t_regl1 r -> 0 <= t_comp r /\ (forall k x, In (k, x) ports -> In k ol -> x * per <= t_comp r) /\
      (t_comp r == 0 \/ exists k x, In (k, x) ports /\ In k ol /\ t_comp r == x * per)).
Proof.
  intros E I D. unfold incore_part. destruct (Z.eqb_spec element 0); [lia|].
  assert (B : (Z.abs (increment / element) * element = Z.abs increment)%Z).
  { destruct D as [k ->]. rewrite Z.div_mul by lia. rewrite Z.abs_mul, (Z.abs_eq element) by lia. reflexivity. }
  rewrite B. destruct (Z.eqb_spec (Z.abs increment) 0); [lia|]. cbn zeta. set (per := inject_Z line / inject_Z (Z.abs increment)).
  set (scaled := map (fun p : text * Q => (fst p, snd p * per)) ports).
  assert (SC : forall k x, In (k, x) scaled <-> exists y, In (k, y) ports /\ x = y * per).
  { intros k x. unfold scaled. rewrite in_map_iff. split.
    - intros ([k' y] & E' & J). exists y. cbn in E'. split; [|congruence]. assert (k' = k) as <- by congruence. easy.
    - intros (y & J & ->). exists (k, y). easy. }
  destruct (port_max_spec scaled ol) as (c & -> & C0 & C1 & C2). destruct (port_max_spec scaled nol) as (m & -> & M0 & M1 & M2). cbn [bind].
  eexists. split; [reflexivity|]. cbn [cl_throughput t_regl1 t_comp]. split; [reflexivity|]. split; [|split; [easy|split; [|split]]].
  - intros z (k & x & J & K & ->). apply (M1 k); [|easy]. apply SC. eauto.
  - destruct M2 as [|(k & x & J & K & X)]; [now left|]. right. apply SC in J as (y & J & ->). eauto.
  - intros L. destruct (Qltb_spec m (tp * per)); [reflexivity|lra].
  - intros L. destruct (Qltb_spec m (tp * per)); [lra|]. split; [easy|]. split.
    + intros k x J K. apply (C1 k); [|easy]. apply SC. eauto.
    + destruct C2 as [|(k & x & J & K & X)]; [now left|]. right. apply SC in J as (y & J & ->). eauto.
Qed.
Lemma incore_max line element increment ports tp ol nol r : (0 < element)%Z -> increment <> 0%Z -> (element | increment)%Z -> (0 < line)%Z ->
  0 <= tp -> (forall k x, In (k, x) ports -> x <= tp) ->
  incore_part line element increment ports tp ol nol = Ok r ->
  largest (cl_throughput r) [t_comp r; t_regl1 r].
Proof.
  intros E I D L T P R. destruct (incore_spec line element increment ports tp ol nol E I D) as (r' & R' & H). rewrite R in R'.
  assert (r' = r) as -> by congruence. cbn zeta in H. set (per := inject_Z line / inject_Z (Z.abs increment)) in *.
  assert (PER : 0 < per). { apply Qlt_shift_div_l; [apply injpos; lia|]. assert (X := injpos line L). lra. }
  destruct H as (H1 & H2 & H3 & H4 & H5 & H6).
  assert (B : forall k x, In (k, x) ports -> x * per <= cl_throughput r). { intros k x J. rewrite H1. specialize (P k x J). nra. }
  assert (RL : t_regl1 r <= cl_throughput r). { destruct H4 as [->|(k & x & J & _ & ->)]; [rewrite H1; nra|now apply (B k)]. }
  destruct (Qlt_le_dec (t_regl1 r) (cl_throughput r)) as [Lt|Ge].
  - specialize (H5 Lt). split; [exists (t_comp r); split; [now left|lra]|]. intros x [<-|[<-|[]]]; lra.
  - destruct (H6 Ge) as (G1 & G2 & G3). split; [exists (t_regl1 r); split; [right; now left|lra]|]. intros x [<-|[<-|[]]]; [|lra].
    destruct G3 as [->|(k & x & J & _ & ->)]; [rewrite H1; nra|now apply (B k)].
Qed.

(** ** Units *)
Lemma set_unit_base q u : base_value (set_unit q u) = base_value q.
Proof. reflexivity. Qed.
Lemma plain_hz : plain_unit "Hz/cy/CL". Proof. split; [apply has_newline_spec; reflexivity|]. exists "H"%char, "z/cy/CL"%string. split; [reflexivity|right]. cbn. intuition discriminate. Qed.
Lemma plain_it : plain_unit "It/s". Proof. split; [apply has_newline_spec; reflexivity|]. exists "I"%char, "t/s"%string. split; [reflexivity|right]. cbn. intuition discriminate. Qed.
Lemma plain_IT : plain_unit "It/S". Proof. split; [apply has_newline_spec; reflexivity|]. exists "I"%char, "t/S"%string. split; [reflexivity|right]. cbn. intuition discriminate. Qed.
Lemma plain_cy : plain_unit "cy/CL". Proof. split; [apply has_newline_spec; reflexivity|]. exists "c"%char, "y/CL"%string. split; [reflexivity|right]. cbn. intuition discriminate. Qed.
Lemma as_cycles_ok o y : ofloat o = Fin y -> (forall q, o = OQ q -> unit q = "cy/CL"%string) ->
  exists c y', as_cycles o = Ok c /\ unit c = "cy/CL"%string /\ base_value c = Fin y' /\ y' == y.
Proof.
  intros Ho Hu. destruct o as [q|v]; cbn [ofloat as_cycles] in *.
  - exists q, y. split; [easy|]. split; [now apply Hu|]. split; [easy|reflexivity].
  - rewrite Ho. unfold make3. change (factor "") with (Some 1%Z). eexists. exists (y * inject_Z 1). split; [reflexivity|]. split; [easy|]. split; [reflexivity|].
    change (inject_Z 1) with 1. lra.
Qed.
Section Conv.
  Variables (clock : quantity) (line element flops : Z) (o : operand) (f y : Q).
  Hypothesis Hclock : unit clock = "Hz"%string.
  Hypothesis Hf : base_value clock = Fin f.
  Hypothesis He : (0 < element)%Z.
  Hypothesis Hl : (element <= line)%Z.
  Hypothesis Ho : ofloat o = Fin y.
  Hypothesis Hu : forall q, o = OQ q -> unit q = "cy/CL"%string.
  Let n := (line / element)%Z.
  Lemma n_pos : 0 < inject_Z n.
  Proof. apply injpos. unfold n. apply Z.div_str_pos. lia. Qed.
  Lemma data_conv_ok : ~ y == 0 ->
    exists r i c p t, data_conv_cy clock line element flops o = Ok r /\
      base_value (it_s r) = Fin i /\ base_value (cy_cl r) = Fin c /\ base_value (cy_it r) = Fin t /\ base_value (flop_s r) = Fin p /\
      unit (it_s r) = "It/s"%string /\ unit (cy_cl r) = "cy/CL"%string /\ unit (cy_it r) = "cy/It"%string /\ unit (flop_s r) = "FLOP/s"%string /\
      c == y /\ c == t * inject_Z n /\ i * t == f /\ p == i * inject_Z flops.
  Proof.
    intros Y. assert (N := n_pos). unfold data_conv_cy. destruct (as_cycles_ok o y Ho Hu) as (c & y' & -> & Uc & Bc & Ec). cbn [bind].
    destruct (Z.eqb_spec element 0); [lia|]. cbn zeta. fold n. unfold q_ne, ofloat. rewrite Bc. cbn [neqb].
    destruct (Qeq_bool_spec y' 0) as [X|NZ]; [exfalso; apply Y; lra|]. cbn [negb].
    destruct (q_div_ok clock (OQ c) f y' "Hz/cy/CL" Hf Bc NZ ltac:(now rewrite Hclock, Uc) plain_hz) as (r1 & z1 & -> & U1 & B1 & E1). cbn [bind].
    destruct (q_mul_ok r1 (of_int n) z1 (inject_Z n) "Hz/cy/CL" B1 eq_refl ltac:(easy) plain_hz) as (r2 & z2 & -> & U2 & B2 & E2). cbn [bind].
    destruct (q_mul_ok (set_unit r2 "It/s") (of_int flops) z2 (inject_Z flops) "It/s" B2 eq_refl ltac:(easy) plain_it) as (r3 & z3 & -> & U3 & B3 & E3). cbn [bind].
    destruct (q_div_ok c (of_int n) y' (inject_Z n) "cy/CL" Bc eq_refl ltac:(lra) ltac:(easy) plain_cy) as (r4 & z4 & -> & U4 & B4 & E4). cbn [bind].
    eexists. exists z2, y', z3, z4. split; [reflexivity|]. cbn [it_s cy_cl cy_it flop_s]. rewrite !set_unit_base. repeat (split; [easy|]).
    split; [rewrite E4; field; lra|]. split; [|easy]. rewrite E2, E1, E4. field. split; lra.
  Qed.
  Lemma cpu_conv_ok : ~ y == 0 ->
    exists r i c p t, cpu_conv_cy clock line element flops o = Ok r /\
      base_value (it_s r) = Fin i /\ base_value (cy_cl r) = Fin c /\ base_value (cy_it r) = Fin t /\ base_value (flop_s r) = Fin p /\
      unit (it_s r) = "It/s"%string /\ unit (cy_cl r) = "cy/CL"%string /\ unit (cy_it r) = "cy/It"%string /\ unit (flop_s r) = "FLOP/s"%string /\
      c == y /\ i * c == f * inject_Z n /\ p == i * inject_Z flops /\ t == c * inject_Z n.
  Proof.
    intros Y. assert (N := n_pos). unfold cpu_conv_cy. destruct (as_cycles_ok o y Ho Hu) as (c & y' & -> & Uc & Bc & Ec). cbn [bind].
    destruct (Z.eqb_spec element 0); [lia|]. cbn zeta. fold n. unfold q_eq, ofloat. rewrite Bc. cbn [neqb].
    destruct (Qeq_bool_spec y' 0) as [X|NZ]; [exfalso; apply Y; lra|].
    destruct (q_div_ok clock (OQ c) f y' "Hz/cy/CL" Hf Bc NZ ltac:(now rewrite Hclock, Uc) plain_hz) as (r1 & z1 & -> & U1 & B1 & E1). cbn [bind].
    destruct (q_mul_ok r1 (of_int n) z1 (inject_Z n) "Hz/cy/CL" B1 eq_refl ltac:(easy) plain_hz) as (r2 & z2 & -> & U2 & B2 & E2). cbn [bind].
    destruct (q_mul_ok (set_unit r2 "It/s") (of_int flops) z2 (inject_Z flops) "It/s" B2 eq_refl ltac:(easy) plain_it) as (r3 & z3 & -> & U3 & B3 & E3). cbn [bind].
    destruct (q_mul_ok c (of_int n) y' (inject_Z n) "cy/CL" Bc eq_refl ltac:(easy) plain_cy) as (r4 & z4 & -> & U4 & B4 & E4). cbn [bind].
    eexists. exists z2, y', z3, z4. split; [reflexivity|]. cbn [it_s cy_cl cy_it flop_s]. rewrite !set_unit_base. repeat (split; [easy|]).
    split; [|split; easy]. rewrite E2, E1. field. lra.
  Qed.
  (** Without cycles the rate is infinite. *)
  Lemma inf_mul (q : quantity) u z : base_value q = PInf -> unit q = u -> plain_unit u -> (0 < z)%Z -> exists r, q_mul q (of_int z) = Ok r /\ base_value r = PInf.
  Proof.
    intros B U P Z. unfold q_mul. cbn [of_int ofloat]. rewrite B, U. cbn [nmul]. destruct (make2_reduced (inf_times PInf (inject_Z z)) u P) as (r & -> & _ & E).
    exists r. split; [easy|]. rewrite inf_times_pos in E by now apply injpos. now destruct (base_value r).
  Qed.
  Lemma data_conv_zero : y == 0 -> (0 < flops)%Z ->
    exists r t, data_conv_cy clock line element flops o = Ok r /\ base_value (it_s r) = PInf /\ base_value (flop_s r) = PInf /\ base_value (cy_it r) = Fin t /\ t == 0.
  Proof.
    intros Y F. assert (N := n_pos). unfold data_conv_cy. destruct (as_cycles_ok o y Ho Hu) as (c & y' & -> & Uc & Bc & Ec). cbn [bind].
    destruct (Z.eqb_spec element 0); [lia|]. cbn zeta. fold n. unfold q_ne, ofloat. rewrite Bc. cbn [neqb].
    destruct (Qeq_bool_spec y' 0) as [X|NZ]; [|exfalso; apply NZ; lra]. cbn [negb].
    change (parse "inf It/S") with (Ok (mkq PInf "" "It/S")). cbn [bind].
    destruct (inf_mul (mkq PInf "" "It/S") "It/S" flops eq_refl eq_refl plain_IT F) as (r & -> & B). cbn [bind].
    destruct (q_div_ok c (of_int n) y' (inject_Z n) "cy/CL" Bc eq_refl ltac:(lra) ltac:(easy) plain_cy) as (r4 & z4 & -> & U4 & B4 & E4). cbn [bind].
    eexists. exists z4. split; [reflexivity|]. cbn [it_s flop_s cy_it]. rewrite !set_unit_base. repeat (split; [easy|]). rewrite E4, X. field. lra.
  Qed.
End Conv.

(** ** C65: exact boundaries *)
Lemma incore_ok line element increment ports tp ol nol : (0 < element)%Z -> (increment / element <> 0)%Z ->
  exists r, incore_part line element increment ports tp ol nol = Ok r
    /\ cl_throughput r = tp * (inject_Z line / inject_Z (Z.abs (increment / element) * element)).
Proof.
  intros E N. unfold incore_part. destruct (Z.eqb_spec element 0); [lia|].
  destruct (Z.eqb_spec (Z.abs (increment / element) * element) 0); [nia|]. cbn zeta.
  match goal with |- context [port_max ?a ol] => destruct (port_max_spec a ol) as (c & -> & _); destruct (port_max_spec a nol) as (m & -> & _) end.
  cbn [bind]. eexists. split; reflexivity.
Qed.
Lemma incore_ends line element increment ports tp ol nol : (0 < element)%Z ->
  (incore_part line element increment ports tp ol nol = Err SystemExit <-> (0 <= increment < element)%Z).
Proof.
  intros E. split.
  - intros H. destruct (Z.eq_dec (increment / element) 0) as [Z0|N].
    + pose proof (Z.div_mod increment element ltac:(lia)). pose proof (Z.mod_pos_bound increment element E). lia.
    + destruct (incore_ok line element increment ports tp ol nol E N) as (r & R & _). congruence.
  - intros H. unfold incore_part. destruct (Z.eqb_spec element 0); [lia|]. rewrite Z.div_small by lia. reflexivity.
Qed.
Lemma incore_exact line element increment ports tp ol nol : (0 < element)%Z -> increment <> 0%Z -> (0 < line)%Z -> 0 < tp ->
  ((exists r, incore_part line element increment ports tp ol nol = Ok r /\ cl_throughput r == tp * (inject_Z line / inject_Z (Z.abs increment)))
   <-> (element | increment)%Z).
Proof.
  intros E I L T. split.
  - intros (r & R & H). destruct (Z.eq_dec (increment / element) 0) as [Z0|N].
    + assert (X : (0 <= increment < element)%Z).
      { pose proof (Z.div_mod increment element ltac:(lia)). pose proof (Z.mod_pos_bound increment element E). lia. }
      apply (incore_ends line element increment ports tp ol nol E) in X. congruence.
    + destruct (incore_ok line element increment ports tp ol nol E N) as (r' & R' & C). rewrite R in R'. injection R' as <-. rewrite C in H.
      set (b := (Z.abs (increment / element) * element)%Z) in *. assert (B : (0 < b)%Z) by (unfold b; nia).
      assert (A : (0 < Z.abs increment)%Z) by lia. assert (X := injpos b B). assert (Y := injpos _ A). assert (LL := injpos _ L).
      assert (EQ : inject_Z b == inject_Z (Z.abs increment)).
      { assert (H2 : inject_Z line / inject_Z b == inject_Z line / inject_Z (Z.abs increment)).
        { apply (Qmult_inj_l _ _ tp); [|exact H]. intros K. rewrite K in T. lra. }
        apply (Qmult_inj_l _ _ (inject_Z line)); [lra|].
        rewrite <- (Qmult_div_r (inject_Z line) (inject_Z b)) at 2 by lra. rewrite H2. field. lra. }
      unfold Qeq in EQ. cbn in EQ. assert (K : b = Z.abs increment) by lia. apply Z.divide_abs_r. rewrite <- K. unfold b. apply Z.divide_factor_r.
  - intros D. destruct (incore_spec line element increment ports tp ol nol E I D) as (r & R & H & _). exists r. split; [exact R|exact H].
Qed.
