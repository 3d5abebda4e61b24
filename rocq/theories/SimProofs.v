From Coq Require Import String.
From Verif Require Import PyBase PyBaseFacts LoopModel SimModel SimSpec.
Local Open Scope Z_scope.

Lemma schedule_snoc max l p a b q :
  schedule max q l p -> (a = p \/ p = max /\ a = 0) -> 0 <= a < b -> b <= max ->
  schedule max q (l ++ [(a, b)]) b.
Proof.
  intros S H B M. induction S as [p|p b' l q Hp Hb S IH|b' l q Hb S IH]; cbn [app].
  - destruct H as [->|[-> ->]]; [apply sch_next|apply sch_again]; try lia; constructor.
  - apply sch_next; auto.
  - apply sch_again; auto.
Qed.

Lemma shift_mod x b : 0 <= b -> x - Z.shiftl (Z.shiftr x b) b = x mod 2 ^ b.
Proof.
  intros H. rewrite Z.shiftl_mul_pow2, Z.shiftr_div_pow2 by assumption.
  assert (0 < 2 ^ b) by now apply Z.pow_pos_nonneg. pose proof (Z.div_mod x (2 ^ b)). lia.
Qed.

Section Proofs.
  Variables (es cl bits incr mi mc : Z).
  Variable offset : Z -> Z.
  Variable invalid : list range -> Z.
  Notation sim_range := (simulate_range mi).
  Notation align := (align es cl bits incr mi offset).
  Notation inc := (warmup_increment es mc).

  Lemma simulate_range_ok done a b d : sim_range done a b = Ok d -> a < b <= mi /\ d = done ++ [(a, b)].
  Proof.
    unfold simulate_range. destruct (Z.leb_spec b a); [discriminate|]. destruct (Z.ltb_spec (b - 1) mi); [|discriminate].
    intros [= <-]. split; [lia|reflexivity].
  Qed.
  Lemma simulate_range_runs done a b : a < b <= mi -> sim_range done a b = Ok (done ++ [(a, b)]).
  Proof.
    intros H. unfold simulate_range. destruct (Z.leb_spec b a); [lia|]. destruct (Z.ltb_spec (b - 1) mi); [reflexivity|lia].
  Qed.

  (** ** Every schedule that is completed is valid *)
  Lemma phase1_valid steps : forall done w c done' w' c',
    phase1 es mi mc invalid steps done w c = Ok (done', w', c') ->
    schedule mi 0 done w -> 0 <= w -> (c = true -> w = mi) ->
    schedule mi 0 done' w' /\ 0 <= w' /\ (c' = true -> w' = mi).
  Proof.
    induction steps as [|steps IH]; intros done w c done' w' c'; cbn [phase1].
    - intros [= <- <- <-]. auto.
    - destruct (negb (0 <? invalid done) || c)%bool eqn:E; [intros [= <- <- <-]; auto|].
      apply orb_false_iff in E as [_ ->]. intros H S W C.
      destruct (Z.ltb_spec mi (w + inc)) as [L|L].
      + destruct (sim_range done w mi) as [d|] eqn:R; cbn [bind] in H; [|discriminate].
        destruct (simulate_range_ok _ _ _ _ R) as [B ->].
        apply (IH _ _ _ _ _ _ H); [|lia|reflexivity]. apply (schedule_snoc _ _ w); auto; lia.
      + destruct (sim_range done w (w + inc)) as [d|] eqn:R; cbn [bind] in H; [|discriminate].
        destruct (simulate_range_ok _ _ _ _ R) as [B ->].
        apply (IH _ _ _ _ _ _ H); [|lia|discriminate]. apply (schedule_snoc _ _ w); auto; lia.
  Qed.

  Definition at_position (done : list range) (w : Z) : Prop :=
    0 <= w /\ exists p, schedule mi 0 done p /\ (w = p \/ p = mi /\ w = 0).

  Lemma phase2_valid done w c done' w' :
    phase2 mi (done, w, c) = Ok (done', w') ->
    schedule mi 0 done w -> 0 <= w -> (c = true -> w = mi) -> at_position done' w'.
  Proof.
    cbn [phase2]. intros H S W C. destruct c.
    - injection H as <- <-. split; [lia|]. exists w. split; [assumption|]. right. split; [now apply C|reflexivity].
    - destruct (mi - 100000 <? w).
      + destruct (sim_range done w mi) as [d|] eqn:R; cbn [bind] in H; [|discriminate]. injection H as <- <-.
        destruct (simulate_range_ok _ _ _ _ R) as [B ->]. split; [lia|]. exists mi. split; [|auto].
        apply (schedule_snoc _ _ w); auto; lia.
      + injection H as <- <-. split; [assumption|]. exists w. auto.
  Qed.
  Lemma phase3_valid done w done' w' :
    phase3 es cl bits incr mi offset (done, w) = Ok (done', w') -> at_position done w -> at_position done' w'.
  Proof.
    cbn [phase3]. intros H (W & p & S & P). destruct (align w false) as [n|]; cbn [bind] in H; [|discriminate].
    destruct (Z.eqb_spec n w) as [E|N].
    - injection H as <- <-. subst n. split; [assumption|]. eauto.
    - destruct (sim_range done w n) as [d|] eqn:R; cbn [bind] in H; [|discriminate]. injection H as <- <-.
      destruct (simulate_range_ok _ _ _ _ R) as [B ->]. split; [lia|]. exists n. split; [|auto].
      apply (schedule_snoc _ _ p); auto; lia.
  Qed.

  Lemma simulate_inv warm bench :
    simulate es cl bits incr mi mc offset invalid = Ok (warm, bench) ->
    at_position warm (fst bench) /\ fst bench < snd bench <= mi
    /\ align (Z.min (fst bench + 100000) (mi - 1)) true = Ok (snd bench).
  Proof.
    unfold simulate.
    destruct (phase1 es mi mc invalid (Z.to_nat max_steps) [] 0 false) as [[[d1 w1] c1]|] eqn:P1; cbn [bind]; [|discriminate].
    destruct (phase2 mi (d1, w1, c1)) as [[d2 w2]|] eqn:P2; cbn [bind]; [|discriminate].
    destruct (phase3 es cl bits incr mi offset (d2, w2)) as [[d3 w3]|] eqn:P3; cbn [bind]; [|discriminate].
    destruct (align _ _) as [b|] eqn:A; cbn [bind]; [|discriminate].
    destruct (sim_range d3 w3 b) as [d|] eqn:R; cbn [bind]; [|discriminate]. intros [= <- <-]. cbn [fst snd].
    destruct (phase1_valid _ _ _ _ _ _ _ P1 ltac:(constructor) ltac:(lia) ltac:(discriminate)) as (S1 & W1 & C1).
    pose proof (phase2_valid _ _ _ _ _ P2 S1 W1 C1) as V2. pose proof (phase3_valid _ _ _ _ P3 V2) as V3.
    destruct (simulate_range_ok _ _ _ _ R) as [B _]. auto.
  Qed.

  Lemma simulate_valid warm bench :
    simulate es cl bits incr mi mc offset invalid = Ok (warm, bench) ->
    schedule mi 0 (warm ++ [bench]) (snd bench).
  Proof.
    intros H. destruct (simulate_inv _ _ H) as ((W & p & S & P) & B & _). destruct bench as [a b]. cbn [fst snd] in *.
    apply (schedule_snoc _ _ p); auto; lia.
  Qed.

  (** ** Alignment *)
  Section Aligned.
    Hypothesis Hes : 0 < es.
    Hypothesis Hbits : 0 <= bits.
    Hypothesis Hcl : cl = 2 ^ bits.
    Hypothesis Hdiv : (es | cl).
    Hypothesis Hincr : 1 <= incr.
    Notation epc := (cl / es).

    Lemma cl_pos : 0 < cl.
    Proof. rewrite Hcl. now apply Z.pow_pos_nonneg. Qed.
    Lemma epc_eq : cl = epc * es.
    Proof. destruct Hdiv as (k & E). rewrite E at 1. f_equal. rewrite E. now rewrite Z.div_mul by lia. Qed.
    Lemma epc_pos : 1 <= epc.
    Proof. pose proof epc_eq. pose proof cl_pos. nia. Qed.
    Lemma diff_bound x : 0 <= x mod cl / es < epc.
    Proof.
      pose proof cl_pos. pose proof (Z.mod_pos_bound x cl). split; [apply Z.div_pos; lia|].
      apply Z.div_lt_upper_bound; [assumption|]. pose proof epc_eq. lia.
    Qed.

    Lemma align_bounds i s : i < mi -> exists r, align i s = Ok r
      /\ (if s then i - epc < r <= i else i <= r <= i + epc).
    Proof.
      intros H. unfold SimModel.align. destruct (Z.ltb_spec i mi); [|lia]. cbn [negb].
      rewrite shift_mod, <- Hcl by assumption. pose proof epc_pos. pose proof (diff_bound (offset i)) as D.
      destruct (offset i mod cl =? 0).
      - exists i. split; [reflexivity|]. destruct s; lia.
      - destruct s; (eexists; split; [reflexivity|]).
        + assert (0 <= offset i mod cl / es / incr <= offset i mod cl / es); [|lia].
          split; [apply Z.div_pos; lia|]. apply Z.div_le_upper_bound; [lia|nia].
        + assert (0 <= (epc - offset i mod cl / es) / incr <= epc); [|lia].
          split; [apply Z.div_pos; lia|]. apply Z.div_le_upper_bound; [lia|nia].
    Qed.

    (** Steps of the inner loop divide cache lines, offsets are multiples of a step. *)
    Lemma align_aligned i s r :
      align i s = Ok r -> linear_around offset i epc (es * incr) ->
      (es * incr | cl) -> (es * incr | offset i) -> offset r mod cl = 0.
    Proof.
      intros A L D O. unfold SimModel.align in A. destruct (i <? mi); cbn [negb] in A; [|discriminate].
      rewrite shift_mod, <- Hcl in A by assumption.
      pose proof cl_pos as Cp. pose proof epc_eq as Ce. pose proof (diff_bound (offset i)) as B. pose proof epc_pos as Ep.
      set (st := es * incr) in *. assert (Sp : 0 < st) by (unfold st; nia).
      destruct (Z.eqb_spec (offset i mod cl) 0) as [E|N]; [injection A as <-; assumption|].
      assert (Dd : (st | offset i mod cl)).
      { rewrite Z.mod_eq by lia. apply Z.divide_sub_r; [assumption|]. apply Z.divide_mul_l. assumption. }
      destruct Dd as (k & Ek). destruct D as (m & Em).
      assert (Q : offset i mod cl / es = k * incr).
      { rewrite Ek. unfold st. replace (k * (es * incr)) with (k * incr * es) by ring. now apply Z.div_mul; lia. }
      rewrite Q in *. pose proof (Z.mod_pos_bound (offset i) cl Cp) as Mb.
      assert (Kb : 0 <= k) by nia.
      assert (Em' : epc = m * incr).
      { unfold st in Em. apply (Z.mul_reg_r _ _ es); [lia|]. rewrite <- Ce, Em. ring. }
      destruct s; injection A as <-.
      - rewrite Z.div_mul by lia.
        rewrite L by (pose proof epc_pos; nia). replace (i - k - i) with (- k) by ring.
        replace (offset i + - k * st) with (offset i - offset i mod cl) by (rewrite Ek at 1; ring).
        replace (offset i - offset i mod cl) with (offset i / cl * cl) by (rewrite (Z.mod_eq (offset i)) by lia; ring).
        apply Z.mod_mul. lia.
      - rewrite Em'. replace (m * incr - k * incr) with ((m - k) * incr) by ring. rewrite Z.div_mul by lia.
        rewrite L by (rewrite Em'; nia). replace (i + (m - k) - i) with (m - k) by ring.
        replace (offset i + (m - k) * st) with (offset i - offset i mod cl + cl).
        2:{ rewrite Ek at 1. rewrite Em. unfold st. ring. }
        replace (offset i - offset i mod cl + cl) with ((offset i / cl + 1) * cl)
          by (rewrite (Z.mod_eq (offset i)) by lia; ring).
        apply Z.mod_mul. lia.
    Qed.

    (** ** Runs to the end *)
    Hypothesis Hsmall : 2 * epc + 1 < mi.
    Hypothesis Hline : epc < 49999.
    Hypothesis Hcache : es <= mc.
    Hypothesis Hexact : ~ ends_exactly inc mi invalid.

    Lemma inc_pos : 0 < inc.
    Proof.
      unfold warmup_increment, ceildiv. change (max_steps / 2) with 50.
      assert (1 <= mc / es) by (apply Z.div_le_lower_bound; lia).
      assert (- (mc / es) / 50 < 0); [|lia]. apply Z.div_lt_upper_bound; lia.
    Qed.

    Lemma phase1_runs steps : forall w (k : nat),
      w = Z.of_nat k * inc -> (k + steps = 100)%nat -> w <= mi -> (forall m, (m < k)%nat -> 0 < invalid (sweep inc m)) ->
      exists done' w' c', phase1 es mi mc invalid steps (sweep inc k) w false = Ok (done', w', c')
        /\ (if c' : bool then True else w' < mi).
    Proof.
      assert (NE : forall k, (k <= 100)%nat -> (forall m, (m < k)%nat -> 0 < invalid (sweep inc m)) -> Z.of_nat k * inc <> mi).
      { intros k K1 K2 K3. destruct k as [|k]; [pose proof epc_pos; lia|]. apply Hexact. exists (S k). split; [lia|]. split; [lia|exact K2]. }
      induction steps as [|steps IH]; intros w k Ew Hs Hw Hk; cbn [phase1].
      - exists (sweep inc k), w, false. split; [reflexivity|]. specialize (NE k ltac:(lia) Hk). lia.
      - rewrite orb_false_r. destruct (Z.ltb_spec 0 (invalid (sweep inc k))) as [V|V]; cbn [negb].
        + pose proof inc_pos. specialize (NE k ltac:(lia) Hk).
          destruct (Z.ltb_spec mi (w + inc)).
          * rewrite simulate_range_runs by lia. cbn [bind].
            destruct steps; cbn [phase1]; [|rewrite orb_true_r]; do 3 eexists; (split; [reflexivity|exact I]).
          * rewrite simulate_range_runs by lia. cbn [bind].
            assert (Sk : sweep inc (S k) = sweep inc k ++ [(w, w + inc)]) by (cbn [sweep]; rewrite <- Ew; replace (Z.of_nat (S k) * inc) with (w + inc) by lia; reflexivity).
            assert (G := IH (w + inc) (S k)). rewrite Sk in G. apply G; [lia|lia|lia|]. intros m M. destruct (Nat.eq_dec m k) as [->|N]; [exact V|apply Hk; lia].
        + exists (sweep inc k), w, false. split; [reflexivity|]. specialize (NE k ltac:(lia) Hk). lia.
    Qed.

    Lemma simulate_runs : exists r, simulate es cl bits incr mi mc offset invalid = Ok r.
    Proof.
      unfold simulate. pose proof epc_pos as Ep.
      destruct (phase1_runs (Z.to_nat max_steps) 0 0) as (d1 & w1 & c1 & P1 & H1); [lia|reflexivity|lia|lia|]. change (sweep inc 0) with (@nil range) in P1. rewrite P1.
      cbn [bind].
      assert (P2 : exists d2 w2, phase2 mi (d1, w1, c1) = Ok (d2, w2) /\ (w2 = 0 \/ w2 <= mi - 100000)).
      { cbn [phase2]. destruct c1; [eauto|]. destruct (Z.ltb_spec (mi - 100000) w1).
        - rewrite simulate_range_runs by lia. cbn [bind]. eauto.
        - eauto. }
      destruct P2 as (d2 & w2 & -> & H2). cbn [bind].
      destruct (align_bounds w2 false) as (w3 & A3 & B3); [lia|].
      assert (P3 : exists d3, phase3 es cl bits incr mi offset (d2, w2) = Ok (d3, w3)).
      { cbn [phase3]. rewrite A3. cbn [bind]. destruct (Z.eqb_spec w3 w2) as [->|]; [eauto|].
        rewrite simulate_range_runs by lia. cbn [bind]. eauto. }
      destruct P3 as (d3 & ->). cbn [bind].
      destruct (align_bounds (Z.min (w3 + 100000) (mi - 1)) true) as (b & -> & Bb); [lia|]. cbn [bind].
      rewrite simulate_range_runs by lia. cbn [bind]. eauto.
    Qed.
  End Aligned.

  (** ** Kernels that cannot be simulated *)
  Lemma phase1_exact n : 0 < inc -> mi = Z.of_nat n * inc -> (forall m, (m < n)%nat -> 0 < invalid (sweep inc m)) -> forall steps w j,
    w = Z.of_nat j * inc -> (j <= n <= j + steps)%nat ->
    phase1 es mi mc invalid steps (sweep inc j) w false = Err ValueError
    \/ exists d, phase1 es mi mc invalid steps (sweep inc j) w false = Ok (d, mi, false).
  Proof.
    intros I E Hi. induction steps as [|steps IH]; intros w j Hw Hj; cbn [phase1].
    - right. exists (sweep inc j). repeat f_equal. assert (j = n) by lia. subst. reflexivity.
    - rewrite orb_false_r. destruct (Z.ltb_spec 0 (invalid (sweep inc j))) as [V|V]; cbn [negb].
      + destruct (Nat.eq_dec j n) as [->|N].
        * destruct (Z.ltb_spec mi (w + inc)); [|lia]. left. unfold simulate_range.
          destruct (Z.leb_spec mi w); [reflexivity|lia].
        * destruct (Z.ltb_spec mi (w + inc)); [nia|]. rewrite simulate_range_runs by nia. cbn [bind].
          assert (Sj : sweep inc (S j) = sweep inc j ++ [(w, w + inc)]) by (cbn [sweep]; rewrite <- Hw; replace (Z.of_nat (S j) * inc) with (w + inc) by lia; reflexivity).
          assert (G := IH (w + inc) (S j)). rewrite Sj in G. apply G; lia.
      + right. exists (sweep inc j). repeat f_equal. destruct (Nat.eq_dec j n) as [->|N]; [lia|].
        exfalso. specialize (Hi j ltac:(lia)). lia.
  Qed.
  Lemma simulate_exact : 0 < inc -> ends_exactly inc mi invalid ->
    simulate es cl bits incr mi mc offset invalid = Err ValueError.
  Proof.
    intros I (n & N & E & Hi). unfold simulate.
    destruct (phase1_exact n I E Hi (Z.to_nat max_steps) 0 0) as [P|(d & P)]; [lia|change (Z.to_nat max_steps) with 100%nat; lia| |];
      change (sweep inc 0) with (@nil range) in P; rewrite P; [reflexivity|].
    cbn [bind phase2]. destruct (Z.ltb_spec (mi - 100000) mi); [|lia]. unfold simulate_range.
    destruct (Z.leb_spec mi mi); [reflexivity|lia].
  Qed.

  Lemma simulate_small : 0 < es -> 0 <= bits -> cl = 2 ^ bits -> (es | cl) -> incr = 1 ->
    offset 0 mod cl = 0 -> (forall i, offset i = offset 0 + i * es) -> mi <= cl / es ->
    exists e, simulate es cl bits incr mi mc offset invalid = Err e.
  Proof.
    intros He Hb Hc Hd Hi O0 Ol Hm.
    destruct (simulate es cl bits incr mi mc offset invalid) as [[warm [w b]]|e] eqn:S; [|eauto]. exfalso.
    destruct (simulate_inv _ _ S) as ((W & _) & B & A). cbn [fst snd] in *.
    set (i := Z.min (w + 100000) (mi - 1)) in A. assert (0 <= i < cl / es) by (unfold i; lia).
    unfold SimModel.align in A. destruct (Z.ltb_spec i mi); [|unfold i in *; lia]. cbn [negb] in A.
    rewrite shift_mod, <- Hc in A by assumption.
    assert (E : offset i mod cl = i * es).
    { rewrite Ol, Z.add_mod, O0, Z.add_0_l, Z.mod_mod. 2,3: rewrite Hc; apply Z.pow_nonzero; lia.
      apply Z.mod_small. split; [lia|]. pose proof (epc_eq He Hd). nia. }
    rewrite E, Hi in A. rewrite Z.div_mul, Z.div_1_r in A by lia.
    destruct (Z.eqb_spec (i * es) 0); injection A as <-; nia.
  Qed.
End Proofs.

(** ** Wrong alignments *)
Definition one_array (i : Z) : Z := 8 + 8 * i.
Definition interior : list loop := [mkloop "j" 1 11 1; mkloop "i" 1 11 1].
Definition interior_offset (git : Z) : Z :=
  let d := global_iterator_to_indices interior git in 8 * access_to_sympy [12; 12] [lookup d "j"; lookup d "i"].

Lemma align_stride : exists r,
  align 8 64 6 3 1000 (fun i => 24 * i) 3 true = Ok r /\ (24 * r) mod 64 <> 0.
Proof. exists 3. split; vm_compute; [reflexivity|discriminate]. Qed.
Lemma align_row : exists r,
  align 8 64 6 1 100 interior_offset 10 true = Ok r /\ interior_offset r mod 64 <> 0.
Proof. exists 9. split; vm_compute; [reflexivity|discriminate]. Qed.
Lemma align_negative : align 8 64 6 1 1000 one_array 0 true = Ok (-1).
Proof. vm_compute. reflexivity. Qed.
