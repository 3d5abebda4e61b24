From Coq Require Import String QArith Qround Permutation.
From Verif Require Import PyBase PyBaseFacts LoopModel LoopSpec.
Local Open Scope Z_scope.

(** * Mixed radix numbers, least significant digit first *)
Fixpoint mval (ds xs : list Z) : Z :=
  match ds, xs with
  | d :: ds', x :: xs' => x + d * mval ds' xs'
  | _, _ => 0
  end.

Fixpoint digits (ds : list Z) (g : Z) : list Z :=
  match ds with
  | [] => []
  | d :: ds' => g mod d :: digits ds' (g / d)
  end.

Lemma mval_app ds xs ds' xs' :
  length ds = length xs ->
  mval (ds ++ ds') (xs ++ xs') = mval ds xs + zprod ds * mval ds' xs'.
Proof.
  revert xs. induction ds as [|d ds IH]; intros [|x xs] H; cbn in H; try discriminate.
  - cbn [app mval]. unfold zprod; cbn [fold_right]. lia.
  - cbn [app mval]. rewrite IH by lia. rewrite zprod_cons. ring.
Qed.

Lemma digits_length ds g : length (digits ds g) = length ds.
Proof. revert g. induction ds as [|d ds IH]; intros g; cbn; [reflexivity|]. now rewrite IH. Qed.

Lemma digits_range ds g :
  Forall (fun d => 0 < d) ds -> Forall2 (fun d x => 0 <= x < d) ds (digits ds g).
Proof.
  intros H. revert g. induction H as [|d ds Hd _ IH]; intros g; cbn; constructor; [|apply IH].
  now apply Z.mod_pos_bound.
Qed.

Lemma mval_digits ds g :
  Forall (fun d => 0 < d) ds -> mval ds (digits ds g) = g mod zprod ds.
Proof.
  intros H. revert g. induction H as [|d ds Hd Hds IH]; intros g.
  - unfold zprod. cbn [mval digits fold_right]. now rewrite Z.mod_1_r.
  - cbn [mval digits]. rewrite IH, zprod_cons.
    rewrite (Z.rem_mul_r g d (zprod ds)); [reflexivity|lia|].
    now apply zprod_pos.
Qed.

Lemma mval_bound ds xs :
  Forall2 (fun d x => 0 <= x < d) ds xs -> 0 <= mval ds xs < zprod ds.
Proof.
  induction 1 as [|d x ds xs Hx _ IH]; cbn [mval]; [unfold zprod; cbn; lia|].
  rewrite zprod_cons. nia.
Qed.

Lemma digits_mval ds xs :
  Forall2 (fun d x => 0 <= x < d) ds xs -> digits ds (mval ds xs) = xs.
Proof.
  induction 1 as [|d x ds xs Hx H IH]; [reflexivity|]. cbn [mval digits].
  rewrite (Z.mul_comm d), Z_mod_plus_full, Z.div_add by lia.
  rewrite Z.mod_small, Z.div_small by lia. now rewrite Z.add_0_l, IH.
Qed.

(** * Position of a tuple in [combinations] *)
Fixpoint pos (ds xs : list Z) : Z :=
  match ds, xs with
  | d :: ds', x :: xs' => x * zprod ds' + pos ds' xs'
  | _, _ => 0
  end.

Lemma zprod_rev l : zprod (rev l) = zprod l.
Proof.
  induction l as [|x l IH]; [reflexivity|]. cbn [rev]. rewrite zprod_app, IH, !zprod_cons.
  change (zprod []) with 1. ring.
Qed.

Lemma pos_mval ds xs : length ds = length xs -> pos ds xs = mval (rev ds) (rev xs).
Proof.
  revert xs. induction ds as [|d ds IH]; intros [|x xs] H; cbn in H; try discriminate; [reflexivity|].
  cbn [pos rev]. rewrite mval_app by (rewrite !rev_length; lia).
  rewrite zprod_rev, <- IH by lia. cbn [mval]. ring.
Qed.

Lemma pos_bound ds xs :
  Forall2 (fun d x => 0 <= x < d) ds xs -> 0 <= pos ds xs < zprod ds.
Proof.
  induction 1 as [|d x ds xs Hx _ IH]; cbn [pos]; [unfold zprod; cbn; lia|].
  rewrite zprod_cons. nia.
Qed.

Lemma pos_inj ds xs ys :
  Forall2 (fun d x => 0 <= x < d) ds xs -> Forall2 (fun d x => 0 <= x < d) ds ys ->
  pos ds xs = pos ds ys -> xs = ys.
Proof.
  intros H. revert ys. induction H as [|d x ds xs Hx H IH]; intros ys Hy Heq;
    inversion Hy as [|? y ? ys' Hy1 Hy2]; subst; [reflexivity|].
  cbn [pos] in Heq. pose proof (pos_bound _ _ H). pose proof (pos_bound _ _ Hy2).
  assert (x = y) by nia. subst. f_equal. apply IH; [assumption|lia].
Qed.

Lemma flat_map_nth {A B} (f : A -> list B) (l : list A) (m : nat) (p q : nat) (x : A) :
  (forall y, In y l -> length (f y) = m) -> nth_error l p = Some x -> (q < m)%nat ->
  nth_error (flat_map f l) (p * m + q) = nth_error (f x) q.
Proof.
  revert p. induction l as [|y l IH]; intros p Hm Hp Hq; [now destruct p|].
  cbn [flat_map]. destruct p as [|p].
  - cbn in Hp. injection Hp as ->. cbn. rewrite nth_error_app1; [reflexivity|].
    rewrite Hm; [assumption|now left].
  - cbn in Hp. assert (Hy : length (f y) = m) by (apply Hm; now left).
    rewrite nth_error_app2; rewrite Hy; [|cbn; lia].
    replace (S p * m + q - m)%nat with (p * m + q)%nat by (cbn; lia).
    apply IH; try assumption. intros z Hz. apply Hm. now right.
Qed.

Lemma combinations_length vss :
  Z.of_nat (length (combinations vss)) = zprod (map (fun vs => Z.of_nat (length vs)) vss).
Proof.
  induction vss as [|vs vss IH]; [reflexivity|]. cbn [combinations map]. rewrite zprod_cons.
  rewrite <- IH. induction vs as [|v vs IHv]; [reflexivity|].
  cbn [flat_map]. rewrite app_length, map_length, Nat2Z.inj_add, IHv.
  cbn [length]. rewrite Nat2Z.inj_succ. ring.
Qed.

Lemma combinations_nth vss ps tuple :
  Forall2 (fun vs p => 0 <= p < Z.of_nat (length vs)) vss ps ->
  Forall2 (fun '(vs, p) t => nth_error vs (Z.to_nat p) = Some t) (combine vss ps) tuple ->
  nth_error (combinations vss)
    (Z.to_nat (pos (map (fun vs => Z.of_nat (length vs)) vss) ps)) = Some tuple.
Proof.
  intros H. revert tuple. induction H as [|vs p vss ps Hp H IH]; intros tuple Ht.
  - cbn in Ht. inversion Ht; subst. reflexivity.
  - cbn [combine] in Ht. inversion Ht as [|? t ? ts Ht1 Ht2]; subst.
    specialize (IH ts Ht2). cbn [map pos combinations].
    set (dims := map (fun vs => Z.of_nat (length vs)) vss) in *.
    assert (Hb : 0 <= pos dims ps < zprod dims).
    { apply pos_bound. unfold dims. clear -H. induction H; cbn; constructor; auto. }
    assert (Hprod : zprod dims = Z.of_nat (length (combinations vss)))
      by (unfold dims; now rewrite <- combinations_length).
    assert (Hpre : Z.to_nat (p * zprod dims + pos dims ps)
              = (Z.to_nat p * length (combinations vss) + Z.to_nat (pos dims ps))%nat).
    { rewrite Hprod. rewrite Z2Nat.inj_add, Z2Nat.inj_mul, Nat2Z.id; nia. }
    rewrite Hpre. rewrite (flat_map_nth _ _ (length (combinations vss)) _ _ t).
    + rewrite nth_error_map, IH. reflexivity.
    + intros v _. now rewrite map_length.
    + exact Ht1.
    + lia.
Qed.

(** * Arrays (C09) *)
Lemma access_loop_spec dims k access expr :
  access_loop dims k access expr = expr + access_loop dims k access 0.
Proof.
  revert k expr. induction access as [|a access IH]; intros k expr; cbn [access_loop]; [ring|].
  rewrite IH. rewrite (IH (S k) (0 + _)). ring.
Qed.

Lemma access_loop_pos dims0 dims access :
  length dims = length access ->
  access_loop (dims0 ++ dims) (length dims0) access 0 = pos dims access.
Proof.
  revert dims0 access. induction dims as [|d dims IH]; intros dims0 [|a access] H; cbn in H;
    try discriminate; [reflexivity|].
  cbn [access_loop pos]. rewrite access_loop_spec.
  replace (S (length dims0)) with (length (dims0 ++ [d])) by (rewrite app_length; cbn; lia).
  replace (dims0 ++ d :: dims) with ((dims0 ++ [d]) ++ dims) by now rewrite <- app_assoc.
  rewrite IH by lia. rewrite skipn_app, skipn_all, Nat.sub_diag. cbn [skipn app]. ring.
Qed.

Lemma access_to_sympy_pos dims access :
  length dims = length access -> access_to_sympy dims access = pos dims access.
Proof. intros H. apply (access_loop_pos [] dims access H). Qed.

Lemma fold_left_mul l a : fold_left Z.mul l a = a * zprod l.
Proof.
  revert a. induction l as [|x l IH]; intros a; cbn [fold_left].
  - unfold zprod; cbn; ring.
  - rewrite IH, zprod_cons. ring.
Qed.

Lemma array_elements_prod dims : array_elements dims = zprod dims.
Proof. unfold array_elements. rewrite fold_left_mul. ring. Qed.

Lemma zrange_length n : length (zrange n) = Z.to_nat n.
Proof. unfold zrange. now rewrite map_length, seq_length. Qed.

Lemma zrange_nth n i : 0 <= i < n -> nth_error (zrange n) (Z.to_nat i) = Some i.
Proof.
  intros H. unfold zrange. rewrite nth_error_map.
  rewrite (nth_error_nth' _ 0%nat) by (rewrite seq_length; lia).
  rewrite seq_nth by lia. cbn [option_map]. f_equal. lia.
Qed.

Lemma in_range_pos dims access : in_range dims access -> Forall (fun d => 0 < d) dims.
Proof. induction 1; constructor; [lia|assumption]. Qed.

Lemma map_zrange_length dims :
  Forall (fun d => 0 < d) dims ->
  map (fun vs => Z.of_nat (length vs)) (map zrange dims) = dims.
Proof.
  induction 1 as [|d dims Hd _ IH]; [reflexivity|]. cbn [map]. rewrite zrange_length, IH.
  f_equal. lia.
Qed.

Lemma row_major_exact dims access :
  in_range dims access ->
  nth_error (row_major dims) (Z.to_nat (access_to_sympy dims access)) = Some access
  /\ 0 <= access_to_sympy dims access < array_elements dims.
Proof.
  intros H. pose proof (F2_length _ _ _ H) as Hl.
  rewrite access_to_sympy_pos by assumption. rewrite array_elements_prod. split.
  - unfold row_major.
    rewrite <- (map_zrange_length dims) at 2 by (eapply in_range_pos; eassumption).
    apply combinations_nth.
    + clear Hl. induction H; cbn; constructor; [rewrite zrange_length; lia|assumption].
    + clear Hl. induction H; cbn; constructor; [now apply zrange_nth|assumption].
  - now apply pos_bound.
Qed.

Lemma access_injective dims a b :
  in_range dims a -> in_range dims b -> access_to_sympy dims a = access_to_sympy dims b -> a = b.
Proof.
  intros Ha Hb. rewrite !access_to_sympy_pos by (eapply F2_length; eassumption).
  now apply pos_inj.
Qed.

Lemma Forall2_rev {A B} (R : A -> B -> Prop) l l' : Forall2 R l l' -> Forall2 R (rev l) (rev l').
Proof.
  induction 1 as [|x y l l' H _ IH]; [constructor|]. cbn. apply Forall2_app; auto.
Qed.

Lemma access_surjective dims off :
  Forall (fun d => 0 < d) dims -> 0 <= off < array_elements dims ->
  exists access, in_range dims access /\ access_to_sympy dims access = off.
Proof.
  intros Hd Hoff. rewrite array_elements_prod in Hoff.
  assert (Hr : Forall (fun d => 0 < d) (rev dims)) by now apply Forall_rev.
  pose proof (digits_range _ off Hr) as Hdr.
  exists (rev (digits (rev dims) off)). split.
  - apply Forall2_rev in Hdr. now rewrite rev_involutive in Hdr.
  - rewrite access_to_sympy_pos by now rewrite rev_length, digits_length, rev_length.
    rewrite pos_mval by now rewrite rev_length, digits_length, rev_length.
    rewrite rev_involutive, mval_digits by assumption. rewrite zprod_rev.
    apply Z.mod_small. lia.
Qed.

(** * Loops *)
Lemma int_ceil_spec x y : 0 < y -> y * int_ceil x y - y < x <= y * int_ceil x y.
Proof.
  intros Hy. unfold int_ceil. pose proof (Z.div_mod (- x) y ltac:(lia)).
  pose proof (Z.mod_pos_bound (- x) y Hy). nia.
Qed.

Lemma for_values_map start stop incr :
  0 < incr -> start <= stop ->
  for_values start stop incr (map (fun k => start + Z.of_nat k * incr)
                                (seq 0 (Z.to_nat (int_ceil (stop - start) incr)))).
Proof.
  intros Hi. remember (Z.to_nat (int_ceil (stop - start) incr)) as n eqn:En.
  revert start En. induction n as [|n IH]; intros start En Hle.
  - pose proof (int_ceil_spec (stop - start) incr Hi). constructor. nia.
  - pose proof (int_ceil_spec (stop - start) incr Hi) as Hc.
    cbn [seq map].
    replace (start + Z.of_nat 0 * incr) with start by lia.
    apply fv_step; [nia|].
    rewrite <- seq_shift, map_map.
    erewrite map_ext; [|intros k; replace (start + Z.of_nat (S k) * incr)
       with ((start + incr) + Z.of_nat k * incr) by lia; reflexivity].
    destruct (Z_le_gt_dec (start + incr) stop) as [Hs|Hs].
    + apply IH; [|assumption].
      pose proof (int_ceil_spec (stop - (start + incr)) incr Hi) as Hc2.
      assert (int_ceil (stop - start) incr = int_ceil (stop - (start + incr)) incr + 1) by nia.
      lia.
    + assert (n = 0%nat) by nia. subst n. cbn. constructor. lia.
Qed.

Lemma for_values_unique start stop incr vs vs' :
  for_values start stop incr vs -> for_values start stop incr vs' -> vs = vs'.
Proof.
  intros H. revert vs'. induction H as [s e i Hs|s e i vs Hs H IH]; intros vs' H';
    inversion H'; subst; try lia; [reflexivity|]. f_equal. now apply IH.
Qed.

Lemma for_values_length start stop incr vs :
  0 < incr -> start <= stop -> for_values start stop incr vs ->
  Z.of_nat (length vs) = int_ceil (stop - start) incr.
Proof.
  intros Hi Hle H.
  rewrite (for_values_unique _ _ _ _ _ H (for_values_map start stop incr Hi Hle)).
  rewrite map_length, seq_length. pose proof (int_ceil_spec (stop - start) incr Hi). nia.
Qed.


Lemma executes_lengths stack vss :
  proper stack ->
  Forall2 (fun b vs => for_values (fst (fst b)) (snd (fst b)) (snd b) vs) (bounds stack) vss ->
  map (fun vs => Z.of_nat (length vs)) vss = map loop_length stack.
Proof.
  intros Hp. revert vss. induction Hp as [|l stack [Hl Hi] _ IH]; intros vss H; inversion H; subst;
    [reflexivity|].
  cbn [map]. f_equal; [|now apply IH]. cbn in *. now apply for_values_length.
Qed.

Lemma fold_left_len stack a :
  fold_left (fun total l => total * loop_length l) stack a = a * zprod (map loop_length stack).
Proof.
  revert a. induction stack as [|l stack IH]; intros a; cbn [fold_left map].
  - unfold zprod; cbn; ring.
  - rewrite IH, zprod_cons. ring.
Qed.

Lemma iteration_length_prod stack : iteration_length stack = zprod (map loop_length stack).
Proof.
  unfold iteration_length. rewrite fold_left_len, map_rev, zprod_rev. ring.
Qed.

Lemma iteration_length_executed stack its :
  proper stack -> executes (bounds stack) its -> iteration_length stack = Z.of_nat (length its).
Proof.
  intros Hp (vss & H & ->). rewrite combinations_length, iteration_length_prod.
  f_equal. symmetry. now apply executes_lengths.
Qed.

(** executing terminates: there always is a list of iterations *)
Lemma executes_exists stack : proper stack -> exists its, executes (bounds stack) its.
Proof.
  intros Hp.
  assert (exists vss, Forall2 (fun b vs => for_values (fst (fst b)) (snd (fst b)) (snd b) vs)
                        (bounds stack) vss) as [vss H].
  { induction Hp as [|l stack [Hl Hi] _ [vss IH]]; [exists []; constructor|].
    eexists. cbn. constructor; [|exact IH]. cbn. now apply for_values_map. }
  exists (combinations vss), vss. auto.
Qed.

(** ** C11: unit increments *)

Lemma unit_proper stack : unit_stack stack -> proper stack.
Proof. intros H. eapply Forall_impl; [|exact H]. cbn. intros l []. lia. Qed.

Lemma unit_length l : lincr l = 1 -> loop_length l = lend l - lstart l.
Proof. intros H. unfold loop_length, int_ceil. rewrite H, Z.div_1_r. lia. Qed.

Lemma gi_to_indices_digits rstack total g :
  unit_stack rstack -> 0 < total ->
  gi_to_indices_loop rstack total 1 g
  = combine (map lvar rstack)
      (map (fun '(l, d) => lstart l + d)
         (combine rstack (digits (map loop_length rstack) (g / total)))).
Proof.
  intros H. revert total. induction H as [|l rstack [Hl Hi] H IH]; intros total Ht; [reflexivity|].
  cbn [gi_to_indices_loop map digits combine].
  rewrite Hi, Z.mul_1_r. rewrite Z.mul_1_r.
  f_equal. rewrite IH.
  - do 4 f_equal. rewrite <- Z.div_div; [reflexivity|lia|]. rewrite unit_length by assumption. lia.
  - rewrite unit_length by assumption. nia.
Qed.

Lemma gi_loop_acc rstack total ind acc :
  gi_loop rstack total ind acc = acc + gi_loop rstack total ind 0.
Proof.
  revert total acc. induction rstack as [|l r IH]; intros total acc; cbn [gi_loop]; [ring|].
  rewrite IH. rewrite (IH _ (0 + _)). ring.
Qed.

Lemma gi_loop_mval rstack total ind :
  gi_loop rstack total ind 0
  = total * mval (map loop_length rstack) (map (fun l => ind (lvar l) - lstart l) rstack).
Proof.
  revert total. induction rstack as [|l r IH]; intros total; cbn [gi_loop map mval]; [ring|].
  rewrite gi_loop_acc, IH. ring.
Qed.

Lemma lookup_combine names vals n v :
  NoDup names -> In (n, v) (combine names vals) -> lookup (combine names vals) n = v.
Proof.
  revert vals. induction names as [|m names IH]; intros vals Hnd Hin; [now cbn in Hin|].
  destruct vals as [|w vals]; [now cbn in Hin|]. cbn [combine lookup] in *.
  inversion Hnd; subst. destruct Hin as [[= -> ->]|Hin].
  - now rewrite String.eqb_refl.
  - destruct (String.eqb_spec n m) as [->|_]; [|now apply IH].
    exfalso. apply H1. now apply in_combine_l in Hin.
Qed.

Lemma map_lookup_combine (names : list string) (vals : list Z) :
  NoDup names -> length names = length vals -> map (lookup (combine names vals)) names = vals.
Proof.
  intros Hnd Hlen. apply nth_ext with (d := 0) (d' := 0); [rewrite map_length; lia|].
  intros n Hn. rewrite map_length in Hn.
  rewrite (nth_indep _ 0 (lookup (combine names vals) ""%string)) by (rewrite map_length; lia).
  rewrite map_nth. apply lookup_combine; [assumption|].
  rewrite <- (combine_nth names vals n ""%string 0 Hlen).
  apply nth_In. rewrite combine_length. lia.
Qed.

Lemma map_lookup_sub (stack : list loop) (ind : string -> Z) vals :
  map ind (map lvar stack) = vals ->
  map (fun l => ind (lvar l) - lstart l) stack
  = map (fun '(l, v) => v - lstart l) (combine stack vals).
Proof.
  revert vals. induction stack as [|l stack IH]; intros vals H; [reflexivity|].
  cbn [map] in H. destruct vals as [|v vals]; [discriminate|]. injection H as Hv Hs.
  cbn [map combine]. f_equal; [now rewrite Hv|]. now apply IH.
Qed.

Lemma sub_start_add stack ds :
  length stack = length ds ->
  map (fun '(l, v) => v - lstart l)
    (combine stack (map (fun '(l, d) => lstart l + d) (combine stack ds))) = ds.
Proof.
  revert ds. induction stack as [|l stack IH]; intros [|d ds] H; cbn in H; try discriminate;
    [reflexivity|]. cbn [combine map]. f_equal; [lia|]. apply IH. lia.
Qed.

Lemma unit_lengths_pos stack : unit_stack stack -> Forall (fun d => 0 < d) (map loop_length stack).
Proof.
  induction 1 as [|l stack [Hl Hi] _ IH]; cbn; constructor; [|assumption].
  rewrite unit_length by assumption. lia.
Qed.

Lemma unit_stack_rev stack : unit_stack stack -> unit_stack (rev stack).
Proof. apply Forall_rev. Qed.

Lemma combine_map_r {A B C} (f : B -> C) (l : list A) l' :
  combine l (map f l') = map (fun '(a, b) => (a, f b)) (combine l l').
Proof.
  revert l'. induction l as [|a l IH]; intros [|b l']; cbn; try reflexivity. now rewrite IH.
Qed.

Lemma iterator_roundtrip stack g :
  unit_stack stack -> NoDup (map lvar stack) -> 0 <= g < iteration_length stack ->
  indices_to_global_iterator stack (lookup (global_iterator_to_indices stack g)) = g.
Proof.
  intros Hu Hnd Hg. unfold indices_to_global_iterator, global_iterator_to_indices.
  rewrite gi_loop_mval. pose proof (unit_stack_rev _ Hu) as Hur.
  rewrite gi_to_indices_digits by (try assumption; lia). rewrite Z.div_1_r.
  set (ds := digits (map loop_length (rev stack)) g).
  assert (Hlen : length (rev stack) = length ds) by (unfold ds; now rewrite digits_length, map_length).
  erewrite (map_lookup_sub (rev stack)); [|apply map_lookup_combine].
  - rewrite sub_start_add by assumption. unfold ds. rewrite mval_digits by now apply unit_lengths_pos.
    rewrite map_rev, zprod_rev, <- iteration_length_prod, Z.mul_1_l. now apply Z.mod_small.
  - rewrite map_rev. now apply NoDup_rev.
  - rewrite map_length, map_length, combine_length, Hlen. lia.
Qed.

Lemma for_values_unit_nth start stop vs d :
  start <= stop -> for_values start stop 1 vs -> 0 <= d < stop - start ->
  nth_error vs (Z.to_nat d) = Some (start + d).
Proof.
  intros Hle H Hd.
  rewrite (for_values_unique _ _ _ _ _ H (for_values_map start stop 1 ltac:(lia) Hle)).
  rewrite nth_error_map. unfold int_ceil. rewrite Z.div_1_r.
  rewrite (nth_error_nth' _ 0%nat) by (rewrite seq_length; lia).
  rewrite seq_nth by lia. cbn [option_map]. f_equal. lia.
Qed.

Lemma combine_rev {A B} (l : list A) (l' : list B) :
  length l = length l' -> combine (rev l) (rev l') = rev (combine l l').
Proof.
  revert l'. induction l as [|a l IH]; intros [|b l'] H; cbn in H; try discriminate; [reflexivity|].
  cbn [rev combine]. rewrite <- IH by lia.
  assert (Hl : length (rev l) = length (rev l')) by (rewrite !rev_length; lia).
  revert Hl. generalize (rev l) as x, (rev l') as y.
  induction x as [|u x IHx]; intros [|w y] Hl; cbn in Hl; try discriminate; [reflexivity|].
  cbn. now rewrite IHx by lia.
Qed.

Lemma iterator_is_execution_order stack its g :
  unit_stack stack -> executes (bounds stack) its -> 0 <= g < Z.of_nat (length its) ->
  exists tuple, nth_error its (Z.to_nat g) = Some tuple
    /\ rev (global_iterator_to_indices stack g) = combine (map lvar stack) tuple.
Proof.
  intros Hu Hex Hg.
  pose proof (iteration_length_executed _ _ (unit_proper _ Hu) Hex) as Hlen.
  destruct Hex as (vss & Hv & ->).
  unfold global_iterator_to_indices. pose proof (unit_stack_rev _ Hu) as Hur.
  rewrite gi_to_indices_digits by (try assumption; lia). rewrite Z.div_1_r.
  set (ds := digits (map loop_length (rev stack)) g).
  assert (Hdl : length (rev stack) = length ds) by (unfold ds; now rewrite digits_length, map_length).
  assert (Hdr : Forall2 (fun d x => 0 <= x < d) (map loop_length stack) (rev ds)).
  { pose proof (digits_range (map loop_length (rev stack)) g (unit_lengths_pos _ Hur)) as H.
    apply Forall2_rev in H. now rewrite <- map_rev, rev_involutive in H. }
  exists (map (fun '(l, d) => lstart l + d) (combine stack (rev ds))). split.
  - pose proof (executes_lengths _ _ (unit_proper _ Hu) Hv) as Hls.
    replace g with (pos (map (fun vs => Z.of_nat (length vs)) vss) (rev ds)).
    + apply combinations_nth.
      * rewrite <- Hls in Hdr. clear -Hdr. revert Hdr. generalize (rev ds) as xs.
        induction vss as [|vs vss IH]; intros xs H; inversion H; subst; constructor; auto.
      * clear Hdl Hur Hg Hls Hlen. revert vss Hv Hdr. generalize (rev ds) as xs.
        induction Hu as [|l stack [Hl Hi] Hu IH]; intros xs vss Hv Hdr.
        -- inversion Hdr; subst. inversion Hv; subst. constructor.
        -- inversion Hdr as [|? x ? xs' Hx Hdr']; subst.
           inversion Hv as [|? vs ? vss' Hv1 Hv2]; subst. cbn [combine map].
           constructor; [|now apply IH].
           cbn in Hv1. rewrite Hi in Hv1. rewrite unit_length in Hx by assumption.
           apply (for_values_unit_nth _ (lend l)); [lia|assumption|lia].
    + rewrite Hls. rewrite pos_mval by (rewrite map_length, rev_length, <- Hdl, rev_length; reflexivity).
      rewrite rev_involutive, <- map_rev. unfold ds. rewrite mval_digits by now apply unit_lengths_pos.
      rewrite map_rev, zprod_rev, <- iteration_length_prod. apply Z.mod_small. lia.
  - rewrite <- combine_rev.
    + rewrite map_rev, rev_involutive. f_equal. rewrite <- map_rev. f_equal.
      rewrite <- combine_rev by assumption. now rewrite rev_involutive.
    + rewrite !map_length, combine_length, Hdl. lia.
Qed.

Lemma gi_to_indices_length r a b g : length (gi_to_indices_loop r a b g) = length r.
Proof.
  revert a b. induction r as [|x r IH]; intros a b; cbn; [reflexivity|]. now rewrite IH.
Qed.

Lemma indices_of_iteration stack its g tuple :
  unit_stack stack -> NoDup (map lvar stack) -> executes (bounds stack) its ->
  nth_error its (Z.to_nat g) = Some tuple -> 0 <= g ->
  indices_to_global_iterator stack (lookup (combine (map lvar stack) tuple)) = g.
Proof.
  intros Hu Hnd Hex Hn Hg.
  assert (Hlt : 0 <= g < Z.of_nat (length its)).
  { assert (Z.to_nat g < length its)%nat by (apply nth_error_Some; congruence). lia. }
  destruct (iterator_is_execution_order _ _ _ Hu Hex Hlt) as (t & Ht & Hidx).
  rewrite Hn in Ht. injection Ht as <-.
  pose proof (iteration_length_executed _ _ (unit_proper _ Hu) Hex) as Hlen.
  etransitivity; [|exact (iterator_roundtrip stack g Hu Hnd ltac:(lia))].
  unfold indices_to_global_iterator. rewrite !gi_loop_mval. do 2 f_equal.
  apply map_ext_in. intros l Hl. f_equal.
  apply in_rev in Hl. rewrite <- Hidx.
  (* lookup in a dictionary with unique keys does not depend on the order *)
  assert (Hk : NoDup (map fst (global_iterator_to_indices stack g))).
  { assert (E : map fst (rev (global_iterator_to_indices stack g)) = map lvar stack).
    { rewrite Hidx. apply (f_equal (@length _)) in Hidx.
      rewrite rev_length, combine_length in Hidx.
      assert (Hll : length (global_iterator_to_indices stack g) = length stack).
      { unfold global_iterator_to_indices. now rewrite gi_to_indices_length, rev_length. }
      rewrite map_length in Hidx.
      assert (Hle : (length stack <= length tuple)%nat) by lia.
      clear -Hle. revert tuple Hle. induction stack as [|x s IH]; intros [|t ts] H; cbn in *;
        try reflexivity; try lia. now rewrite IH by lia. }
    rewrite map_rev in E. rewrite <- (rev_involutive (map fst _)), E. now apply NoDup_rev. }
  revert Hk. generalize (global_iterator_to_indices stack g) as d. clear.
  intros d Hk.
  assert (Hin : forall d k v, NoDup (map fst d) -> In (k, v) d -> lookup d k = v).
  { clear. induction d as [|[k' v'] d IH]; intros k v Hnd Hin; [easy|].
    cbn in *. inversion Hnd; subst. destruct Hin as [[= -> ->]|Hin].
    - now rewrite String.eqb_refl.
    - destruct (String.eqb_spec k k') as [->|_]; [|now apply IH].
      exfalso. apply H1. apply in_map_iff. now exists (k', v). }
  assert (Hno : forall d k, ~ In k (map fst d) -> lookup d k = 0).
  { clear. induction d as [|[k' v'] d IH]; intros k Hk; [reflexivity|].
    cbn in *. destruct (String.eqb_spec k k') as [->|_]; [tauto|]. apply IH. tauto. }
  destruct (in_dec String.string_dec (lvar l) (map fst d)) as [H|H].
  - apply in_map_iff in H as ([k v] & Hkv & H). cbn in Hkv. subst k.
    rewrite (Hin _ _ v Hk H). apply Hin; [rewrite map_rev; now apply NoDup_rev|].
    now apply -> in_rev.
  - rewrite (Hno _ _ H). apply Hno. rewrite map_rev. intros H'. now apply in_rev in H'.
Qed.

Lemma max_iteration_unit stack :
  unit_stack stack -> NoDup (map lvar stack) ->
  max_global_iteration stack = iteration_length stack - 1.
Proof.
  intros Hu Hnd. unfold max_global_iteration, indices_to_global_iterator.
  rewrite gi_loop_mval, Z.mul_1_l.
  set (vals := map (fun l => lend l - 1) stack).
  assert (Hc : map (fun l => (lvar l, lend l - 1)) stack = combine (map lvar stack) vals).
  { unfold vals. clear. induction stack as [|l s IH]; cbn; [reflexivity|]. now rewrite IH. }
  rewrite Hc.
  assert (Hr : map (fun l => lookup (combine (map lvar stack) vals) (lvar l) - lstart l) (rev stack)
          = map (fun l => loop_length l - 1) (rev stack)).
  { rewrite !map_rev. f_equal.
    rewrite (map_lookup_sub stack _ vals).
    - unfold vals. clear -Hu. induction Hu as [|l s [Hl Hi] _ IH]; cbn; [reflexivity|].
      rewrite IH. f_equal. rewrite unit_length by assumption. lia.
    - apply map_lookup_combine; [assumption|]. unfold vals. now rewrite !map_length. }
  rewrite Hr, iteration_length_prod, <- zprod_rev, <- map_rev.
  pose proof (unit_stack_rev _ Hu) as Hur. revert Hur. generalize (rev stack) as r. clear.
  induction r as [|l r IH]; intros H; [reflexivity|].
  inversion H; subst. cbn [map mval]. rewrite IH by assumption. rewrite zprod_cons. ring.
Qed.

(** Every strided loop with at least two iterations is enumerated wrongly. *)
Lemma strided_wrong v s e i vs :
  2 <= i -> s <= e -> for_values s e i vs -> (2 <= length vs)%nat ->
  exists g, 0 <= g < iteration_length [mkloop v s e i] /\
    map (fun x => Some x) (map snd (global_iterator_to_indices [mkloop v s e i] g))
      <> [nth_error vs (Z.to_nat g)].
Proof.
  intros Hi Hle H Hlen. pose proof (for_values_length s e i vs ltac:(lia) Hle H) as Hl.
  set (n := int_ceil (e - s) i) in *.
  assert (Hit : iteration_length [mkloop v s e i] = n) 
    by (rewrite iteration_length_prod; unfold zprod; cbn [map fold_right]; unfold loop_length;
        cbn [lend lstart lincr]; fold n; lia).
  exists (n - 1). split; [lia|].
  rewrite (for_values_unique _ _ _ _ _ H (for_values_map s e i ltac:(lia) Hle)).
  rewrite nth_error_map. fold n.
  rewrite (nth_error_nth' _ 0%nat) by (rewrite seq_length; lia).
  rewrite seq_nth by lia. cbn [global_iterator_to_indices rev app gi_to_indices_loop map snd lvar
     lstart lincr]. cbn [option_map].
  intros [= Heq].
  unfold loop_length in Heq; cbn [lend lstart lincr] in Heq. fold n in Heq.
  rewrite Z.mul_1_r, Z.div_1_r in Heq.
  pose proof (Z.mod_pos_bound ((n - 1) * i) n ltac:(lia)) as Hb.
  assert ((n - 1) * i < n) by lia. nia.
Qed.

(** ** C12: the other two counts *)
Lemma divisible_length l :
  0 < lincr l -> (lincr l | lend l - lstart l) ->
  lend l - lstart l = loop_length l * lincr l.
Proof.
  intros Hi [k Hk]. unfold loop_length, int_ceil. rewrite Hk.
  replace (- (k * lincr l)) with ((- k) * lincr l) by ring. rewrite Z.div_mul by lia. lia.
Qed.

Lemma region_iterations_exact stack a :
  Forall (fun l => 0 < lincr l /\ (lincr l | lend l - lstart l)) stack ->
  fold_left (fun acc l => acc * ((lend l - lstart l) / lincr l)) stack a
  = a * zprod (map loop_length stack).
Proof.
  intros H. revert a. induction H as [|l stack [Hi Hd] _ IH]; intros a; cbn [fold_left map].
  - unfold zprod; cbn; ring.
  - rewrite IH, zprod_cons. rewrite (divisible_length l Hi Hd), Z.div_mul by lia. ring.
Qed.

Lemma bench_iterations_exact stack a :
  Forall (fun l => 0 < lincr l /\ (lincr l | lend l - lstart l)) stack ->
  (fold_left (fun acc l => acc * (inject_Z (lend l - lstart l) / inject_Z (lincr l)))%Q stack a
  == a * inject_Z (zprod (map loop_length stack)))%Q.
Proof.
  intros H. revert a. induction H as [|l stack [Hi Hd] _ IH]; intros a; cbn [fold_left map].
  - unfold zprod; cbn. field.
  - rewrite IH, zprod_cons, (divisible_length l Hi Hd), !inject_Z_mult.
    field. intros E. unfold Qeq in E. cbn in E. lia.
Qed.

Lemma counts_agree stack its :
  proper stack -> Forall (fun l => (lincr l | lend l - lstart l)) stack ->
  executes (bounds stack) its ->
  region_iterations stack = Z.of_nat (length its)
  /\ (bench_iterations stack == inject_Z (Z.of_nat (length its)))%Q.
Proof.
  intros Hp Hd Hex. rewrite <- (iteration_length_executed _ _ Hp Hex), iteration_length_prod.
  assert (H : Forall (fun l => 0 < lincr l /\ (lincr l | lend l - lstart l)) stack).
  { apply Forall_forall. intros l Hl. unfold proper in Hp. rewrite Forall_forall in Hp, Hd.
    specialize (Hp l Hl). specialize (Hd l Hl). tauto. }
  split.
  - unfold region_iterations. rewrite region_iterations_exact by assumption. ring.
  - unfold bench_iterations. rewrite bench_iterations_exact by assumption. ring.
Qed.

(** without divisibility the binary description never counts too many iterations *)
Lemma region_undercounts l :
  0 < lincr l -> (lend l - lstart l) / lincr l <= loop_length l <= (lend l - lstart l) / lincr l + 1.
Proof.
  intros Hi. unfold loop_length. pose proof (int_ceil_spec (lend l - lstart l) _ Hi).
  pose proof (Z.div_mod (lend l - lstart l) (lincr l) ltac:(lia)).
  pose proof (Z.mod_pos_bound (lend l - lstart l) (lincr l) Hi). nia.
Qed.

(** * Layout (C13) *)
Lemma land_lnot x m : Z.land x (Z.lnot m) = x - Z.land x m.
Proof. rewrite <- Z.ldiff_land. pose proof (Z.sub_nocarry_ldiff x (Z.land x m)) as H.
  rewrite H.
  - apply Z.bits_inj'. intros n Hn. rewrite !Z.ldiff_spec, Z.land_spec.
    destruct (Z.testbit x n), (Z.testbit m n); reflexivity.
  - apply Z.bits_inj'. intros n Hn. rewrite Z.ldiff_spec, Z.land_spec, Z.bits_0.
    destruct (Z.testbit x n), (Z.testbit m n); reflexivity.
Qed.

Lemma land_le_r x m : 0 <= m -> Z.land x m <= m.
Proof.
  intros Hm.
  assert (H : m - Z.land x m = Z.ldiff m x).
  { rewrite Z.land_comm. pose proof (Z.sub_nocarry_ldiff m (Z.land m x)) as H. rewrite H.
    - apply Z.bits_inj'. intros n Hn. rewrite !Z.ldiff_spec, Z.land_spec.
      destruct (Z.testbit x n), (Z.testbit m n); reflexivity.
    - apply Z.bits_inj'. intros n Hn. rewrite Z.ldiff_spec, Z.land_spec, Z.bits_0.
      destruct (Z.testbit x n), (Z.testbit m n); reflexivity. }
  assert (0 <= Z.ldiff m x) by (apply Z.ldiff_nonneg; now left). lia.
Qed.

Lemma padded_size_ge cl spacing bytes :
  1 <= cl -> bytes + spacing <= padded_size cl spacing bytes.
Proof.
  intros H. unfold padded_size. rewrite land_lnot.
  pose proof (land_le_r (bytes + spacing + cl - 1) (cl - 1) ltac:(lia)). lia.
Qed.

Lemma padded_size_lt cl spacing bytes :
  1 <= cl -> padded_size cl spacing bytes < bytes + spacing + cl.
Proof.
  intros H. unfold padded_size. rewrite land_lnot.
  assert (0 <= Z.land (bytes + spacing + cl - 1) (cl - 1)) by (apply Z.land_nonneg; lia). lia.
Qed.

Lemma padded_size_aligned k spacing bytes :
  0 <= k -> (2 ^ k | padded_size (2 ^ k) spacing bytes).
Proof.
  intros Hk. unfold padded_size. rewrite land_lnot.
  replace (2 ^ k - 1) with (Z.ones k) by (rewrite Z.ones_equiv; lia).
  rewrite Z.land_ones by assumption.
  set (x := bytes + spacing + 2 ^ k - 1).
  exists (x / 2 ^ k). pose proof (Z.div_mod x (2 ^ k) ltac:(apply Z.pow_nonzero; lia)). lia.
Qed.

Lemma layout_base_ge cl spacing base arrays n b s :
  1 <= cl -> 0 <= spacing -> Forall (fun a => 0 <= snd a) arrays ->
  In (n, b, s) (layout_loop cl spacing base arrays) -> base <= b.
Proof.
  intros Hcl Hsp H. revert base. induction H as [|[m w] arrays Hw H IH]; intros base Hin; [easy|].
  cbn in Hin. destruct Hin as [[= <- <- <-]|Hin]; [lia|].
  apply IH in Hin. pose proof (padded_size_ge cl spacing w Hcl). cbn in Hw. lia.
Qed.

Lemma layout_loop_disjoint cl spacing base arrays i j n1 b1 s1 n2 b2 s2 :
  1 <= cl -> 0 <= spacing -> Forall (fun a => 0 <= snd a) arrays ->
  nth_error (layout_loop cl spacing base arrays) i = Some (n1, b1, s1) ->
  nth_error (layout_loop cl spacing base arrays) j = Some (n2, b2, s2) ->
  (i < j)%nat -> b1 + s1 + spacing <= b2.
Proof.
  intros Hcl Hsp H. revert base i j. induction H as [|[m w] arrays Hw H IH];
    intros base i j Hi Hj Hij; [now destruct i|].
  cbn [layout_loop] in *. destruct i as [|i].
  - cbn in Hi. injection Hi as <- <- <-. destruct j as [|j]; [lia|]. cbn in Hj.
    apply nth_error_In in Hj. apply layout_base_ge in Hj; try assumption.
    pose proof (padded_size_ge cl spacing w Hcl). lia.
  - destruct j as [|j]; [lia|]. cbn in Hi, Hj. apply (IH _ i j Hi Hj). lia.
Qed.

Lemma layout_loop_names cl spacing base arrays :
  map (fun x => (fst (fst x), snd x)) (layout_loop cl spacing base arrays) = arrays.
Proof.
  revert base. induction arrays as [|[n w] arrays IH]; intros base; cbn; [reflexivity|].
  now rewrite IH.
Qed.

Lemma layout_loop_aligned k spacing base arrays n b s :
  0 <= k -> (2 ^ k | base) ->
  In (n, b, s) (layout_loop (2 ^ k) spacing base arrays) -> (2 ^ k | b).
Proof.
  intros Hk. revert base. induction arrays as [|[m w] arrays IH]; intros base Hb Hin; [easy|].
  cbn in Hin. destruct Hin as [[= <- <- <-]|Hin]; [assumption|].
  eapply IH; [|exact Hin]. apply Z.divide_add_r; [assumption|]. now apply padded_size_aligned.
Qed.

Section SortWithFacts.
  Context {A : Type} (leb : A -> A -> bool).
  Lemma insert_with_perm x l : Permutation (x :: l) (insert_with leb x l).
  Proof.
    induction l as [|y l IH]; cbn [insert_with]; [reflexivity|].
    destruct (leb x y); [reflexivity|]. rewrite perm_swap. now constructor.
  Qed.
  Lemma sort_with_perm l : Permutation l (sort_with leb l).
  Proof.
    induction l as [|x l IH]; cbn; [constructor|].
    etransitivity; [|apply insert_with_perm]. now constructor.
  Qed.
End SortWithFacts.

Lemma layout_perm cl spacing arrays :
  Permutation arrays (map (fun x => (fst (fst x), snd x)) (layout cl spacing arrays)).
Proof. unfold layout. rewrite layout_loop_names. apply sort_with_perm. Qed.

Lemma layout_disjoint cl spacing arrays n1 b1 s1 n2 b2 s2 :
  1 <= cl -> 0 <= spacing -> Forall (fun a => 0 <= snd a) arrays -> NoDup (map fst arrays) ->
  In (n1, b1, s1) (layout cl spacing arrays) -> In (n2, b2, s2) (layout cl spacing arrays) ->
  n1 <> n2 -> b1 + s1 + spacing <= b2 \/ b2 + s2 + spacing <= b1.
Proof.
  intros Hcl Hsp Hall Hnd H1 H2 Hne.
  assert (Hall' : Forall (fun a => 0 <= snd a)
            (sort_with (fun a b => String.leb (fst a) (fst b)) arrays)).
  { eapply Permutation_Forall; [apply sort_with_perm|assumption]. }
  apply In_nth_error in H1 as [i Hi]. apply In_nth_error in H2 as [j Hj].
  destruct (Nat.lt_trichotomy i j) as [Hij|[->|Hij]].
  - left. eapply layout_loop_disjoint; eassumption.
  - rewrite Hi in Hj. congruence.
  - right. eapply layout_loop_disjoint; eassumption.
Qed.

Lemma layout_nonneg cl spacing arrays n b s :
  1 <= cl -> 0 <= spacing -> Forall (fun a => 0 <= snd a) arrays ->
  In (n, b, s) (layout cl spacing arrays) -> 0 <= b.
Proof.
  intros. eapply layout_base_ge; [..|eassumption]; try assumption.
  eapply Permutation_Forall; [apply sort_with_perm|assumption].
Qed.

Lemma layout_aligned k spacing arrays n b s :
  0 <= k -> In (n, b, s) (layout (2 ^ k) spacing arrays) -> (2 ^ k | b).
Proof. intros Hk. apply layout_loop_aligned; [assumption|]. apply Z.divide_0_r. Qed.

Lemma access_inside base elem dims access :
  0 < elem -> in_range dims access ->
  base <= byte_offset base elem dims access
  /\ byte_offset base elem dims access + elem <= base + array_bytes elem dims.
Proof.
  intros He H. destruct (row_major_exact _ _ H) as [_ Hb]. unfold byte_offset, array_bytes. nia.
Qed.

Lemma access_elements base elem dims a b :
  0 < elem -> in_range dims a -> in_range dims b -> a <> b ->
  byte_offset base elem dims a + elem <= byte_offset base elem dims b
  \/ byte_offset base elem dims b + elem <= byte_offset base elem dims a.
Proof.
  intros He Ha Hb N.
  assert (access_to_sympy dims a <> access_to_sympy dims b).
  { intros E. apply N. now apply (access_injective dims). }
  unfold byte_offset. nia.
Qed.

Lemma access_element_number base elem dims access :
  in_range dims access ->
  exists i, nth_error (row_major dims) i = Some access /\ byte_offset base elem dims access = base + elem * Z.of_nat i.
Proof.
  intros H. destruct (row_major_exact _ _ H) as [Hn Hb].
  exists (Z.to_nat (access_to_sympy dims access)). split; [assumption|]. unfold byte_offset. rewrite Z2Nat.id by lia. ring.
Qed.

(** ** C12: exact boundary of the other counts *)
Lemma ceil_divides l : 0 < lincr l -> (lend l - lstart l) / lincr l = loop_length l -> (lincr l | lend l - lstart l).
Proof.
  intros Hi E. unfold loop_length in E. pose proof (int_ceil_spec (lend l - lstart l) _ Hi).
  pose proof (Z.div_mod (lend l - lstart l) (lincr l) ltac:(lia)). pose proof (Z.mod_pos_bound (lend l - lstart l) (lincr l) Hi).
  exists ((lend l - lstart l) / lincr l). nia.
Qed.
Lemma equal_factors A a B b : 0 <= a <= A -> 0 <= b <= B -> 0 < A -> 0 < B -> a * b = A * B -> a = A /\ b = B.
Proof. intros Ha Hb HA HB E. assert (a = A) by nia. subst. split; [reflexivity|nia]. Qed.
Lemma region_prod stack a : fold_left (fun acc l => acc * ((lend l - lstart l) / lincr l)) stack a = a * zprod (map (fun l => (lend l - lstart l) / lincr l) stack).
Proof.
  revert a. induction stack as [|l s IH]; intros a; cbn [fold_left map]; [unfold zprod; cbn; ring|]. rewrite IH, zprod_cons. ring.
Qed.
Definition nonempty (l : loop) : Prop := lstart l < lend l /\ 0 < lincr l.
Lemma length_pos l : nonempty l -> 0 < loop_length l.
Proof. intros [A B]. unfold loop_length. pose proof (int_ceil_spec (lend l - lstart l) _ B). nia. Qed.
Lemma lengths_pos stack : Forall nonempty stack -> 0 < zprod (map loop_length stack).
Proof. induction 1 as [|l s N _ IH]; cbn [map]; [unfold zprod; cbn; lia|]. rewrite zprod_cons. pose proof (length_pos l N). nia. Qed.
Lemma region_prod_bound stack : Forall nonempty stack -> 0 <= zprod (map (fun l => (lend l - lstart l) / lincr l) stack) <= zprod (map loop_length stack).
Proof.
  induction 1 as [|l s N H IH]; cbn [map]; [unfold zprod; cbn; lia|]. rewrite !zprod_cons. pose proof (length_pos l N). destruct N as [A B].
  pose proof (region_undercounts l B). pose proof (Z.div_pos (lend l - lstart l) (lincr l) ltac:(lia) B). nia.
Qed.
Lemma region_divides stack : Forall nonempty stack -> zprod (map (fun l => (lend l - lstart l) / lincr l) stack) = zprod (map loop_length stack) ->
  Forall (fun l => (lincr l | lend l - lstart l)) stack.
Proof.
  induction 1 as [|l s N H IH]; cbn [map]; [constructor|]. rewrite !zprod_cons. intros E.
  pose proof (length_pos l N) as P. pose proof (lengths_pos s H) as Q. pose proof (region_prod_bound s H) as R. destruct N as [A B].
  pose proof (region_undercounts l B) as U. pose proof (Z.div_pos (lend l - lstart l) (lincr l) ltac:(lia) B) as D.
  destruct (equal_factors _ _ _ _ (conj D (proj1 U)) R P Q E) as [E1 E2]. constructor; [now apply ceil_divides|now apply IH].
Qed.
(** The fractional count: numerators and denominators *)
Lemma bench_prod stack (a : Q) : Forall nonempty stack ->
  (fold_left (fun acc l => acc * (inject_Z (lend l - lstart l) / inject_Z (lincr l)))%Q stack a * inject_Z (zprod (map lincr stack)) == a * inject_Z (zprod (map (fun l => (lend l - lstart l)%Z) stack)))%Q.
Proof.
  intros H. revert a. induction H as [|l s [A B] _ IH]; intros a; cbn [fold_left map]; [unfold zprod; cbn; ring|].
  rewrite !zprod_cons, !inject_Z_mult. rewrite Qmult_comm, <- Qmult_assoc, (Qmult_comm (inject_Z (zprod _))), IH. field.
  intros E. unfold Qeq in E. cbn in E. lia.
Qed.
Lemma incr_pos stack : Forall nonempty stack -> 0 < zprod (map lincr stack).
Proof. induction 1 as [|l s [A B] _ IH]; cbn [map]; [unfold zprod; cbn; lia|]. rewrite zprod_cons. nia. Qed.
Lemma range_bound stack : Forall nonempty stack -> 0 <= zprod (map (fun l => lend l - lstart l) stack) <= zprod (map (fun l => loop_length l * lincr l) stack).
Proof.
  induction 1 as [|l s N H IH]; cbn [map]; [unfold zprod; cbn; lia|]. rewrite !zprod_cons. pose proof (length_pos l N). destruct N as [A B].
  unfold loop_length in *. pose proof (int_ceil_spec (lend l - lstart l) _ B). nia.
Qed.
Lemma range_pos stack : Forall nonempty stack -> 0 < zprod (map (fun l => loop_length l * lincr l) stack).
Proof. induction 1 as [|l s N H IH]; cbn [map]; [unfold zprod; cbn; lia|]. rewrite zprod_cons. pose proof (length_pos l N). destruct N. nia. Qed.
Lemma range_divides stack : Forall nonempty stack -> zprod (map (fun l => lend l - lstart l) stack) = zprod (map (fun l => loop_length l * lincr l) stack) ->
  Forall (fun l => (lincr l | lend l - lstart l)) stack.
Proof.
  induction 1 as [|l s N H IH]; cbn [map]; [constructor|]. rewrite !zprod_cons. intros E.
  pose proof (length_pos l N) as P. pose proof (range_pos s H) as Q. pose proof (range_bound s H) as R. destruct N as [A B].
  assert (U : lend l - lstart l <= loop_length l * lincr l). { unfold loop_length. pose proof (int_ceil_spec (lend l - lstart l) _ B). lia. }
  destruct (equal_factors (loop_length l * lincr l) (lend l - lstart l) (zprod (map (fun l => loop_length l * lincr l) s)) (zprod (map (fun l => lend l - lstart l) s))) as [E1 E2];
    [lia|exact R|nia|exact Q|exact E|]. constructor; [exists (loop_length l); exact E1|now apply IH].
Qed.
Lemma zprod_mul {A} (f g : A -> Z) l : zprod (map (fun x => f x * g x) l) = zprod (map f l) * zprod (map g l).
Proof. induction l as [|x l IH]; cbn [map]; [reflexivity|]. rewrite !zprod_cons, IH. ring. Qed.
Lemma counts_exact stack its : Forall nonempty stack -> executes (bounds stack) its ->
  (region_iterations stack = Z.of_nat (length its) <-> Forall (fun l => (lincr l | lend l - lstart l)) stack)
  /\ ((bench_iterations stack == inject_Z (Z.of_nat (length its)))%Q <-> Forall (fun l => (lincr l | lend l - lstart l)) stack).
Proof.
  intros N X. assert (Pr : proper stack). { eapply Forall_impl; [|exact N]. intros l [A B]. lia. }
  split; (split; [|intros D; now apply (counts_agree stack its)]); rewrite <- (iteration_length_executed _ _ Pr X), iteration_length_prod.
  - unfold region_iterations. rewrite region_prod, Z.mul_1_l. now apply region_divides.
  - intros E. apply range_divides; [exact N|]. rewrite zprod_mul. pose proof (bench_prod stack 1%Q N) as P. unfold bench_iterations in E. rewrite E in P.
    rewrite Qmult_1_l, <- inject_Z_mult in P. unfold Qeq in P. cbn in P. lia.
Qed.
