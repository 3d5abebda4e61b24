From Coq Require Import String Lia Permutation Lqa.
From Verif Require Import PyBase PyBaseFacts PyNum LoopModel LoopSpec LoopProofs AstModel AstSpec LCModel LCSpec FrontModel FrontSpec FrontDistance LruSpec LruProofs LruLink TraceModel TraceSpec TraceProofs SimModel SimSpec SimProofs CsimModel CsimSpec.
Local Open Scope list_scope.
Local Open Scope Z_scope.

(** ** Renaming of lines *)
Section Rename.
  Context {X : Type}.
  Variables (f h : X -> line).
  Lemma cache_rename n past : (forall x y, In x past -> In y past -> (f x = f y <-> h x = h y)) ->
    exists c, incl c past /\ cache_after n (map f past) = map f c /\ cache_after n (map h past) = map h c.
  Proof.
    induction past as [|x past IH] using rev_ind; intros E; [exists []; split; [easy|now split]|].
    destruct IH as (c & I & A & B); [intros a b Ia Ib; apply E; apply in_or_app; now left|].
    exists (firstn n (x :: filter (fun y => negb (line_eqb (f y) (f x))) c)). rewrite !map_app. cbn [map]. rewrite !cache_snoc, A, B. unfold touch.
    assert (FM : forall (g : X -> line) l, filter (fun z => negb (line_eqb z (g x))) (map g l) = map g (filter (fun y => negb (line_eqb (g y) (g x))) l)).
    { intros g l. induction l as [|a l IHl]; cbn; [reflexivity|]. destruct (line_eqb (g a) (g x)); cbn; now rewrite IHl. }
    rewrite !FM. split; [|split].
    - intros a J. assert (K : In a (x :: filter (fun y => negb (line_eqb (f y) (f x))) c)) by (rewrite <- (firstn_skipn n); apply in_or_app; now left).
      destruct K as [<-|K]; apply in_or_app; [right; now left|left; apply filter_In in K; now apply I].
    - change (f x :: map f (filter (fun y => negb (line_eqb (f y) (f x))) c)) with (map f (x :: filter (fun y => negb (line_eqb (f y) (f x))) c)). apply firstn_map.
    - change (h x :: map h (filter (fun y => negb (line_eqb (h y) (h x))) c)) with (map h (x :: filter (fun y => negb (line_eqb (h y) (h x))) c)). rewrite firstn_map. f_equal. f_equal. f_equal.
      apply filter_ext_in. intros a J. f_equal. assert (P : f a = f x <-> h a = h x) by (apply E; apply in_or_app; [left; now apply I|right; now left]).
      destruct (line_eqb_spec (h a) (h x)), (line_eqb_spec (f a) (f x)); tauto.
  Qed.
  Lemma misses_rename n future : forall past, (forall x y, In x (past ++ future) -> In y (past ++ future) -> (f x = f y <-> h x = h y)) ->
    misses_after n (map f past) (map f future) = misses_after n (map h past) (map h future).
  Proof.
    induction future as [|x future IH]; intros past E; [reflexivity|]. cbn [map misses_after].
    change [f x] with (map f [x]). change [h x] with (map h [x]). rewrite <- !map_app. rewrite (IH (past ++ [x])) by (now rewrite <- app_assoc). f_equal.
    destruct (cache_rename n past) as (c & I & A & B); [intros a b Ia Ib; apply E; apply in_or_app; now left|]. unfold hit. rewrite A, B.
    replace (existsb (line_eqb (f x)) (map f c)) with (existsb (line_eqb (h x)) (map h c)); [reflexivity|].
    clear A B. induction c as [|a c IHc]; [reflexivity|]. cbn [map existsb]. rewrite IHc by (intros z Z; apply I; now right). f_equal.
    assert (P : f x = f a <-> h x = h a) by (apply E; apply in_or_app; [right; now left|left; apply I; now left]).
    destruct (line_eqb_spec (h x) (h a)), (line_eqb_spec (f x) (f a)); tauto.
  Qed.
End Rename.

(** ** Many lines *)
Lemma windows n L refs s t m : 0 < L -> s < t ->
  needed (distances refs) 2 + 2 * Z.of_nat (List.length refs) * (L - 1) <= Z.of_nat n * L -> (forall v, In (Some v) (distances refs) -> s <= t - v) ->
  Z.of_nat m * missing (distances refs) (Z.of_nat n * L + Z.of_nat (List.length refs) * L)
  <= misses_after n (LruSpec.trace L refs (positions s t)) (LruSpec.trace L refs (positions t (t + Z.of_nat m * L)))
  <= Z.of_nat m * missing (distances refs) (Z.of_nat n * L - Z.of_nat (List.length refs) * (2 * L - 1)).
Proof.
  intros LP ST FIT WA. induction m as [|m IH].
  - change (Z.of_nat 0) with 0. rewrite (Z.mul_0_l L), Z.add_0_r. replace (positions t t) with (@nil Z) by (unfold positions; now rewrite Z.sub_diag). change (LruSpec.trace L refs []) with (@nil line). cbn [misses_after]. rewrite !Z.mul_0_l. lia.
  - set (u := t + Z.of_nat m * L) in *. assert (TU : t <= u) by (unfold u; nia). replace (t + Z.of_nat (S m) * L) with (u + L) by (unfold u; rewrite Nat2Z.inj_succ; ring).
    rewrite (positions_app t u (u + L)) by lia. rewrite trace_app, misses_app, <- trace_app, <- positions_app by lia.
    assert (B := misses_bounds n L refs s u LP). specialize (B ltac:(lia) FIT). assert (W : forall v, In (Some v) (distances refs) -> s <= u - v) by (intros v I; specialize (WA v I); lia). specialize (B W).
    rewrite Nat2Z.inj_succ, !Z.mul_succ_l. lia.
Qed.
Lemma positions_shift c s e : map (fun g => g + c) (positions s e) = positions (s + c) (e + c).
Proof. unfold positions. rewrite map_map. replace (e + c - (s + c)) with (e - s) by ring. apply map_ext. intros i. ring. Qed.

(** ** Scaling *)
Lemma scaled_spec counter st factor levels : ~ (factor == 0)%Q ->
  match scaled counter st factor levels with
  | Ok l => length l = levels /\ (levels <= length st)%nat /\ forall i s, (i < levels)%nat -> nth_error st i = Some s -> exists q, nth_error l i = Some q /\ (q * factor == inject_Z (counter s))%Q
  | Err e => e = IndexError /\ (length st < levels)%nat
  end.
Proof.
  intros F. unfold scaled. set (g := fun i => _). assert (NZ : Qeq_bool factor 0 = false) by (destruct (Qeq_bool factor 0) eqn:E; [apply Qeq_bool_eq in E; contradiction|reflexivity]).
  assert (G : forall n a, match mapM g (seq a n) with
    | Ok l => length l = n /\ (a + n <= length st \/ n = 0)%nat /\ forall i s, (i < n)%nat -> nth_error st (a + i) = Some s -> exists q, nth_error l i = Some q /\ (q * factor == inject_Z (counter s))%Q
    | Err e => e = IndexError /\ (length st < a + n)%nat end).
  { induction n as [|n IH]; intros a; cbn [seq mapM].
    - repeat split; [now right|]. intros i s H. lia.
    - unfold g at 1. destruct (nth_error st a) as [s|] eqn:N; cbn [bind].
      + rewrite NZ. cbn [bind]. specialize (IH (S a)). destruct (mapM g (seq (S a) n)) as [l|e]; cbn [bind].
        * destruct IH as (L & B & H). split; [cbn; lia|]. assert (AL : (a < length st)%nat) by (apply nth_error_Some; congruence). split; [left; lia|].
          intros [|i] s' I N'; [rewrite Nat.add_0_r, N in N'; injection N' as <-; eexists; split; [reflexivity|]; field; exact F|]. apply H; [lia|]. now rewrite <- Nat.add_succ_comm in N'.
        * destruct IH as [-> B]. split; [reflexivity|lia].
      + split; [reflexivity|]. apply nth_error_None in N. lia. }
  specialize (G levels 0%nat). cbn [Nat.add] in G. destruct (mapM g (seq 0 levels)); [|exact G]. destruct G as (A & B & C). repeat split; [exact A|destruct B; lia|exact C].
Qed.

(** ** The schedule is aligned *)
Lemma align_linear es cl bits mi offset o i s r : 0 < es -> 0 <= bits -> cl = 2 ^ bits -> (es | cl) -> (es | o) -> 0 <= i -> (forall g, 0 <= g < mi -> offset g = o + es * g) ->
  align es cl bits 1 mi offset i s = Ok r -> (cl | o + es * r) /\ i < mi /\ (s = true -> r <= i).
Proof.
  intros E B C D O I F A. assert (IM : i < mi) by (unfold align in A; destruct (Z.ltb_spec i mi); [assumption|discriminate]).
  assert (A' : align es cl bits 1 mi (fun g => o + es * g) i s = Ok r) by (unfold align in *; now rewrite <- (F i) by lia).
  assert (CP : 0 < cl) by (rewrite C; now apply Z.pow_pos_nonneg). split; [|split; [exact IM|]].
  - apply Z.mod_divide; [lia|]. apply (align_aligned es cl bits 1 mi (fun g => o + es * g) E B C D ltac:(lia) i s r A').
    + intros j _. ring.
    + now rewrite Z.mul_1_r.
    + rewrite Z.mul_1_r. apply Z.divide_add_r; [exact O|]. apply Z.divide_factor_l.
  - intros ->. destruct (align_bounds es cl bits 1 mi offset E B C D ltac:(lia) i true IM) as (r' & A2 & H). rewrite A in A2. injection A2 as <-. lia.
Qed.
Lemma simulate_aligned es cl bits mi mc offset o invalid warm w b : 0 < es -> 0 <= bits -> cl = 2 ^ bits -> (es | cl) -> (es | o) ->
  (forall g, 0 <= g < mi -> offset g = o + es * g) -> simulate es cl bits 1 mi mc offset invalid = Ok (warm, (w, b)) ->
  (cl | o + es * w) /\ (cl | o + es * b) /\ 0 <= w < b /\ b <= mi - 1.
Proof.
  intros E B C D O F H. destruct (simulate_inv _ _ _ _ _ _ _ _ _ _ H) as ((W & _) & WB & A). cbn [fst snd] in *.
  destruct (align_linear es cl bits mi offset o (Z.min (w + 100000) (mi - 1)) true b E B C D O ltac:(lia) F A) as (AB & _ & LE). specialize (LE eq_refl).
  split; [|split; [exact AB|split; [lia|lia]]].
  unfold simulate in H. destruct (phase1 es mi mc invalid (Z.to_nat max_steps) [] 0 false) as [[[d1 w1] c1]|] eqn:P1; cbn [bind] in H; [|discriminate].
  destruct (phase2 mi (d1, w1, c1)) as [[d2 w2]|] eqn:P2; cbn [bind] in H; [|discriminate].
  destruct (phase3 es cl bits 1 mi offset (d2, w2)) as [[d3 w3]|] eqn:P3; cbn [bind] in H; [|discriminate].
  destruct (align es cl bits 1 mi offset (Z.min (w3 + 100000) (mi - 1)) true) as [b'|] eqn:A'; cbn [bind] in H; [|discriminate].
  destruct (simulate_range mi d3 w3 b') as [d|] eqn:R; cbn [bind] in H; [|discriminate]. injection H as <- <- <-.
  destruct (phase1_valid _ _ _ _ _ _ _ _ _ _ _ P1 ltac:(constructor) ltac:(lia) ltac:(discriminate)) as (S1 & W1 & C1).
  destruct (phase2_valid _ _ _ _ _ _ P2 S1 W1 C1) as [W2 _]. unfold phase3 in P3.
  destruct (align es cl bits 1 mi offset w2 false) as [nx|] eqn:A3; cbn [bind] in P3; [|discriminate].
  assert (nx = w3) by (destruct (nx =? w2); [now injection P3|]; destruct (simulate_range mi d2 w2 nx); cbn [bind] in P3; [now injection P3|discriminate]). subst nx.
  now destruct (align_linear es cl bits mi offset o w2 false w3 E B C D O W2 F A3).
Qed.

(** ** Long loops are not swept completely. *)
Lemma iterations_snoc l a b : iterations_of (l ++ [(a, b)]) = iterations_of l ++ positions a b.
Proof. unfold iterations_of. rewrite flat_map_app. cbn [flat_map fst snd]. now rewrite app_nil_r. Qed.
Section Long.
  Variables (es mi mc : Z) (invalid : list range -> Z).
  Notation inc := (warmup_increment es mc).
  Hypothesis INC : 0 < inc.
  Lemma phase1_front steps : forall done w d' w' c', phase1 es mi mc invalid steps done w false = Ok (d', w', c') -> iterations_of done = positions 0 w -> 0 <= w -> w + Z.of_nat steps * inc <= mi ->
    iterations_of d' = positions 0 w' /\ w <= w' <= w + Z.of_nat steps * inc /\ c' = false /\ (0 < invalid done -> (0 < steps)%nat -> w < w').
  Proof.
    induction steps as [|steps IH]; intros done w d' w' c' H I W M; cbn [phase1] in H; [injection H as <- <- <-; repeat split; auto; lia|].
    destruct (Z.ltb_spec 0 (invalid done)) as [P|P]; cbn [negb orb] in H; [|injection H as <- <- <-; repeat split; auto; lia].
    destruct (Z.ltb_spec mi (w + inc)) as [L|L]; [nia|]. destruct (simulate_range mi done w (w + inc)) as [d|] eqn:R; cbn [bind] in H; [|discriminate].
    apply simulate_range_ok in R as [B ->]. destruct (IH _ _ _ _ _ H) as (A1 & A2 & A3 & _).
    - rewrite iterations_snoc, I, <- positions_app by lia. reflexivity.
    - lia.
    - rewrite Nat2Z.inj_succ in M. lia.
    - rewrite Nat2Z.inj_succ in *. repeat split; [exact A1|lia|lia|exact A3|lia].
  Qed.
  Lemma simulate_front cl bits offset warm w b : 100 * inc + 100000 <= mi -> 0 < invalid [] -> 0 < es -> 0 <= bits -> cl = 2 ^ bits -> (es | cl) ->
    simulate es cl bits 1 mi mc offset invalid = Ok (warm, (w, b)) -> iterations_of warm = positions 0 w /\ 0 < w.
  Proof.
    intros M IV E B C D H. unfold simulate in H. change (Z.to_nat max_steps) with 100%nat in H.
    destruct (phase1 es mi mc invalid 100 [] 0 false) as [[[d1 w1] c1]|] eqn:P1; cbn [bind] in H; [|discriminate].
    destruct (phase1_front _ _ _ _ _ _ P1 eq_refl (Z.le_refl 0)) as (I1 & W1 & -> & S1); [change (Z.of_nat 100) with 100; lia|]. specialize (S1 IV ltac:(lia)). change (Z.of_nat 100) with 100 in W1.
    cbn [phase2] in H. destruct (Z.ltb_spec (mi - 100000) w1) as [L|L]; [lia|]. cbn [bind phase3] in H.
    destruct (align es cl bits 1 mi offset w1 false) as [nx|] eqn:A; cbn [bind] in H; [|discriminate].
    assert (NX : w1 <= nx).
    { assert (IM : w1 < mi) by lia. destruct (align_bounds es cl bits 1 mi offset E B C D ltac:(lia) w1 false IM) as (r & A' & Y). rewrite A in A'. injection A' as <-. lia. }
    destruct (Z.eqb_spec nx w1) as [->|N]; cbn [bind] in H.
    - destruct (align es cl bits 1 mi offset (Z.min (w1 + 100000) (mi - 1)) true) as [b'|]; cbn [bind] in H; [|discriminate]. destruct (simulate_range mi d1 w1 b'); cbn [bind] in H; [|discriminate]. injection H as <- <- <-. split; [exact I1|lia].
    - destruct (simulate_range mi d1 w1 nx) as [d|] eqn:R; cbn [bind] in H; [|discriminate]. apply simulate_range_ok in R as [R ->].
      destruct (align es cl bits 1 mi offset (Z.min (nx + 100000) (mi - 1)) true) as [b'|]; cbn [bind] in H; [|discriminate]. destruct (simulate_range mi (d1 ++ [(w1, nx)]) nx b'); cbn [bind] in H; [|discriminate]. injection H as <- <- <-.
      split; [|lia]. rewrite iterations_snoc, I1, <- positions_app by lia. reflexivity.
  Qed.
End Long.
