From Coq Require Import String Lia Permutation Lqa.
From Verif Require Import PyBase PyBaseFacts PyNum LoopModel LoopSpec LoopProofs AstModel AstSpec LCModel LCSpec FrontModel FrontSpec FrontDistance LruSpec LruProofs LruLink TraceModel TraceSpec TraceProofs SimModel SimSpec SimProofs CsimModel CsimSpec CsimProofs.
Local Open Scope list_scope.
Local Open Scope Z_scope.

Lemma lookup_nodup {A} (l : list (string * A)) n x : NoDup (map fst l) -> In (n, x) l -> FrontModel.lookup l n = Some x.
Proof.
  unfold FrontModel.lookup. induction l as [|[m y] l IH]; cbn; [easy|]. intros ND. inversion ND as [|? ? NI ND']; subst. intros [[= -> ->]|I]; [now rewrite String.eqb_refl|].
  destruct (String.eqb_spec n m) as [->|N]; [|now apply IH]. contradiction NI. now apply (in_map fst) in I.
Qed.
Lemma accesses_entries d n : accesses_of d n = entries d n.
Proof. unfold entries, FrontModel.lookup. induction d as [|[m l] d IH]; cbn; [reflexivity|]. destruct (String.eqb n m); [reflexivity|exact IH]. Qed.
Lemma numbering (names : list string) : exists number : string -> nat, forall n m, In n names -> In m names -> number n = number m -> n = m.
Proof.
  exists (fun n => (fix go (l : list string) := match l with [] => O | x :: l' => if String.eqb n x then O else S (go l') end) names).
  induction names as [|x names IH]; intros n m; [easy|]. intros In_n In_m. destruct (String.eqb_spec n x) as [->|N], (String.eqb_spec m x) as [->|M]; try easy.
  intros [= E]. apply IH; [destruct In_n; congruence|destruct In_m; congruence|exact E].
Qed.
Lemma smallest_shift c l : l <> [] -> smallest (map (fun x => x + c) l) = smallest l + c.
Proof.
  destruct l as [|a l]; [easy|]. intros _. cbn [map smallest]. revert a. induction l as [|b l IH]; intros a; cbn [map fold_left]; [reflexivity|].
  rewrite Z.add_min_distr_r. apply IH.
Qed.
Lemma smallest_in l : l <> [] -> In (smallest l) l.
Proof.
  destruct l as [|a l]; [easy|]. intros _. cbn [smallest]. revert a. induction l as [|b l IH]; intros a; cbn [fold_left]; [now left|].
  destruct (IH (Z.min a b)) as [E|I]; [|right; now right]. rewrite <- E. destruct (Z.min_spec a b) as [[_ ->]|[_ ->]]; [now left|right; now left].
Qed.
Lemma permutation_flat_app {A B} (f g : A -> list B) l : Permutation (flat_map (fun x => f x ++ g x) l) (flat_map f l ++ flat_map g l).
Proof.
  induction l as [|a l IH]; cbn; [constructor|]. rewrite IH. rewrite <- !app_assoc. apply Permutation_app_head. rewrite !app_assoc. apply Permutation_app_tail. apply Permutation_app_comm.
Qed.

Section Link.
  Variables (depends : string -> list sym -> bool) (k : kernel) (st : kstate) (f : front) (its : list (list Z)) (rho : string -> Z) (shift es width bits : Z).
  Hypothesis V : view f k st.
  Hypothesis NDV : NoDup (map fst (FrontModel.variables f)).
  Hypothesis US : unit_stack (loops k).
  Hypothesis NL : NoDup (map lvar (loops k)).
  Hypothesis X : executes (bounds (loops k)) its.
  Hypothesis DS : depends_sound k depends.
  Hypothesis ES : forall n e d, In (n, (e, d)) (arrays k) -> e = es /\ forall x, In x d -> 0 < seval (constants k) x.
  Hypothesis EP : 0 < es.
  Hypothesis WP : 0 < width.
  Hypothesis CL : line_size k = es * width.
  Hypothesis BP : 0 <= bits.
  Hypothesis CB : line_size k = 2 ^ bits.
  Hypothesis UF : usual f.
  Hypothesis ST : streaming f k its rho shift.
  Hypothesis EX : elements_exist f k its.
  Hypothesis TWO : (2 <= length its)%nat.
  Variable number : string -> nat.
  Hypothesis INJ : forall n m, In n (map fst (FrontModel.variables f)) -> In m (map fst (FrontModel.variables f)) -> number n = number m -> n = m.

  Notation arrs := (arrays k).
  Notation cl := (line_size k).
  Lemma cl_positive : 0 < cl.
  Proof. rewrite CL. nia. Qed.
  Lemma array_variable n e d : In (n, (e, d)) arrs -> In (n, Some d) (FrontModel.variables f).
  Proof.
    intros I. destruct V as (_ & A & _). assert (J : In (n, d) (map (fun a => (fst a, snd (snd a))) arrs)) by (apply in_map_iff; now exists (n, (e, d))).
    rewrite <- A in J. apply in_flat_map in J as ([m [d'|]] & J & K); cbn in K; [|easy]. now destruct K as [[= <- <-]|[]].
  Qed.
  Lemma arrays_nodup : NoDup (map fst arrs).
  Proof.
    destruct V as (_ & A & _). assert (E : map fst arrs = map fst (map (fun a : string * (Z * list sym) => (fst a, snd (snd a))) arrs)) by now rewrite map_map. rewrite E, <- A. clear A E.
    revert NDV. generalize (FrontModel.variables f). induction l as [|[n [d|]] l IH]; intros ND; cbn in *; [constructor| |]; inversion ND as [|? ? NI ND']; subst; [|now apply IH].
    constructor; [|now apply IH]. intros J. apply NI. apply in_map_iff in J as ([m d'] & <- & J). apply in_flat_map in J as ([m' [d2|]] & J & K); cbn in K; [|easy]. destruct K as [[= <- <-]|[]]. now apply (in_map fst) in J.
  Qed.
  Lemma loop_names : map fst (FrontModel.loops f) = map lvar (loops k).
  Proof. destruct V as (-> & _). rewrite map_map. now apply map_ext. Qed.
  (** Dimensions of arrays that are accessed do not depend on loops. *)
  Lemma fixed_dimensions n e d idx t : In (n, (e, d)) arrs -> In idx (array_references f n) -> map (seval (in_iteration (constants k) (map lvar (loops k)) t)) d = map (seval (constants k)) d.
  Proof.
    intros I J. destruct (array_dims f n d UF NDV (array_variable _ _ _ I)) as (sizes & -> & L); [intros E; now rewrite E in J|].
    destruct (usual_references f n sizes idx UF L J) as (_ & _ & SZ & _). rewrite !map_map. apply map_ext_in. intros s K. cbn [seval]. apply in_iteration_out. rewrite <- loop_names. now apply SZ.
  Qed.
  Lemma position_at n e d idx g t : In (n, (e, d)) arrs -> In idx (array_references f n) -> nth_error its g = Some t ->
    access_to_sympy (map (seval (constants k)) d) (map (seval (in_iteration (constants k) (map lvar (loops k)) t)) idx) = place rho d idx + Z.of_nat g + shift.
  Proof. intros I J N. rewrite <- (ST n e d idx g t I J N). unfold place. now rewrite (fixed_dimensions n e d idx t I J). Qed.
  Lemma always_depends n e d idx : In (n, (e, d)) arrs -> In idx (array_references f n) -> depends n idx = true.
  Proof.
    intros I J. destruct (depends n idx) eqn:D; [reflexivity|exfalso]. destruct its as [|t0 [|t1 r]] eqn:T; [cbn in TWO; lia|cbn in TWO; lia|].
    pose proof (DS n e d idx t0 t1 I D) as Q. rewrite <- T in *. rewrite (position_at n e d idx 0 t0 I J), (position_at n e d idx 1 t1 I J) in Q; [lia| |]; rewrite T; reflexivity.
  Qed.
  Definition offs (d : list (string * list access)) : list offset :=
    flat_map (fun a : string * (Z * list sym) => map (fun idx => (fst a, fst (snd a), snd (snd a), idx)) (subscripts (accesses_of d (fst a)))) arrs.
  Lemma gathered d os : (forall n idx, In idx (subscripts (accesses_of d n)) -> In idx (array_references f n)) -> gather depends arrs d = Ok os -> os = offs d.
  Proof.
    intros SUB. unfold offs. assert (Y : incl arrs arrs) by easy. revert Y os. generalize arrs at 1 3 4. induction l as [|[n [e dims]] l IH]; intros Y os H; cbn [gather flat_map] in *; [now injection H|].
    destruct (offsets_of depends n e dims (accesses_of d n)) as [a|] eqn:A; [|discriminate]. cbn [bind] in H. destruct (gather depends l d) as [b|] eqn:B; [|discriminate]. cbn [bind] in H. injection H as <-.
    f_equal; [|now apply IH; [intros z Hz; apply Y; now right|]]. cbn [fst snd].
    assert (SUB' : forall idx, In idx (subscripts (accesses_of d n)) -> depends n idx = true) by (intros idx J; apply (always_depends n e dims); [apply Y; now left|now apply SUB]).
    clear -A SUB'. revert a A SUB'. generalize (accesses_of d n). induction l as [|[idx|] l IH]; intros a A SUB'; cbn [offsets_of] in A; [now injection A|..|discriminate].
    destruct (offsets_of depends n e dims l) as [r|] eqn:R; [|discriminate]. cbn [bind] in A. injection A as <-. unfold subscripts in *. cbn [flat_map app map]. rewrite SUB' by (now left). f_equal. apply IH; [reflexivity|].
    intros i J. apply SUB'. now right.
  Qed.
  Lemma sources_sub n idx : In idx (subscripts (accesses_of (AstModel.sources st) n)) -> In idx (array_references f n).
  Proof. destruct V as (_ & _ & S & _). rewrite accesses_entries, <- S. unfold array_references. rewrite !in_subscripts. intros I. apply in_or_app. now left. Qed.
  Lemma destinations_sub n idx : In idx (subscripts (accesses_of (AstModel.destinations st) n)) -> In idx (array_references f n).
  Proof. destruct V as (_ & _ & _ & S). rewrite accesses_entries, <- S. unfold array_references. rewrite !in_subscripts. intros I. apply in_or_app. now right. Qed.

  (** References in the order of the simulation *)
  Definition all_offs : list offset := offs (AstModel.sources st) ++ offs (AstModel.destinations st).
  Definition ref_of (o : offset) : ref := let '(n, _, d, idx) := o in (number n, place rho d idx).
  Definition refs : list ref := map ref_of all_offs.
  Lemma all_offs_in n e d idx : In (n, e, d, idx) all_offs -> In (n, (e, d)) arrs /\ In idx (array_references f n).
  Proof.
    unfold all_offs, offs. rewrite in_app_iff, !in_flat_map. intros [((m & (e' & d')) & I & J)|((m & (e' & d')) & I & J)]; apply in_map_iff in J as (i & [= <- <- <- <-] & J); split; try assumption; [now apply sources_sub|now apply destinations_sub].
  Qed.
  Lemma refs_perm : Permutation refs (kernel_refs number rho f (FrontModel.variables f)).
  Proof.
    unfold refs, all_offs, kernel_refs. destruct V as (_ & A & S & D).
    assert (E : flat_map (fun v : string * option (list sym) => let (n, o) := v in match o with Some dims => map (fun idx => (number n, place rho dims idx)) (array_references f n) | None => [] end) (FrontModel.variables f)
      = flat_map (fun x : string * list sym => map (fun idx => (number (fst x), place rho (snd x) idx)) (array_references f (fst x))) (flat_map (fun v : string * option (list sym) => match snd v with Some d => [(fst v, d)] | None => [] end) (FrontModel.variables f))).
    { clear. induction (FrontModel.variables f) as [|[n [d|]] l IH]; cbn; [reflexivity| |exact IH]. now rewrite IH. }
    rewrite E, A. clear E. unfold array_references, subscripts. rewrite S, D.
    rewrite map_app. unfold offs.
    assert (G : forall dd, map ref_of (flat_map (fun a : string * (Z * list sym) => map (fun idx => (fst a, fst (snd a), snd (snd a), idx)) (subscripts (accesses_of dd (fst a)))) arrs)
      = flat_map (fun x : string * list sym => map (fun idx => (number (fst x), place rho (snd x) idx)) (subscripts (entries dd (fst x)))) (map (fun a => (fst a, snd (snd a))) arrs)).
    { intros dd. clear. induction arrs as [|[n [e d]] l IH]; cbn [flat_map map]; [reflexivity|]. rewrite map_app. refine (f_equal2 (@app _) _ IH). cbn [fst snd]. rewrite <- accesses_entries. rewrite map_map. reflexivity. }
    rewrite !G. symmetry. etransitivity; [|apply permutation_flat_app]. apply Permutation_refl'. apply flat_map_ext. intros [n d]. cbn [fst snd]. rewrite flat_map_app, map_app. reflexivity.
  Qed.

  (** Addresses *)
  Notation base n := (base_of (bases k 0) n).
  Definition element (o : offset) (g : Z) : Z := snd (ref_of o) + (g + shift).
  Lemma base_layout n e d : In (n, (e, d)) arrs -> In (n, base n, array_bytes e (dimensions k d)) (bases k 0).
  Proof.
    intros I. pose proof (layout_perm cl 0 (map (fun a => (fst a, array_bytes (fst (snd a)) (dimensions k (snd (snd a))))) arrs)) as P. fold (bases k 0) in P.
    assert (J : In (n, array_bytes e (dimensions k d)) (map (fun a => (fst a, array_bytes (fst (snd a)) (dimensions k (snd (snd a))))) arrs)) by (apply in_map_iff; now exists (n, (e, d))).
    apply (Permutation_in _ P) in J. apply in_map_iff in J as ([[m b] s] & [= <- <-] & J). now rewrite (base_of_in _ m b s (bases_nodup k 0 arrays_nodup) J).
  Qed.
  Lemma base_aligned n e d : In (n, (e, d)) arrs -> (cl | base n).
  Proof. intros I. apply base_layout in I. unfold bases in I at 2. rewrite CB in *. exact (layout_aligned bits 0 _ _ _ _ BP I). Qed.
  Lemma environment_at g : 0 <= g < Z.of_nat (length its) -> exists t, nth_error its (Z.to_nat g) = Some t /\ forall n, environment k (global_iterator_to_indices (loops k) g) n = in_iteration (constants k) (map lvar (loops k)) t n.
  Proof.
    intros G. destruct (iterator_is_execution_order _ _ _ US X G) as (t & T & C). exists t. split; [exact T|]. apply environment_in_iteration; [exact C| |exact NL].
    destruct X as (vss & W & E). apply nth_error_In in T. rewrite E in T. rewrite (combinations_tuple _ _ T), <- (forall2_length W). unfold bounds. apply map_length.
  Qed.
  Lemma address_at o g : In o all_offs -> 0 <= g < Z.of_nat (length its) -> address k 0 (global_iterator_to_indices (loops k) g) o = base (fst (fst (fst o))) + es * element o g.
  Proof.
    destruct o as [[[n e] d] idx]. intros I G. apply all_offs_in in I as [I J]. destruct (environment_at g G) as (t & T & EV). unfold address, byte_offset, element, ref_of. cbn [fst snd].
    unfold dimensions. rewrite (map_ext _ _ (number_seval (constants k))). rewrite (map_ext (TraceModel.number (environment k (global_iterator_to_indices (loops k) g))) (seval (in_iteration (constants k) (map lvar (loops k)) t))) by (intros s; rewrite number_seval; now apply seval_ext).
    rewrite (position_at n e d idx (Z.to_nat g) t I J T). rewrite Z2Nat.id by lia. rewrite (proj1 (ES n e d I)). ring.
  Qed.
  Lemma address_inside n e d idx g : In (n, e, d, idx) all_offs -> 0 <= g < Z.of_nat (length its) ->
    base n <= base n + es * element (n, e, d, idx) g < base n + array_bytes e (dimensions k d).
  Proof.
    intros O G. pose proof (address_at _ g O G) as A. cbn [fst] in A. rewrite <- A. clear A. apply all_offs_in in O as [I J]. destruct (environment_at g G) as (t & T & EV).
    pose proof (EX n e d idx t I J (nth_error_In _ _ T)) as R. destruct (ES n e d I) as [E _]. unfold address.
    assert (R' : in_range (dimensions k d) (map (TraceModel.number (environment k (global_iterator_to_indices (loops k) g))) idx)).
    { unfold dimensions. rewrite (map_ext _ _ (number_seval (constants k))). rewrite (map_ext (TraceModel.number (environment k (global_iterator_to_indices (loops k) g))) (seval (in_iteration (constants k) (map lvar (loops k)) t))) by (intros s; rewrite number_seval; now apply seval_ext). exact R. }
    assert (E0 : 0 < e) by lia. destruct (access_inside (base n) e _ _ E0 R') as [A B]. lia.
  Qed.
  Lemma memory_line_at n e d (z : Z) : In (n, (e, d)) arrs -> (base n + es * z) / cl = base n / cl + z / width.
  Proof.
    intros I. destruct (base_aligned n e d I) as (q & Q). rewrite Q. pose proof cl_positive. rewrite Z.div_mul by lia. rewrite Z.add_comm, Z.div_add by lia. rewrite CL, Z.div_mul_cancel_l by lia. ring.
  Qed.
  Lemma line_same o1 o2 g1 g2 : In o1 all_offs -> In o2 all_offs -> 0 <= g1 < Z.of_nat (length its) -> 0 <= g2 < Z.of_nat (length its) ->
    (memory_line cl (address k 0 (global_iterator_to_indices (loops k) g1) o1) = memory_line cl (address k 0 (global_iterator_to_indices (loops k) g2) o2)
     <-> line_of width (g1 + shift) (ref_of o1) = line_of width (g2 + shift) (ref_of o2)).
  Proof.
    intros O1 O2 G1 G2. rewrite (address_at o1 g1 O1 G1), (address_at o2 g2 O2 G2). pose proof cl_positive as CP.
    destruct o1 as [[[n1 e1] d1] i1], o2 as [[[n2 e2] d2] i2]. pose proof (address_inside _ _ _ _ g1 O1 G1) as A1. pose proof (address_inside _ _ _ _ g2 O2 G2) as A2.
    destruct (all_offs_in _ _ _ _ O1) as [I1 _], (all_offs_in _ _ _ _ O2) as [I2 _]. cbn [fst]. unfold memory_line, line_of, element in *. cbn [ref_of fst snd] in *.
    destruct (string_dec n1 n2) as [<-|NE].
    - rewrite !(memory_line_at n1 e1 d1) by assumption. split; intros E; [|congruence]. apply (f_equal snd) in E. cbn [snd] in E. apply Z.add_reg_l in E. now rewrite E.
    - split; intros E; exfalso.
      + pose proof (base_layout _ _ _ I1) as L1. pose proof (base_layout _ _ _ I2) as L2. unfold bases in L1 at 2. unfold bases in L2 at 2.
        assert (SZ : Forall (fun a : string * Z => 0 <= snd a) (map (fun a => (fst a, array_bytes (fst (snd a)) (dimensions k (snd (snd a))))) arrs)).
        { apply Forall_forall. intros [m s] J. apply in_map_iff in J as ([m' [e d]] & [= <- <-] & J). cbn [snd]. unfold array_bytes. rewrite array_elements_prod. destruct (ES _ _ _ J) as [-> POS]. apply Z.mul_nonneg_nonneg; [|lia].
          apply Z.lt_le_incl, zprod_positive. unfold dimensions. apply Forall_forall. intros x K. apply in_map_iff in K as (y & <- & K). rewrite number_seval. now apply POS. }
        assert (N1 : NoDup (map fst (map (fun a : string * (Z * list sym) => (fst a, array_bytes (fst (snd a)) (dimensions k (snd (snd a))))) arrs))) by (rewrite map_map; exact arrays_nodup).
        assert (CP1 : 1 <= cl) by lia. assert (EQ : (base n1 + es * (place rho d1 i1 + (g1 + shift))) / cl = (base n2 + es * (place rho d2 i2 + (g2 + shift))) / cl) by congruence.
        destruct (base_aligned _ _ _ I1) as (q1 & Q1), (base_aligned _ _ _ I2) as (q2 & Q2).
        destruct (layout_disjoint cl 0 _ _ _ _ _ _ _ CP1 (Z.le_refl 0) SZ N1 L1 L2 NE) as [B|B].
        * assert (H1 : (base n1 + es * (place rho d1 i1 + (g1 + shift))) / cl < q2) by (apply Z.div_lt_upper_bound; nia).
          assert (H2 : q2 <= (base n2 + es * (place rho d2 i2 + (g2 + shift))) / cl) by (apply Z.div_le_lower_bound; nia). lia.
        * assert (H1 : (base n2 + es * (place rho d2 i2 + (g2 + shift))) / cl < q1) by (apply Z.div_lt_upper_bound; nia).
          assert (H2 : q1 <= (base n1 + es * (place rho d1 i1 + (g1 + shift))) / cl) by (apply Z.div_le_lower_bound; nia). lia.
      + injection E as E _. apply NE. apply INJ; [apply (in_map fst _ (n1, Some d1))|apply (in_map fst _ (n2, Some d2))|exact E]; eapply array_variable; eassumption.
  Qed.

  (** Simulated iterations *)
  Definition pairs (gs : list Z) : list (Z * offset) := flat_map (fun g => map (pair g) all_offs) gs.
  Definition memory_of (x : Z * offset) : line := memory_line cl (address k 0 (global_iterator_to_indices (loops k) (fst x)) (snd x)).
  Definition stream_of (x : Z * offset) : line := line_of width (fst x + shift) (ref_of (snd x)).
  Lemma pairs_app a b : pairs (a ++ b) = pairs a ++ pairs b.
  Proof. unfold pairs. apply flat_map_app. Qed.
  Lemma pairs_in x gs : In x (pairs gs) -> In (fst x) gs /\ In (snd x) all_offs.
  Proof. unfold pairs. intros I. apply in_flat_map in I as (g & I & J). apply in_map_iff in J as (o & <- & J). now split. Qed.
  Lemma streams gs : map stream_of (pairs gs) = LruSpec.trace width refs (map (fun g => g + shift) gs).
  Proof.
    unfold LruSpec.trace, pairs, refs. induction gs as [|g gs IH]; cbn [flat_map map]; [reflexivity|]. rewrite map_app, IH. f_equal. unfold iteration. rewrite !map_map. reflexivity.
  Qed.
  Lemma rows_touched gs rs : compile_global_offsets depends k st gs 0 = Ok rs -> touched cl rs = map memory_of (pairs gs).
  Proof.
    unfold compile_global_offsets. destruct gs as [|g gs]; [discriminate|]. destruct (iteration_length (loops k) <=? fold_left Z.max gs g); [discriminate|].
    destruct (gather depends arrs (AstModel.sources st)) as [l|] eqn:GL; [|discriminate]. cbn [bind]. destruct (gather depends arrs (AstModel.destinations st)) as [s|] eqn:GS; [|discriminate]. cbn [bind].
    apply (gathered _ _ sources_sub) in GL. apply (gathered _ _ destinations_sub) in GS. intros H.
    assert (A : all_offs = l ++ s) by (unfold all_offs; now rewrite GL, GS). clear GL GS. unfold touched, pairs. rewrite A.
    assert (G : forall gs', flat_map (fun r : row => map (memory_line cl) (fst r ++ snd r)) (map (fun g => let counters := global_iterator_to_indices (loops k) g in (map (address k 0 counters) l, map (address k 0 counters) s)) gs')
      = map memory_of (flat_map (fun g => map (pair g) (l ++ s)) gs')).
    { induction gs' as [|x gs' IH]; cbn [map flat_map]; [reflexivity|]. rewrite (map_app memory_of). refine (f_equal2 (@app _) _ IH). cbn [fst snd]. rewrite <- map_app, !map_map. reflexivity. }
    destruct l as [|o l]; [destruct s as [|o s]|]; [|injection H as <-; exact (G (g :: gs))|injection H as <-; exact (G (g :: gs))].
    injection H as <-. cbn [app map]. assert (N : forall gs' : list Z, flat_map (fun g : Z => @nil (Z * offset)) gs' = []) by (induction gs' as [|x gs' IH]; [reflexivity|exact IH]). cbn [flat_map]. now rewrite N.
  Qed.
  Lemma ranges_touched rs before : mapM (rows_of depends k st) rs = Ok before -> touched cl (concat before) = map memory_of (pairs (iterations_of rs)).
  Proof.
    revert before. induction rs as [|r rs IH]; intros before H; cbn [mapM] in H; [injection H as <-; reflexivity|].
    destruct (rows_of depends k st r) as [x|] eqn:R; [|discriminate]. cbn [bind] in H. destruct (mapM (rows_of depends k st) rs) as [y|] eqn:Y; [|discriminate]. cbn [bind] in H. injection H as <-.
    cbn [concat iterations_of flat_map]. transitivity (touched cl x ++ touched cl (concat y)); [apply flat_map_app|]. rewrite (IH y eq_refl). unfold rows_of in R. rewrite (rows_touched _ _ R).
    change (map (fun i => fst r + Z.of_nat i) (seq 0 (Z.to_nat (snd r - fst r)))) with (positions (fst r) (snd r)). now rewrite pairs_app, map_app.
  Qed.
  (** Misses of the simulated cache are those of streams. *)
  Lemma misses_streams n past future : Forall (fun g => 0 <= g < Z.of_nat (length its)) (past ++ future) ->
    misses_after n (map memory_of (pairs past)) (map memory_of (pairs future)) = misses_after n (LruSpec.trace width refs (map (fun g => g + shift) past)) (LruSpec.trace width refs (map (fun g => g + shift) future)).
  Proof.
    intros F. rewrite <- !streams. apply misses_rename. rewrite <- pairs_app. intros x y Ix Iy. apply pairs_in in Ix as [X1 X2]. apply pairs_in in Iy as [Y1 Y2]. rewrite Forall_forall in F. apply line_same; auto.
  Qed.
  (** Offsets for the alignment *)
  Lemma element_multiple o g : In o all_offs -> (es | base (fst (fst (fst o))) + es * element o g).
  Proof.
    destruct o as [[[n e] d] idx]. intros I. apply all_offs_in in I as [I _]. cbn [fst]. apply Z.divide_add_r; [|apply Z.divide_factor_l]. apply (Z.divide_trans _ cl); [rewrite CL; apply Z.divide_factor_l|exact (base_aligned n e d I)].
  Qed.
  Lemma first_offset_linear gs0 rs0 : refs <> [] -> compile_global_offsets depends k st gs0 0 = Ok rs0 ->
    exists o, (es | o) /\ forall g, 0 <= g < Z.of_nat (length its) -> first_offset depends k st g = o + es * g.
  Proof.
    intros NE C0. unfold compile_global_offsets in C0. destruct gs0 as [|g0 gs0]; [discriminate|]. destruct (iteration_length (loops k) <=? fold_left Z.max gs0 g0); [discriminate|].
    destruct (gather depends arrs (AstModel.sources st)) as [l|] eqn:GL; [|discriminate]. cbn [bind] in C0. destruct (gather depends arrs (AstModel.destinations st)) as [s|] eqn:GS; [|discriminate]. clear C0.
    pose proof (gathered _ _ sources_sub GL) as EL. pose proof (gathered _ _ destinations_sub GS) as ESS.
    assert (A : all_offs = l ++ s) by (unfold all_offs; now rewrite EL, ESS). set (used := match s with [] => l | _ => s end).
    assert (UI : incl used all_offs) by (rewrite A; unfold used; destruct s; intros x I; apply in_or_app; auto).
    assert (UN : used <> []) by (unfold used; destruct s; [|easy]; intros ->; apply NE; unfold refs; now rewrite A).
    exists (smallest (map (fun o : offset => base (fst (fst (fst o))) + es * element o 0) used)). split.
    - assert (NM : map (fun o : offset => base (fst (fst (fst o))) + es * element o 0) used <> []) by (intros Y; now apply map_eq_nil in Y). apply smallest_in in NM. apply in_map_iff in NM as (o & <- & I). apply element_multiple. now apply UI.
    - intros g G. unfold first_offset, compile_global_offsets. rewrite GL, GS. cbn [bind fold_left]. rewrite (iteration_length_executed _ _ (unit_proper _ US) X). destruct (Z.leb_spec (Z.of_nat (length its)) g) as [|_]; [lia|].
      assert (R : smallest (map (address k 0 (global_iterator_to_indices (loops k) g)) used) = smallest (map (fun o : offset => base (fst (fst (fst o))) + es * element o 0) used) + es * g).
      { rewrite <- smallest_shift by (intros Y; now apply map_eq_nil in Y). rewrite map_map. f_equal. apply map_ext_in. intros o I. rewrite (address_at o g (UI o I) G). unfold element. ring. }
      rewrite <- R. unfold used. destruct l as [|o l]; destruct s as [|o' s]; cbn [map]; reflexivity.
  Qed.

  (** Whole lines are benchmarked, and what is touched are streams with other names for the lines. *)
  Lemma bench_streams cache invalid warm w b before during : refs <> [] ->
    simulate es cl bits 1 (iteration_length (loops k)) cache (first_offset depends k st) invalid = Ok (warm, (w, b)) ->
    mapM (rows_of depends k st) warm = Ok before -> rows_of depends k st (w, b) = Ok during -> iterations_of warm = positions 0 w -> 0 < w ->
    exists m (xs ys : list (Z * offset)) (u v : Z * offset -> line), 0 < m /\ b - w = m * width /\ (forall x y, In x (xs ++ ys) -> In y (xs ++ ys) -> (u x = u y <-> v x = v y)) /\
    touched cl (concat before) = map u xs /\ touched cl during = map u ys /\
    map v xs = LruSpec.trace width refs (positions shift (w + shift)) /\ map v ys = LruSpec.trace width refs (positions (w + shift) (w + shift + m * width)).
  Proof.
    intros NE S B D W0 WP0. destruct (first_offset_linear _ _ NE D) as (o & O & LIN). rewrite (iteration_length_executed _ _ (unit_proper _ US) X) in S.
    assert (DV : (es | cl)) by (rewrite CL; apply Z.divide_factor_l).
    destruct (simulate_aligned es cl bits _ cache _ o invalid warm w b EP BP CB DV O LIN S) as ((p & P) & (q & Q) & WB & BM).
    assert (E : b - w = (q - p) * width) by (apply (Z.mul_reg_l _ _ es); [lia|]; rewrite CL in P, Q; nia). assert (MP : 0 < q - p) by nia. exists (q - p).
    exists (pairs (positions 0 w)), (pairs (positions w b)), memory_of, stream_of. split; [exact MP|]. split; [exact E|]. split; [|split; [|split; [|split]]].
    - rewrite <- pairs_app. intros x y Ix Iy. apply pairs_in in Ix as [X1 X2]. apply pairs_in in Iy as [Y1 Y2]. apply line_same; auto.
      + apply in_app_or in X1 as [I|I]; apply positions_in in I; lia.
      + apply in_app_or in Y1 as [I|I]; apply positions_in in I; lia.
    - now rewrite (ranges_touched _ _ B), W0.
    - unfold rows_of in D. cbn [fst snd] in D. exact (rows_touched _ _ D).
    - now rewrite streams, positions_shift.
    - rewrite streams, positions_shift. do 2 f_equal. lia.
  Qed.
  (** Misses of the benchmark *)
  Lemma bench_misses n cache invalid warm w b before during : refs <> [] ->
    simulate es cl bits 1 (iteration_length (loops k)) cache (first_offset depends k st) invalid = Ok (warm, (w, b)) ->
    mapM (rows_of depends k st) warm = Ok before -> rows_of depends k st (w, b) = Ok during ->
    iterations_of warm = positions 0 w -> 0 < w -> (forall v, In (Some v) (distances refs) -> v <= w) ->
    needed (distances refs) 2 + 2 * Z.of_nat (List.length refs) * (width - 1) <= Z.of_nat n * width ->
    exists m, 0 < m /\ b - w = m * width /\
    m * missing (distances refs) (Z.of_nat n * width + Z.of_nat (List.length refs) * width)
    <= misses_after n (touched cl (concat before)) (touched cl during)
    <= m * missing (distances refs) (Z.of_nat n * width - Z.of_nat (List.length refs) * (2 * width - 1)).
  Proof.
    intros NE S B D W0 WP0 WA FIT. destruct (first_offset_linear _ _ NE D) as (o & O & LIN). rewrite (iteration_length_executed _ _ (unit_proper _ US) X) in S.
    assert (DV : (es | cl)) by (rewrite CL; apply Z.divide_factor_l).
    destruct (simulate_aligned es cl bits _ cache _ o invalid warm w b EP BP CB DV O LIN S) as ((p & P) & (q & Q) & WB & BM).
    assert (E : b - w = (q - p) * width) by (apply (Z.mul_reg_l _ _ es); [lia|]; rewrite CL in P, Q; nia). assert (MP : 0 < q - p) by nia. exists (q - p). split; [exact MP|]. split; [exact E|].
    rewrite (ranges_touched _ _ B), W0. unfold rows_of in D. cbn [fst snd] in D. rewrite (rows_touched _ _ D). change (map (fun i => w + Z.of_nat i) (seq 0 (Z.to_nat (b - w)))) with (positions w b).
    rewrite misses_streams. 2:{ apply Forall_forall. intros g I. apply in_app_or in I as [I|I]; apply positions_in in I; lia. }
    rewrite !positions_shift. replace (b + shift) with (w + shift + Z.of_nat (Z.to_nat (q - p)) * width) by (rewrite Z2Nat.id by lia; lia).
    pose proof (windows n width refs (0 + shift) (w + shift) (Z.to_nat (q - p)) WP) as H. rewrite Z2Nat.id in * by lia. apply H; [lia|exact FIT|]. intros v I. specialize (WA v I). lia.
  Qed.
End Link.

(** ** Single loops *)
Lemma single_streaming f k st l its : view f k st -> NoDup (map fst (FrontModel.variables f)) -> loops k = [l] -> unit_stack (loops k) -> executes (bounds (loops k)) its -> usual f -> checks f = Ok tt ->
  (forall n, uniform (array_references f n)) -> (forall n, array_references f n <> [] -> uses (lvar l) (array_references f n)) ->
  forall rho, (forall n, n <> lvar l -> rho n = constants k n) -> streaming f k its rho (lstart l - rho (lvar l)).
Proof.
  intros V ND L US X U C UN AU rho RHO n elem dims idx g t I J T.
  pose proof (array_variable k st f V n elem dims I) as IV. destruct (array_dims f n dims U ND IV) as (sizes & -> & LK); [intros E; now rewrite E in J|].
  assert (RL : rev (FrontModel.loops f) = [(lvar l, lincr l)]) by (destruct V as (-> & _); now rewrite L).
  assert (TG : t = [lstart l + Z.of_nat g]).
  { assert (G : 0 <= Z.of_nat g < Z.of_nat (length its)) by (split; [lia|]; apply Nat2Z.inj_lt, nth_error_Some; congruence).
    destruct (iterator_is_execution_order _ _ _ US X G) as (t' & T' & Q). rewrite Nat2Z.id, T in T'. injection T' as <-.
    destruct X as (vss & W & E). pose proof (nth_error_In _ _ T) as IT. rewrite E in IT. pose proof (combinations_tuple _ _ IT) as LT. rewrite <- (forall2_length W) in LT. rewrite L in LT. cbn in LT. destruct t as [|v [|]]; try discriminate. clear LT.
    rewrite L in Q, US. cbn in Q. injection Q as Q. apply Forall_inv in US as [LL LI]. rewrite LI in Q. rewrite Z.mul_1_r, Z.div_1_r, Z.mul_1_r in Q.
    f_equal. rewrite <- Q. f_equal. apply Z.mod_small. split; [lia|]. unfold loop_length, int_ceil. rewrite LI, Z.div_1_r.
    assert (LN : iteration_length [l] = Z.of_nat (length its)) by (apply iteration_length_executed; [constructor; [lia|constructor]|exists vss; split; [now rewrite <- L|exact E]]).
    unfold iteration_length in LN. cbn [rev app fold_left] in LN. rewrite Z.mul_1_l in LN. unfold loop_length, int_ceil in LN. rewrite LI, Z.div_1_r in LN. lia. }
  subst t. rewrite L. cbn [map].
  assert (EV : forall e, (forall m, m <> lvar l -> e m = constants k m) -> forall v, e (lvar l) = v -> place e (map SVar sizes) idx = place (FrontSpec.set (constants k) (lvar l) v) (map SVar sizes) idx).
  { intros e H v HV. unfold place. f_equal; apply map_ext; intros s; apply seval_ext; intros m; unfold FrontSpec.set; destruct (String.eqb_spec m (lvar l)) as [->|N]; auto. }
  rewrite (EV rho RHO _ eq_refl). rewrite (EV (in_iteration (constants k) [lvar l] [lstart l + Z.of_nat g]) ) with (v := rho (lvar l) + (Z.of_nat g + (lstart l - rho (lvar l)))).
  - rewrite (kernel_advances f (lvar l) (lincr l) [] n sizes idx (constants k) (rho (lvar l)) (Z.of_nat g + (lstart l - rho (lvar l))) U C RL LK (UN n)); [ring|apply AU; intros E; now rewrite E in J|exact J].
  - intros m N. cbn. now destruct (String.eqb_spec m (lvar l)).
  - cbn. rewrite String.eqb_refl. ring.
Qed.
