From Coq Require Import String Lia Permutation.
From Verif Require Import PyBase LoopModel LoopSpec LoopProofs AstModel AstSpec AstProofs TraceModel TraceSpec.
Local Open Scope string_scope.
Local Open Scope list_scope.
Local Open Scope Z_scope.

Lemma number_seval env s : number env s = seval env s.
Proof. induction s; cbn; congruence. Qed.
Lemma seval_ext env env' s : (forall n, env n = env' n) -> seval env s = seval env' s.
Proof. intros E. induction s; cbn; congruence. Qed.
Lemma ceval_ext env env' e : (forall n, env n = env' n) -> ceval env e = ceval env' e.
Proof. intros E. induction e; cbn; try congruence. now rewrite IHe1, IHe2. Qed.

(** ** Values of variables *)
Lemma lookup_in_nodup d k v : NoDup (map fst d) -> In (k, v) d -> LoopModel.lookup d k = v.
Proof.
  induction d as [|[k' v'] d IH]; cbn; [easy|]. intros ND. inversion ND as [|? ? NI ND']; subst. intros [[= -> ->]|I]; [now rewrite String.eqb_refl|].
  destruct (String.eqb_spec k k') as [->|N]; [|now apply IH]. contradiction NI. now apply (in_map fst) in I.
Qed.
Lemma in_iteration_in c names tuple n v : NoDup names -> In (n, v) (combine names tuple) -> in_iteration c names tuple n = v.
Proof.
  revert tuple. induction names as [|x names IH]; intros [|y tuple] ND; cbn; try easy. inversion ND as [|? ? NI ND']; subst.
  intros [[= -> ->]|I]; [now rewrite String.eqb_refl|]. destruct (String.eqb_spec n x) as [->|N]; [|now apply IH]. contradiction NI. now apply in_combine_l in I.
Qed.
Lemma in_iteration_out c names tuple n : ~ In n names -> in_iteration c names tuple n = c n.
Proof.
  revert tuple. induction names as [|x names IH]; intros [|y tuple] NI; cbn; try easy. destruct (String.eqb_spec n x) as [->|N]; [contradiction NI; now left|].
  apply IH. intros I. apply NI. now right.
Qed.
Lemma fst_combine {A B} (l : list A) (l' : list B) : length l' = length l -> map fst (combine l l') = l.
Proof. revert l'. induction l as [|x l IH]; intros [|y l'] E; cbn in *; try easy. f_equal. apply IH. lia. Qed.
Lemma environment_in_iteration k counters tuple : rev counters = combine (map lvar (loops k)) tuple -> length tuple = length (loops k) -> NoDup (map lvar (loops k)) ->
  forall n, environment k counters n = in_iteration (constants k) (map lvar (loops k)) tuple n.
Proof.
  intros E L ND n. assert (F : rev (map fst counters) = map lvar (loops k)) by (rewrite <- map_rev, E; apply fst_combine; now rewrite map_length).
  assert (ND' : NoDup (map fst counters)) by (rewrite <- (rev_involutive (map fst counters)), F; apply NoDup_rev; exact ND).
  unfold environment. destruct (existsb _ counters) eqn:X.
  - apply existsb_exists in X as ([m v] & I & M). apply String.eqb_eq in M. cbn in M. subst m. rewrite (lookup_in_nodup counters n v ND' I).
    symmetry. apply in_iteration_in; [exact ND|]. rewrite <- E. now apply -> in_rev.
  - rewrite in_iteration_out; [easy|]. intros I. rewrite <- F in I. apply in_rev in I. apply in_map_iff in I as ([m v] & M & I). cbn in M. subst m.
    assert (Y : existsb (fun c => String.eqb n (fst c)) counters = true) by (apply existsb_exists; exists (n, v); split; [easy|apply String.eqb_refl]). congruence.
Qed.

(** ** Dictionaries of accesses *)
Definition keys (d : list (string * list access)) := map fst d.
Lemma acc_add_keys eqb d k a : NoDup (keys d) -> NoDup (keys (acc_add eqb d k a)) /\ forall x, In x (keys (acc_add eqb d k a)) -> x = k \/ In x (keys d).
Proof.
  induction d as [|[k' s] d IH]; cbn; intros ND.
  - split; [repeat constructor; easy|]. intros x [<-|[]]. now left.
  - inversion ND as [|? ? NI ND']; subst. destruct (String.eqb_spec k k') as [->|N]; cbn.
    + split; [easy|]. intros x I. now right.
    + destruct (IH ND') as [A B]. split.
      * constructor; [|easy]. intros I. apply B in I as [E|I]; [now apply N|easy].
      * intros x [<-|I]; [right; now left|]. apply B in I as [->|I]; [now left|right; now right].
Qed.
Definition proper_state (st : kstate) := NoDup (keys (sources st)) /\ NoDup (keys (destinations st)).
Lemma p_sources_proper eqb e st st' : p_sources eqb e st = Ok st' -> proper_state st -> proper_state st'.
Proof.
  revert st st'. induction e; intros st st' E P; cbn [p_sources] in E; try discriminate.
  - destruct (get_basename _); [|discriminate]. cbn [bind] in E. destruct (get_offsets _); [|discriminate]. cbn in E. injection E as <-. destruct P as [A B]. split; [|exact B]. cbn. now apply acc_add_keys.
  - injection E as <-. exact P.
  - destruct (p_sources eqb e1 st) as [s1|] eqn:E1; [|discriminate]. cbn in E. destruct (p_sources eqb e2 s1) as [s2|] eqn:E2; [|discriminate]. cbn in E. injection E as <-.
    apply (IHe2 _ _ E2), (IHe1 _ _ E1), P.
  - destruct (allowed_unary op); [|discriminate]. destruct (p_sources eqb e st) as [s1|] eqn:E1; [|discriminate]. cbn in E. injection E as <-. apply (IHe _ _ E1), P.
  - destruct (get_basename _); [|discriminate]. cbn [bind] in E. destruct (get_offsets _); [|discriminate]. cbn in E. injection E as <-. destruct P as [A B]. split; [|exact B]. cbn. now apply acc_add_keys.
Qed.
Lemma p_assignment_proper eqb s st st' : p_assignment eqb s st = Ok st' -> proper_state st -> proper_state st'.
Proof.
  unfold p_assignment. intros E P. destruct (lvalue s) eqn:L; try discriminate.
  all: destruct (get_basename _) as [n|]; [|discriminate]; cbn [bind] in E; destruct (get_offsets _) as [a|]; [|discriminate]; cbn [bind] in E; apply (p_sources_proper _ _ _ _ E); destruct P as [A B].
  all: destruct (String.eqb (aop s) "="); cbn; split; cbn; try apply acc_add_keys; assumption.
Qed.
Lemma p_assignments_proper eqb l st st' : p_assignments eqb l st = Ok st' -> proper_state st -> proper_state st'.
Proof.
  revert st. induction l as [|s l IH]; cbn; intros st E P; [now injection E as <-|]. destruct (p_assignment eqb s st) as [s1|] eqn:E1; [|discriminate]. cbn in E.
  apply (IH _ E), (p_assignment_proper _ _ _ _ E1), P.
Qed.
Lemma accesses_listed d n a : NoDup (keys d) -> In a (accesses_of d n) <-> listed d n a.
Proof.
  unfold listed. induction d as [|[m s] d IH]; cbn; intros ND; [split; [easy|intros (s & [] & _)]|]. inversion ND as [|? ? NI ND']; subst.
  destruct (String.eqb_spec n m) as [->|N].
  - split; [intros I; exists s; split; [now left|easy]|]. intros (s' & [[= <-]|I] & J); [easy|]. contradiction NI. now apply (in_map fst) in I.
  - rewrite IH by easy. split; intros (s' & I & J).
    + exists s'. split; [now right|easy].
    + destruct I as [[= M <-]|I]; [congruence|now exists s'].
Qed.

(** ** Gathering *)
Lemma offsets_of_in depends n elem dims l r : offsets_of depends n elem dims l = Ok r ->
  forall o, In o r <-> exists idx, In (Some idx) l /\ depends n idx = true /\ o = (n, elem, dims, idx).
Proof.
  revert r. induction l as [|[idx|] l IH]; cbn; intros r E o.
  - injection E as <-. split; [easy|]. intros (i & [] & _).
  - destruct (offsets_of depends n elem dims l) as [x|] eqn:X; [|discriminate]. cbn in E. injection E as <-. specialize (IH x eq_refl o). destruct (depends n idx) eqn:D; cbn; rewrite IH.
    + split.
      * intros [<-|(i & I & D' & ->)]; [exists idx; auto|exists i; auto].
      * intros (i & [[= ->]|I] & D' & ->); [now left|right; exists i; auto].
    + split; [intros (i & I & D' & ->); exists i; auto|]. intros (i & [[= ->]|I] & D' & ->); [congruence|exists i; auto].
  - discriminate.
Qed.
Lemma offsets_of_none depends n elem dims l r : offsets_of depends n elem dims l = Ok r -> ~ In None l.
Proof.
  revert r. induction l as [|[idx|] l IH]; cbn; intros r E; [easy| |discriminate]. destruct (offsets_of depends n elem dims l) as [x|] eqn:X; [|discriminate].
  intros [J|J]; [discriminate|now apply (IH x)].
Qed.
Lemma gather_in depends arrs d r : gather depends arrs d = Ok r ->
  forall o, In o r <-> exists n elem dims idx, In (n, (elem, dims)) arrs /\ In (Some idx) (accesses_of d n) /\ depends n idx = true /\ o = (n, elem, dims, idx).
Proof.
  revert r. induction arrs as [|[n [elem dims]] arrs IH]; cbn; intros r E o.
  - injection E as <-. split; [easy|]. intros (n & elem & dims & idx & [] & _).
  - destruct (offsets_of _ _ _ _ _) as [x|] eqn:X; [|discriminate]. cbn in E. destruct (gather depends arrs d) as [y|] eqn:Y; [|discriminate]. cbn in E. injection E as <-.
    rewrite in_app_iff, (offsets_of_in _ _ _ _ _ _ X), (IH y eq_refl). split.
    + intros [(idx & I & D & ->)|(m & el & di & idx & I & J)]; [exists n, elem, dims, idx; auto|exists m, el, di, idx; split; [now right|easy]].
    + intros (m & el & di & idx & [[= <- <- <-]|I] & J); [left; exists idx; auto|right; exists m, el, di, idx; auto].
Qed.
Lemma gather_none depends arrs d r n : gather depends arrs d = Ok r -> In n (map fst arrs) -> ~ In None (accesses_of d n).
Proof.
  revert r. induction arrs as [|[m [elem dims]] arrs IH]; cbn; intros r E; [easy|]. destruct (offsets_of _ _ _ _ _) as [x|] eqn:X; [|discriminate]. cbn in E.
  destruct (gather depends arrs d) as [y|] eqn:Y; [|discriminate]. intros [<-|I]; [now apply (offsets_of_none _ _ _ _ _ _ X)|now apply (IH y)].
Qed.

(** ** Addresses *)
Lemma base_of_in l n b s : NoDup (map (fun x => fst (fst x)) l) -> In (n, b, s) l -> base_of l n = b.
Proof.
  induction l as [|[[m c] t] l IH]; cbn; [easy|]. intros ND. inversion ND as [|? ? NI ND']; subst. intros [[= -> -> ->]|I]; [now rewrite String.eqb_refl|].
  destruct (String.eqb_spec n m) as [->|N]; [|now apply IH]. contradiction NI. now apply (in_map (fun x => fst (fst x))) in I.
Qed.
Lemma layout_names cl sp l : Permutation (map fst l) (map (fun x => fst (fst x)) (layout cl sp l)).
Proof.
  pose proof (layout_perm cl sp l) as P. apply (Permutation_map fst) in P. rewrite map_map in P. exact P.
Qed.
Section Kernel.
  Variables (k : kernel) (spacing : Z) (mem : memory).
  Hypothesis ND : NoDup (map fst (arrays k)).
  Hypothesis LO : laid_out k spacing mem.
  Lemma sizes_eq : map (fun a => (fst a, array_bytes (fst (snd a)) (dimensions k (snd (snd a))))) (arrays k) =
    map (fun a => (fst a, fst (snd a) * zprod (map (seval (constants k)) (snd (snd a))))) (arrays k).
  Proof.
    apply map_ext. intros [n [e d]]. cbn. unfold array_bytes, dimensions. rewrite array_elements_prod. f_equal. rewrite (map_ext _ _ (number_seval (constants k))). apply Z.mul_comm.
  Qed.
  Lemma bases_nodup : NoDup (map (fun x => fst (fst x)) (bases k spacing)).
  Proof.
    unfold bases. eapply Permutation_NoDup; [apply layout_names|]. rewrite map_map. cbn. exact ND.
  Qed.
  Lemma array_in_memory n elem sizes : In (n, (elem, sizes)) (arrays k) -> In (n, base_of (bases k spacing) n, elem, map (seval (constants k)) sizes) mem.
  Proof.
    intros I. apply (proj2 (LO n _ elem _)). exists sizes. split; [easy|]. split; [easy|]. rewrite <- sizes_eq. fold (bases k spacing).
    assert (J : In n (map (fun x => fst (fst x)) (bases k spacing))).
    { eapply Permutation_in; [apply layout_names|]. rewrite map_map. cbn. now apply (in_map fst) in I. }
    apply in_map_iff in J as ([[m b] s] & M & J). cbn in M. subst m. exists s. now rewrite (base_of_in _ n b s bases_nodup J).
  Qed.
  Lemma memory_array n base elem dims : In (n, base, elem, dims) mem -> exists sizes, In (n, (elem, sizes)) (arrays k) /\ dims = map (seval (constants k)) sizes /\ base = base_of (bases k spacing) n.
  Proof.
    intros I. apply (proj1 (LO n base elem dims)) in I as (sizes & I & -> & (bytes & J)). exists sizes. split; [easy|]. split; [easy|]. rewrite <- sizes_eq in J. fold (bases k spacing) in J.
    now rewrite (base_of_in _ n base bytes bases_nodup J).
  Qed.
  Lemma described_values env idx subs : Forall2 same_index subs idx -> Forall2 (fun e v => ceval env e = Some v) subs (map (seval env) idx).
  Proof. induction 1 as [|e s es ss H _ IH]; cbn; constructor; [apply H|exact IH]. Qed.
  Lemma values_unique env subs vs vs' : Forall2 (fun e v => ceval env e = Some v) subs vs -> Forall2 (fun e v => ceval env e = Some v) subs vs' -> vs = vs'.
  Proof. intros A. revert vs'. induction A as [|e v es ws H _ IH]; intros vs' B; inversion B; subst; [easy|]. f_equal; [congruence|now apply IH]. Qed.
  (** An offset of the code is the address of the reference. *)
  Lemma address_reference counters env n elem sizes idx subs : (forall x, environment k counters x = env x) ->
    In (n, (elem, sizes)) (arrays k) -> subs <> [] -> Forall2 same_index subs idx -> inside mem env (n, subs) ->
    reference_address mem env (n, subs) (address k spacing counters (n, elem, sizes, idx)).
  Proof.
    intros E I NE D IN. pose proof (array_in_memory _ _ _ I) as M. pose proof (described_values env idx subs D) as V.
    pose proof (IN _ _ _ _ M V) as R. destruct (access_element_number (base_of (bases k spacing) n) elem _ _ R) as (p & P & A).
    exists (base_of (bases k spacing) n), elem, (map (seval (constants k)) sizes), (map (seval env) idx), p. cbn [fst snd]. split; [easy|]. split; [easy|]. split; [easy|]. split; [easy|].
    rewrite <- A. unfold address, dimensions. rewrite (map_ext _ _ (number_seval (constants k)) sizes).
    rewrite (map_ext (number (environment k counters)) (seval env)); [easy|]. intros s. rewrite number_seval. now apply seval_ext.
  Qed.
End Kernel.

(** ** All rows *)
Lemma max_le l x : (forall y, In y l -> y <= fold_left Z.max l x) /\ x <= fold_left Z.max l x.
Proof.
  revert x. induction l as [|a l IH]; cbn; intros x; [split; [easy|lia]|]. destruct (IH (Z.max x a)) as [A B]. split; [|lia]. intros y [<-|I]; [lia|now apply A].
Qed.
Section Rows.
  Variables (k : kernel) (spacing : Z) (mem : memory) (depends : string -> list sym -> bool) (its : list (list Z)).
  Hypothesis ND : NoDup (map fst (arrays k)).
  Hypothesis LO : laid_out k spacing mem.
  Hypothesis DS : depends_sound k depends.
  Let names := map lvar (loops k).
  Let env t := in_iteration (constants k) names t.
  Variables (d : list (string * list access)) (refs : list (string * list expr)).
  Hypothesis KD : NoDup (keys d).
  Hypothesis C1 : forall n subs, In (n, subs) refs -> exists a, listed d n a /\ describes a subs.
  Hypothesis C2 : forall n a, listed d n a -> exists subs, In (n, subs) refs /\ describes a subs.
  Hypothesis IN : forall t r, In t its -> In r refs -> inside mem (env t) r.
  Lemma rows_correct os counters t : gather depends (arrays k) d = Ok os -> In t its -> (forall x, environment k counters x = env t x) ->
    (forall a, In a (map (address k spacing counters) os) -> exists r, In r refs /\ reference_address mem (env t) r a) /\
    (forall r, In r refs -> snd r <> [] -> In (fst r) (map fst (arrays k)) ->
       fixed (constants k) names its r \/ exists a, In a (map (address k spacing counters) os) /\ reference_address mem (env t) r a).
  Proof.
    intros G T E. split.
    - intros a I. apply in_map_iff in I as (o & <- & I). apply (proj1 (gather_in _ _ _ _ G o)) in I as (n & elem & sizes & idx & I & L & _ & ->).
      apply (proj1 (accesses_listed d n _ KD)) in L. destruct (C2 n _ L) as (subs & R & NE & D). exists (n, subs). split; [easy|]. apply address_reference; auto.
    - intros [n subs] R NE A. cbn [fst snd] in *. destruct (C1 n subs R) as (a & L & D). destruct a as [idx|]; [|now contradiction NE]. destruct D as [_ D].
      apply in_map_iff in A as ([m [elem sizes]] & M & A). cbn in M. subst m. destruct (depends n idx) eqn:X.
      + right. exists (address k spacing counters (n, elem, sizes, idx)). split; [|apply address_reference; auto].
        apply in_map. apply (proj2 (gather_in _ _ _ _ G _)). exists n, elem, sizes, idx. split; [easy|]. split; [|easy]. now apply accesses_listed.
      + left. intros t1 t2 vs vs' T1 T2 V1 V2. cbn [snd] in *.
        rewrite (values_unique _ _ _ _ V1 (described_values _ idx subs D)), (values_unique _ _ _ _ V2 (described_values _ idx subs D)).
        pose proof (array_in_memory k spacing mem ND LO _ _ _ A) as M.
        apply (access_injective (map (seval (constants k)) sizes)).
        * apply (IN t1 (n, subs) T1 R _ _ _ _ M). apply described_values, D.
        * apply (IN t2 (n, subs) T2 R _ _ _ _ M). apply described_values, D.
        * exact (DS n elem sizes idx t1 t2 A X).
  Qed.
End Rows.

Lemma forall2_length {A B} {R : A -> B -> Prop} {l l'} : Forall2 R l l' -> length l = length l'.
Proof. induction 1; cbn; congruence. Qed.
Lemma combinations_tuple (vss : list (list Z)) t : In t (combinations vss) -> length t = length vss.
Proof.
  revert t. induction vss as [|vs vss IH]; cbn; intros t I; [now destruct I as [<-|[]]|]. apply in_flat_map in I as (v & _ & I). apply in_map_iff in I as (r & <- & I). cbn. f_equal. now apply IH.
Qed.
Lemma trace depends eqb k stmts st its gs spacing rows mem :
  eqb_sound eqb -> p_assignments eqb stmts empty_state = Ok st ->
  NoDup (map fst (arrays k)) -> unit_stack (loops k) -> NoDup (map lvar (loops k)) -> executes (bounds (loops k)) its ->
  laid_out k spacing mem -> depends_sound k depends ->
  (forall t r, In t its -> In r (flat_map stmt_reads stmts ++ flat_map stmt_writes stmts) -> inside mem (in_iteration (constants k) (map lvar (loops k)) t) r) ->
  Forall (fun g => 0 <= g) gs ->
  compile_global_offsets depends k st gs spacing = Ok rows -> rows <> [] ->
  length rows = length gs /\
  forall p g, nth_error gs p = Some g ->
  exists t loads stores, nth_error its (Z.to_nat g) = Some t /\ nth_error rows p = Some (loads, stores) /\
    let env := in_iteration (constants k) (map lvar (loops k)) t in
    (forall a, In a loads -> exists r, In r (flat_map stmt_reads stmts) /\ reference_address mem env r a) /\
    (forall a, In a stores -> exists r, In r (flat_map stmt_writes stmts) /\ reference_address mem env r a) /\
    (forall r, In r (flat_map stmt_reads stmts) -> snd r <> [] -> In (fst r) (map fst (arrays k)) ->
       fixed (constants k) (map lvar (loops k)) its r \/ exists a, In a loads /\ reference_address mem env r a) /\
    (forall r, In r (flat_map stmt_writes stmts) -> snd r <> [] -> In (fst r) (map fst (arrays k)) ->
       fixed (constants k) (map lvar (loops k)) its r \/ exists a, In a stores /\ reference_address mem env r a).
Proof.
  intros S A ND U NL X LO DS IN POS E NE. unfold compile_global_offsets in E. destruct gs as [|g0 gs0]; [discriminate|].
  destruct (Z.leb_spec (iteration_length (loops k)) (fold_left Z.max gs0 g0)) as [|MX]; [discriminate|].
  destruct (gather depends (arrays k) (sources st)) as [l|] eqn:GL; [|discriminate]. cbn [bind] in E.
  destruct (gather depends (arrays k) (destinations st)) as [s|] eqn:GS; [|discriminate]. cbn [bind] in E.
  assert (R : rows = map (fun g => let counters := global_iterator_to_indices (loops k) g in (map (address k spacing counters) l, map (address k spacing counters) s)) (g0 :: gs0)).
  { destruct l, s; [injection E as <-; contradiction|injection E as <-; reflexivity ..]. }
  clear E. subst rows. split; [now rewrite map_length|]. intros p g P.
  assert (G : 0 <= g < Z.of_nat (length its)).
  { pose proof (nth_error_In _ _ P) as I. rewrite <- (iteration_length_executed _ _ (unit_proper _ U) X). split; [now apply (proj1 (Forall_forall _ _) POS)|].
    destruct (max_le gs0 g0) as [M1 M2]. destruct I as [<-|I]; [lia|]. specialize (M1 g I). lia. }
  destruct (iterator_is_execution_order _ _ _ U X G) as (t & T & C).
  destruct (analysis_exact _ S _ _ A) as (A1 & A2 & A3 & A4).
  assert (KK : proper_state st) by (apply (p_assignments_proper _ _ _ _ A); split; constructor). destruct KK as [K1 K2].
  assert (LT : length t = length (loops k)).
  { destruct X as (vss & V & ->). apply nth_error_In in T. rewrite (combinations_tuple _ _ T), <- (forall2_length V). unfold bounds. apply map_length. }
  pose proof (environment_in_iteration _ _ _ C LT NL) as EV. pose proof (nth_error_In _ _ T) as IT.
  exists t, (map (address k spacing (global_iterator_to_indices (loops k) g)) l), (map (address k spacing (global_iterator_to_indices (loops k) g)) s).
  split; [exact T|]. split; [now rewrite nth_error_map, P|]. cbv zeta.
  destruct (rows_correct k spacing mem depends its ND LO DS _ _ K1 A1 A2 (fun t r I J => IN t r I (in_or_app _ _ _ (or_introl J))) l _ t GL IT EV) as [L1 L2].
  destruct (rows_correct k spacing mem depends its ND LO DS _ _ K2 A3 A4 (fun t r I J => IN t r I (in_or_app _ _ _ (or_intror J))) s _ t GS IT EV) as [S1 S2].
  auto.
Qed.

(** Errors *)
Lemma trace_range depends k st gs spacing g : In g gs -> iteration_length (loops k) <= g -> compile_global_offsets depends k st gs spacing = Err AssertionError.
Proof.
  intros I L. unfold compile_global_offsets. destruct gs as [|g0 gs]; [easy|]. destruct (max_le gs g0) as [A B].
  destruct (Z.leb_spec (iteration_length (loops k)) (fold_left Z.max gs g0)) as [|M]; [easy|]. destruct I as [<-|I]; [lia|]. specialize (A g I). lia.
Qed.
Lemma offsets_of_err depends n elem dims l e : offsets_of depends n elem dims l = Err e -> In None l.
Proof.
  induction l as [|[idx|] l IH]; cbn; intros E; [easy| |now left]. destruct (offsets_of depends n elem dims l) as [x|]; [discriminate|]. right. now apply IH.
Qed.
Lemma gather_err depends arrs d e : gather depends arrs d = Err e -> exists n, In n (map fst arrs) /\ In None (accesses_of d n).
Proof.
  induction arrs as [|[n [elem dims]] arrs IH]; cbn; intros E; [easy|]. destruct (offsets_of _ _ _ _ _) as [x|] eqn:X.
  - cbn in E. destruct (gather depends arrs d) as [y|]; [discriminate|]. destruct (IH E) as (m & I & J). exists m. auto.
  - exists n. split; [now left|]. now apply offsets_of_err in X.
Qed.
(** The addresses are computed if and only if arrays are only used with subscripts. *)
Lemma trace_total depends eqb k stmts st g gs spacing : eqb_sound eqb -> p_assignments eqb stmts empty_state = Ok st ->
  (forall x, In x (g :: gs) -> x < iteration_length (loops k)) ->
  (exists rows, compile_global_offsets depends k st (g :: gs) spacing = Ok rows) <->
  (forall n, In (n, []) (flat_map stmt_reads stmts ++ flat_map stmt_writes stmts) -> ~ In n (map fst (arrays k))).
Proof.
  intros S A R. destruct (analysis_exact _ S _ _ A) as (A1 & A2 & A3 & A4).
  assert (KK : proper_state st) by (apply (p_assignments_proper _ _ _ _ A); split; constructor). destruct KK as [K1 K2].
  assert (M : (iteration_length (loops k) <=? fold_left Z.max gs g) = false).
  { apply Z.leb_gt. assert (X : forall l x, In (fold_left Z.max l x) (x :: l)).
    { clear. induction l as [|a l IH]; cbn; intros x; [now left|]. destruct (IH (Z.max x a)) as [E|I]; [|auto]. rewrite <- E. destruct (Z.max_spec x a) as [[_ ->]|[_ ->]]; auto. }
    apply R, X. }
  unfold compile_global_offsets. rewrite M. split.
  - intros (rows & E) n I J. destruct (gather depends (arrays k) (sources st)) as [l|] eqn:GL; [|discriminate]. cbn [bind] in E.
    destruct (gather depends (arrays k) (destinations st)) as [s|] eqn:GS; [|discriminate].
    apply in_app_iff in I as [I|I].
    + destruct (A1 _ _ I) as (a & L & D). destruct a as [idx|]; [now destruct D|]. apply (gather_none _ _ _ _ n GL J). now apply accesses_listed.
    + destruct (A3 _ _ I) as (a & L & D). destruct a as [idx|]; [now destruct D|]. apply (gather_none _ _ _ _ n GS J). now apply accesses_listed.
  - intros H. destruct (gather depends (arrays k) (sources st)) as [l|] eqn:GL.
    + cbn [bind]. destruct (gather depends (arrays k) (destinations st)) as [s|] eqn:GS; cbn [bind].
      * destruct l, s; eauto.
      * exfalso. apply gather_err in GS as (n & I & L). apply accesses_listed in L; [|easy]. destruct (A4 _ _ L) as (subs & J & D). cbn in D. subst subs. apply (H n); [apply in_app_iff; now right|easy].
    + exfalso. apply gather_err in GL as (n & I & L). apply accesses_listed in L; [|easy]. destruct (A2 _ _ L) as (subs & J & D). cbn in D. subst subs. apply (H n); [apply in_app_iff; now left|easy].
Qed.

(** The test of free symbols without simplification *)
Fixpoint mentions (names : list string) (s : sym) : bool :=
  match s with
  | SVar n => existsb (String.eqb n) names | SInt _ => false
  | SMul a b | SAdd a b | SSub a b => (mentions names a || mentions names b)%bool
  end.
Lemma mentions_sound c names s t t' : mentions names s = false -> seval (in_iteration c names t) s = seval (in_iteration c names t') s.
Proof.
  induction s; cbn; intros H; try apply Bool.orb_false_elim in H as [H1 H2]; try (rewrite IHs1, IHs2 by easy); try easy.
  assert (NI : ~ In n names).
  { intros I. assert (X : existsb (String.eqb n) names = true) by (apply existsb_exists; exists n; split; [easy|apply String.eqb_refl]). congruence. }
  now rewrite !in_iteration_out.
Qed.
Lemma syntactic_sound k : depends_sound k (fun _ idx => existsb (mentions (map lvar (loops k))) idx).
Proof.
  intros n elem sizes idx t t' _ H. f_equal. induction idx as [|s idx IH]; cbn in *; [easy|]. apply Bool.orb_false_elim in H as [H1 H2]. f_equal; [now apply mentions_sound|now apply IH].
Qed.

(** Iterations in front of the first one *)
Lemma zprod_positive l : Forall (fun d => 0 < d) l -> 0 < zprod l.
Proof. induction 1 as [|d l H _ IH]; cbn; [lia|]. apply Z.mul_pos_pos; assumption. Qed.
Lemma digits_wrap ds g : Forall (fun d => 0 < d) ds -> digits ds (g mod zprod ds) = digits ds g.
Proof.
  intros P. revert g. induction P as [|d ds D P IH]; intros g; cbn [digits]; [easy|]. change (zprod (d :: ds)) with (d * zprod ds). pose proof (zprod_positive _ P) as Q.
  rewrite Z.rem_mul_r by lia. f_equal.
  - rewrite (Z.mul_comm d), Z.mod_add, Z.mod_mod by lia. easy.
  - rewrite <- (IH (g / d)). f_equal. rewrite Z.add_comm, (Z.mul_comm d), Z.div_add_l by lia. rewrite (Z.div_small (g mod d) d) by (apply Z.mod_pos_bound; lia). lia.
Qed.
Lemma indices_wrap stack g : unit_stack stack -> global_iterator_to_indices stack (g mod iteration_length stack) = global_iterator_to_indices stack g.
Proof.
  intros U. unfold global_iterator_to_indices. pose proof (unit_stack_rev _ U) as R. rewrite !gi_to_indices_digits by (try assumption; lia). rewrite !Z.div_1_r.
  rewrite iteration_length_prod, <- zprod_rev, <- map_rev. now rewrite digits_wrap by now apply unit_lengths_pos.
Qed.
Lemma unit_total stack : unit_stack stack -> 0 < iteration_length stack.
Proof. intros U. rewrite iteration_length_prod. now apply zprod_positive, unit_lengths_pos. Qed.
Lemma max_in l x : In (fold_left Z.max l x) (x :: l).
Proof.
  revert x. induction l as [|a l IH]; cbn; intros x; [now left|]. destruct (IH (Z.max x a)) as [E|I]; [|auto]. rewrite <- E. destruct (Z.max_spec x a) as [[_ ->]|[_ ->]]; auto.
Qed.
Lemma trace_wraps depends k st gs spacing : unit_stack (loops k) -> Forall (fun g => g < iteration_length (loops k)) gs ->
  compile_global_offsets depends k st gs spacing = compile_global_offsets depends k st (map (fun g => g mod iteration_length (loops k)) gs) spacing.
Proof.
  intros U F. destruct gs as [|g gs]; [easy|]. unfold compile_global_offsets. cbn [map]. pose proof (unit_total _ U) as T.
  assert (A : (iteration_length (loops k) <=? fold_left Z.max gs g) = false) by (apply Z.leb_gt, (proj1 (Forall_forall _ _) F), max_in).
  assert (B : (iteration_length (loops k) <=? fold_left Z.max (map (fun g => g mod iteration_length (loops k)) gs) (g mod iteration_length (loops k))) = false).
  { apply Z.leb_gt. destruct (max_in (map (fun g => g mod iteration_length (loops k)) gs) (g mod iteration_length (loops k))) as [<-|M]; [now apply Z.mod_pos_bound|].
    apply in_map_iff in M as (x & <- & _). now apply Z.mod_pos_bound. }
  rewrite A, B. destruct (gather _ _ _) as [l|]; [|easy]. cbn [bind]. destruct (gather depends (arrays k) (destinations st)) as [s|]; [|easy]. cbn [bind].
  set (f := fun g => let counters := global_iterator_to_indices (loops k) g in (map (address k spacing counters) l, map (address k spacing counters) s)).
  assert (E : map f (g :: gs) = map f (map (fun g => g mod iteration_length (loops k)) (g :: gs))).
  { rewrite map_map. apply map_ext. intros x. unfold f. now rewrite indices_wrap. }
  destruct l, s; [reflexivity|exact (f_equal Ok E) ..].
Qed.
