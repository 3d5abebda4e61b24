(** Proofs about pointer increments for AArch64. *)
From Coq Require Import Lia Bool.
From Verif Require Import A64Model A64Spec.
Local Open Scope Z_scope.
Local Open Scope list_scope.

(** ** Dictionaries *)
Lemma teqb_eq a b : text_eqb a b = true <-> a = b.
Proof. destruct (text_eqb_spec a b); split; congruence. Qed.
Lemma teqb_refl a : text_eqb a a = true.
Proof. now apply teqb_eq. Qed.
Lemma get_set k v d x : dict_get x (dict_set k v d) = if text_eqb x k then Some v else dict_get x d.
Proof.
  induction d as [|[y w] d IH]; cbn; [now destruct (text_eqb x k)|]. destruct (text_eqb k y) eqn:E; cbn.
  - apply teqb_eq in E. subst y. now destruct (text_eqb x k).
  - rewrite IH. destruct (text_eqb x y) eqn:F; [|reflexivity]. apply teqb_eq in F. subst y. destruct (text_eqb x k) eqn:G; [|reflexivity].
    apply teqb_eq in G. subst. now rewrite teqb_refl in E.
Qed.
Lemma in_set k v d x : dict_in x (dict_set k v d) = (text_eqb x k || dict_in x d)%bool.
Proof. unfold dict_in. rewrite get_set. now destruct (text_eqb x k). Qed.
Lemma count_bump k d x : count_of x (bump k d) = count_of x d + if text_eqb x k then 1 else 0.
Proof. unfold bump, count_of at 1. rewrite get_set. destruct (text_eqb x k) eqn:E; [apply teqb_eq in E; subst; reflexivity|]. unfold count_of. lia. Qed.
Lemma in_bump k d x : dict_in x (bump k d) = (text_eqb x k || dict_in x d)%bool.
Proof. apply in_set. Qed.
Lemma get_filter p d x v : NoDup (map fst d) -> dict_get x (filter p d) = Some v <-> dict_get x d = Some v /\ p (x, v) = true.
Proof.
  induction d as [|[y w] d IH]; cbn; intros N; [split; [discriminate|now intros []]|]. apply NoDup_cons_iff in N as [N1 N2].
  assert (No : forall v, dict_get y d <> Some v).
  { clear -N1. induction d as [|[z u] d IH]; cbn in *; [discriminate|]. intros v. destruct (text_eqb y z) eqn:E; [apply teqb_eq in E; subst; tauto|]. apply IH. tauto. }
  destruct (text_eqb x y) eqn:E.
  - apply teqb_eq in E. subst y. destruct (p (x, w)) eqn:P; cbn.
    + rewrite teqb_refl. split; [intros [=->]; auto|intros [[=->] _]; reflexivity].
    + split; [|intros [[=->] Q]; congruence]. intros H. apply IH in H; [|assumption]. exfalso. now apply (No v).
  - destruct (p (y, w)); cbn; [rewrite E|]; now apply IH.
Qed.
Lemma keys_set k v d x : In x (map fst (dict_set k v d)) <-> x = k \/ In x (map fst d).
Proof.
  induction d as [|[y w] d IH]; cbn; [intuition|]. destruct (text_eqb k y) eqn:E; cbn; [apply teqb_eq in E; subst; intuition|]. rewrite IH. intuition.
Qed.
Lemma nodup_set k v d : NoDup (map fst d) -> NoDup (map fst (dict_set k v d)).
Proof.
  induction d as [|[y w] d IH]; cbn; intros N; [repeat constructor; intuition|]. apply NoDup_cons_iff in N as [N1 N2].
  destruct (text_eqb k y) eqn:E; cbn; [now constructor|]. constructor; [|now apply IH]. rewrite keys_set. intros [->|I]; [|tauto]. now rewrite teqb_refl in E.
Qed.
Lemma nodup_filter p (d : dict) : NoDup (map fst d) -> NoDup (map fst (filter p d)).
Proof.
  induction d as [|x d IH]; cbn; intros N; [constructor|]. apply NoDup_cons_iff in N as [N1 N2]. destruct (p x); cbn; [|now apply IH].
  constructor; [|now apply IH]. intros I. apply N1. apply in_map_iff in I as (y & E & I). apply filter_In in I as [I _]. rewrite <- E. now apply in_map.
Qed.

(** ** Folds *)
Lemma foldM_inv {A B} (f : A -> B -> res A) (P : A -> Prop) l : (forall a x a', In x l -> P a -> f a x = Ok a' -> P a') ->
  forall a a', P a -> foldM f l a = Ok a' -> P a'.
Proof.
  induction l as [|x l IH]; cbn; intros H a a' Pa E; [congruence|]. destruct (f a x) as [b|] eqn:F; [|discriminate]. cbn in E.
  apply (IH (fun a0 y a1 I => H a0 y a1 (or_intror I)) b a'); [|assumption]. apply (H a x b); auto.
Qed.
Lemma foldM_app {A B} (f : A -> B -> res A) l1 l2 a : foldM f (l1 ++ l2) a = bind (foldM f l1 a) (foldM f l2).
Proof. revert a. induction l1 as [|x l1 IH]; cbn; intros a; [reflexivity|]. destruct (f a x); cbn; [apply IH|reflexivity]. Qed.

(** ** Counts of writes *)
Definition is_dest (n : text) (o : operand) : bool := match o with Reg r => is_named n r | _ => false end.
Definition is_indexed (n : text) (o : operand) : bool := match o with Mem m => (indexing m && match base m with Some r => is_named n r | None => false end)%bool | _ => false end.
Lemma writes_split n block : writes n block = (length (filter (is_dest n) (flat_map destinations block)) + length (filter (is_indexed n) (flat_map operands block)))%nat.
Proof.
  unfold writes. induction block as [|l b IH]; [reflexivity|]. cbn [map flat_map list_sum fold_right]. change (fold_right Nat.add 0%nat (map (writes_of n) b)) with (list_sum (map (writes_of n) b)). rewrite IH, !filter_app, !app_length.
  unfold writes_of. fold (is_dest n) (is_indexed n). change (fun o => match o with Reg r => is_named n r | _ => false end) with (is_dest n).
  change (fun o => match o with Mem m => (indexing m && match base m with Some r => is_named n r | None => false end)%bool | _ => false end) with (is_indexed n). lia.
Qed.
Lemma count_destinations ops : forall d d', foldM count_destination ops d = Ok d' -> forall n,
  count_of n d' = count_of n d + Z.of_nat (length (filter (is_dest n) ops)) /\ dict_in n d' = (dict_in n d || negb (Nat.eqb (length (filter (is_dest n) ops)) 0))%bool.
Proof.
  induction ops as [|o ops IH]; cbn [foldM filter]; intros d d' E n; [assert (d = d') by congruence; subst; cbn; rewrite orb_false_r; split; [lia|reflexivity]|].
  destruct o as [r| | |]; cbn [count_destination is_dest bind] in *; try (apply (IH _ _ E)).
  destruct (normalize r) as [x|] eqn:Nr; [|discriminate]. cbn [bind] in E. destruct (IH _ _ E n) as [C D]. unfold is_named. rewrite Nr. rewrite C, D, count_bump, in_bump.
  destruct (text_eqb x n) eqn:T.
  - apply teqb_eq in T. subst x. rewrite teqb_refl. cbn. rewrite orb_true_r. split; [lia|reflexivity].
  - replace (text_eqb n x) with false; [split; [lia|reflexivity]|]. symmetry. apply not_true_is_false. intros H. apply teqb_eq in H. subst. now rewrite teqb_refl in T.
Qed.
Lemma count_indexings ops : forall st st', foldM count_indexing ops st = Ok st' -> NoDup (map fst (snd st)) ->
  NoDup (map fst (snd st')) /\
  (forall n, count_of n (fst st') = count_of n (fst st) + Z.of_nat (length (filter (is_indexed n) ops)) /\ dict_in n (fst st') = (dict_in n (fst st) || negb (Nat.eqb (length (filter (is_indexed n) ops)) 0))%bool) /\
  (forall n v, dict_get n (snd st') = Some v -> dict_get n (snd st) = Some v \/
     exists m r, In (Mem m) ops /\ base m = Some r /\ named r n /\ indexing m = true /\ index_step m = Ok v).
Proof.
  induction ops as [|o ops IH]; cbn [foldM filter]; intros st st' E ND.
  { assert (st = st') by congruence. subst. cbn. repeat split; auto; [lia|now rewrite orb_false_r]. }
  destruct (count_indexing st o) as [st1|] eqn:F; [|discriminate]. cbn [bind] in E.
  assert (Step : NoDup (map fst (snd st1)) /\ (forall n, count_of n (fst st1) = count_of n (fst st) + (if is_indexed n o then 1 else 0) /\ dict_in n (fst st1) = (is_indexed n o || dict_in n (fst st))%bool) /\
    (forall n v, dict_get n (snd st1) = Some v -> dict_get n (snd st) = Some v \/ exists m r, o = Mem m /\ base m = Some r /\ named r n /\ indexing m = true /\ index_step m = Ok v)).
  { destruct o as [r|z|m|]; cbn [count_indexing is_indexed] in *; try (assert (st = st1) by congruence; subst; split; [assumption|split; [intros; split; [lia|reflexivity]|auto]]).
    destruct (indexing m) eqn:Im; cbn [andb]; [|assert (st = st1) by congruence; subst; split; [assumption|split; [intros; split; [lia|reflexivity]|auto]]].
    destruct (base m) as [r|] eqn:B; cbn [normalize_option] in F.
    - destruct (normalize r) as [x|] eqn:Nr; [|discriminate]. cbn [bind] in F. destruct (index_step m) as [z|] eqn:Z0; [|discriminate]. cbn [bind] in F.
      injection F as <-. cbn [fst snd]. split; [now apply nodup_set|]. split.
      + intros n. unfold is_named. rewrite Nr, count_bump, in_bump. destruct (text_eqb x n) eqn:T.
        * apply teqb_eq in T. subst. rewrite teqb_refl. split; reflexivity.
        * replace (text_eqb n x) with false; [split; reflexivity|]. symmetry. apply not_true_is_false. intros H. apply teqb_eq in H. subst. now rewrite teqb_refl in T.
      + intros n v. rewrite get_set. destruct (text_eqb n x) eqn:T; [|auto]. intros [=<-]. apply teqb_eq in T. subst. right. exists m, r. auto.
    - cbn [bind] in F. destruct (index_step m); [|discriminate]. cbn [bind] in F. assert (st = st1) by congruence. subst. split; [assumption|split; [intros; split; [lia|reflexivity]|auto]]. }
  destruct Step as (ND1 & C1 & G1). destruct (IH _ _ E ND1) as (ND2 & C2 & G2). split; [assumption|]. split.
  - intros n. destruct (C2 n) as [Ca Cb]. destruct (C1 n) as [Da Db]. rewrite Ca, Cb, Da, Db. destruct (is_indexed n o); cbn; [split; [lia|now rewrite orb_true_r]|split; [lia|reflexivity]].
  - intros n v H. destruct (G2 n v H) as [H1|(m & r & I & R)]; [|right; exists m, r; split; [now right|assumption]].
    destruct (G1 n v H1) as [H2|(m & r & -> & R)]; [auto|]. right. exists m, r. split; [now left|assumption].
Qed.

Lemma modifications_spec block d i : (forall l, In l block -> shape l) -> modifications block = Ok (d, i) ->
  NoDup (map fst i) /\ (forall n, count_of n d = Z.of_nat (writes n block)) /\ (forall n, dict_in n d = true <-> writes n block <> 0%nat) /\
  (forall n v, dict_get n i = Some v -> exists l, In l block /\ indexes l n v /\ writes_of n l <> 0%nat).
Proof.
  intros Sh E. unfold modifications in E. destruct (foldM count_destination _ _) as [d0|] eqn:F; [|discriminate]. cbn [bind] in E.
  assert (C0 := count_destinations _ _ _ F). destruct (count_indexings _ _ _ E) as (ND & C1 & G); [constructor|]. cbn [fst snd] in *.
  split; [assumption|]. split; [|split].
  - intros n. rewrite (proj1 (C1 n)), (proj1 (C0 n)), writes_split. cbn. lia.
  - intros n. rewrite (proj2 (C1 n)), (proj2 (C0 n)), writes_split. cbn [dict_in dict_get orb].
    destruct (length (filter (is_dest n) _)), (length (filter (is_indexed n) _)); cbn; split; intros; try lia; try reflexivity; discriminate.
  - intros n v H. destruct (G n v H) as [X|(m & r & I & B & Nr & Im & St)]; [discriminate|].
    apply in_flat_map in I as (l & Il & Io). exists l. split; [assumption|]. specialize (Sh l Il). destruct Sh as (_ & _ & Sp & Sq & _). split.
    + exists m, r. split; [assumption|]. split; [assumption|]. split; [assumption|]. unfold index_step in St. unfold indexing in Im.
      destruct (pre_indexed m) eqn:Pm.
      * left. split; [reflexivity|]. destruct (disp m) as [[z|]|]; try discriminate. congruence.
      * right. split; [reflexivity|]. assert (Q := Sq m Io). destruct (post_indexed m); [discriminate|congruence|congruence].
    + unfold writes_of. change (fun o => match o with Mem m => (indexing m && match base m with Some r => is_named n r | None => false end)%bool | _ => false end) with (is_indexed n).
      assert (J : In (Mem m) (filter (is_indexed n) (operands l))).
      { apply filter_In. split; [assumption|]. cbn. rewrite Im, B. unfold is_named, named in *. rewrite Nr. apply teqb_refl. }
      destruct (filter (is_indexed n) (operands l)); [destruct J|cbn; lia].
Qed.

(** ** Recognised instructions *)
Lemma one_of_called m l : one_of m (map codes l) = true -> exists n, m = codes n /\ In n l.
Proof. unfold one_of. rewrite existsb_exists. intros (x & I & E). apply teqb_eq in E. subst. apply in_map_iff in I as (n & <- & I). eauto. Qed.
Lemma one_of_adds m l : mnemonic l = Some m -> one_of m [tx "add"; tx "adds"] = true -> called ["add"; "adds"]%string l.
Proof. intros M H. apply (one_of_called m ["add"; "adds"]%string) in H as (n & -> & I). exists n. auto. Qed.
Lemma one_of_subs m l : mnemonic l = Some m -> one_of m [tx "sub"; tx "subs"] = true -> called ["sub"; "subs"]%string l.
Proof. intros M H. apply (one_of_called m ["sub"; "subs"]%string) in H as (n & -> & I). exists n. auto. Qed.
Lemma called_more a b l : (forall n, In n a -> In n b) -> called a l -> called b l.
Proof. intros H (n & E & I). exists n. auto. Qed.
Lemma one_of_intro m n l : In n l -> m = codes n -> one_of m (map codes l) = true.
Proof. intros I ->. apply existsb_exists. exists (codes n). split; [now apply in_map|apply teqb_refl]. Qed.

Lemma operand_eqb_eq a b : operand_eqb a b = true -> a = b.
Proof.
  destruct a as [[p n]| | |], b as [[q k]| | |]; cbn; try discriminate.
  - intros H. apply andb_prop in H as [H1 H2]. apply teqb_eq in H2. subst. destruct p, q; cbn in H1; try discriminate; [apply teqb_eq in H1; now subst|reflexivity].
  - intros H. apply Z.eqb_eq in H. now subst.
Qed.
Lemma operand_eqb_reg r : operand_eqb (Reg r) (Reg r) = true.
Proof. cbn. rewrite teqb_refl. destruct (prefix r); cbn; [now rewrite teqb_refl|reflexivity]. Qed.
Lemma dest_written l x n : In (Reg x) (destinations l) -> named x n -> writes_of n l <> 0%nat.
Proof.
  intros I Nx. unfold writes_of. change (fun o => match o with Reg r => is_named n r | _ => false end) with (is_dest n).
  assert (J : In (Reg x) (filter (is_dest n) (destinations l))) by (apply filter_In; split; [assumption|]; cbn; unfold is_named, named in *; rewrite Nx; apply teqb_refl).
  destruct (filter (is_dest n) (destinations l)); [destruct J|cbn; lia].
Qed.
Lemma immediate_form_spec l n z : shape l -> called ["add"; "adds"; "sub"; "subs"; "lsl"]%string l -> immediate_form l = Ok (Some (n, z)) ->
  exists x, operands l = [Reg x; Reg x; Imm z] /\ named x n /\ writes_of n l <> 0%nat.
Proof.
  intros (Sh & _) C E. destruct (Sh C) as (x & b & c & O & D). unfold immediate_form, nth_operand in E. rewrite O in E. cbn [nth_error bind] in E.
  destruct (operand_eqb (Reg x) b) eqn:Eb; [|discriminate]. apply operand_eqb_eq in Eb. subst b. destruct c as [|y| |]; try discriminate.
  cbn [register_of] in E. destruct (normalize x) as [k|] eqn:Nx; [|discriminate]. cbn [bind] in E. injection E as -> ->. exists x. split; [assumption|]. split; [exact Nx|]. now apply (dest_written l x).
Qed.

(** ** Writes *)
Lemma writes_app n a b : writes n (a ++ b) = (writes n a + writes n b)%nat.
Proof. unfold writes. now rewrite map_app, list_sum_app. Qed.
Lemma writes_cons n l b : writes n (l :: b) = (writes_of n l + writes n b)%nat.
Proof. reflexivity. Qed.
Lemma writes_in n l block : In l block -> (writes_of n l <= writes n block)%nat.
Proof. intros I. apply in_split in I as (a & b & ->). rewrite writes_app, writes_cons. lia. Qed.
Lemma writes_zero n block : writes n block = 0%nat -> forall l, In l block -> writes_of n l = 0%nat.
Proof. intros H l I. assert (Q := writes_in n l block I). lia. Qed.
Lemma only_writer n l block : writes n block = 1%nat -> In l block -> writes_of n l <> 0%nat ->
  exists a b, block = a ++ l :: b /\ writes n a = 0%nat /\ writes n b = 0%nat /\ writes_of n l = 1%nat.
Proof. intros W I H. apply in_split in I as (a & b & ->). rewrite writes_app, writes_cons in W. exists a, b. split; [reflexivity|]. lia. Qed.

(** ** Semantics *)
Section Semantics.
  Variable step : line -> state -> state.
  Variable block : list line.
  Hypothesis R : respects step block.
  Lemma run_app a b s : run step (a ++ b) s = run step b (run step a s).
  Proof. revert s. induction a; cbn; auto. Qed.
  Lemma run_same part n : (forall l, In l part -> In l block) -> writes n part = 0%nat -> forall s, run step part s n = s n.
  Proof.
    induction part as [|l p IH]; intros Su W s; [reflexivity|]. cbn [run]. rewrite writes_cons in W. rewrite IH; [|intros x I; apply Su; now right|lia]. apply (proj1 (R l (Su l (or_introl eq_refl)) s)). lia.
  Qed.
  Lemma iterations_plus a b s : iterations step block (a + b) s = iterations step block a (iterations step block b s).
  Proof. induction a; cbn; congruence. Qed.
  Lemma iterations_shift n s : iterations step block (S n) s = iterations step block n (run step block s).
  Proof. replace (S n) with (n + 1)%nat by lia. now rewrite iterations_plus. Qed.
  Definition steady (n : nat) (r : text) (v : Z) : Prop :=
    forall k pre post s, (n <= k)%nat -> block = pre ++ post -> run step pre (iterations step block (S k) s) r - run step pre (iterations step block k s) r = v.
  Lemma steady_more n n' r v : (n <= n')%nat -> steady n r v -> steady n' r v.
  Proof. intros L H k pre post s K B. apply (H k pre post s); [lia|assumption]. Qed.
  (** Where the written instruction is *)
  Lemma prefix_cases (a b pre post : list line) l : a ++ l :: b = pre ++ post -> (exists x, a = pre ++ x) \/ exists x, pre = a ++ l :: x /\ b = x ++ post.
  Proof.
    revert pre. induction a as [|y a IH]; intros pre E.
    - destruct pre as [|z pre]; [left; now exists []|]. cbn in E. injection E as <- ->. right. now exists pre.
    - destruct pre as [|z pre]; [left; now exists (y :: a)|]. cbn in E. injection E as <- E. destruct (IH pre E) as [(x & ->)|(x & -> & ->)]; [left; now exists x|right; now exists x].
  Qed.
  Lemma sub_part a b : block = a ++ b -> (forall l, In l a -> In l block) /\ (forall l, In l b -> In l block).
  Proof. intros ->. split; intros l I; apply in_or_app; auto. Qed.
  Lemma run_written a l b r : block = a ++ l :: b -> writes r a = 0%nat -> writes r b = 0%nat -> forall s, run step block s r = step l (run step a s) r.
  Proof.
    intros B Wa Wb s. transitivity (run step (a ++ l :: b) s r); [now rewrite <- B|]. rewrite run_app. cbn. apply run_same; [|assumption].
    intros x I. apply (sub_part (a ++ [l]) b); [now rewrite <- app_assoc|assumption].
  Qed.
  Lemma run_prefix a l b r pre post : block = a ++ l :: b -> writes r a = 0%nat -> writes r b = 0%nat -> block = pre ++ post ->
    (forall s, run step pre s r = s r) \/ (forall s, run step pre s r = step l (run step a s) r).
  Proof.
    intros B Wa Wb P. rewrite B in P. destruct (prefix_cases _ _ _ _ _ P) as [(x & ->)|(x & -> & ->)].
    - left. intros s. rewrite writes_app in Wa. apply run_same; [|lia]. intros y I. rewrite B. apply in_or_app. left. apply in_or_app. auto.
    - right. intros s. rewrite run_app. cbn. rewrite writes_app in Wb. apply run_same; [|lia]. intros y I. rewrite B. apply in_or_app. right. right. apply in_or_app. auto.
  Qed.
  (** A register which is increased by one instruction *)
  Lemma steady_counter l r v : writes r block = 1%nat -> In l block -> writes_of r l <> 0%nat -> (forall s, step l s r = s r + v) -> steady 0 r v.
  Proof.
    intros W I H St. destruct (only_writer r l block W I H) as (a & b & B & Wa & Wb & _). intros k pre post s _ P.
    assert (Ra : forall s, run step a s r = s r). { intros s0. apply run_same; [|assumption]. apply (sub_part a (l :: b) B). }
    cbn [iterations]. set (t := iterations step block k s). assert (E : run step block t r = t r + v) by (rewrite (run_written a l b r B Wa Wb), St, Ra; reflexivity).
    destruct (run_prefix a l b r pre post B Wa Wb P) as [Q|Q]; rewrite !Q, ?St, ?Ra, E; lia.
  Qed.
  (** A register which is computed from steady ones by one instruction *)
  Lemma steady_derived n l r v (f : state -> Z) : writes r block = 1%nat -> In l block -> writes_of r l <> 0%nat -> (forall s, step l s r = f s) ->
    (forall k pre post s, (n <= k)%nat -> block = pre ++ post -> f (run step pre (iterations step block (S k) s)) - f (run step pre (iterations step block k s)) = v) ->
    steady (S n) r v.
  Proof.
    intros W I H St F. destruct (only_writer r l block W I H) as (a & b & B & Wa & Wb & _). intros k pre post s K P. destruct k as [|k]; [lia|].
    destruct (run_prefix a l b r pre post B Wa Wb P) as [Q|Q]; rewrite !Q.
    - cbn [iterations]. rewrite !(run_written a l b r B Wa Wb), !St. apply (F k a (l :: b) s); [lia|assumption].
    - rewrite !St. apply (F (S k) a (l :: b) s); [lia|assumption].
  Qed.
  Lemma steady_constant r : writes r block = 0%nat -> steady 0 r 0.
  Proof.
    intros W k pre post s _ P. assert (Q : forall s, run step pre s r = s r). { intros t. apply run_same; [apply (sub_part pre post P)|]. rewrite P, writes_app in W. lia. }
    rewrite !Q. cbn [iterations]. rewrite run_same; [lia|auto|assumption].
  Qed.
End Semantics.

Section Block.
  Variable block : list line.
  Hypothesis Sh : forall l, In l block -> shape l.
  Hypothesis Once : derived_once block.
  (** From some iteration on the register moves by a constant. *)
  Definition good (r : text) (v : Z) : Prop := (exists n, forall step, respects step block -> steady step block n r v) /\ writes r block <> 0%nat.
  Definition all_good (d : dict) : Prop := NoDup (map fst d) /\ forall r v, dict_get r d = Some v -> good r v.
  Lemma good_set d r v : all_good d -> good r v -> all_good (dict_set r v d).
  Proof. intros [N H] G. split; [now apply nodup_set|]. intros x w. rewrite get_set. destruct (text_eqb x r) eqn:E; [intros [=<-]; apply teqb_eq in E; now subst|apply H]. Qed.
  Lemma good_filter p d : all_good d -> all_good (filter p d).
  Proof. intros [N H]. split; [now apply nodup_filter|]. intros r v E. apply get_filter in E as [E _]; [|assumption]. auto. Qed.

  (** Values found by the first scan *)
  Definition found (r : text) (v : Z) : Prop := exists l, In l block /\ writes_of r l <> 0%nat /\ (adds_number l r r v \/ indexes l r v).
  Definition all_found (d : dict) : Prop := NoDup (map fst d) /\ forall r v, dict_get r d = Some v -> found r v.
  Lemma found_good r v : found r v -> writes r block = 1%nat -> good r v.
  Proof.
    intros (l & I & Wl & H) W. split; [|lia]. exists 0%nat. intros step R. apply (steady_counter step block R l); [assumption|assumption|assumption|]. intros s.
    destruct (R l I s) as (_ & Ra & _ & _ & _ & Ri). destruct H as [H|H]; [now apply Ra|]. apply Ri; [assumption|]. assert (Q := writes_in r l block I). lia.
  Qed.
  Lemma scan_line_found m st l st' : In l block -> all_found (increments st) -> scan_line m st l = Ok st' -> all_found (increments st').
  Proof.
    intros I [N F] E. unfold scan_line in E. destruct (mnemonic l) as [mn|] eqn:M; [|assert (st = st') by congruence; subst; now split].
    destruct (moving_stores _ _) as [dst|]; [|discriminate]. cbn [bind] in E. destruct (one_of mn [tx "add"; tx "adds"]) eqn:A.
    - destruct (immediate_form l) as [[[n z]|]|] eqn:Fm; [| |discriminate]; cbn [bind] in E.
      + injection E as <-. cbn [increments]. assert (C := one_of_adds mn l M A). destruct (immediate_form_spec l n z (Sh l I)) as (x & O & Nx & Wn); [|assumption|].
        { apply (called_more ["add"; "adds"]%string); [cbn; intuition|exact C]. }
        split; [now apply nodup_set|]. intros r v. rewrite get_set. destruct (text_eqb r n) eqn:T; [|apply F]. intros [=<-]. apply teqb_eq in T. subst r.
        exists l. split; [assumption|]. split; [assumption|]. left. split; [assumption|]. exists x, x. auto.
      + destruct (one_of mn [tx "sub"; tx "subs"]) eqn:Sb.
        * destruct (Ok _) as [[[n z]|]|] eqn:Q; [| |discriminate]; cbn [bind] in E; injection E as <-; cbn [increments]; [|now split].
          destruct (dict_get n (increments st)) as [v0|] eqn:G; [|now split]. destruct (Z.eqb_spec v0 (- z)); [|now split].
          split; [now apply nodup_set|]. intros r v. rewrite get_set. destruct (text_eqb r n) eqn:T; [|apply F]. intros [=<-]. apply teqb_eq in T. subst. now apply F.
        * cbn [bind] in E. injection E as <-. now split.
    - cbn [bind] in E. destruct (if one_of mn [tx "sub"; tx "subs"] then _ else _) as [[[n z]|]|]; [| |discriminate]; cbn [bind] in E; injection E as <-; cbn [increments]; [|now split].
      destruct (dict_get n (increments st)) as [v0|] eqn:G; [|now split]. destruct (Z.eqb_spec v0 (- z)); [|now split].
      split; [now apply nodup_set|]. intros r v. rewrite get_set. destruct (text_eqb r n) eqn:T; [|apply F]. intros [=<-]. apply teqb_eq in T. subst. now apply F.
  Qed.

  (** Shifts *)
  Lemma shift_line_good only d l d' : In l block -> all_good d -> shift_line only d l = Ok d' -> all_good d' /\ forall x, dict_in x d = true -> dict_in x d' = true.
  Proof.
    intros I G E. unfold shift_line in E. assert (Same : d = d' -> all_good d' /\ forall x, dict_in x d = true -> dict_in x d' = true) by (intros <-; auto).
    destruct (mnemonic l) as [mn|] eqn:M; [|apply Same; congruence]. destruct (text_eqb mn (tx "lsl")) eqn:L; [|apply Same; congruence]. apply teqb_eq in L.
    assert (C : called ["lsl"%string] l) by (exists "lsl"%string; split; [now rewrite M, L|now left]).
    destruct (Sh l I) as (S3 & Sz & _). destruct S3 as (x & b & c & O & D); [apply (called_more ["lsl"%string]); [cbn; intuition|exact C]|].
    unfold nth_operand in E. rewrite O in E. cbn [nth_error bind] in E. destruct c as [r|z|m0|]; try (apply Same; congruence).
    assert (E' : b = Reg match b with Reg y => y | _ => x end /\ (do s <- register_of b; match dict_get s d with Some v => if match only with Some names => one_of s names | None => true end then do d0 <- register_of (Reg x); if z <? 0 then Err TypeError else Ok (dict_set d0 (v * 2 ^ z) d) else Ok d | None => Ok d end) = Ok d' \/ d = d').
    { destruct only, b; cbn [register_of] in *; try discriminate; auto; right; congruence. }
    destruct E' as [[Eb E']|E']; [|now apply Same]. destruct b as [y| | |]; try discriminate. clear Eb E. cbn [register_of] in E'.
    destruct (normalize y) as [s|] eqn:Ny; [|discriminate]. cbn [bind] in E'. destruct (dict_get s d) as [v|] eqn:Gs; [|apply Same; congruence].
    destruct (match only with Some names => one_of s names | None => true end); [|apply Same; congruence]. destruct (normalize x) as [k|] eqn:Nx; [|discriminate]. cbn [bind] in E'.
    destruct (Z.ltb_spec z 0); [discriminate|]. injection E' as <-. split; [|intros q Hq; rewrite in_set, Hq; now rewrite orb_true_r].
    assert (SS : shifts l k s z) by (split; [assumption|]; exists x, y; auto). apply good_set; [assumption|].
    assert (W := proj1 Once l k s z I SS). destruct (proj2 G s v Gs) as [[n Hn] _]. split; [|lia]. exists (S n). intros step R.
    apply (steady_derived step block R n l k _ (fun st => st s * 2 ^ z) W I); [now apply (dest_written l x)|intros st; apply (R l I st); assumption|].
    intros kk pre post st K P. rewrite <- Z.mul_sub_distr_r. now rewrite (Hn step R kk pre post st K P).
  Qed.
  Lemma shifts_good only b : (forall l, In l b -> In l block) -> forall d d', all_good d -> foldM (shift_line only) b d = Ok d' ->
    all_good d' /\ forall x, dict_in x d = true -> dict_in x d' = true.
  Proof.
    intros Su d d' G E. apply (foldM_inv _ (fun a => all_good a /\ forall x, dict_in x d = true -> dict_in x a = true) b) with (a := d) in E; [assumption| |auto].
    intros a l a' I [Ga Ma] F. destruct (shift_line_good only a l a' (Su l I) Ga F) as [G' M']. split; auto.
  Qed.

  (** Sums *)
  Definition covers (m : dict) : Prop := forall x, writes x block <> 0%nat -> dict_in x m = true.
  Lemma good_sum l d a b v n (f : state -> Z) c : In l block -> (forall step s, respects step block -> step l s d = f s) -> (forall s, f s = s b + c * s a) ->
    writes d block = 1%nat -> writes_of d l <> 0%nat -> writes b block = 0%nat -> (forall step, respects step block -> steady step block n a v) -> good d (c * v).
  Proof.
    intros I St F W Wl Wb Hn. split; [|lia]. exists (S n). intros step R. apply (steady_derived step block R n l d _ f W I Wl); [intros s; now apply St|].
    intros k pre post s K P. rewrite !F. assert (A := Hn step R k pre post s K P). assert (B := steady_constant step block R b Wb k pre post s (Nat.le_0_l k) P). nia.
  Qed.
  Definition sums_ok (st : sums) : Prop := all_good (sincrements st) /\ covers (smodified st).
  Lemma uncovered st y : sums_ok st -> dict_in y (smodified st) = false -> writes y block = 0%nat.
  Proof. intros [_ C] H. destruct (Nat.eq_dec (writes y block) 0) as [e|e]; [assumption|]. rewrite (C y e) in H. discriminate. Qed.
  Lemma sum_pair_ok l a d x y z f st st' : In l block -> operands l = [Reg a; Reg x; Reg y] -> named a d -> writes_of d l <> 0%nat -> writes d block = 1%nat ->
    sums_ok st ->
    (forall v, dict_get (fst z) (sincrements st) = Some v -> writes (snd z) block = 0%nat -> good d (f * v)) ->
    sum_pair f (Reg a) st z = Ok st' ->
    sums_ok st' /\ (forall q, dict_in q (sincrements st) = true -> dict_in q (sincrements st') = true) /\ (forall q, q <> d -> count_of q (smodified st') = count_of q (smodified st)).
  Proof.
    intros I O Na Wl Wd Ok0 G E. unfold sum_pair in E. destruct (dict_get (fst z) (sincrements st)) as [v|] eqn:Gz; [|assert (st = st') by congruence; subst; auto].
    destruct (dict_in (snd z) (smodified st)) eqn:Dz; [assert (st = st') by congruence; subst; auto|]. cbn [register_of] in E. unfold named in Na. rewrite Na in E. cbn [bind] in E.
    injection E as <-. cbn [sincrements smodified snew]. assert (Wz := uncovered st _ Ok0 Dz). split; [|split].
    - split; cbn [sincrements smodified]; [apply good_set; [apply Ok0|now apply G]|]. intros q Hq. destruct (dict_get d _) as [w|]; [|now apply Ok0].
      destruct (w =? f * v); [|now apply Ok0]. rewrite in_set. rewrite (proj2 Ok0 q Hq). apply orb_true_r.
    - intros q Hq. rewrite in_set, Hq. apply orb_true_r.
    - intros q Hq. destruct (dict_get d _) as [w|]; [|reflexivity]. destruct (w =? f * v); [|reflexivity]. unfold count_of at 1. rewrite get_set.
      replace (text_eqb q d) with false; [reflexivity|]. symmetry. apply not_true_is_false. intros H. apply teqb_eq in H. auto.
  Qed.
  Lemma good_not_zero d r v : all_good d -> dict_get r d = Some v -> writes r block <> 0%nat.
  Proof. intros [_ H] E. apply (H r v E). Qed.
  Lemma sum_line_ok st l st' : In l block -> sums_ok st -> sum_line st l = Ok st' ->
    sums_ok st' /\ (forall q, dict_in q (sincrements st) = true -> dict_in q (sincrements st') = true) /\
    (forall q, (forall d a b, sums_up l d a b \/ subtracts l d a b -> q <> d) -> count_of q (smodified st') = count_of q (smodified st)).
  Proof.
    intros I Ok0 E. unfold sum_line in E. assert (Same : st = st' -> sums_ok st' /\ (forall q, dict_in q (sincrements st) = true -> dict_in q (sincrements st') = true) /\
      (forall q, (forall d a b, sums_up l d a b \/ subtracts l d a b -> q <> d) -> count_of q (smodified st') = count_of q (smodified st))) by (intros <-; auto).
    destruct (mnemonic l) as [mn|] eqn:M; [|apply Same; congruence]. destruct (one_of mn [tx "add"; tx "adds"]) eqn:A; cbn [orb] in E.
    - assert (C := one_of_adds mn l M A). destruct (Sh l I) as (S3 & _). destruct S3 as (a & b & c & O & D); [apply (called_more ["add"; "adds"]%string); [cbn; intuition|exact C]|].
      unfold nth_operand in E. rewrite O in E. cbn [nth_error bind] in E. destruct b as [x| | |]; try (apply Same; congruence). destruct c as [y| | |]; try (apply Same; congruence).
      destruct (normalize x) as [xn|] eqn:Nx; [|discriminate]. cbn [bind] in E. destruct (normalize y) as [yn|] eqn:Ny; [|discriminate]. cbn [bind] in E.
      cbn [foldM] in E. destruct (normalize a) as [d|] eqn:Na.
      + assert (SU : sums_up l d xn yn) by (split; [assumption|]; exists a, x, y; auto). assert (W := proj1 (proj2 Once) l d xn yn I SU). assert (Wl := dest_written l a d D Na).
        assert (Gxy : forall st0 : sums, sums_ok st0 -> (forall v, dict_get xn (sincrements st0) = Some v -> writes yn block = 0%nat -> good d (1 * v))).
        { intros st0 O0 v Hv Wy. destruct (proj2 (proj1 O0) xn v Hv) as [[n Hn] _]. apply (good_sum l d xn yn v n (fun s => s xn + s yn)); auto; [|intros; lia]. intros step s R. now apply (R l I s). }
        assert (Gyx : forall st0 : sums, sums_ok st0 -> (forall v, dict_get yn (sincrements st0) = Some v -> writes xn block = 0%nat -> good d (1 * v))).
        { intros st0 O0 v Hv Wy. destruct (proj2 (proj1 O0) yn v Hv) as [[n Hn] _]. apply (good_sum l d yn xn v n (fun s => s xn + s yn)); auto; [|intros; lia]. intros step s R. now apply (R l I s). }
        destruct (sum_pair 1 (Reg a) st (xn, yn)) as [s1|] eqn:P1; [|discriminate]. cbn [bind] in E. destruct (sum_pair 1 (Reg a) s1 (yn, xn)) as [s2|] eqn:P2; [|discriminate]. cbn [bind] in E. injection E as <-.
        destruct (sum_pair_ok l a d x y (xn, yn) 1 st s1 I O Na Wl W Ok0 (Gxy st Ok0) P1) as (K1 & M1 & N1). destruct (sum_pair_ok l a d x y (yn, xn) 1 s1 s2 I O Na Wl W K1 (Gyx s1 K1) P2) as (K2 & M2 & N2).
        split; [assumption|]. split; [auto|]. intros q Hq. assert (q <> d) by (apply (Hq d xn yn); auto). rewrite N2, N1; auto.
      + apply Same. assert (Pn : forall st0 z s, sum_pair 1 (Reg a) st0 z = Ok s -> s = st0).
        { intros st0 z s P. unfold sum_pair in P. destruct (dict_get _ _); [|congruence]. destruct (dict_in _ _); [congruence|]. cbn [register_of] in P. rewrite Na in P. discriminate. }
        destruct (sum_pair 1 (Reg a) st (xn, yn)) as [s1|] eqn:P1; [|discriminate]. cbn [bind] in E. destruct (sum_pair 1 (Reg a) s1 (yn, xn)) as [s2|] eqn:P2; [|discriminate].
        cbn [bind] in E. apply Pn in P1, P2. congruence.
    - destruct (one_of mn [tx "sub"; tx "subs"]) eqn:B; [|apply Same; congruence].
      assert (C := one_of_subs mn l M B). destruct (Sh l I) as (S3 & _). destruct S3 as (a & b & c & O & D); [apply (called_more ["sub"; "subs"]%string); [cbn; intuition|exact C]|].
      unfold nth_operand in E. rewrite O in E. cbn [nth_error bind] in E. destruct b as [x| | |]; try (apply Same; congruence). destruct c as [y| | |]; try (apply Same; congruence).
      destruct (normalize x) as [xn|] eqn:Nx; [|discriminate]. cbn [bind] in E. destruct (normalize y) as [yn|] eqn:Ny; [|discriminate]. cbn [bind] in E.
      cbn [foldM] in E. destruct (normalize a) as [d|] eqn:Na.
      + assert (SU : subtracts l d xn yn) by (split; [assumption|]; exists a, x, y; auto). destruct (proj2 (proj2 Once) l d xn yn I SU) as [W W0]. assert (Wl := dest_written l a d D Na).
        assert (Gxy : forall st0 : sums, sums_ok st0 -> (forall v, dict_get xn (sincrements st0) = Some v -> writes yn block = 0%nat -> good d (-1 * v))).
        { intros st0 O0 v Hv _. exfalso. now apply (good_not_zero _ _ _ (proj1 O0) Hv). }
        assert (Gyx : forall st0 : sums, sums_ok st0 -> (forall v, dict_get yn (sincrements st0) = Some v -> writes xn block = 0%nat -> good d (-1 * v))).
        { intros st0 O0 v Hv Wy. destruct (proj2 (proj1 O0) yn v Hv) as [[n Hn] _]. apply (good_sum l d yn xn v n (fun s => s xn - s yn)); auto. intros step s R. now apply (R l I s). }
        destruct (sum_pair (-1) (Reg a) st (xn, yn)) as [s1|] eqn:P1; [|discriminate]. cbn [bind] in E. destruct (sum_pair (-1) (Reg a) s1 (yn, xn)) as [s2|] eqn:P2; [|discriminate]. cbn [bind] in E. injection E as <-.
        destruct (sum_pair_ok l a d x y (xn, yn) (-1) st s1 I O Na Wl W Ok0 (Gxy st Ok0) P1) as (K1 & M1 & N1). destruct (sum_pair_ok l a d x y (yn, xn) (-1) s1 s2 I O Na Wl W K1 (Gyx s1 K1) P2) as (K2 & M2 & N2).
        split; [assumption|]. split; [auto|]. intros q Hq. assert (q <> d) by (apply (Hq d xn yn); auto). rewrite N2, N1; auto.
      + apply Same. assert (Pn : forall st0 z s, sum_pair (-1) (Reg a) st0 z = Ok s -> s = st0).
        { intros st0 z s P. unfold sum_pair in P. destruct (dict_get _ _); [|congruence]. destruct (dict_in _ _); [congruence|]. cbn [register_of] in P. rewrite Na in P. discriminate. }
        destruct (sum_pair (-1) (Reg a) st (xn, yn)) as [s1|] eqn:P1; [|discriminate]. cbn [bind] in E. destruct (sum_pair (-1) (Reg a) s1 (yn, xn)) as [s2|] eqn:P2; [|discriminate].
        cbn [bind] in E. apply Pn in P1, P2. congruence.
  Qed.
  Lemma sums_good st st' : sums_ok st -> foldM sum_line block st = Ok st' ->
    sums_ok st' /\ (forall q, dict_in q (sincrements st) = true -> dict_in q (sincrements st') = true) /\
    (forall q, (forall l d a b, In l block -> sums_up l d a b \/ subtracts l d a b -> q <> d) -> count_of q (smodified st') = count_of q (smodified st)).
  Proof.
    intros Ok0 E. apply (foldM_inv _ (fun a => sums_ok a /\ (forall q, dict_in q (sincrements st) = true -> dict_in q (sincrements a) = true) /\
      (forall q, (forall l d a b, In l block -> sums_up l d a b \/ subtracts l d a b -> q <> d) -> count_of q (smodified a) = count_of q (smodified st))) block) with (a := st) in E; [assumption| |auto].
    intros a l a' I (Ka & Ma & Na) F. destruct (sum_line_ok a l a' I Ka F) as (K' & M' & N'). split; [assumption|]. split; [auto|]. intros q Hq. rewrite N'; [now apply Na|]. intros d x y. apply Hq. assumption.
  Qed.
  Lemma once_spec m i m' i' : once (m, i) = (m', i') -> i' = filter (fun x => count_of (fst x) m =? 1) i /\ (forall x, dict_in x m = true -> dict_in x m' = true) /\ (forall x, count_of x m' = count_of x m).
  Proof.
    unfold once. cbn [fst snd]. intros E. assert (i' = filter (fun x => count_of (fst x) m =? 1) i) by congruence. assert (Em : fold_left (fun d x => if dict_in (fst x) d then d else dict_set (fst x) 0 d) i m = m') by congruence.
    clear E. split; [assumption|]. clear H i'. subst m'. revert m. induction i as [|x i IH]; cbn [fold_left]; intros m; [auto|]. destruct (dict_in (fst x) m) eqn:D; [apply IH|].
    destruct (IH (dict_set (fst x) 0 m)) as [A B]. split; [intros q Hq; apply A; rewrite in_set, Hq; apply orb_true_r|]. intros q. rewrite B. unfold count_of. rewrite get_set.
    destruct (text_eqb q (fst x)) eqn:T; [|reflexivity]. apply teqb_eq in T. subst q. unfold dict_in in D. now destruct (dict_get (fst x) m).
  Qed.

  (** ** References *)
  Variable modified : dict.
  Hypothesis Mod : forall n, dict_in n modified = true <-> writes n block <> 0%nat.
  Lemma known_moving r n : normalize_option r = Ok n -> known n modified = true <-> moving block r.
  Proof.
    unfold moving. destruct r as [x|]; cbn [normalize_option].
    - destruct (normalize x) as [k|] eqn:Nx; [|discriminate]. cbn [bind]. intros [=<-]. cbn [known]. rewrite Mod. unfold named. split; [intros H; exists x, k; auto|].
      intros (y & q & E & Nq & H). assert (y = x) by congruence. subst. congruence.
    - intros [=<-]. cbn. split; [discriminate|]. intros (y & q & E & _). discriminate.
  Qed.
  Lemma moving_stores_spec l : forall r, moving_stores modified l = Ok r -> forall m, In m r <-> In m l /\ (moving block (base m) \/ moving block (index m)) /\ disp m <> Some Identifier.
  Proof.
    induction l as [|x l IH]; cbn [moving_stores]; intros r E m; [injection E as <-; cbn; tauto|].
    destruct (normalize_option (base x)) as [b|] eqn:B; [|discriminate]. cbn [bind] in E. assert (Kb := known_moving _ _ B).
    assert (Sk : exists skip r', moving_stores modified l = Ok r' /\ (skip = false <-> (moving block (base x) \/ moving block (index x))) /\
      r = if (skip || match disp x with Some Identifier => true | _ => false end)%bool then r' else x :: r').
    { destruct (known b modified).
      - cbn [bind] in E. destruct (moving_stores modified l) as [r'|]; [|discriminate]. exists false, r'. split; [reflexivity|]. split; [tauto|]. cbn [bind] in E. congruence.
      - destruct (normalize_option (index x)) as [i|] eqn:Ix; [|discriminate]. cbn [bind] in E. assert (Ki := known_moving _ _ Ix).
        destruct (moving_stores modified l) as [r'|]; [|discriminate]. exists (negb (known i modified)), r'. split; [reflexivity|]. split; [|cbn [bind] in E; congruence].
        rewrite negb_false_iff, Ki. split; [auto|]. intros [H|H]; [apply Kb in H; discriminate|assumption]. }
    destruct Sk as (skip & r' & E' & Ks & ->). specialize (IH r' E' m). destruct (skip || _)%bool eqn:Q; cbn [In]; rewrite IH.
    - split; [intros [H1 H2]; auto|]. intros ([->|H] & [H1 H2]); [|auto]. exfalso. apply orb_prop in Q as [Q|Q]; [apply Ks in H1; congruence|]. destruct (disp m) as [[]|]; try discriminate. congruence.
    - apply orb_false_iff in Q as [Q1 Q2]. split; [intros [->|H]; [|tauto]|tauto]. split; [auto|]. split; [now apply Ks|]. intros H. rewrite H in Q2. discriminate.
  Qed.
  Lemma in_mems m l : In m (mems l) <-> In (Mem m) l.
  Proof.
    unfold mems. rewrite in_flat_map. split; [intros (o & I & J); destruct o; try destruct J as []; [subst; assumption|contradiction]|]. intros I. exists (Mem m). split; [assumption|now left].
  Qed.
  Definition store_of (l : line) (m : mem) : Prop := mnemonic l <> None /\ (In (Mem m) (destinations l) \/ In (Mem m) (both l)) /\
    (moving block (base m) \/ moving block (index m)) /\ disp m <> Some Identifier.
  Definition load_of (l : line) (m : mem) : Prop := mnemonic l <> None /\ (In (Mem m) (sources l) \/ In (Mem m) (both l)).
  Definition refs_ok (before : list line) (st : scan) : Prop :=
    stores_only st = true /\ (exists l m, In l before /\ store_of l m) /\ (forall m, In m (references st) <-> exists l, In l before /\ store_of l m) \/
    stores_only st = false /\ (forall l m, In l before -> ~ store_of l m) /\ (forall m, In m (references st) <-> exists l, In l before /\ load_of l m).
  Lemma scan_line_refs before st l st' : refs_ok before st -> scan_line modified st l = Ok st' -> refs_ok (before ++ [l]) st'.
  Proof.
    intros H E. unfold scan_line in E. destruct (mnemonic l) as [mn|] eqn:M.
    - destruct (moving_stores modified (mems (destinations l ++ both l))) as [dst|] eqn:D; [|discriminate]. cbn [bind] in E.
      assert (Ds : forall m, In m dst <-> store_of l m).
      { intros m. rewrite (moving_stores_spec _ _ D), in_mems, in_app_iff. unfold store_of. split; [intros (A & B & C); repeat split; auto; congruence|intros (A & B & C); auto]. }
      set (found := match dst with [] => false | _ => true end) in E.
      set (refs1 := (if (found && negb (stores_only st))%bool then [] else references st) ++ dst) in E.
      set (only := (stores_only st || found)%bool) in E. set (refs2 := if only then refs1 else refs1 ++ mems (sources l ++ both l)) in E.
      assert (E2 : references st' = refs2 /\ stores_only st' = only).
      { destruct (if one_of mn [tx "add"; tx "adds"] then _ else _) as [[[n z]|]|]; [| |discriminate]; cbn [bind] in E; [injection E as <-; auto|].
        destruct (if one_of mn [tx "sub"; tx "subs"] then _ else _) as [[[n z]|]|]; [| |discriminate]; cbn [bind] in E; injection E as <-; auto. }
      destruct E2 as [E2 E3]. unfold refs_ok. rewrite E2, E3. clear E E2 E3.
      assert (Add : forall (P : line -> mem -> Prop) m, (exists l0, In l0 (before ++ [l]) /\ P l0 m) <-> (exists l0, In l0 before /\ P l0 m) \/ P l m).
      { intros P m. split; [intros (l0 & I & Q); apply in_app_or in I as [I|[<-|[]]]; eauto|]. intros [(l0 & I & Q)|Q]; [exists l0|exists l]; (split; [apply in_or_app; cbn; auto|assumption]). }
      destruct H as [(So & (l0 & m0 & I0 & S0) & Hr)|(So & No & Hr)].
      + left. unfold only. rewrite So. cbn [orb]. split; [reflexivity|]. split; [exists l0, m0; split; [apply in_or_app; auto|assumption]|].
        intros m. unfold refs2, only, refs1. rewrite So. cbn [orb negb]. rewrite andb_false_r, in_app_iff, Hr, Ds, Add. reflexivity.
      + destruct dst as [|m1 dst'] eqn:Ed.
        * right. subst found. cbn [andb] in refs1. unfold only. rewrite So. cbn [orb]. split; [reflexivity|].
          assert (Nl : forall m, ~ store_of l m) by (intros m Q; apply Ds in Q; destruct Q). split.
          -- intros l0 m I. apply in_app_or in I as [I|[<-|[]]]; auto.
          -- intros m. unfold refs2, only, refs1. rewrite So. cbn [orb]. rewrite app_nil_r, in_app_iff, Hr, Add, in_mems, in_app_iff. unfold load_of at 3.
             split; (intros [Q|Q]; [left; assumption|right]); [split; [congruence|assumption]|apply Q].
        * left. subst found. unfold only. rewrite So. cbn [orb]. split; [reflexivity|]. assert (S1 : store_of l m1) by (apply Ds; now left). split.
          -- exists l, m1. split; [apply in_or_app; cbn; auto|assumption].
          -- intros m. unfold refs2, only, refs1. rewrite So. cbn [orb negb andb app]. rewrite Ds, Add. split; [auto|]. intros [(l0 & I & Q)|Q]; [|assumption]. exfalso. now apply (No l0 m).
    - assert (st = st') by congruence. subst st'. clear E. assert (N1 : forall m, ~ store_of l m) by (intros m [Q _]; congruence). assert (N2 : forall m, ~ load_of l m) by (intros m [Q _]; congruence).
      destruct H as [(So & (l0 & m0 & I0 & S0) & Hr)|(So & No & Hr)]; [left|right]; (split; [assumption|]; split).
      + exists l0, m0. split; [apply in_or_app; auto|assumption].
      + intros m. rewrite Hr. split; intros (x & I & Q); [exists x; split; [apply in_or_app; auto|assumption]|]. apply in_app_or in I as [I|[<-|[]]]; [eauto|]. now apply N1 in Q.
      + intros x m I. apply in_app_or in I as [I|[<-|[]]]; auto.
      + intros m. rewrite Hr. split; intros (x & I & Q); [exists x; split; [apply in_or_app; auto|assumption]|]. apply in_app_or in I as [I|[<-|[]]]; [eauto|]. now apply N2 in Q.
  Qed.
  Lemma scan_refs b : forall before st st', refs_ok before st -> foldM (scan_line modified) b st = Ok st' -> refs_ok (before ++ b) st'.
  Proof.
    induction b as [|l b IH]; cbn [foldM]; intros before st st' H E; [assert (st = st') by congruence; subst; now rewrite app_nil_r|].
    destruct (scan_line modified st l) as [st1|] eqn:F; [|discriminate]. cbn [bind] in E. replace (before ++ l :: b) with ((before ++ [l]) ++ b) by now rewrite <- app_assoc.
    apply (IH _ st1); [|assumption]. now apply (scan_line_refs before st).
  Qed.
  Lemma refs_considered i st m : foldM (scan_line modified) block (mkScan i [] false) = Ok st -> In m (references st) <-> considered block m.
  Proof.
    intros E. apply scan_refs with (before := []) in E; [|right; cbn; repeat split; auto; [contradiction|intros (x & [] & _)]]. cbn [app] in E. unfold considered.
    assert (IsS : forall m, is_store block m <-> exists l, In l block /\ store_of l m) by (intros q; reflexivity).
    destruct E as [(_ & (l0 & m0 & I0 & S0) & Hr)|(_ & No & Hr)]; rewrite Hr.
    - rewrite <- IsS. split; [auto|]. intros [H|[H _]]; [assumption|]. exfalso. apply (H m0), IsS. eauto.
    - split.
      + intros (l & I & Q). right. split; [|exists l; split; [assumption|exact Q]]. intros m' Q'. apply IsS in Q' as (l' & I' & Q'). now apply (No l' m').
      + intros [H|[_ (l & I & Q)]]; [|exists l; split; [assumption|exact Q]]. apply IsS in H as (l & I & Q). exfalso. now apply (No l m).
  Qed.
End Block.

(** ** Registers of the addresses *)
Lemma record_addresses md inc refs : forall st st', foldM (record_address md inc) refs st = Ok st' ->
  (forall m, In m refs -> exists x, address_register inc m = Ok x) /\
  (forall n, In n (fst st') <-> In n (fst st) \/ exists m s, In m refs /\ address_register inc m = Ok (Some n, s) /\ dict_in n md = true) /\
  (forall n z, dict_get n (snd st') = Some z -> dict_get n (snd st) = Some z \/ exists m, In m refs /\ address_register inc m = Ok (Some n, Some z)) /\
  (forall n, dict_in n (snd st) = true \/ (exists m z, In m refs /\ address_register inc m = Ok (Some n, Some z)) -> dict_in n (snd st') = true).
Proof.
  induction refs as [|x refs IH]; cbn [foldM]; intros st st' E.
  { assert (st = st') by congruence. subst. split; [intros m []|]. split; [intros n; split; [auto|]; intros [H|(m & s & [] & _)]; assumption|]. split; [auto|]. intros n [H|(m & z & [] & _)]; assumption. }
  destruct (record_address md inc st x) as [s1|] eqn:F; [|discriminate]. cbn [bind] in E. destruct (IH _ _ E) as (H1 & H2 & H3 & H4). clear IH E.
  unfold record_address in F. destruct (address_register inc x) as [[on os]|] eqn:A; [|discriminate]. cbn [bind] in F.
  split; [intros m [J|J]; [subst; eauto|auto]|].
  assert (Ex : forall (P : mem -> Prop), (exists m, In m (x :: refs) /\ P m) <-> P x \/ exists m, In m refs /\ P m).
  { intros P. split; [intros (m & [J|J] & Q); [subst; auto|right; eauto]|]. intros [Q|(m & J & Q)]; [exists x|exists m]; (split; [cbn; auto|assumption]). }
  destruct on as [k|].
  - injection F as <-. cbn [fst snd] in *. split; [|split].
    + intros n. rewrite H2. split.
      * intros [H|(m & s & I & Q)]; [|right; exists m, s; split; [now right|assumption]]. destruct (dict_in k md) eqn:D; [|auto]. apply in_app_or in H as [H|[H|[]]]; [auto|]. subst. right. exists x, os. split; [now left|auto].
      * intros [H|(m & s & [J|J] & Q)]; [left; destruct (dict_in k md); [apply in_or_app|]; auto| |right; eauto]. subst m. destruct Q as [Q Q']. assert (n = k) by congruence. subst. rewrite Q'. left. apply in_or_app. cbn. auto.
    + intros n z H. destruct (H3 n z H) as [Q|(m & I & Q)]; [|right; exists m; split; [now right|assumption]]. destruct os as [w|]; [|auto]. rewrite get_set in Q. destruct (text_eqb n k) eqn:T; [|auto].
      apply teqb_eq in T. right. exists x. split; [now left|]. congruence.
    + intros n H. apply H4. destruct H as [H|(m & z & [J|J] & Q)]; [left; destruct os; [rewrite in_set, H; apply orb_true_r|assumption]| |right; eauto]. left. subst m. assert (n = k /\ os = Some z) as [-> ->] by (split; congruence).
      rewrite in_set, teqb_refl. reflexivity.
  - assert (st = s1) by congruence. subst s1. split; [|split].
    + intros n. rewrite H2. split; (intros [H|(m & s & I & Q)]; [auto|right]); [exists m, s; split; [now right|assumption]|]. destruct I as [J|I]; [subst; destruct Q; congruence|eauto].
    + intros n z H. destruct (H3 n z H) as [Q|(m & I & Q)]; [auto|right; exists m; split; [now right|assumption]].
    + intros n H. apply H4. destruct H as [H|(m & z & [J|J] & Q)]; [auto| |right; eauto]. subst. congruence.
Qed.
Lemma all_equal_spec l : all_equal l = true -> exists v, forall x, In x l -> x = Some v.
Proof.
  induction l as [|a l IH]; [discriminate|]. destruct a as [a|]; [|discriminate]. destruct l as [|b l]; [intros _; exists a; intros x [J|[]]; auto|]. destruct b as [b|]; [|discriminate].
  change (((a =? b) && all_equal (Some b :: l))%bool = true -> exists v, forall x, In x (Some a :: Some b :: l) -> x = Some v). intros H. apply andb_prop in H as [H1 H2]. apply Z.eqb_eq in H1. subst b.
  destruct (IH H2) as [v Hv]. exists v. intros x [J|J]; [|auto]. subst. apply Hv. now left.
Qed.
Lemma all_equal_intro l v : l <> [] -> (forall x, In x l -> x = Some v) -> all_equal l = true.
Proof.
  induction l as [|a l IH]; [congruence|]. intros _ H. assert (a = Some v) by (apply H; now left). subst. destruct l as [|b l]; [reflexivity|]. assert (b = Some v) by (apply H; right; now left). subst.
  cbn [all_equal]. change ((v =? v) && all_equal (Some v :: l) = true)%bool. rewrite Z.eqb_refl. apply IH; [discriminate|]. intros x I. apply H. now right.
Qed.

(** ** The theorem *)
Lemma stages block inc : (forall l, In l block -> shape l) -> derived_once block -> detect block = Ok (Some inc) ->
  exists m2 i4 refs regs scales v r, 
    all_good block i4 /\ (forall n, writes n block <> 0%nat -> dict_in n m2 = true) /\
    (forall m, In m refs <-> considered block m) /\ foldM (record_address m2 i4) refs ([], []) = Ok (regs, scales) /\
    (forall n, In n regs -> dict_get n i4 = Some v) /\ In r regs /\ inc = v * match dict_get r scales with Some z => z | None => 1 end /\
    (forall m x, index m = Some x -> counter block (index m) -> exists n, named x n /\ dict_in n i4 = true).
Proof.
  intros Sh Once E. unfold detect in E. destruct (modifications block) as [[d i0]|] eqn:Mo; [|discriminate]. cbn [bind fst snd] in E.
  destruct (modifications_spec block d i0 Sh Mo) as (N0 & C0 & D0 & F0).
  destruct (foldM (scan_line d) block (mkScan i0 [] false)) as [st|] eqn:Sc; [|discriminate]. cbn [bind] in E.
  assert (Fd : all_found block (increments st)).
  { apply (foldM_inv _ (fun a => all_found block (increments a)) block) with (a := mkScan i0 [] false) in Sc; [assumption| |].
    - intros a l a' I Fa Ea. now apply (scan_line_found block Sh d a l).
    - split; [exact N0|]. cbn [increments]. intros r v H. destruct (F0 r v H) as (l & I & X & W). exists l. auto. }
  assert (Keys : forall b n, (forall l, In l b -> In l block) -> forall a a', foldM (scan_line d) b a = Ok a' -> dict_in n (increments a) = true \/ (exists l z, In l b /\ adds_number l n n z /\ exists y, operands l = [Reg y; Reg y; Imm z]) -> dict_in n (increments a') = true).
  { intros b n. induction b as [|l b IH]; cbn [foldM]; intros Su a a' Ea H; [assert (a = a') by congruence; subst; destruct H as [H|(l & z & [] & _)]; assumption|].
    destruct (scan_line d a l) as [a1|] eqn:F; [|discriminate]. cbn [bind] in Ea. apply (IH (fun x I => Su x (or_intror I)) a1 a' Ea). clear IH Ea.
    assert (Mon : dict_in n (increments a) = true -> dict_in n (increments a1) = true).
    { intros Hn. unfold scan_line in F. destruct (mnemonic l); [|congruence]. destruct (moving_stores _ _); [|discriminate]. cbn [bind] in F.
      destruct (if one_of _ [tx "add"; tx "adds"] then _ else _) as [[[k z]|]|]; [| |discriminate]; cbn [bind] in F; [injection F as <-; cbn [increments]; rewrite in_set, Hn; apply orb_true_r|].
      destruct (if one_of _ [tx "sub"; tx "subs"] then _ else _) as [[[k z]|]|]; [| |discriminate]; cbn [bind] in F; injection F as <-; cbn [increments]; [|assumption].
      destruct (dict_get k (increments a)) as [w|]; [|assumption]. destruct (w =? - z); [rewrite in_set, Hn; apply orb_true_r|assumption]. }
    destruct H as [H|(l0 & z & [J|J] & A & y & Y)]; [auto| |right; exists l0, z; eauto]. subst l0. left. destruct A as [(mn & Em & Im) (x1 & y1 & O & N1 & _)]. assert (x1 = y) by congruence. subst x1.
    unfold scan_line in F. rewrite Em in F. destruct (moving_stores _ _); [|discriminate]. cbn [bind] in F.
    replace (one_of (codes mn) [tx "add"; tx "adds"]) with true in F by (symmetry; now apply (one_of_intro (codes mn) mn ["add"; "adds"]%string)).
    unfold immediate_form, nth_operand in F. rewrite Y in F. cbn [nth_error bind] in F. rewrite operand_eqb_reg in F. cbn [register_of bind] in F. unfold named in N1. rewrite N1 in F. cbn [bind] in F.
    injection F as <-. cbn [increments]. rewrite in_set, teqb_refl. reflexivity. }
  destruct (once (d, increments st)) as [m1 i1] eqn:O1. destruct (once_spec d (increments st) m1 i1 O1) as (Ei1 & Mm1 & Cm1).
  assert (G1 : all_good block i1).
  { rewrite Ei1. split; [apply nodup_filter, Fd|]. intros r v H. apply get_filter in H as [H1 H2]; [|apply Fd]. cbn [fst] in H2. apply Z.eqb_eq in H2. rewrite C0 in H2. apply (found_good block r v); [now apply Fd|lia]. }
  destruct (foldM (shift_line None) block i1) as [i2|] eqn:S2; [|discriminate]. cbn [bind] in E. destruct (shifts_good block Sh Once None block (fun l I => I) i1 i2 G1 S2) as [G2 K2].
  destruct (foldM sum_line block (mkSums m1 i2 [])) as [s|] eqn:S3; [|discriminate]. cbn [bind] in E.
  destruct (sums_good block Sh Once (mkSums m1 i2 []) s) as (G3 & K3 & C3); [split; [exact G2|]; intros x W; apply Mm1, D0, W|assumption|]. cbn [sincrements smodified] in K3, C3.
  destruct (once (smodified s, sincrements s)) as [m2 i3] eqn:O2. destruct (once_spec _ _ m2 i3 O2) as (Ei3 & Mm2 & Cm2).
  assert (G3' : all_good block i3) by (rewrite Ei3; apply good_filter, G3).
  destruct (foldM (shift_line (Some (snew s))) block i3) as [i4|] eqn:S4; [|discriminate]. cbn [bind] in E. destruct (shifts_good block Sh Once _ block (fun l I => I) i3 i4 G3' S4) as [G4 K4].
  destruct (foldM (record_address m2 i4) (references st) ([], [])) as [[regs scales]|] eqn:Ra; [|discriminate]. cbn [bind fst snd] in E.
  destruct regs as [|r regs]; [discriminate|]. destruct (all_equal _) eqn:AE; [|discriminate]. apply all_equal_spec in AE as [v Hv].
  assert (Hr : forall n, In n (r :: regs) -> dict_get n i4 = Some v) by (intros n I; apply Hv; apply in_map_iff; eauto).
  exists m2, i4, (references st), (r :: regs), scales, v, r. split; [assumption|]. split; [intros n W; apply Mm2, (proj2 G3 n W)|].
  split; [intros m; apply (refs_considered block d D0 i0 st m Sc)|]. split; [assumption|]. split; [assumption|]. split; [now left|]. split; [rewrite (Hr r (or_introl eq_refl)) in E; cbn [option_map] in E; congruence|].
  intros m x Ix (x' & n & l & z & E1 & Nx & W & I & A & y & Y). rewrite Ix in E1. assert (x' = x) by congruence. subst x'. exists n. split; [assumption|]. apply K4. rewrite Ei3.
  assert (Ks : dict_in n (increments st) = true) by (apply (Keys block n (fun l I => I) _ st Sc); right; exists l, z; eauto).
  assert (Flt : forall p dd, NoDup (map fst dd) -> dict_in n dd = true -> (forall w, p (n, w) = true) -> dict_in n (filter p dd) = true).
  { intros p dd Nd Hd Hp. unfold dict_in in *. destruct (dict_get n dd) as [w|] eqn:Gd; [|discriminate]. rewrite (proj2 (get_filter p dd n w Nd)); auto. }
  apply Flt; [apply G3| |].
  - apply K3, K2. rewrite Ei1. apply Flt; [apply Fd|assumption|]. intros w. cbn [fst]. rewrite C0, W. reflexivity.
  - intros w. cbn [fst]. rewrite C3, Cm1, C0, W; [reflexivity|]. intros l2 dd a b I2 SS ->.
    assert (Wl2 : writes_of dd l2 <> 0%nat /\ exists q1 q2 q3, operands l2 = [q1; q2; Reg q3]).
    { destruct (Sh l2 I2) as (S3' & _). assert (SS' : called ["add"; "adds"; "sub"; "subs"; "lsl"]%string l2 /\ exists x1 x2 x3, operands l2 = [Reg x1; Reg x2; Reg x3] /\ named x1 dd).
      { destruct SS as [[C (x1 & x2 & x3 & O & Nn & _)]|[C (x1 & x2 & x3 & O & Nn & _)]]; (split; [eapply called_more; [|exact C]; cbn; intuition|eauto]). }
      destruct SS' as [C (x1 & x2 & x3 & O & Nn)]. destruct (S3' C) as (x0 & b0 & c0 & O' & D'). assert (x0 = x1) by congruence. subst. split; [now apply (dest_written l2 x1)|eauto]. }
    destruct Wl2 as [Wl2 (q1 & q2 & q3 & Oq)]. assert (Wl : writes_of dd l <> 0%nat).
    { destruct (Sh l I) as (S3' & _). destruct A as [C (x1 & x2 & O & Nn & _)]. destruct S3' as (x0 & b0 & c0 & O' & D'); [eapply called_more; [|exact C]; cbn; intuition|]. assert (x0 = x1) by congruence. subst. now apply (dest_written l x1). }
    destruct (only_writer dd l block W I Wl) as (p1 & p2 & Bl & Wa & Wb & _). rewrite Bl in I2. apply in_app_or in I2 as [I2|[I2|I2]].
    + assert (Q := writes_zero dd p1 Wa l2 I2). lia.
    + subst l2. rewrite Y in Oq. discriminate.
    + assert (Q := writes_zero dd p2 Wb l2 I2). lia.
Qed.

Lemma constant_not_in block i r x n : all_good block i -> constant block r -> r = Some x -> named x n -> dict_in n i = false.
Proof.
  intros G C -> Nx. unfold dict_in. destruct (dict_get n i) as [v|] eqn:E; [|reflexivity]. exfalso. apply (good_not_zero block i n v G E). now apply (C x n).
Qed.

Lemma steady_value step block r v k n x pre post s : respects step block -> r = Some x -> named x n -> (exists b, (b <= k)%nat /\ steady step block b n v) -> block = pre ++ post ->
  value (run step pre (iterations step block (S k) s)) r - value (run step pre (iterations step block k s)) r = v.
Proof. intros R -> Nx (b & L & St) P. unfold value. unfold named in Nx. rewrite Nx. now apply (St k pre post s). Qed.
Lemma constant_value step block r k pre post s : respects step block -> constant block r -> block = pre ++ post ->
  value (run step pre (iterations step block (S k) s)) r - value (run step pre (iterations step block k s)) r = 0.
Proof.
  intros R C P. unfold value. destruct r as [x|]; [|reflexivity]. destruct (normalize x) as [n|] eqn:Nx; [|reflexivity].
  apply (steady_constant step block R n (C x n eq_refl Nx) k pre post s); [lia|assumption].
Qed.

Lemma detect_advance block inc sigma : (forall l, In l block -> shape l) -> derived_once block -> detect block = Ok (Some inc) ->
  (forall m, considered block m -> still block m \/ by_base block m /\ sigma = 1 \/ by_index block m /\ scale m = sigma) ->
  exists warmup, forall step m, respects step block -> considered block m -> ~ still block m ->
    forall pre post k s, block = pre ++ post -> (warmup <= k)%nat -> advance step block pre m k s = inc.
Proof.
  intros Sh Once E U. destruct (stages block inc Sh Once E) as (m2 & i4 & refs & regs & scales & v & r & G & Cov & Refs & Ra & Eq & Ir & -> & Cnt).
  destruct (record_addresses m2 i4 refs _ _ Ra) as (_ & R2 & R3 & R4). cbn [fst snd] in *.
  (* the register of each considered reference *)
  assert (AR : forall m, considered block m ->
    still block m \/ (exists x n, base m = Some x /\ named x n /\ In n regs /\ address_register i4 m = Ok (Some n, None) /\ constant block (index m) /\ sigma = 1) \/
    (exists x n, index m = Some x /\ named x n /\ In n regs /\ address_register i4 m = Ok (Some n, option_map (Z.pow 2) (shift m)) /\ constant block (base m) /\ scale m = sigma)).
  { intros m C. assert (I := proj2 (Refs m) C). destruct (proj1 (record_addresses m2 i4 refs _ _ Ra) m I) as [ar Ar].
    destruct (U m C) as [H|[[(Mv & Ci) Sg]|[(Ct & Cb) Sg]]]; [auto|right; left|right; right].
    - destruct Mv as (x & n & Bx & Nx & W). exists x, n. split; [assumption|]. split; [assumption|].
      assert (A : address_register i4 m = Ok (Some n, None)).
      { unfold address_register in *. rewrite Bx in *. cbn [normalize_option] in *. unfold named in Nx. rewrite Nx in *. cbn [bind] in *. destruct (index m) as [y|] eqn:Ey; [|reflexivity].
        destruct (normalize y) as [q|] eqn:Ny; [|discriminate]. cbn [bind] in *. rewrite (constant_not_in block i4 (Some y) y q G Ci eq_refl Ny). reflexivity. }
      split; [|auto]. apply R2. right. exists m, None. split; [assumption|]. split; [assumption|]. now apply Cov.
    - assert (Ct' := Ct). destruct Ct as (x & n & l & z & Ix & Nx & W & _). destruct (Cnt m x Ix Ct') as (n' & Nx' & Dn). assert (n' = n) by (unfold named in *; congruence). subst n'.
      exists x, n. split; [assumption|]. split; [assumption|].
      assert (A : address_register i4 m = Ok (Some n, option_map (Z.pow 2) (shift m))).
      { unfold address_register in *. destruct (normalize_option (base m)); [|discriminate]. cbn [bind] in *. rewrite Ix in *. unfold named in Nx. rewrite Nx in *. cbn [bind] in *. rewrite Dn. reflexivity. }
      split; [|auto]. apply R2. right. exists m, (option_map (Z.pow 2) (shift m)). split; [assumption|]. split; [assumption|]. apply Cov. lia. }
  (* the scale *)
  assert (Still : forall m n s, address_register i4 m = Ok (Some n, s) -> still block m -> writes n block = 0%nat /\ s = None).
  { intros m n s A [Cb Ci]. unfold address_register in A. destruct (base m) as [x|] eqn:B; cbn [normalize_option] in A.
    - destruct (normalize x) as [q|] eqn:Nx; [|discriminate]. cbn [bind] in A. destruct (index m) as [y|] eqn:Iy.
      + destruct (normalize y) as [w|] eqn:Ny; [|discriminate]. cbn [bind] in A. rewrite (constant_not_in block i4 (Some y) y w G Ci eq_refl Ny) in A. injection A as <- <-. split; [now apply (Cb x)|reflexivity].
      + injection A as <- <-. split; [now apply (Cb x)|reflexivity].
    - cbn [bind] in A. destruct (index m) as [y|] eqn:Iy; [|discriminate]. destruct (normalize y) as [w|] eqn:Ny; [|discriminate]. cbn [bind] in A. rewrite (constant_not_in block i4 (Some y) y w G Ci eq_refl Ny) in A. discriminate. }
  assert (Sc : forall n z, dict_get n scales = Some z -> z = sigma).
  { intros n z H. destruct (R3 n z H) as [Q|(m & I & A)]; [discriminate|]. apply Refs in I. destruct (AR m I) as [St|[(x & q & _ & _ & _ & A' & _)|(x & q & _ & _ & _ & A' & _ & Sg)]].
    - destruct (Still m n _ A St). discriminate.
    - congruence.
    - rewrite A in A'. unfold scale in Sg. destruct (shift m); cbn in A'; congruence. }
  assert (Sr : match dict_get r scales with Some z => z | None => 1 end = sigma).
  { destruct (dict_get r scales) as [z|] eqn:Gr; [now apply (Sc r)|]. apply R2 in Ir as [[]|(m & s & I & A & D)]. assert (C := proj1 (Refs m) I). destruct (AR m C) as [St|[(x & q & _ & _ & _ & A' & _ & Sg)|(x & q & _ & _ & _ & A' & _ & Sg)]].
    - exfalso. destruct (Still m r s A St) as [W _]. assert (Ir' : In r regs) by (apply R2; right; eauto). apply (good_not_zero block i4 r v G (Eq r Ir') W).
    - auto.
    - unfold scale in Sg. destruct (shift m) as [h|]; [|assumption]. cbn [option_map] in A'. assert (q = r) by congruence. subst q. assert (X : dict_in r scales = true) by (apply R4; right; exists m, (2 ^ h); split; [assumption|]; congruence).
      unfold dict_in in X. rewrite Gr in X. discriminate. }
  rewrite Sr.
  (* warm-up for all registers *)
  assert (Wu : exists w, forall n, In n regs -> forall step, respects step block -> steady step block w n v).
  { clear R2 R3 R4 Ra AR Sr Ir. revert Eq. induction regs as [|a l IH]; intros Eq; [exists 0%nat; intros n []|]. destruct IH as [w Hw]; [intros n I; apply Eq; now right|].
    destruct (proj1 (proj2 G a v (Eq a (or_introl eq_refl)))) as [b Hb]. exists (Nat.max w b). intros n [<-|I] step R; [apply (steady_more step block b); [lia|auto]|apply (steady_more step block w); [lia|auto]]. }
  destruct Wu as [w Hw]. exists w. intros step m R C NS pre post k s P K. unfold advance, address.
  destruct (AR m C) as [St|[(x & n & B & Nx & I & _ & Ci & Sg)|(x & n & Ix & Nx & I & _ & Cb & Sg)]]; [contradiction| |].
  - assert (V := steady_value step block (base m) v k n x pre post s R B Nx (ex_intro _ w (conj K (Hw n I step R))) P). assert (Z0 := constant_value step block (index m) k pre post s R Ci P). nia.
  - assert (V := steady_value step block (index m) v k n x pre post s R Ix Nx (ex_intro _ w (conj K (Hw n I step R))) P). assert (Z0 := constant_value step block (base m) k pre post s R Cb P). rewrite <- Sg. nia.
Qed.

(** ** No errors *)
Lemma foldM_ok {A B} (f : A -> B -> res A) l : (forall a x, In x l -> exists a', f a x = Ok a') -> forall a, exists a', foldM f l a = Ok a'.
Proof.
  induction l as [|x l IH]; cbn; intros H a; [eauto|]. destruct (H a x (or_introl eq_refl)) as [b ->]. cbn. apply IH. intros c y I. apply H. now right.
Qed.
Lemma option_named m : (forall r, base m = Some r \/ index m = Some r -> exists n, named r n) -> (exists b, normalize_option (base m) = Ok b) /\ (exists i, normalize_option (index m) = Ok i).
Proof.
  intros H. split; [destruct (base m) as [r|]|destruct (index m) as [r|]]; cbn; eauto; (destruct (H r) as [n N]; [auto|]; unfold named in N; rewrite N; cbn; eauto).
Qed.
Lemma moving_stores_ok d l : (forall m, In m l -> named_operand (Mem m)) -> exists r, moving_stores d l = Ok r.
Proof.
  induction l as [|m l IH]; intros H; [eexists; reflexivity|]. cbn [moving_stores]. destruct (option_named m (H m (or_introl eq_refl))) as [[b ->] [i ->]]. cbn [bind].
  destruct IH as [r ->]; [intros x I; apply H; now right|]. destruct (known b d); cbn [bind]; eauto.
Qed.
Section NoErrors.
  Variable block : list line.
  Hypothesis W : forall l, In l block -> complete l.
  Lemma op_named l o : In l block -> In o (operands l) -> named_operand o.
  Proof. intros I J. apply (proj1 (proj2 (W l I))). apply in_or_app. auto. Qed.
  Lemma modifications_ok : exists x, modifications block = Ok x.
  Proof.
    unfold modifications. destruct (foldM_ok count_destination (flat_map destinations block)) with (a := @nil (text * Z)) as [d ->].
    - intros a o I. apply in_flat_map in I as (l & Il & Io). destruct o as [r| | |]; cbn; eauto. destruct (proj1 (proj2 (W l Il)) (Reg r)) as [n N]; [|unfold named in N; rewrite N; cbn; eauto].
      rewrite !in_app_iff. auto.
    - cbn [bind]. apply foldM_ok. intros a o I. apply in_flat_map in I as (l & Il & Io). destruct o as [|  |m|]; cbn; eauto. destruct (indexing m) eqn:Im; [|eauto].
      destruct (option_named m (op_named l _ Il Io)) as [[b ->] _]. cbn [bind]. unfold index_step. destruct (pre_indexed m) eqn:P; [|cbn; eauto].
      destruct (proj1 (proj2 (proj2 (W l Il))) m Io P) as [z ->]. cbn. eauto.
  Qed.
  Lemma immediate_form_ok l : In l block -> called ["add"; "adds"; "sub"; "subs"; "lsl"]%string l -> exists x, immediate_form l = Ok x.
  Proof.
    intros I C. destruct (proj1 (proj1 (W l I)) C) as (x & b & c & O & _). unfold immediate_form, nth_operand. rewrite O. cbn [nth_error bind]. destruct (operand_eqb (Reg x) b); [|eauto].
    destruct c; eauto. cbn [register_of]. destruct (op_named l (Reg x) I) as [n N]; [rewrite O; now left|]. unfold named in N. rewrite N. cbn. eauto.
  Qed.
  Lemma scan_ok d st : exists st', foldM (scan_line d) block st = Ok st'.
  Proof.
    apply foldM_ok. intros a l I. unfold scan_line. destruct (mnemonic l) as [mn|] eqn:M; [|eauto].
    destruct (moving_stores_ok d (mems (destinations l ++ both l))) as [r ->].
    { intros m J. apply in_mems in J. apply (proj1 (proj2 (W l I))). rewrite !in_app_iff. apply in_app_or in J as [J|J]; auto. }
    cbn [bind]. destruct (one_of mn [tx "add"; tx "adds"]) eqn:A.
    - destruct (immediate_form_ok l I) as [x ->]; [apply (called_more ["add"; "adds"]%string); [cbn; intuition|now apply (one_of_adds mn)]|]. cbn [bind]. destruct x as [[n z]|]; [eauto|].
      destruct (one_of mn [tx "sub"; tx "subs"]); cbn; eauto.
    - cbn [bind]. destruct (one_of mn [tx "sub"; tx "subs"]) eqn:B; [|cbn; eauto].
      destruct (immediate_form_ok l I) as [x ->]; [apply (called_more ["sub"; "subs"]%string); [cbn; intuition|now apply (one_of_subs mn)]|]. cbn. eauto.
  Qed.
  Lemma shift_ok only d : exists d', foldM (shift_line only) block d = Ok d'.
  Proof.
    apply foldM_ok. intros a l I. unfold shift_line. destruct (mnemonic l) as [mn|] eqn:M; [|eauto]. destruct (text_eqb mn (tx "lsl")) eqn:L; [|eauto]. apply teqb_eq in L.
    assert (C : called ["lsl"%string] l) by (exists "lsl"%string; split; [now rewrite M, L|now left]).
    destruct (proj1 (proj1 (W l I))) as (x & b & c & O & _); [apply (called_more ["lsl"%string]); [cbn; intuition|assumption]|]. unfold nth_operand. rewrite O. cbn [nth_error bind].
    destruct c as [|z| |]; eauto. destruct (proj2 (proj2 (proj2 (W l I))) C _ _ _ O) as [y ->]. destruct (op_named l (Reg x) I) as [n N]; [rewrite O; now left|]. destruct (op_named l (Reg y) I) as [k K]; [rewrite O; right; now left|].
    assert (Z0 : 0 <= z) by (apply (proj1 (proj2 (proj1 (W l I))) n k z); split; [assumption|]; exists x, y; auto).
    unfold named in N, K. cbn [register_of]. rewrite K, N. cbn [bind]. replace (z <? 0) with false by (symmetry; apply Z.ltb_ge; lia).
    destruct only as [ns|]; (destruct (dict_get k a); [|eauto]); [destruct (one_of k ns)|]; eauto.
  Qed.
  Lemma sum_ok st : exists st', foldM sum_line block st = Ok st'.
  Proof.
    apply foldM_ok. intros a l I. unfold sum_line. destruct (mnemonic l) as [mn|] eqn:M; [|eauto]. destruct (one_of mn [tx "add"; tx "adds"] || one_of mn [tx "sub"; tx "subs"])%bool eqn:A; [|eauto].
    assert (C : called ["add"; "adds"; "sub"; "subs"; "lsl"]%string l).
    { apply orb_prop in A as [A|A]; [apply (called_more ["add"; "adds"]%string); [cbn; intuition|now apply (one_of_adds mn)]|apply (called_more ["sub"; "subs"]%string); [cbn; intuition|now apply (one_of_subs mn)]]. }
    destruct (proj1 (proj1 (W l I)) C) as (x & b & c & O & _). unfold nth_operand. rewrite O. cbn [nth_error bind]. destruct b as [y| | |]; eauto. destruct c as [q| | |]; eauto.
    destruct (op_named l (Reg x) I) as [n N]; [rewrite O; now left|]. destruct (op_named l (Reg y) I) as [k K]; [rewrite O; right; now left|]. destruct (op_named l (Reg q) I) as [j J]; [rewrite O; right; right; now left|].
    unfold named in N, K, J. rewrite K. cbn [bind]. rewrite J. cbn [bind]. set (f := if one_of mn [tx "add"; tx "adds"] then 1 else -1).
    assert (P : forall st0 z, exists s, sum_pair f (Reg x) st0 z = Ok s). { intros st0 z. unfold sum_pair. destruct (dict_get _ _); [|eauto]. destruct (dict_in _ _); [eauto|]. cbn [register_of]. rewrite N. cbn. eauto. }
    apply foldM_ok. auto.
  Qed.
  Lemma addresses_ok md i refs st : (forall m, In m refs -> considered block m) -> exists st', foldM (record_address md i) refs st = Ok st'.
  Proof.
    intros H. apply foldM_ok. intros a m I. assert (Nm : named_operand (Mem m)).
    { destruct (H m I) as [(l & Il & _ & J & _)|[_ (l & Il & _ & J)]]; apply (proj1 (proj2 (W l Il))); rewrite !in_app_iff; destruct J; auto. }
    destruct (option_named m Nm) as [[b B] [i' Hi]]. unfold record_address, address_register. rewrite B. cbn [bind]. destruct (index m) as [y|]; cbn [normalize_option] in Hi.
    - destruct (normalize y) as [n|]; [|discriminate]. cbn [bind]. destruct (dict_in n i); destruct b; eauto.
    - destruct b; cbn; eauto.
  Qed.
  Lemma detect_ok : exists r, detect block = Ok r.
  Proof.
    unfold detect. destruct modifications_ok as [[d i0] Mo]. rewrite Mo. cbn [bind fst snd]. assert (Sh : forall l, In l block -> shape l) by (intros l I; apply (W l I)).
    destruct (modifications_spec block d i0 Sh Mo) as (_ & _ & D0 & _). destruct (scan_ok d (mkScan i0 [] false)) as [st Sc]. rewrite Sc. cbn [bind].
    destruct (once (d, increments st)) as [m1 i1]. destruct (shift_ok None i1) as [i2 ->]. cbn [bind]. destruct (sum_ok (mkSums m1 i2 [])) as [s ->]. cbn [bind].
    destruct (once (smodified s, sincrements s)) as [m2 i3]. destruct (shift_ok (Some (snew s)) i3) as [i4 ->]. cbn [bind].
    destruct (addresses_ok m2 i4 (references st) ([], [])) as [x ->]; [intros m; apply (refs_considered block d D0 i0 st m Sc)|]. cbn. eauto.
  Qed.
End NoErrors.

(** ** Detection *)
Lemma unique_writer block r l l' : writes r block = 1%nat -> In l block -> writes_of r l <> 0%nat -> In l' block -> writes_of r l' <> 0%nat -> l' = l.
Proof.
  intros W I H I' H'. destruct (only_writer r l block W I H) as (a & b & -> & Wa & Wb & _). apply in_app_or in I' as [J|[J|J]]; [|auto|].
  - assert (Q := writes_zero r a Wa l' J). lia.
  - assert (Q := writes_zero r b Wb l' J). lia.
Qed.
Section Detect.
  Variable block : list line.
  Hypothesis W : forall l, In l block -> complete l.
  Variables (r : text) (l : line) (y : reg) (c : Z).
  Hypothesis One : writes r block = 1%nat.
  Hypothesis Il : In l block.
  Hypothesis Add : called ["add"; "adds"]%string l.
  Hypothesis Ops : operands l = [Reg y; Reg y; Imm c].
  Hypothesis Ny : named y r.
  Lemma l_writes : writes_of r l <> 0%nat.
  Proof.
    destruct (proj1 (proj1 (W l Il))) as (x & b & d & O & D); [apply (called_more ["add"; "adds"]%string); [cbn; intuition|exact Add]|]. assert (x = y) by congruence. subst. now apply (dest_written l y).
  Qed.
  Lemma other_dest l' x b d : In l' block -> called ["add"; "adds"; "sub"; "subs"; "lsl"]%string l' -> operands l' = [Reg x; b; d] -> l' <> l -> ~ named x r.
  Proof.
    intros I C O Ne N. destruct (proj1 (proj1 (W l' I)) C) as (x' & b' & d' & O' & D). assert (x' = x) by congruence. subst. apply Ne.
    apply (unique_writer block r l l' One Il l_writes I). now apply (dest_written l' x).
  Qed.
  Lemma shift_keeps only d d' : foldM (shift_line only) block d = Ok d' -> dict_get r d' = dict_get r d.
  Proof.
    intros E. apply (foldM_inv _ (fun a => dict_get r a = dict_get r d) block) with (a := d) in E; [assumption| |reflexivity]. intros a l' a' I Ha F. rewrite <- Ha. clear Ha E.
    unfold shift_line in F. destruct (mnemonic l') as [mn|] eqn:M; [|congruence]. destruct (text_eqb mn (tx "lsl")) eqn:L; [|congruence]. apply teqb_eq in L.
    assert (C : called ["add"; "adds"; "sub"; "subs"; "lsl"]%string l') by (exists "lsl"%string; split; [now rewrite M, L|cbn; tauto]).
    destruct (proj1 (proj1 (W l' I)) C) as (x & b & q & O & _). assert (Ne : l' <> l).
    { intros ->. destruct Add as (n & Em & In0). rewrite M in Em. assert (codes n = codes "lsl") by (unfold tx in L; congruence). destruct In0 as [<-|[<-|[]]]; discriminate. }
    assert (Nn := other_dest l' x b q I C O Ne). unfold nth_operand in F. rewrite O in F. cbn [nth_error bind] in F. destruct q as [|z| |]; try congruence.
    assert (F' : a = a' \/ exists s v, (do d0 <- register_of (Reg x); if z <? 0 then Err TypeError else Ok (dict_set d0 (v * 2 ^ z) a)) = Ok a' /\ register_of b = Ok s).
    { destruct only as [ns|].
      - destruct b; try (left; congruence). destruct (register_of _) as [s|] eqn:Rb; [|discriminate]. cbn [bind] in F. destruct (dict_get s a) as [v|]; [|left; congruence]. destruct (one_of s ns); [right; eauto|left; congruence].
      - destruct (register_of b) as [s|] eqn:Rb; [|discriminate]. cbn [bind] in F. destruct (dict_get s a) as [v|]; [right; eauto|left; congruence]. }
    destruct F' as [<-|(s & v & F' & _)]; [reflexivity|]. cbn [register_of] in F'. destruct (normalize x) as [k|] eqn:Nx; [|discriminate]. cbn [bind] in F'. destruct (z <? 0); [discriminate|]. injection F' as <-.
    rewrite get_set. destruct (text_eqb r k) eqn:T; [|reflexivity]. apply teqb_eq in T. subst k. exfalso. now apply Nn.
  Qed.
  Lemma sum_keeps st st' : foldM sum_line block st = Ok st' -> dict_get r (sincrements st') = dict_get r (sincrements st) /\ count_of r (smodified st') = count_of r (smodified st) /\
    (dict_in r (smodified st) = true -> dict_in r (smodified st') = true).
  Proof.
    intros E. apply (foldM_inv _ (fun a => dict_get r (sincrements a) = dict_get r (sincrements st) /\ count_of r (smodified a) = count_of r (smodified st) /\ (dict_in r (smodified st) = true -> dict_in r (smodified a) = true)) block) with (a := st) in E; [assumption| |auto].
    intros a l' a' I (Ha & Hb & Hc) F. rewrite <- Ha, <- Hb. clear E. unfold sum_line in F. destruct (mnemonic l') as [mn|] eqn:M; [|assert (a = a') by congruence; subst; auto].
    destruct (one_of mn [tx "add"; tx "adds"] || one_of mn [tx "sub"; tx "subs"])%bool eqn:A; [|assert (a = a') by congruence; subst; auto].
    assert (C : called ["add"; "adds"; "sub"; "subs"; "lsl"]%string l').
    { apply orb_prop in A as [A|A]; [apply (called_more ["add"; "adds"]%string); [cbn; intuition|now apply (one_of_adds mn)]|apply (called_more ["sub"; "subs"]%string); [cbn; intuition|now apply (one_of_subs mn)]]. }
    destruct (proj1 (proj1 (W l' I)) C) as (x & b & q & O & _). unfold nth_operand in F. rewrite O in F. cbn [nth_error bind] in F.
    destruct b as [x2| | |]; try (assert (a = a') by congruence; subst; auto; fail). destruct q as [x3| | |]; try (assert (a = a') by congruence; subst; auto; fail).
    assert (Nn := other_dest l' x _ _ I C O (fun e => ltac:(subst l'; rewrite Ops in O; discriminate))).
    destruct (normalize x2); [|discriminate]. cbn [bind] in F. destruct (normalize x3); [|discriminate]. cbn [bind] in F. set (f := if one_of mn [tx "add"; tx "adds"] then 1 else -1) in F.
    apply (foldM_inv _ (fun a0 => dict_get r (sincrements a0) = dict_get r (sincrements a) /\ count_of r (smodified a0) = count_of r (smodified a) /\ (dict_in r (smodified st) = true -> dict_in r (smodified a0) = true)) _) with (a := a) in F; [assumption| |auto].
    intros s z s' _ (Ka & Kb & Kc) G. rewrite <- Ka, <- Kb. unfold sum_pair in G. destruct (dict_get (fst z) _) as [v|]; [|assert (s = s') by congruence; subst; auto]. destruct (dict_in (snd z) _); [assert (s = s') by congruence; subst; auto|].
    cbn [register_of] in G. destruct (normalize x) as [k|] eqn:Nx; [|discriminate]. cbn [bind] in G. injection G as <-. cbn [sincrements smodified].
    assert (T : text_eqb r k = false) by (apply not_true_is_false; intros T; apply teqb_eq in T; subst k; now apply Nn).
    rewrite get_set, T. destruct (dict_get k (sincrements s)) as [w|]; [|auto]. destruct (w =? f * v); [|auto]. split; [reflexivity|]. split; [unfold count_of at 1; rewrite get_set, T; reflexivity|]. intros H. rewrite in_set, T. cbn [orb]. auto.
  Qed.
  Lemma scan_finds d i0 st : all_found block i0 -> foldM (scan_line d) block (mkScan i0 [] false) = Ok st -> dict_get r (increments st) = Some c /\ NoDup (map fst (increments st)).
  Proof.
    intros F0 Sc. assert (Sh : forall l, In l block -> shape l) by (intros x I; apply (W x I)). assert (Fd : all_found block (increments st)).
    { apply (foldM_inv _ (fun a => all_found block (increments a)) block) with (a := mkScan i0 [] false) in Sc; [assumption| |assumption]. intros a x a' I Fa Ea. now apply (scan_line_found block Sh d a x). }
    split; [|apply Fd]. assert (Found : forall v, found block r v -> v = c).
    { intros v (l' & I' & W' & X). assert (l' = l) by apply (unique_writer block r l l' One Il l_writes I' W'). subst l'. destruct X as [[_ (x1 & x2 & O & _)]|(m & q & J & _)]; [congruence|]. rewrite Ops in J. destruct J as [J|[J|[J|[]]]]; discriminate. }
    apply in_split in Il as (b1 & b2 & Bl).
    assert (Mon : forall b a a', foldM (scan_line d) b a = Ok a' -> dict_in r (increments a) = true -> dict_in r (increments a') = true).
    { intros b a a' Ea Hn. apply (foldM_inv _ (fun q => dict_in r (increments q) = true) b) with (a := a) in Ea; [assumption| |assumption]. clear. intros a l a1 _ Hn F. unfold scan_line in F. destruct (mnemonic l); [|congruence]. destruct (moving_stores _ _); [|discriminate]. cbn [bind] in F.
      destruct (if one_of _ [tx "add"; tx "adds"] then _ else _) as [[[k z]|]|]; [| |discriminate]; cbn [bind] in F; [injection F as <-; cbn [increments]; rewrite in_set, Hn; apply orb_true_r|].
      destruct (if one_of _ [tx "sub"; tx "subs"] then _ else _) as [[[k z]|]|]; [| |discriminate]; cbn [bind] in F; injection F as <-; cbn [increments]; [|assumption].
      destruct (dict_get k (increments a)) as [w|]; [|assumption]. destruct (w =? - z); [rewrite in_set, Hn; apply orb_true_r|assumption]. }
    rewrite Bl, foldM_app in Sc. destruct (foldM (scan_line d) b1 _) as [a|]; [|discriminate]. cbn [bind foldM] in Sc. destruct (scan_line d a l) as [a1|] eqn:F; [|discriminate]. cbn [bind] in Sc.
    assert (H1 : dict_in r (increments a1) = true).
    { destruct Add as (mn & Em & Im). unfold scan_line in F. rewrite Em in F. destruct (moving_stores _ _); [|discriminate]. cbn [bind] in F.
      replace (one_of (codes mn) [tx "add"; tx "adds"]) with true in F by (symmetry; now apply (one_of_intro (codes mn) mn ["add"; "adds"]%string)).
      unfold immediate_form, nth_operand in F. rewrite Ops in F. cbn [nth_error bind] in F. rewrite operand_eqb_reg in F. cbn [register_of bind] in F. unfold named in Ny. rewrite Ny in F. cbn [bind] in F.
      injection F as <-. cbn [increments]. rewrite in_set, teqb_refl. reflexivity. }
    assert (H2 := Mon _ _ _ Sc H1). unfold dict_in in H2. destruct (dict_get r (increments st)) as [v|] eqn:G; [|discriminate]. f_equal. apply Found. now apply Fd.
  Qed.
  Lemma detects sigma m0 : considered block m0 ->
    (forall m, considered block m -> base m <> None /\ (forall x, base m = Some x -> named x r) /\ index m = None) /\ sigma = 1 \/
    (forall m, considered block m -> (exists x, index m = Some x /\ named x r) /\ scale m = sigma) ->
    detect block = Ok (Some (c * sigma)).
  Proof.
    intros C0 U. unfold detect. destruct (modifications_ok block W) as [[d i0] Mo]. rewrite Mo. cbn [bind fst snd]. assert (Sh : forall l, In l block -> shape l) by (intros x I; apply (W x I)).
    destruct (modifications_spec block d i0 Sh Mo) as (N0 & K0 & D0 & F0). destruct (scan_ok block W d (mkScan i0 [] false)) as [st Sc]. rewrite Sc. cbn [bind].
    destruct (scan_finds d i0 st) as [G0 Nd]; [split; [assumption|]; intros q v H; destruct (F0 q v H) as (x & I & X & Wx); exists x; auto|assumption|].
    assert (Refs := fun m => refs_considered block d D0 i0 st m Sc).
    destruct (once (d, increments st)) as [m1 i1] eqn:O1. destruct (once_spec d (increments st) m1 i1 O1) as (Ei1 & Mm1 & Cm1).
    assert (G1 : dict_get r i1 = Some c) by (rewrite Ei1; apply get_filter; [assumption|]; split; [assumption|]; cbn [fst]; rewrite K0, One; reflexivity).
    destruct (shift_ok block W None i1) as [i2 S2]. rewrite S2. cbn [bind]. apply shift_keeps in S2 as G2. rewrite G1 in G2.
    destruct (sum_ok block W (mkSums m1 i2 [])) as [s S3]. rewrite S3. cbn [bind]. apply sum_keeps in S3 as (G3 & C3 & I3). cbn [sincrements smodified] in *. rewrite G2 in G3.
    destruct (once (smodified s, sincrements s)) as [m2 i3] eqn:O2. destruct (once_spec _ _ m2 i3 O2) as (Ei3 & Mm2 & Cm2).
    assert (G3' : dict_get r i3 = Some c).
    { rewrite Ei3. assert (Cr : count_of r (smodified s) = 1) by (rewrite C3, Cm1, K0, One; reflexivity). clear -G3 Cr. revert G3. generalize (sincrements s). intros dd. induction dd as [|[k w] dd IH]; cbn; [discriminate|].
      destruct (text_eqb r k) eqn:T; [apply teqb_eq in T; subst k; intros [=->]; rewrite Cr; cbn; now rewrite teqb_refl|]. intros H. destruct (count_of k (smodified s) =? 1); cbn; [rewrite T|]; auto. }
    destruct (shift_ok block W (Some (snew s)) i3) as [i4 S4]. rewrite S4. cbn [bind]. apply shift_keeps in S4 as G4. rewrite G3' in G4.
    destruct (addresses_ok block W m2 i4 (references st) ([], [])) as [[regs scales] Ra]; [intros m; apply Refs|]. rewrite Ra. cbn [bind fst snd].
    destruct (record_addresses m2 i4 _ _ _ Ra) as (_ & R2 & R3 & R4). cbn [fst snd] in *.
    assert (Dm : dict_in r m2 = true) by (apply Mm2, I3, Mm1, D0; lia).
    assert (AR : forall m, In m (references st) -> exists s, address_register i4 m = Ok (Some r, s) /\ match s with Some z => z | None => 1 end = sigma /\ (s = None -> sigma = 1)).
    { intros m I. apply Refs in I. unfold address_register. destruct U as [[U Sg]|U].
      - destruct (U m I) as (Bn & Bx & Ix). destruct (base m) as [x|]; [|congruence]. cbn [normalize_option]. assert (Nx := Bx x eq_refl). unfold named in Nx. rewrite Nx, Ix. cbn [bind]. exists None. auto.
      - destruct (U m I) as ((x & Ix & Nx) & Sg). assert (B : exists b, normalize_option (base m) = Ok b).
        { assert (Nm : named_operand (Mem m)). { destruct I as [(l0 & Il0 & _ & J & _)|[_ (l0 & Il0 & _ & J)]]; apply (proj1 (proj2 (W l0 Il0))); rewrite !in_app_iff; destruct J; auto. }
          apply (option_named m Nm). }
        destruct B as [b ->]. cbn [bind]. rewrite Ix. unfold named in Nx. rewrite Nx. cbn [bind]. unfold dict_in. rewrite G4. exists (option_map (Z.pow 2) (shift m)). unfold scale in Sg. destruct (shift m); cbn; auto. split; [reflexivity|]. split; [assumption|discriminate]. }
    assert (Rr : forall n, In n regs -> n = r). { intros n I. apply R2 in I as [[]|(m & q & I & A & _)]. destruct (AR m I) as (q' & A' & _). congruence. }
    assert (I0 : In m0 (references st)) by now apply Refs. destruct (AR m0 I0) as (q0 & A0 & E0 & E0').
    assert (Ir : In r regs) by (apply R2; right; exists m0, q0; auto).
    destruct regs as [|r' regs]; [destruct Ir|]. assert (r' = r) by (apply Rr; now left). subst r'.
    rewrite (all_equal_intro _ c); [|discriminate|intros x I; apply in_map_iff in I as (n & <- & I); rewrite (Rr n I); assumption]. rewrite G4. cbn [option_map]. do 2 f_equal. f_equal.
    destruct (dict_get r scales) as [z|] eqn:Gs.
    - destruct (R3 r z Gs) as [Q|(m & I & A)]; [discriminate|]. destruct (AR m I) as (q & A' & E & _). assert (q = Some z) by congruence. subst q. exact E.
    - destruct q0 as [z|]; [|auto]. assert (X : dict_in r scales = true) by (apply R4; right; exists m0, z; auto). unfold dict_in in X. rewrite Gs in X. discriminate.
  Qed.
End Detect.

(** ** The concrete semantics *)
Lemma is_one_of_called names l : is_one_of names l = true <-> called names l.
Proof.
  unfold is_one_of, called. split.
  - destruct (mnemonic l) as [m|]; [|discriminate]. intros H. apply (one_of_called m names) in H as (n & -> & I). eauto.
  - intros (n & -> & I). now apply (one_of_intro (codes n) n names).
Qed.
Lemma not_called names l : is_one_of names l = false -> ~ called names l.
Proof. intros H C. apply is_one_of_called in C. congruence. Qed.
Lemma assign_other s x v n : is_named n x = false -> assign s (Some x) v n = s n.
Proof.
  unfold assign, is_named. destruct (normalize x) as [k|]; [|reflexivity]. intros H. destruct (text_eqb n k) eqn:T; [|reflexivity]. apply teqb_eq in T. subst. now rewrite teqb_refl in H.
Qed.
Lemma assign_same s x v n : named x n -> assign s (Some x) v n = v.
Proof. unfold assign, named. intros ->. now rewrite teqb_refl. Qed.
Lemma value_named s x n : named x n -> value s (Some x) = s n.
Proof. unfold value, named. now intros ->. Qed.
Lemma not_dest n l x : writes_of n l = 0%nat -> In (Reg x) (destinations l) -> is_named n x = false.
Proof.
  intros H I. apply not_true_is_false. intros T. unfold is_named in T. destruct (normalize x) as [k|] eqn:K; [|discriminate]. apply teqb_eq in T. subst. now apply (dest_written l x n I K).
Qed.
Lemma not_indexed n l m x : writes_of n l = 0%nat -> In (Mem m) (operands l) -> indexing m = true -> base m = Some x -> is_named n x = false.
Proof.
  intros H I Im B. apply not_true_is_false. intros T. unfold writes_of in H. change (fun o => match o with Mem m => (indexing m && match base m with Some r => is_named n r | None => false end)%bool | _ => false end) with (is_indexed n) in H.
  assert (J : In (Mem m) (filter (is_indexed n) (operands l))) by (apply filter_In; split; [assumption|]; cbn; now rewrite Im, B, T). destruct (filter (is_indexed n) (operands l)); [destruct J|cbn in H; lia].
Qed.
Definition simple_indexing (l : line) : Prop := forall m, In (Mem m) (operands l) -> indexing m = true -> exists r, operands l = [Reg r; Mem m].
Lemma a64_step_respects block : (forall l, In l block -> shape l /\ simple_indexing l) -> respects a64_step block.
Proof.
  intros H l I s. destruct (H l I) as [(Sh & _ & Sp & Sq & _) Si]. clear H I.
  assert (Three : forall names x b c, operands l = [Reg x; b; c] -> is_one_of names l = true -> incl names ["add"; "adds"; "sub"; "subs"; "lsl"]%string -> In (Reg x) (destinations l)).
  { intros names x b c O C Su. apply is_one_of_called in C. destruct Sh as (x' & b' & c' & O' & D); [now apply (called_more names)|]. assert (x' = x) by congruence. now subst. }
  repeat split.
  - intros n Wn. unfold a64_step. destruct (operands l) as [|o1 [|o2 [|o3 [|o4 o5]]]] eqn:O; try reflexivity.
    + destruct o1; reflexivity.
    + destruct o1 as [x| | |]; try reflexivity. destruct o2 as [|  |m|]; try reflexivity. unfold index_update. destruct (pre_indexed m) eqn:P.
      * destruct (disp m) as [[z|]|]; try reflexivity. destruct (base m) as [q|] eqn:B; [|reflexivity]. apply assign_other. apply (not_indexed n l m q Wn); [rewrite O; right; now left| |assumption].
        unfold indexing. rewrite P. now destruct (post_indexed m).
      * destruct (post_indexed m) eqn:Q; try reflexivity. destruct (base m) as [q|] eqn:B; [|reflexivity]. apply assign_other. apply (not_indexed n l m q Wn); [rewrite O; right; now left| |assumption]. unfold indexing. now rewrite Q.
    + destruct o1 as [x| | |]; try reflexivity. destruct o2 as [y| | |]; try reflexivity. destruct o3 as [q|z| |]; try reflexivity.
      * destruct (is_one_of ["add"; "adds"]%string l) eqn:A; [apply assign_other, (not_dest n l); [assumption|]; apply (Three _ x _ _ eq_refl A); intros k; cbn; tauto|].
        destruct (is_one_of ["sub"; "subs"]%string l) eqn:B; [|reflexivity]. apply assign_other, (not_dest n l); [assumption|]. apply (Three _ x _ _ eq_refl B); intros k; cbn; tauto.
      * destruct (is_one_of ["add"; "adds"]%string l) eqn:A; [apply assign_other, (not_dest n l); [assumption|]; apply (Three _ x _ _ eq_refl A); intros k; cbn; tauto|].
        destruct (is_one_of ["sub"; "subs"]%string l) eqn:B; [apply assign_other, (not_dest n l); [assumption|]; apply (Three _ x _ _ eq_refl B); intros k; cbn; tauto|].
        destruct (is_one_of ["lsl"%string] l) eqn:C; [|reflexivity]. apply assign_other, (not_dest n l); [assumption|]. apply (Three _ x _ _ eq_refl C); intros k; cbn; tauto.
    + destruct o1, o2, o3; reflexivity.
  - intros d a z [C (x & y & O & Nx & Ny)]. unfold a64_step. apply is_one_of_called in C. rewrite O, C, (assign_same _ _ _ _ Nx), (value_named _ _ _ Ny). reflexivity.
  - intros d a z [C (x & y & O & Nx & Ny)]. assert (E : mnemonic l = Some (codes "lsl")) by (destruct C as (n & E & [<-|[]]); assumption). unfold a64_step, is_one_of. rewrite O, E.
    change (existsb (text_eqb (codes "lsl")) (map codes ["add"; "adds"]%string)) with false. change (existsb (text_eqb (codes "lsl")) (map codes ["sub"; "subs"]%string)) with false.
    change (existsb (text_eqb (codes "lsl")) (map codes ["lsl"%string])) with true. cbn match. rewrite (assign_same _ _ _ _ Nx), (value_named _ _ _ Ny). reflexivity.
  - intros d a b [C (x & y & z & O & Nx & Ny & Nz)]. unfold a64_step. apply is_one_of_called in C. rewrite O, C, (assign_same _ _ _ _ Nx), (value_named _ _ _ Ny), (value_named _ _ _ Nz). reflexivity.
  - intros d a b [C (x & y & z & O & Nx & Ny & Nz)]. unfold a64_step. assert (A : is_one_of ["add"; "adds"]%string l = false).
    { unfold is_one_of. destruct C as (n & E & [<-|[<-|[]]]); rewrite E; reflexivity. }
    apply is_one_of_called in C. rewrite O, A, C, (assign_same _ _ _ _ Nx), (value_named _ _ _ Ny), (value_named _ _ _ Nz). reflexivity.
  - intros b z (m & x & J & B & Nx & P) _. assert (Im : indexing m = true) by (unfold indexing; destruct P as [[P _]|[_ P]]; rewrite P; [now destruct (post_indexed m)|reflexivity]).
    destruct (Si m J Im) as [q O]. unfold a64_step, index_update. rewrite O. destruct P as [[P D]|[P D]]; rewrite P, D, B, (assign_same _ _ _ _ Nx), (value_named _ _ _ Nx); reflexivity.
Qed.

(** ** Names of registers *)
Lemma normalize_letter r a : letter r a -> normalize r = Ok ((if (N.eqb a 119 || N.eqb a 120)%bool then 120%N else a) :: rname r).
Proof.
  unfold letter, normalize. intros ->. cbn [existsb]. change (tx "w") with [119%N]. change (tx "x") with [120%N]. change (tx "") with (@nil N). change (tx "wx") with [119%N; 120%N].
  cbn [text_eqb]. rewrite !andb_true_r, !andb_false_r, !orb_false_r. cbn [orb]. destruct (N.eqb a 119); cbn [orb app]; [reflexivity|]. destruct (N.eqb_spec a 120); [now subst|reflexivity].
Qed.
Lemma general_spec a : general a <-> (N.eqb a 119 || N.eqb a 120)%bool = true.
Proof.
  unfold general. change (codes "w") with [119%N]. change (codes "x") with [120%N]. rewrite orb_true_iff, !N.eqb_eq. split; intros [H|H]; [left|right|left|right]; congruence.
Qed.
Lemma names_spec r s a b : letter r a -> letter s b -> (exists n, named r n /\ named s n) <-> same_register r s.
Proof.
  intros A B. unfold named. rewrite (normalize_letter r a A), (normalize_letter s b B). split.
  - intros (n & E & F). assert (Q : (if (N.eqb a 119 || N.eqb a 120)%bool then 120%N else a) = (if (N.eqb b 119 || N.eqb b 120)%bool then 120%N else b) /\ rname r = rname s) by (split; congruence).
    destruct Q as [Q R]. split; [assumption|]. exists a, b. split; [assumption|]. split; [assumption|]. rewrite !general_spec.
    destruct (N.eqb a 119 || N.eqb a 120)%bool eqn:Ga, (N.eqb b 119 || N.eqb b 120)%bool eqn:Gb; auto.
    + subst b. cbn in Gb. discriminate.
    + subst a. cbn in Ga. discriminate.
  - intros [R (a' & b' & A' & B' & H)]. unfold letter in *. assert (a' = a) by congruence. assert (b' = b) by congruence. subst. eexists. split; [reflexivity|]. rewrite R. f_equal. f_equal.
    destruct H as [->|[H1 H2]]; [reflexivity|]. rewrite general_spec in H1, H2. now rewrite H1, H2.
Qed.
