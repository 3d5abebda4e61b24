(** Proofs for C78 and C79. *)
From Coq Require Import String.
From Verif Require Import PyBaseFacts LoopModel LoopSpec LoopProofs AstSpec AstProofs GenModel GenSpec.
Local Open Scope string_scope.
Local Open Scope list_scope.
Local Open Scope Z_scope.

(** ** Integers *)
Definition total (env : ienv) (n : string) : Z := match lookup n env with Some z => z | None => 0 end.
Lemma index_ceval env e v : index_value env e = Some v -> ceval (total env) e = Some v.
Proof.
  revert v. induction e as [n|z|op l IHl r IHr|op e IH|a IHa b IHb|]; intros v; cbn [index_value ceval]; try discriminate.
  - intros H. unfold total. now rewrite H.
  - auto.
  - destruct (index_value env l) as [a|]; [|discriminate]. destruct (index_value env r) as [b|]; [|discriminate]. cbn [obind].
    rewrite (IHl a eq_refl), (IHr b eq_refl). auto.
Qed.
Lemma index_ids env e v : index_value env e = Some v -> forall n, In n (identifiers e) -> lookup n env <> None.
Proof.
  revert v. induction e as [n|z|op l IHl r IHr|op e IH|a IHa b IHb|]; intros v; cbn [index_value identifiers]; try discriminate.
  - intros H m [<-|[]]. congruence.
  - intros _ n [].
  - destruct (index_value env l) as [a|]; [|discriminate]. destruct (index_value env r) as [b|]; [|discriminate]. intros _ n I.
    apply in_app_or in I as [I|I]; [now apply (IHl a)|now apply (IHr b)].
Qed.
Lemma ceval_index env e v : ceval (total env) e = Some v -> (forall n, In n (identifiers e) -> lookup n env <> None) -> index_value env e = Some v.
Proof.
  revert v. induction e as [n|z|op l IHl r IHr|op e IH|a IHa b IHb|]; intros v; cbn [index_value ceval identifiers]; try discriminate.
  - intros [= <-] H. unfold total. specialize (H n (or_introl eq_refl)). now destruct (lookup n env).
  - auto.
  - intros H I. destruct (ceval (total env) l) as [a|]; [|discriminate]. destruct (ceval (total env) r) as [b|]; [|discriminate].
    rewrite (IHl a eq_refl) by (intros n J; apply I, in_or_app; auto). rewrite (IHr b eq_refl) by (intros n J; apply I, in_or_app; auto). exact H.
Qed.
Lemma index_values_F2 env es zs : index_values env es = Some zs <-> Forall2 (fun e z => index_value env e = Some z) es zs.
Proof.
  revert zs. induction es as [|e es IH]; intros zs; cbn [index_values].
  - split; [intros [= <-]; constructor|intros H; now inversion H].
  - split.
    + destruct (index_value env e) as [z|] eqn:E; [|discriminate]. cbn [obind]. destruct (index_values env es) as [ys|]; [|discriminate].
      cbn [obind]. intros [= <-]. constructor; [assumption|]. now apply IH.
    + intros H. inversion H as [|? z ? ys E F]; subst. rewrite E. cbn [obind]. apply IH in F. now rewrite F.
Qed.
Lemma F2_ceval env es zs : Forall2 (fun e z => index_value env e = Some z) es zs -> Forall2 (fun e z => ceval (total env) e = Some z) es zs.
Proof. induction 1; constructor; auto using index_ceval. Qed.
Lemma F2_ids env es zs : Forall2 (fun e z => index_value env e = Some z) es zs -> forall n, In n (flat_map identifiers es) -> lookup n env <> None.
Proof.
  intros F n I. apply in_flat_map in I as (e & IE & I). induction F as [|e' z es zs E F IH]; [easy|].
  destruct IE as [->|IE]; [now apply (index_ids env e z)|auto].
Qed.
(** Environments with more variables *)
Lemma lookup_app {A} n (l m : list (string * A)) : lookup n (l ++ m) = match lookup n l with Some a => Some a | None => lookup n m end.
Proof. induction l as [|[k a] l IH]; [reflexivity|]. cbn [app lookup]. destruct (String.eqb n k); [reflexivity|exact IH]. Qed.
Lemma lookup_none {A} n (l : list (string * A)) : ~ In n (map fst l) <-> lookup n l = None.
Proof.
  induction l as [|[k a] l IH]; cbn [map fst lookup In]; [tauto|]. destruct (String.eqb_spec n k) as [->|N]; [split; [intros H; destruct H; now left|discriminate]|].
  rewrite <- IH. split; [tauto|]. intros H [E|I]; [now destruct N|auto].
Qed.
Lemma lookup_in {A} n (l : list (string * A)) a : lookup n l = Some a -> In (n, a) l.
Proof.
  induction l as [|[k b] l IH]; cbn [lookup]; [discriminate|]. destruct (String.eqb_spec n k) as [->|N]; [intros [= ->]; now left|]. right. auto.
Qed.
Lemma in_lookup {A} n (l : list (string * A)) a : NoDup (map fst l) -> In (n, a) l -> lookup n l = Some a.
Proof.
  induction l as [|[k b] l IH]; cbn [lookup map fst]; intros N I; [easy|]. inversion_clear N as [|? ? NI N']. destruct I as [I|I].
  - injection I as -> ->. now rewrite String.eqb_refl.
  - destruct (String.eqb_spec n k) as [->|NE]; [|auto]. destruct NI. apply (in_map fst) in I. exact I.
Qed.
Lemma index_extend pre env e : (forall n, In n (identifiers e) -> ~ In n (map fst pre)) -> index_value (pre ++ env) e = index_value env e.
Proof.
  induction e as [n|z|op l IHl r IHr|op e IH|a IHa b IHb|]; intros H; cbn [index_value]; try reflexivity.
  - rewrite lookup_app. specialize (H n (or_introl eq_refl)). apply lookup_none in H. now rewrite H.
  - cbn [identifiers] in H. rewrite IHl, IHr; [reflexivity| |]; intros n I; apply H, in_or_app; auto.
Qed.
Lemma index_values_extend pre env es : (forall e n, In e es -> In n (identifiers e) -> ~ In n (map fst pre)) -> index_values (pre ++ env) es = index_values env es.
Proof.
  induction es as [|e es IH]; intros H; cbn [index_values]; [reflexivity|]. rewrite index_extend, IH; [reflexivity| |].
  - intros e' n I. apply H. now right.
  - intros n. apply H. now left.
Qed.
Lemma iterations_extend ls : forall env its it, iterations ls env its -> In it its -> exists pre, it = pre ++ env /\ incl (map fst pre) (map cindex ls).
Proof.
  induction ls as [|l ls IH]; cbn [iterations]; intros env its it H I.
  - subst its. destruct I as [<-|[]]. exists []. split; [reflexivity|intros x []].
  - destruct H as (z & zs & itss & _ & _ & F & ->). apply in_concat in I as (x & X & I).
    assert (K : exists z, iterations ls ((cindex l, z) :: env) x).
    { clear - F X. induction F as [|y ys zs itss H F IHF]; [easy|]. destruct X as [->|X]; eauto. }
    destruct K as [y K]. destruct (IH _ _ _ K I) as (pre & -> & P). exists (pre ++ [(cindex l, y)]). split; [now rewrite <- app_assoc|].
    rewrite map_app. intros n J. apply in_app_or in J as [J|[<-|[]]]; [right; now apply P|now left].
Qed.

(** ** Positions *)
Lemma position_access dims zs : length dims = length zs -> position dims zs = access_to_sympy dims zs.
Proof.
  intros L. rewrite access_to_sympy_pos by assumption. revert zs L. induction dims as [|d dims IH]; intros [|z zs] L; try discriminate; [reflexivity|].
  cbn [position pos]. now rewrite IH by (injection L as L; exact L).
Qed.
Lemma inside_range dims zs : inside dims zs = true <-> in_range dims zs.
Proof.
  unfold inside, in_range. rewrite andb_true_iff. split.
  - intros [L F]. apply Nat.eqb_eq in L. revert zs L F. induction dims as [|d dims IH]; intros [|z zs] L F; try discriminate; constructor.
    + cbn in F. apply andb_true_iff in F as [F _]. apply andb_true_iff in F as [A B]. apply Z.leb_le in A. apply Z.ltb_lt in B. lia.
    + apply IH; [now injection L|]. cbn in F. now apply andb_true_iff in F as [_ F].
  - intros F. split; [apply Nat.eqb_eq; now apply F2_length in F|]. induction F as [|d z dims zs H F IH]; [reflexivity|]. cbn. rewrite IH, andb_true_r.
    apply andb_true_iff. split; [apply Z.leb_le|apply Z.ltb_lt]; lia.
Qed.
Lemma inside_length dims zs : inside dims zs = true -> length dims = length zs.
Proof. unfold inside. intros H. apply andb_true_iff in H as [H _]. now apply Nat.eqb_eq. Qed.
Lemma position_inj dims a b : inside dims a = true -> inside dims b = true -> position dims a = position dims b -> a = b.
Proof.
  intros A B E. rewrite !position_access in E by (now apply inside_length). apply (access_injective dims a b); try assumption; now apply inside_range.
Qed.
Lemma position_bound dims zs : inside dims zs = true -> 0 <= position dims zs < array_elements dims.
Proof. intros H. rewrite position_access by (now apply inside_length). apply row_major_exact. now apply inside_range. Qed.

(** ** Rewritten references *)
Lemma fold_ids op l : forall x n, In n (identifiers (fold_left (EBin op) l x)) -> In n (identifiers x ++ flat_map identifiers l).
Proof.
  induction l as [|y l IH]; cbn [fold_left flat_map]; intros x n I; [now rewrite app_nil_r|]. apply IH in I. cbn [identifiers] in I. now rewrite <- app_assoc in I.
Qed.
Lemma reduce_ids op l e n : reduce_bin op l = Ok e -> In n (identifiers e) -> In n (flat_map identifiers l).
Proof. destruct l as [|x l]; [discriminate|]. cbn [reduce_bin flat_map]. intros [= <-]. apply fold_ids. Qed.
Lemma summands_ids dims ds : forall i ts n, summands dims i ds = Ok ts -> In n (flat_map identifiers ts) -> In n (flat_map identifiers ds ++ flat_map identifiers dims).
Proof.
  induction ds as [|d ds IH]; cbn [summands]; intros i ts n H I.
  - injection H as <-. destruct I.
  - match type of H with bind ?x _ = _ => destruct x as [t|] eqn:E; [|discriminate] end. cbn [bind] in H.
    destruct (summands dims (S i) ds) as [ts'|] eqn:R; [|discriminate]. injection H as <-. cbn [flat_map] in I |- *. rewrite <- app_assoc.
    apply in_or_app. apply in_app_or in I as [I|I]; [|right; now apply (IH (S i) ts')].
    destruct i as [|i]; [injection E as <-; now left|]. destruct (reduce_bin "*" (firstn (S i) (rev dims))) as [f|] eqn:F; [|discriminate]. injection E as <-.
    cbn [identifiers] in I. apply in_app_or in I as [I|I]; [now left|]. right. apply in_or_app. right. apply (reduce_ids _ _ _ _ F) in I.
    apply in_flat_map in I as (x & X & I). apply in_flat_map. exists x. split; [|exact I]. apply in_rev.
    rewrite <- (firstn_skipn (S i)). apply in_or_app. now left.
Qed.
Lemma transform_ids dict r n subs dims idx : reference r = Some (n, subs) -> dict n = Some dims -> transform_ref dict r = Ok (EArr (EID n) idx) ->
  forall m, In m (identifiers idx) -> In m (flat_map identifiers subs ++ flat_map identifiers dims).
Proof.
  intros R D T m I. unfold transform_ref in T. rewrite (unchain_reference _ _ _ R), D in T. destruct (summands dims 0 (rev subs)) as [ts|] eqn:S; [|discriminate].
  cbn [bind] in T. destruct (reduce_bin "+" ts) as [s|] eqn:B; [|discriminate]. injection T as <-. apply (reduce_ids _ _ _ _ B) in I.
  apply (summands_ids _ _ _ _ _ S) in I. apply in_or_app. apply in_app_or in I as [I|I]; [left|now right]. apply in_flat_map in I as (x & X & I). apply in_flat_map. exists x.
  split; [now apply in_rev|assumption].
Qed.

Lemma nodup_app {A} (l m : list A) : NoDup (l ++ m) <-> NoDup l /\ NoDup m /\ (forall x, In x l -> ~ In x m).
Proof.
  induction l as [|a l IH]; cbn [app]; [split; [intros H; repeat split; auto; constructor|tauto]|]. split.
  - intros H. inversion_clear H as [|? ? NI N]. apply IH in N as (NL & NM & D). split; [constructor; [intros I; apply NI, in_or_app; auto|assumption]|].
    split; [assumption|]. intros x [<-|I] J; [apply NI, in_or_app; auto|exact (D x I J)].
  - intros (NL & NM & D). inversion_clear NL as [|? ? NI N]. constructor.
    + intros I. apply in_app_or in I as [I|I]; [auto|]. exact (D a (or_introl eq_refl) I).
    + apply IH. split; [assumption|]. split; [assumption|]. intros x I. apply D. now right.
Qed.
(** ** Determinism of the iterations *)
Lemma values_fun l env z zs : values l env z zs -> forall ys, values l env z ys -> ys = zs.
Proof.
  induction 1 as [z b E L|z b zs E L H IH]; intros ys K; inversion K as [z' b' E' L'|z' b' ys' E' L' K']; subst.
  - reflexivity.
  - rewrite E in E'. injection E' as <-. lia.
  - rewrite E in E'. injection E' as <-. lia.
  - f_equal. now apply IH.
Qed.
Lemma iterations_fun ls : forall env a b, iterations ls env a -> iterations ls env b -> a = b.
Proof.
  induction ls as [|l ls IH]; cbn [iterations]; intros env a b H K; [congruence|].
  destruct H as (z & zs & x & Z1 & V1 & F1 & ->). destruct K as (z' & zs' & y & Z2 & V2 & F2 & ->). rewrite Z1 in Z2. injection Z2 as <-.
  rewrite (values_fun _ _ _ _ V1 _ V2) in F2. f_equal. clear - F1 F2 IH. revert y F2. induction F1 as [|z i zs itss H F1 IHF]; intros y F2; inversion F2 as [|? j ? js K F2']; subst; [reflexivity|].
  f_equal; [now apply (IH _ _ _ H K)|auto].
Qed.
Lemma runs_fun {V S} (A : arithmetic V) (M : machine V S) ls l env s a b : runs A M ls l env s a -> runs A M ls l env s b -> a = b.
Proof. intros (i & I & E) (j & J & F). rewrite (iterations_fun _ _ _ _ I J) in E. congruence. Qed.

(** ** Declarations *)
Lemma find_lookup n l : NoDup (map fst l) -> find_array n l = lookup n l.
Proof.
  induction l as [|[m d] l IH]; cbn [find_array lookup map fst]; intros N; [reflexivity|]. inversion_clear N as [|? ? NI N']. rewrite IH by assumption.
  destruct (String.eqb_spec n m) as [->|NE]; [|now destruct (lookup n l)]. apply lookup_none in NI. now rewrite NI.
Qed.
Lemma lookup_map {A B} (f : A -> B) n (l : list (string * A)) : lookup n (map (fun a => (fst a, f (snd a))) l) = option_map f (lookup n l).
Proof. induction l as [|[m a] l IH]; cbn [map lookup fst snd]; [reflexivity|]. destruct (String.eqb n m); [reflexivity|exact IH]. Qed.
Lemma lookup_identity {A} n (l : list (string * A)) : lookup n l <> None -> lookup n (map (fun a => (fst a, fst a)) l) = Some n.
Proof.
  induction l as [|[m a] l IH]; cbn [map lookup fst]; [congruence|]. destruct (String.eqb_spec n m) as [->|NE]; [reflexivity|exact IH].
Qed.

Section Simulation.
  Context {V : Type} (A : arithmetic V) (k : kernel) (env : ienv).
  Hypothesis W : well_named k env.
  Definition identity_pointers : list (string * string) := map (fun a => (fst a, fst a)) (arrays k).
  Definition locals_of : list string := map fst (scalars k).

  Lemma arrays_nodup : NoDup (map fst (arrays k)).
  Proof. destruct W as (N & _ & _). now apply nodup_app in N. Qed.
  Lemma dimensions_lookup n : array_dimensions k n = lookup n (arrays k).
  Proof. apply find_lookup, arrays_nodup. Qed.
  Lemma declared_array n dims : declared k env n = Some dims -> exists es, lookup n (arrays k) = Some es /\ index_values env es = Some dims.
  Proof. unfold declared. destruct (lookup n (arrays k)) as [es|]; [|discriminate]. cbn [obind]. eauto. Qed.
  Lemma declared_pointer n dims : declared k env n = Some dims -> lookup n identity_pointers = Some n.
  Proof. intros H. apply declared_array in H as (es & L & _). apply lookup_identity. congruence. Qed.
  Lemma declared_size n dims : declared k env n = Some dims -> dims <> [] -> block_size k env n = Some (array_elements dims).
  Proof.
    intros H NE. apply declared_array in H as (es & L & I). apply index_values_F2 in I. unfold block_size, array_allocations. rewrite (lookup_map transform_decl), L.
    cbn [obind option_map]. destruct (transform_decl_exact (total env) es dims) as (d & D & C); [intros ->; now inversion I; subst|now apply F2_ceval|].
    rewrite D. cbn [obind]. apply ceval_index; [assumption|]. intros m J. apply (F2_ids _ _ _ I). destruct es as [|x es]; [discriminate|]. injection D as <-.
    cbn [flat_map]. now apply fold_ids in J.
  Qed.

  (** Environments of the iterations *)
  Definition iteration (it : ienv) : Prop := exists pre, it = pre ++ env /\ incl (map fst pre) (map cindex (loops k)).
  Lemma iteration_dims it n es : iteration it -> lookup n (arrays k) = Some es -> index_values it es = index_values env es.
  Proof.
    intros (pre & -> & P) L. apply index_values_extend. intros e m E I J. destruct W as (_ & _ & D). apply P in J. apply in_map_iff in J as (l & <- & LI).
    apply lookup_in in L. exact (D l n es e LI L E I).
  Qed.
  Lemma iteration_bound it m : iteration it -> lookup m env <> None -> lookup m it <> None.
  Proof. intros (pre & -> & _) H. rewrite lookup_app. now destruct (lookup m pre). Qed.

  (** ** Places *)
  Lemma transformed_place it r r' n zs dims : iteration it -> transform_ref (array_dimensions k) r = Ok r' -> place_of it r = Some (n, zs) -> zs <> [] ->
    declared k env n = Some dims -> inside dims zs = true -> (exists idx, r' = EArr (EID n) idx) /\ place_of it r' = Some (n, [position dims zs]).
  Proof.
    intros I T P NE D IN. apply declared_array in D as (es & L & IV). unfold place_of in P. destruct (reference r) as [[m subs]|] eqn:R; [|discriminate].
    destruct subs as [|s0 subs]; [destruct (lookup m it); [discriminate|injection P as <- <-; now destruct NE]|].
    destruct (index_values it (s0 :: subs)) as [ys|] eqn:Y; [|discriminate]. cbn [obind] in P. injection P as -> ->.
    rewrite <- (iteration_dims it n es I L) in IV. apply index_values_F2 in IV. apply index_values_F2 in Y.
    pose proof (inside_length _ _ IN) as LE. pose proof (F2_length _ _ _ IV) as L1. pose proof (F2_length _ _ _ Y) as L2.
    assert (DI : array_dimensions k n = Some es) by now rewrite dimensions_lookup.
    destruct (transform_ref_exact (total it) (array_dimensions k) n es dims r (s0 :: subs) zs R ltac:(discriminate) DI ltac:(congruence) (F2_ceval _ _ _ IV) (F2_ceval _ _ _ Y)) as (idx & T' & C).
    rewrite T' in T. injection T as <-. split; [eauto|]. unfold place_of. cbn [reference app index_values].
    rewrite (ceval_index it idx (access_to_sympy dims zs)); [cbn [obind]; now rewrite position_access|assumption|].
    intros x J. apply (transform_ids _ _ _ _ _ _ R DI T') in J. apply in_app_or in J as [J|J]; [now apply (F2_ids _ _ _ Y)|now apply (F2_ids _ _ _ IV)].
  Qed.
  (** ** States *)
  Definition related (T : string -> list Z -> Prop) (s : @memory V) (t : @process V) : Prop :=
    (forall n dims zs, declared k env n = Some dims -> inside dims zs = true -> T n zs -> blocks t n (position dims zs) = elements s n zs)
    /\ (forall n, lookup n (scalars k) <> None -> locals t n = variables s n).
  Notation SM := (source_machine k env).
  Notation TM := (target_machine k env identity_pointers locals_of).
  (** Nothing else is changed. *)
  Definition same_rest (t t' : @process V) : Prop := pointers t' = pointers t /\ cells t' = cells t.
  Definition initialized (s : @memory V) : Prop := forall n, lookup n (scalars k) <> None -> variables s n <> None.
  Lemma same_refl t : same_rest t t.
  Proof. now split. Qed.
  Lemma same_trans a b c : same_rest a b -> same_rest b c -> same_rest a c.
  Proof. intros [A1 A2] [B1 B2]. split; congruence. Qed.

  Lemma local_var n : lookup n (scalars k) <> None -> existsb (String.eqb n) locals_of = true.
  Proof.
    intros H. apply existsb_exists. exists n. split; [|apply String.eqb_refl]. destruct (lookup n (scalars k)) as [o|] eqn:E; [|congruence].
    apply lookup_in in E. apply (in_map fst) in E. exact E.
  Qed.
  Lemma inside_nonempty dims zs : zs <> [] -> inside dims zs = true -> dims <> [].
  Proof. intros NE IN ->. apply inside_length in IN. now destruct zs. Qed.
  Lemma in_block dims zs : inside dims zs = true -> ((0 <=? position dims zs) && (position dims zs <? array_elements dims))%bool = true.
  Proof. intros H. apply position_bound in H. apply andb_true_iff. split; [apply Z.leb_le|apply Z.ltb_lt]; lia. Qed.

  (** The same place in both programs *)
  Inductive same_place (T : string -> list Z -> Prop) : string * list Z -> string * list Z -> Prop :=
  | same_variable n : same_place T (n, []) (n, [])
  | same_element n dims zs : zs <> [] -> declared k env n = Some dims -> inside dims zs = true -> T n zs -> same_place T (n, zs) (n, [position dims zs]).
  Lemma read_same T p q s t v : same_place T p q -> related T s t -> read SM p s = Some v -> read TM q t = Some v.
  Proof.
    intros [n|n dims zs NE D IN TZ] [RE RV] H; unfold read in *; cbn [fst snd] in *.
    - cbn [source_machine target_machine get_var] in *. destruct (lookup n (scalars k)) as [o|] eqn:E; [|discriminate]. cbn [obind] in H.
      rewrite local_var by congruence. rewrite RV by congruence. exact H.
    - destruct zs as [|z zs']; [now destruct NE|]. cbn [source_machine target_machine load] in *. rewrite (declared_pointer _ _ D). cbn [obind].
      rewrite (declared_size _ _ D (inside_nonempty _ _ NE IN)). cbn [obind]. rewrite (in_block _ _ IN). rewrite D in H. cbn [obind] in H. rewrite IN in H.
      rewrite (RE n dims _ D IN TZ). exact H.
  Qed.
  Lemma write_same T p q s t v s' : same_place T p q -> related T s t -> write SM p v s = Some s' -> exists t', write TM q v t = Some t' /\ related T s' t' /\ same_rest t t'.
  Proof.
    intros [n|n dims zs NE D IN TZ] [RE RV] H; unfold write in *; cbn [fst snd] in *.
    - cbn [source_machine target_machine set_var] in *. destruct (lookup n (scalars k)) as [o|] eqn:E; [|discriminate]. cbn [obind] in H. injection H as <-.
      rewrite local_var by congruence. eexists. split; [reflexivity|]. split; [|now split]. split; cbn [elements blocks with_locals variables locals]; [exact RE|].
      intros m M. destruct (String.eqb m n); [reflexivity|auto].
    - destruct zs as [|z zs']; [now destruct NE|]. cbn [source_machine target_machine store] in *. rewrite (declared_pointer _ _ D). cbn [obind].
      rewrite (declared_size _ _ D (inside_nonempty _ _ NE IN)). cbn [obind]. rewrite (in_block _ _ IN). rewrite D in H. cbn [obind] in H. rewrite IN in H. injection H as <-.
      eexists. split; [reflexivity|]. split; [|now split]. split; cbn [elements blocks with_blocks variables locals]; [|exact RV].
      intros m ds ys DM IM TM'. destruct (String.eqb_spec m n) as [->|NM]; cbn [andb]; [|now apply RE]. rewrite D in DM. injection DM as <-. unfold indices_eqb.
      destruct (list_eq_dec Z.eq_dec ys (z :: zs')) as [->|NY]; [now rewrite Z.eqb_refl|].
      destruct (Z.eqb_spec (position dims ys) (position dims (z :: zs'))) as [EP|_]; [|now apply RE]. now destruct NY; apply (position_inj dims).
  Qed.
  Lemma write_initialized p v s s' : write SM p v s = Some s' -> initialized s -> initialized s'.
  Proof.
    unfold write. intros H I n N. destruct (snd p) as [|z zs]; cbn [source_machine set_var store] in H.
    - destruct (lookup (fst p) (scalars k)); [|discriminate]. injection H as <-. cbn [variables]. destruct (String.eqb n (fst p)); [discriminate|now apply I].
    - destruct (declared k env (fst p)); [|discriminate]. cbn [obind] in H. destruct (inside _ _); [|discriminate]. injection H as <-. cbn [variables]. now apply I.
  Qed.

  (** A reference that is accessed in the source has a place in a declared array. *)
  Definition accessible (it : ienv) (r : expr) : Prop :=
    exists n zs dims, place_of it r = Some (n, zs) /\ zs <> [] /\ declared k env n = Some dims /\ inside dims zs = true.
  Lemma array_place it a i p : place_of it (EArr a i) = Some p -> snd p <> [].
  Proof.
    unfold place_of. cbn [reference]. destruct (reference a) as [[n l]|]; [|discriminate]. destruct (l ++ [i]) as [|x xs] eqn:E; [destruct l; discriminate|].
    cbn [index_values]. destruct (index_value it x); [|discriminate]. cbn [obind]. destruct (index_values it xs); [|discriminate]. cbn [obind]. intros [= <-]. discriminate.
  Qed.
  Lemma read_accessible p s (v : V) : read SM p s = Some v -> snd p <> [] -> exists dims, declared k env (fst p) = Some dims /\ inside dims (snd p) = true.
  Proof.
    unfold read. destruct p as [n [|z zs]]; cbn [fst snd]; [congruence|]. cbn [source_machine load]. destruct (declared k env n) as [dims|]; [|discriminate].
    cbn [obind]. destruct (inside dims (z :: zs)) eqn:E; [eauto|discriminate].
  Qed.
  Lemma write_accessible p s (v : V) s' : write SM p v s = Some s' -> snd p <> [] -> exists dims, declared k env (fst p) = Some dims /\ inside dims (snd p) = true.
  Proof.
    unfold write. destruct p as [n [|z zs]]; cbn [fst snd]; [congruence|]. cbn [source_machine store]. destruct (declared k env n) as [dims|]; [|discriminate].
    cbn [obind]. destruct (inside dims (z :: zs)) eqn:E; [eauto|discriminate].
  Qed.
  Lemma place_refs it e p : place_of it e = Some p -> find_refs e = [] /\ (exists n, e = EID n) /\ snd p = [] \/ find_refs e = [e] /\ (exists a i, e = EArr a i) /\ snd p <> [].
  Proof.
    intros H. destruct e as [n|z|op l r|op x|a i|]; unfold place_of in H; cbn [reference] in H; try discriminate.
    - left. cbn [find_refs]. destruct (lookup n it); [discriminate|]. injection H as <-. eauto.
    - right. cbn [find_refs]. split; [reflexivity|]. split; [eauto|]. exact (array_place it _ _ p H).
  Qed.
  Lemma eval_accessible it e : forall s v s', eval A SM it e s = Some (v, s') -> forall r, In r (find_refs e) -> accessible it r.
  Proof.
    induction e as [n|z|op l IHl r IHr|op e IH|a IHa b IHb|]; intros s v s' H x I; cbn [find_refs] in I; try easy.
    - cbn [eval] in H. destruct (eval A SM it l s) as [[v1 s1]|] eqn:E1; [|discriminate]. cbn [obind] in H. destruct (eval A SM it r s1) as [[v2 s2]|] eqn:E2; [|discriminate].
      apply in_app_or in I as [I|I]; eauto.
    - cbn [eval] in H. destruct (String.eqb op "-").
      + destruct (eval A SM it e s) as [[v1 s1]|] eqn:E1; [|discriminate]. eauto.
      + destruct (place_of it e) as [p|] eqn:P; [|discriminate]. cbn [obind] in H. destruct (read SM p s) as [w|] eqn:R; [|discriminate].
        destruct (place_refs it e p P) as [(F & _ & _)|(F & _ & NE)]; rewrite F in I; [easy|]. destruct I as [<-|[]].
        destruct (read_accessible p s w R NE) as (dims & D & IN). destruct p as [n zs]. exists n, zs, dims. auto.
    - destruct I as [<-|[]]. cbn [eval] in H. destruct (place_of it (EArr a b)) as [p|] eqn:P; [|discriminate]. cbn [obind] in H.
      destruct (read SM p s) as [w|] eqn:R; [|discriminate]. pose proof (array_place it a b p P) as NE. destruct (read_accessible p s w R NE) as (dims & D & IN).
      destruct p as [n zs]. exists n, zs, dims. auto.
  Qed.
  Lemma execute_accessible it a s s' : execute A SM it a s = Some s' -> forall r, In r (find_refs (lvalue a) ++ find_refs (rvalue a)) -> accessible it r.
  Proof.
    unfold execute. intros H r I. destruct (eval A SM it (rvalue a) s) as [[v s1]|] eqn:E; [|discriminate]. cbn [obind] in H.
    apply in_app_or in I as [I|I]; [|now apply (eval_accessible it _ _ _ _ E)]. destruct (place_of it (lvalue a)) as [p|] eqn:P; [|discriminate]. cbn [obind] in H.
    destruct (place_refs it _ p P) as [(F & _ & _)|(F & _ & NE)]; rewrite F in I; [easy|]. destruct I as [<-|[]].
    assert (K : exists w, write SM p w s1 = Some s').
    { destruct (String.eqb (aop a) "="); [eauto|]. destruct (compound_operator (aop a)) as [|op [|? ?]]; try discriminate. destruct (read SM p s1) as [w|]; [|discriminate]. cbn [obind] in H. eauto. }
    destruct K as [w K]. destruct (write_accessible p s1 w s' K NE) as (dims & D & IN). destruct p as [n zs]. exists n, zs, dims. auto.
  Qed.
  Lemma execute_all_accessible it l : forall s s', execute_all A SM it l s = Some s' -> forall a r, In a l -> In r (find_refs (lvalue a) ++ find_refs (rvalue a)) -> accessible it r.
  Proof.
    induction l as [|a l IH]; cbn [execute_all]; intros s s' H b r I J; [easy|]. destruct (execute A SM it a s) as [s1|] eqn:E; [|discriminate]. cbn [obind] in H.
    destruct I as [<-|I]; [now apply (execute_accessible it a s s1)|eauto].
  Qed.
  Lemma repeat_all_accessible l its : forall s s', repeat_all A SM its l s = Some s' -> forall it a r, In it its -> In a l -> In r (find_refs (lvalue a) ++ find_refs (rvalue a)) -> accessible it r.
  Proof.
    induction its as [|i its IH]; cbn [repeat_all]; intros s s' H it a r I J K; [easy|]. destruct (execute_all A SM i l s) as [s1|] eqn:E; [|discriminate]. cbn [obind] in H.
    destruct I as [<-|I]; [now apply (execute_all_accessible i l s s1 E a)|eauto].
  Qed.

  (** ** Simulation *)
  Definition covered (T : string -> list Z -> Prop) (it : ienv) (refs : list expr) : Prop := forall r n zs, In r refs -> place_of it r = Some (n, zs) -> zs <> [] -> T n zs.
  Lemma place_same T it e e' p dims : iteration it -> covered T it (find_refs e) -> transform_expr (array_dimensions k) e = Ok e' -> place_of it e = Some p ->
    (snd p <> [] -> declared k env (fst p) = Some dims /\ inside dims (snd p) = true) -> exists q, place_of it e' = Some q /\ same_place T p q.
  Proof.
    intros I C TE P H. destruct (place_refs it e p P) as [(F & [n ->] & E)|(F & (a & i & ->) & NE)].
    - cbn [transform_expr] in TE. injection TE as <-. exists p. split; [assumption|]. destruct p as [m zs]. cbn in E. subst zs. constructor.
    - cbn [transform_expr] in TE. destruct (H NE) as [D IN]. destruct p as [n zs]. cbn [fst snd] in *. destruct (transformed_place it _ e' n zs dims I TE P NE D IN) as [_ Q].
      exists (n, [position dims zs]). split; [assumption|]. constructor; try assumption. apply (C (EArr a i)); [rewrite F; now left|assumption|assumption].
  Qed.
  Lemma place_read T it e e' p s t (v : V) : iteration it -> covered T it (find_refs e) -> transform_expr (array_dimensions k) e = Ok e' -> place_of it e = Some p ->
    read SM p s = Some v -> related T s t -> exists q, place_of it e' = Some q /\ same_place T p q /\ read TM q t = Some v.
  Proof.
    intros I C TE P R RE. assert (K : exists dims, snd p <> [] -> declared k env (fst p) = Some dims /\ inside dims (snd p) = true).
    { destruct (snd p) as [|z zs] eqn:E; [exists []; congruence|]. destruct (read_accessible p s v R) as (dims & D & IN); [congruence|]. exists dims. rewrite <- E. auto. }
    destruct K as [dims K]. destruct (place_same T it e e' p dims I C TE P K) as (q & Q & SP). exists q. split; [assumption|]. split; [assumption|].
    now apply (read_same T p q s).
  Qed.
  Lemma eval_same T it e : forall e' s t v s', iteration it -> covered T it (find_refs e) -> transform_expr (array_dimensions k) e = Ok e' -> related T s t ->
    eval A SM it e s = Some (v, s') -> initialized s -> exists t', eval A TM it e' t = Some (v, t') /\ related T s' t' /\ same_rest t t' /\ initialized s'.
  Proof.
    induction e as [n|z|op l IHl r IHr|op e IH|a IHa b IHb|]; intros e' s t v s' I C TE R H IS.
    - cbn [transform_expr] in TE. injection TE as <-. cbn [eval] in *. destruct (lookup n it) as [z|] eqn:L.
      + injection H as <- <-. eauto using same_refl.
      + destruct (place_of it (EID n)) as [p|] eqn:P; [|discriminate]. cbn [obind] in *. destruct (read SM p s) as [w|] eqn:RD; [|discriminate]. cbn [obind] in H. injection H as <- <-.
        destruct (place_read T it (EID n) (EID n) p s t w I C eq_refl P RD R) as (q & Q & _ & RQ). rewrite P in Q. injection Q as <-. rewrite RQ. eexists. split; [reflexivity|auto using same_refl].
    - cbn [transform_expr] in TE. injection TE as <-. cbn [eval] in *. destruct z; injection H as <- <-; eauto using same_refl.
    - cbn [transform_expr] in TE. destruct (transform_expr (array_dimensions k) l) as [l'|] eqn:TL; [|discriminate]. cbn [bind] in TE.
      destruct (transform_expr (array_dimensions k) r) as [r'|] eqn:TR; [|discriminate]. injection TE as <-. cbn [eval find_refs] in *.
      destruct (eval A SM it l s) as [[v1 s1]|] eqn:E1; [|discriminate]. cbn [obind] in H. destruct (eval A SM it r s1) as [[v2 s2]|] eqn:E2; [|discriminate]. cbn [obind] in H. injection H as <- <-.
      destruct (IHl l' s t v1 s1 I) as (t1 & T1 & R1 & S1 & I1); [intros x n zs J; apply C, in_or_app; auto|reflexivity|assumption|assumption|assumption|].
      destruct (IHr r' s1 t1 v2 s2 I) as (t2 & T2 & R2 & S2 & I2); [intros x n zs J; apply C, in_or_app; auto|reflexivity|assumption|assumption|assumption|].
      rewrite T1. cbn [obind]. rewrite T2. cbn [obind]. exists t2. split; [reflexivity|eauto using same_trans].
    - cbn [transform_expr] in TE. destruct (transform_expr (array_dimensions k) e) as [e2|] eqn:T2; [|discriminate]. injection TE as <-. cbn [eval find_refs] in *.
      destruct (String.eqb op "-").
      + destruct (eval A SM it e s) as [[v1 s1]|] eqn:E1; [|discriminate]. cbn [obind] in H. injection H as <- <-.
        destruct (IH e2 s t v1 s1 I C eq_refl R E1 IS) as (t1 & T1 & R1 & S1 & I1). rewrite T1. cbn [obind]. eexists. split; [reflexivity|auto].
      + destruct (place_of it e) as [p|] eqn:P; [|discriminate]. cbn [obind] in H. destruct (read SM p s) as [w|] eqn:RD; [|discriminate]. cbn [obind] in H.
        destruct (place_read T it e e2 p s t w I C T2 P RD R) as (q & Q & SP & RQ). rewrite Q. cbn [obind]. rewrite RQ. cbn [obind].
        match goal with H : obind ?o _ = _ |- _ => destruct o as [x|]; [|discriminate] end. cbn [obind] in *. destruct (write SM p x s) as [s1|] eqn:WR; [|discriminate]. cbn [obind] in H.
        injection H as <- <-. destruct (write_same T p q s t x s1 SP R WR) as (t1 & W1 & R1 & S1). rewrite W1. cbn [obind]. exists t1. split; [reflexivity|]. split; [assumption|]. split; [assumption|].
        now apply (write_initialized p x s).
    - cbn [transform_expr eval] in *. destruct (place_of it (EArr a b)) as [p|] eqn:P; [|discriminate]. cbn [obind] in H. destruct (read SM p s) as [w|] eqn:RD; [|discriminate]. cbn [obind] in H. injection H as <- <-.
      destruct (place_read T it (EArr a b) e' p s t w I C TE P RD R) as (q & Q & SP & RQ).
      destruct (place_refs it _ p P) as [(_ & [n N] & _)|(_ & _ & NE)]; [discriminate|]. inversion SP as [n EQ|n dims zs NZ D IN TZ EQ EQ']; subst; [now destruct NE|].
      destruct (transformed_place it _ e' n zs dims I TE P NZ D IN) as [[idx ->] _]. cbn [eval]. rewrite Q. cbn [obind]. rewrite RQ. eexists. split; [reflexivity|auto using same_refl].
    - discriminate.
  Qed.
  Lemma execute_same T it a a' s t s' : iteration it -> covered T it (find_refs (lvalue a) ++ find_refs (rvalue a)) -> transform_stmt (array_dimensions k) a = Ok a' -> related T s t ->
    execute A SM it a s = Some s' -> initialized s -> exists t', execute A TM it a' t = Some t' /\ related T s' t' /\ same_rest t t' /\ initialized s'.
  Proof.
    intros I C TS R H IS. unfold transform_stmt in TS. destruct (transform_expr _ (lvalue a)) as [l|] eqn:TL; [|discriminate]. cbn [bind] in TS.
    destruct (transform_expr _ (rvalue a)) as [r|] eqn:TR; [|discriminate]. injection TS as <-. unfold execute in *. cbn [lvalue rvalue aop].
    destruct (eval A SM it (rvalue a) s) as [[v s1]|] eqn:E; [|discriminate]. cbn [obind] in H.
    destruct (eval_same T it (rvalue a) r s t v s1 I) as (t1 & T1 & R1 & S1 & I1); try assumption; [intros x n zs J; apply C, in_or_app; auto|]. rewrite T1. cbn [obind].
    destruct (place_of it (lvalue a)) as [p|] eqn:P; [|discriminate]. cbn [obind] in H.
    assert (K : exists w, write SM p w s1 = Some s').
    { destruct (String.eqb (aop a) "="); [eauto|]. destruct (compound_operator (aop a)) as [|op [|? ?]]; try discriminate. destruct (read SM p s1) as [w|]; [|discriminate]. cbn [obind] in H. eauto. }
    destruct K as [w0 K].
    assert (L : exists q, place_of it l = Some q /\ same_place T p q).
    { destruct (snd p) as [|z zs] eqn:EP.
      - apply (place_same T it (lvalue a) l p []); try assumption; [intros x n zs J; apply C, in_or_app; auto|]. rewrite EP. congruence.
      - destruct (write_accessible p s1 w0 s' K) as (dims & D & IN); [congruence|]. apply (place_same T it (lvalue a) l p dims); try assumption; [intros x n ys J; apply C, in_or_app; auto|auto]. }
    destruct L as (q & Q & SP). rewrite Q. cbn [obind].
    assert (FIN : forall w, write SM p w s1 = Some s' -> exists t', write TM q w t1 = Some t' /\ related T s' t' /\ same_rest t t' /\ initialized s').
    { intros w WR. destruct (write_same T p q s1 t1 w s' SP R1 WR) as (t2 & W2 & R2 & S2). exists t2. split; [assumption|]. split; [assumption|]. split; [exact (same_trans _ _ _ S1 S2)|exact (write_initialized _ _ _ _ WR I1)]. }
    destruct (String.eqb (aop a) "="); [now apply FIN|]. destruct (compound_operator (aop a)) as [|op [|? ?]]; try discriminate.
    destruct (read SM p s1) as [w|] eqn:RD; [|discriminate]. cbn [obind] in H. rewrite (read_same T p q s1 t1 w SP R1 RD). cbn [obind]. now apply FIN.
  Qed.
  Lemma execute_all_same T it l : forall l' s t s', iteration it -> (forall a, In a l -> covered T it (find_refs (lvalue a) ++ find_refs (rvalue a))) ->
    mapM (transform_stmt (array_dimensions k)) l = Ok l' -> related T s t ->
    execute_all A SM it l s = Some s' -> initialized s -> exists t', execute_all A TM it l' t = Some t' /\ related T s' t' /\ same_rest t t' /\ initialized s'.
  Proof.
    induction l as [|a l IH]; cbn [mapM execute_all]; intros l' s t s' I C TS R H IS.
    - injection TS as <-. injection H as <-. cbn [execute_all]. eauto using same_refl.
    - destruct (transform_stmt _ a) as [a'|] eqn:TA; [|discriminate]. cbn [bind] in TS. destruct (mapM _ l) as [l2|] eqn:TL; [|discriminate]. injection TS as <-.
      destruct (execute A SM it a s) as [s1|] eqn:E; [|discriminate]. cbn [obind] in H.
      destruct (execute_same T it a a' s t s1 I (C a (or_introl eq_refl)) TA R E IS) as (t1 & T1 & R1 & S1 & I1). cbn [execute_all]. rewrite T1. cbn [obind].
      destruct (IH l2 s1 t1 s' I (fun b B => C b (or_intror B)) eq_refl R1 H I1) as (t2 & T2 & R2 & S2 & I2). exists t2. split; [assumption|]. split; [assumption|]. split; [exact (same_trans _ _ _ S1 S2)|assumption].
  Qed.
  Lemma repeat_all_same T l l' its : mapM (transform_stmt (array_dimensions k)) l = Ok l' -> forall s t s', (forall it, In it its -> iteration it) ->
    (forall it a, In it its -> In a l -> covered T it (find_refs (lvalue a) ++ find_refs (rvalue a))) -> related T s t ->
    repeat_all A SM its l s = Some s' -> initialized s -> exists t', repeat_all A TM its l' t = Some t' /\ related T s' t' /\ same_rest t t' /\ initialized s'.
  Proof.
    intros TS. induction its as [|it its IH]; cbn [repeat_all]; intros s t s' I C R H IS.
    - injection H as <-. eauto using same_refl.
    - destruct (execute_all A SM it l s) as [s1|] eqn:E; [|discriminate]. cbn [obind] in H.
      destruct (execute_all_same T it l l' s t s1) as (t1 & T1 & R1 & S1 & I1); try assumption; [apply I; now left|intros a J; apply C; [now left|assumption]|]. rewrite T1. cbn [obind].
      destruct (IH s1 t1 s') as (t2 & T2 & R2 & S2 & I2); try assumption; [intros i J; apply I; now right|intros i a J; apply C; now right|]. exists t2. split; [assumption|]. split; [assumption|]. split; [exact (same_trans _ _ _ S1 S2)|assumption].
  Qed.
  Lemma runs_same T f s t s' : kernel_function k = Ok f -> (forall its it a, iterations (loops k) env its -> In it its -> In a (body k) -> covered T it (find_refs (lvalue a) ++ find_refs (rvalue a))) ->
    related T s t -> runs A SM (loops k) (body k) env s s' -> initialized s -> exists t', runs A TM (floops f) (fbody f) env t t' /\ related T s' t' /\ same_rest t t' /\ initialized s'.
  Proof.
    intros F C R (its & IT & H) IS. unfold kernel_function in F. destruct (mapM _ (body k)) as [b|] eqn:B; [|discriminate]. injection F as <-. cbn [floops fbody].
    destruct (repeat_all_same T (body k) b its B s t s') as (t' & H' & R' & S' & I'); try assumption.
    - intros it J. apply (iterations_extend _ _ _ _ IT J).
    - intros it a J. now apply (C its).
    - exists t'. split; [|auto]. exists its. auto.
  Qed.
End Simulation.

(** ** The call *)
Section Call.
  Context {V : Type} (A : arithmetic V) (k : kernel) (env : ienv).
  Hypothesis W : well_named k env.
  Definition frame : list (string * value) :=
    map (fun a => (fst a, VBlock (fst a))) (arrays k) ++ map (fun s => (scalar_pointer (fst s), VCell (fst s))) (scalars k) ++ map (fun x => (fst x, VInt (snd x))) env.

  Lemma all_args_app (t : @process V) l m : all_args k env t (l ++ m) = let? a := all_args k env t l in let? b := all_args k env t m in Some (a ++ b).
  Proof.
    induction l as [|x l IH]; cbn [app all_args obind]; [now destruct (all_args k env t m)|]. destruct (arg_value k env t x); [|reflexivity]. cbn [obind]. rewrite IH.
    destruct (all_args k env t l); [|reflexivity]. cbn [obind]. now destruct (all_args k env t m).
  Qed.
  Lemma all_args_map {B} (t : @process V) (f : B -> arg) (g : B -> value) l : (forall x, In x l -> arg_value k env t (f x) = Some (g x)) -> all_args k env t (map f l) = Some (map g l).
  Proof.
    induction l as [|x l IH]; cbn [map all_args]; intros H; [reflexivity|]. rewrite H by now left. cbn [obind]. rewrite IH by (intros y J; apply H; now right). reflexivity.
  Qed.
  Lemma bind_params_app a b va vb x y : bind_params a va = Some x -> bind_params b vb = Some y -> bind_params (a ++ b) (va ++ vb) = Some (x ++ y).
  Proof.
    revert va x. induction a as [|p a IH]; intros [|v va] x X Y; cbn [bind_params app] in *; try discriminate; [now injection X as <-|].
    destruct (bind_param p v) as [w|]; [|discriminate]. cbn [obind] in *. destruct (bind_params a va) as [ws|] eqn:E; [|discriminate]. cbn [obind] in X. injection X as <-.
    rewrite (IH va ws E Y). reflexivity.
  Qed.
  Lemma bind_params_map {B} (f : B -> param) (g : B -> value) h l : (forall x : B, In x l -> bind_param (f x) (g x) = Some (h x)) -> bind_params (map f l) (map g l) = Some (map h l).
  Proof.
    induction l as [|x l IH]; cbn [map bind_params]; intros H; [reflexivity|]. rewrite H by now left. cbn [obind]. rewrite IH by (intros y J; apply H; now right). reflexivity.
  Qed.
  Lemma constants_env : map AVar (constants k) = map (fun x => AVar (fst x)) env /\ map PConst (constants k) = map (fun x => PConst (fst x)) env.
  Proof. destruct W as (_ & E & _). rewrite <- E, !map_map. auto. Qed.
  Lemma env_nodup : NoDup (map fst env) /\ (forall n, In n (map fst env) -> ~ In n (map fst (arrays k))).
  Proof.
    destruct W as (N & E & _). rewrite E. apply nodup_app in N as (_ & N & D). split.
    - apply nodup_app in N as (_ & N & _). now apply nodup_app in N as (N & _).
    - intros n I J. apply (D n J). apply in_or_app. right. apply in_or_app. now left.
  Qed.
  Lemma frame_args (t : @process V) : unswapped k t -> exists vs, all_args k env t (kernel_args k) = Some vs /\ bind_params (kernel_params k) vs = Some frame.
  Proof.
    intros U. destruct constants_env as [EA EP]. destruct env_nodup as [EN ED].
    exists (map (fun a => VBlock (fst a)) (arrays k) ++ map (fun s => VCell (fst s)) (scalars k) ++ map (fun x => VInt (snd x)) env). split.
    - unfold kernel_args. rewrite EA, !all_args_app.
      rewrite (all_args_map t _ (fun a => VBlock (fst a))), (all_args_map t _ (fun s => VCell (fst s))), (all_args_map t _ (fun x => VInt (snd x))); [reflexivity| | |].
      + intros [n z] I. cbn [arg_value fst snd]. rewrite U. replace (lookup n (map (fun a => (fst a, fst a)) (arrays k))) with (@None string).
        * rewrite (in_lookup n env z EN I). reflexivity.
        * symmetry. apply lookup_none. rewrite map_map. cbn [fst]. apply ED. apply (in_map fst) in I. exact I.
      + intros [n e] I. cbn [arg_value fst]. destruct (lookup n (scalars k)) eqn:L; [reflexivity|]. apply lookup_none in L. destruct L. apply (in_map fst) in I. exact I.
      + intros [n ds] I. cbn [arg_value fst]. rewrite U. rewrite lookup_identity; [reflexivity|]. intros L. apply lookup_none in L. apply L. apply (in_map fst) in I. exact I.
    - unfold kernel_params, frame. rewrite EP. apply bind_params_app; [now apply bind_params_map|]. apply bind_params_app; now apply bind_params_map.
  Qed.
  Lemma frame_names : map fst frame = map param_name (kernel_params k).
  Proof. unfold frame, kernel_params. destruct constants_env as [_ ->]. rewrite !map_app, !map_map. reflexivity. Qed.
  Lemma names_nodup : NoDup (map param_name (kernel_params k) ++ map fst (scalars k)).
  Proof.
    destruct W as (N & _ & _). unfold kernel_params. rewrite !map_app, !map_map. cbn [param_name]. rewrite map_id, <- !app_assoc. exact N.
  Qed.
  Lemma frame_nodup : NoDup (map fst frame).
  Proof. rewrite frame_names. now apply (proj1 (nodup_app _ _) names_nodup). Qed.
  Lemma frame_blocks_eq : frame_blocks frame = identity_pointers k.
  Proof.
    unfold frame_blocks, frame. rewrite !flat_map_app. unfold identity_pointers.
    assert (E1 : forall l : list (string * list expr), flat_map (fun x => match snd x with VBlock b => [(fst x, b)] | _ => [] end) (map (fun a => (fst a, VBlock (fst a))) l) = map (fun a => (fst a, fst a)) l) by (induction l as [|x l IH]; [reflexivity|]; cbn; now rewrite IH).
    assert (E2 : forall l : list (string * option expr), flat_map (fun x => match snd x with VBlock b => [(fst x, b)] | _ => [] end) (map (fun s => (scalar_pointer (fst s), VCell (fst s))) l) = []) by (induction l as [|x l IH]; [reflexivity|]; cbn; now rewrite IH).
    assert (E3 : forall l : ienv, flat_map (fun x => match snd x with VBlock b => [(fst x, b)] | _ => [] end) (map (fun x => (fst x, VInt (snd x))) l) = []) by (induction l as [|x l IH]; [reflexivity|]; cbn; now rewrite IH).
    rewrite E1, E2, E3. now rewrite app_nil_r.
  Qed.
  Lemma frame_ints_eq : frame_ints frame = env.
  Proof.
    unfold frame_ints, frame. rewrite !flat_map_app.
    assert (E1 : forall l : list (string * list expr), flat_map (fun x => match snd x with VInt b => [(fst x, b)] | _ => [] end) (map (fun a => (fst a, VBlock (fst a))) l) = []) by (induction l as [|x l IH]; [reflexivity|]; cbn; now rewrite IH).
    assert (E2 : forall l : list (string * option expr), flat_map (fun x => match snd x with VInt b => [(fst x, b)] | _ => [] end) (map (fun s => (scalar_pointer (fst s), VCell (fst s))) l) = []) by (induction l as [|x l IH]; [reflexivity|]; cbn; now rewrite IH).
    assert (E3 : forall l : ienv, flat_map (fun x => match snd x with VInt b => [(fst x, b)] | _ => [] end) (map (fun x => (fst x, VInt (snd x))) l) = l) by (induction l as [|[x y] l IH]; [reflexivity|]; cbn; now rewrite IH).
    now rewrite E1, E2, E3.
  Qed.
  Lemma frame_scalar n : In n (map fst (scalars k)) -> lookup (scalar_pointer n) frame = Some (VCell n).
  Proof.
    intros I. apply in_lookup; [exact frame_nodup|]. unfold frame. apply in_or_app. right. apply in_or_app. left. apply in_map_iff in I as (s & <- & I).
    apply in_map_iff. eauto.
  Qed.
  Definition locals_in (l : list (string * option expr)) : list (string * string) := map (fun s => (fst s, scalar_pointer (fst s))) l.
  Lemma copies_in l : incl l (scalars k) -> forall t : @process V, (forall n, In n (map fst l) -> cells t n <> None) -> exists t', copy_in frame (locals_in l) t = Some t'
    /\ blocks t' = blocks t /\ pointers t' = pointers t /\ cells t' = cells t /\ (forall n, locals t' n = if existsb (String.eqb n) (map fst l) then cells t n else locals t n).
  Proof.
    induction l as [|[n o] l IH]; cbn [locals_in map fst copy_in]; intros I t C; [exists t; auto|]. unfold pointed. rewrite frame_scalar by (apply (in_map fst _ _ (I _ (or_introl eq_refl)))).
    cbn [obind]. destruct (cells t n) as [v|] eqn:E; [|exfalso; apply (C n); [now left|assumption]]. cbn [obind].
    destruct (IH ltac:(intros x J; apply I; now right) (with_locals t (fun m => if String.eqb m n then Some v else locals t m))) as (t' & H & B & P & CE & L); [intros m J; apply C; now right|].
    exists t'. split; [exact H|]. cbn [with_locals blocks pointers cells locals] in *. split; [assumption|]. split; [assumption|]. split; [assumption|]. intros m. rewrite L. cbn [existsb].
    destruct (existsb (String.eqb m) (map fst l)); [now rewrite orb_true_r|]. rewrite orb_false_r. destruct (String.eqb_spec m n) as [->|_]; [now rewrite E|reflexivity].
  Qed.
  Lemma copies_out l : incl l (scalars k) -> forall t : @process V, (forall n, In n (map fst l) -> locals t n <> None) -> exists t', copy_out frame (locals_in l) t = Some t'
    /\ blocks t' = blocks t /\ pointers t' = pointers t /\ locals t' = locals t /\ (forall n, cells t' n = if existsb (String.eqb n) (map fst l) then locals t n else cells t n).
  Proof.
    induction l as [|[n o] l IH]; cbn [locals_in map fst copy_out]; intros I t C; [exists t; auto|]. rewrite frame_scalar by (apply (in_map fst _ _ (I _ (or_introl eq_refl)))).
    destruct (locals t n) as [v|] eqn:E; [|exfalso; apply (C n); [now left|assumption]]. cbn [obind].
    destruct (IH ltac:(intros x J; apply I; now right) (with_cells t (fun m => if String.eqb m n then Some v else cells t m))) as (t' & H & B & P & CE & L); [intros m J; apply C; now right|].
    exists t'. split; [exact H|]. cbn [with_cells blocks pointers cells locals] in *. split; [assumption|]. split; [assumption|]. split; [assumption|]. intros m. rewrite L. cbn [existsb].
    destruct (existsb (String.eqb m) (map fst l)); [now rewrite orb_true_r|]. rewrite orb_false_r. destruct (String.eqb_spec m n) as [->|_]; [now rewrite E|reflexivity].
  Qed.
  Lemma scalar_in n : In n (map fst (scalars k)) <-> lookup n (scalars k) <> None.
  Proof. rewrite <- lookup_none. split; [auto|]. intros H. destruct (in_dec string_dec n (map fst (scalars k))); [assumption|now destruct H]. Qed.
  Lemma function_parts f : kernel_function k = Ok f -> params f = kernel_params k /\ statics f = locals_in (scalars k) /\ fswaps f = swaps k.
  Proof. unfold kernel_function. destruct (mapM _ _); [|discriminate]. intros [= <-]. auto. Qed.

  Lemma agrees_blocks T (s : @memory V) (t : @process V) : unswapped k t -> agrees k env T s t ->
    forall n dims zs, declared k env n = Some dims -> inside dims zs = true -> T n zs -> blocks t n (position dims zs) = elements s n zs.
  Proof.
    intros U [H _] n dims zs D I TZ. destruct (H n dims zs D I TZ) as (b & L & E). rewrite U in L. apply declared_array in D as (es & DE & _).
    rewrite lookup_identity in L by congruence. congruence.
  Qed.
  Lemma call_same T f s t s' : kernel_function k = Ok f -> unswapped k t -> agrees k env T s t -> initialized k s ->
    (forall a b, In (a, b) (swaps k) -> lookup a (arrays k) <> None /\ lookup b (arrays k) <> None) ->
    (forall its it a, iterations (loops k) env its -> In it its -> In a (body k) -> covered T it (find_refs (lvalue a) ++ find_refs (rvalue a))) ->
    runs A (source_machine k env) (loops k) (body k) env s s' -> exists t', calls A k env f t t' /\ agrees k env T s' t' /\ unswapped k t' /\ initialized k s'.
  Proof.
    intros F U AG IS SW C R. destruct (function_parts f F) as (FP & FS & FW). destruct (frame_args t U) as (vs & AR & BI).
    destruct (copies_in (scalars k) (incl_refl _) t) as (t1 & C1 & B1 & P1 & CE1 & L1).
    { intros n I. apply scalar_in in I. destruct AG as [_ AG]. rewrite AG by assumption. now apply IS. }
    assert (RE : related k env T s t1).
    { split; [intros n dims zs D I TZ; rewrite B1; now apply (agrees_blocks T)|]. intros n I. rewrite L1. apply scalar_in in I as J.
      replace (existsb (String.eqb n) (map fst (scalars k))) with true; [now apply AG|]. symmetry. apply existsb_exists. exists n. split; [assumption|apply String.eqb_refl]. }
    destruct (runs_same A k env W T f s t1 s' F C RE R IS) as (t2 & R2 & RE2 & [P2 CE2] & I2).
    destruct (copies_out (scalars k) (incl_refl _) t2) as (t3 & C3 & B3 & P3 & _ & L3).
    { intros n I. apply scalar_in in I. destruct RE2 as [_ RE2]. rewrite RE2 by assumption. now apply I2. }
    assert (U3 : unswapped k t3) by (unfold unswapped; rewrite P3, P2, P1; exact U).
    exists t3. split; [|split; [|split; assumption]].
    - unfold calls. rewrite FP, FS, FW. split; [|exists vs, frame, t1, t2].
      + unfold locals_in. rewrite map_map. exact names_nodup.
      + rewrite frame_blocks_eq, frame_ints_eq. split; [assumption|]. split; [assumption|]. split; [assumption|]. split.
        * unfold locals_in. rewrite map_map. exact R2.
        * split; [|assumption]. intros a b I. destruct (SW a b I) as [IA IB]. unfold identity_pointers. rewrite !lookup_identity by assumption. split; discriminate.
    - split.
      + intros n dims zs D I TZ. exists n. rewrite U3, B3. destruct (declared_array k env n dims D) as (es & DE & _). rewrite lookup_identity by congruence. split; [reflexivity|].
        now apply RE2.
      + intros n I. rewrite L3. apply scalar_in in I as J. replace (existsb (String.eqb n) (map fst (scalars k))) with true; [now apply RE2|].
        symmetry. apply existsb_exists. exists n. split; [assumption|apply String.eqb_refl].
  Qed.
  Lemma calls_fun f (t a b : @process V) : calls A k env f t a -> calls A k env f t b -> a = b.
  Proof.
    intros (_ & vs & fr & t1 & t2 & H1 & H2 & H3 & H4 & _ & H5) (_ & vs' & fr' & u1 & u2 & K1 & K2 & K3 & K4 & _ & K5).
    rewrite H1 in K1. injection K1 as <-. rewrite H2 in K2. injection K2 as <-. rewrite H3 in K3. injection K3 as <-. rewrite <- (runs_fun _ _ _ _ _ _ _ _ H4 K4) in K5. congruence.
  Qed.
End Call.

(** ** Functions are generated *)
Lemma summands_ok dims ds : forall i, (i + length ds <= length dims)%nat -> exists ts, summands dims i ds = Ok ts /\ length ts = length ds.
Proof.
  induction ds as [|d ds IH]; intros i L; cbn [summands]; [exists []; auto|]. cbn [length] in L. destruct (IH (S i) ltac:(lia)) as (ts & E & LE).
  destruct i as [|i]; [cbn [bind]; rewrite E; eexists; split; [reflexivity|cbn; congruence]|].
  destruct (firstn (S i) (rev dims)) as [|f fs] eqn:F; [apply (f_equal (@length _)) in F; rewrite firstn_length, rev_length in F; cbn [length] in F; lia|].
  cbn [reduce_bin bind]. rewrite E. eexists. split; [reflexivity|cbn; congruence].
Qed.
Lemma transform_ref_ok dict r n subs dims : reference r = Some (n, subs) -> subs <> [] -> dict n = Some dims -> (length subs <= length dims)%nat -> exists idx, transform_ref dict r = Ok (EArr (EID n) idx).
Proof.
  intros R NE D L. unfold transform_ref. rewrite (unchain_reference _ _ _ R), D. destruct (summands_ok dims (rev subs) 0) as (ts & E & LE); [rewrite rev_length; lia|].
  rewrite E. cbn [bind]. destruct ts as [|t ts]; [rewrite rev_length in LE; destruct subs; [congruence|discriminate]|]. cbn [reduce_bin bind]. eauto.
Qed.
Lemma mapM_exists {X Y} (f : X -> res Y) l : (forall x, In x l -> exists y, f x = Ok y) -> exists ys, mapM f l = Ok ys.
Proof.
  induction l as [|x l IH]; cbn [mapM]; intros H; [eauto|]. destruct (H x (or_introl eq_refl)) as [y ->]. cbn [bind]. destruct IH as [ys ->]; [intros z I; apply H; now right|]. cbn [bind]. eauto.
Qed.
Lemma mapM_each {X Y} (f : X -> res Y) l : forall ys, mapM f l = Ok ys -> forall x, In x l -> exists y, f x = Ok y.
Proof.
  induction l as [|x l IH]; cbn [mapM]; intros ys H z I; [easy|]. destruct (f x) as [y|] eqn:E; [|discriminate]. cbn [bind] in H. destruct (mapM f l) as [l'|]; [|discriminate].
  destruct I as [<-|I]; [eauto|]. now apply (IH l').
Qed.
Lemma transform_expr_ok dict e : (forall r, In r (find_refs e) -> exists r', transform_ref dict r = Ok r') <-> exists e', transform_expr dict e = Ok e'.
Proof.
  induction e as [n|z|op l IHl r IHr|op e IH|a IHa b IHb|]; cbn [find_refs transform_expr].
  - split; [eauto|intros _ r []].
  - split; [eauto|intros _ r []].
  - split.
    + intros H. destruct (proj1 IHl) as [l' ->]; [intros x I; apply H, in_or_app; auto|]. cbn [bind]. destruct (proj1 IHr) as [r' ->]; [intros x I; apply H, in_or_app; auto|]. cbn [bind]. eauto.
    + intros [e' H] x I. destruct (transform_expr dict l) as [l'|]; [|discriminate]. cbn [bind] in H. destruct (transform_expr dict r) as [r'|]; [|discriminate].
      apply in_app_or in I as [I|I]; [apply IHl|apply IHr]; eauto.
  - split.
    + intros H. destruct (proj1 IH) as [e' ->]; [exact H|]. cbn [bind]. eauto.
    + intros [e' H]. destruct (transform_expr dict e) as [e2|]; [|discriminate]. apply IH. eauto.
  - split; [intros H; apply H; now left|]. intros [e' H] r [<-|[]]. eauto.
  - split; [eauto|intros _ r []].
Qed.
Definition kernel_refs (k : kernel) : list expr := flat_map (fun s => find_refs (lvalue s) ++ find_refs (rvalue s)) (body k).
Lemma function_ok k : (forall r, In r (kernel_refs k) -> exists r', transform_ref (array_dimensions k) r = Ok r') <-> exists f, kernel_function k = Ok f.
Proof.
  unfold kernel_function, kernel_refs. split.
  - intros H. destruct (mapM_exists (transform_stmt (array_dimensions k)) (body k)) as [b ->]; [|cbn [bind]; eauto].
    intros a I. unfold transform_stmt. destruct (proj1 (transform_expr_ok (array_dimensions k) (lvalue a))) as [l ->].
    { intros r J. apply H, in_flat_map. exists a. split; [assumption|]. apply in_or_app. auto. }
    cbn [bind]. destruct (proj1 (transform_expr_ok (array_dimensions k) (rvalue a))) as [r ->]; [|cbn [bind]; eauto].
    intros x J. apply H, in_flat_map. exists a. split; [assumption|]. apply in_or_app. auto.
  - intros [f F] r I. destruct (mapM _ (body k)) as [b|] eqn:B; [|discriminate]. apply in_flat_map in I as (a & IA & I). destruct (mapM_each _ _ _ B a IA) as [a' E]. unfold transform_stmt in E.
    destruct (transform_expr _ (lvalue a)) as [l'|] eqn:EL; [|discriminate]. cbn [bind] in E. destruct (transform_expr _ (rvalue a)) as [r'|] eqn:ER; [|discriminate].
    apply in_app_or in I as [I|I]; [apply (proj2 (transform_expr_ok _ (lvalue a)))|apply (proj2 (transform_expr_ok _ (rvalue a)))]; eauto.
Qed.
Lemma initialization_ok k f : kernel_function k = Ok f -> exists b,
  mapM (fun r => do r' <- transform_ref (array_dimensions k) r; Ok (mkassign "=" r' (EConst None))) (kernel_refs k) = Ok b /\ array_initialization k = Ok (mkInit (loops k) b (swaps k)).
Proof.
  intros F. unfold array_initialization. fold (kernel_refs k).
  destruct (mapM_exists (fun r => do r' <- transform_ref (array_dimensions k) r; Ok (mkassign "=" r' (EConst None))) (kernel_refs k)) as [b B]; [|exists b; split; [exact B|rewrite B; reflexivity]].
  intros r I. destruct (proj2 (function_ok k) (ex_intro _ f F) r I) as [r' ->]. cbn [bind]. eauto.
Qed.

(** ** Initialization *)
Section Initialization.
  Context {V : Type} (A : arithmetic V) (k : kernel) (env : ienv).
  Hypothesis W : well_named k env.
  Notation IM := (target_machine k env (identity_pointers k) []).
  (** The element of a reference has a number. *)
  Definition numbered (it : ienv) (r : expr) (t : @process V) : Prop :=
    forall n zs dims, place_of it r = Some (n, zs) -> declared k env n = Some dims -> blocks t n (position dims zs) = Some (number A).
  Definition later (t t' : @process V) : Prop :=
    pointers t' = pointers t /\ cells t' = cells t /\ (forall n z, blocks t n z = Some (number A) -> blocks t' n z = Some (number A)).
  Lemma later_refl t : later t t.
  Proof. now repeat split. Qed.
  Lemma later_trans a b c : later a b -> later b c -> later a c.
  Proof. intros (A1 & A2 & A3) (B1 & B2 & B3). repeat split; [congruence|congruence|auto]. Qed.
  Lemma numbered_later it r t t' : later t t' -> numbered it r t -> numbered it r t'.
  Proof. intros (_ & _ & L) N n zs dims P D. apply L. now apply N. Qed.
  Notation istmt := (fun r => do r' <- transform_ref (array_dimensions k) r; Ok (mkassign "=" r' (EConst None))).
  Lemma init_one it r a t : iteration k env it -> accessible k env it r -> istmt r = Ok a -> exists t', execute A IM it a t = Some t' /\ later t t' /\ numbered it r t'.
  Proof.
    intros I (n & zs & dims & P & NE & D & IN) E. destruct (transform_ref (array_dimensions k) r) as [r'|] eqn:T; [|discriminate]. injection E as <-.
    destruct (transformed_place k env W it r r' n zs dims I T P NE D IN) as [_ Q]. unfold execute. cbn [lvalue rvalue aop eval obind]. rewrite Q. cbn [obind String.eqb Ascii.eqb Bool.eqb].
    unfold write. cbn [fst snd target_machine store]. rewrite (declared_pointer k env n dims D). cbn [obind].
    rewrite (declared_size k env n dims D (inside_nonempty _ _ NE IN)). cbn [obind]. rewrite (in_block _ _ IN). eexists. split; [reflexivity|]. split.
    - split; [reflexivity|]. split; [reflexivity|]. intros m z H. cbn [blocks with_blocks]. destruct (_ && _)%bool; [reflexivity|assumption].
    - intros m ys ds PM DM. rewrite P in PM. injection PM as <- <-. rewrite D in DM. injection DM as <-. cbn [blocks with_blocks]. now rewrite String.eqb_refl, Z.eqb_refl.
  Qed.
  Lemma init_all it refs : forall b t, iteration k env it -> (forall r, In r refs -> accessible k env it r) -> mapM istmt refs = Ok b ->
    exists t', execute_all A IM it b t = Some t' /\ later t t' /\ (forall r, In r refs -> numbered it r t').
  Proof.
    induction refs as [|r refs IH]; cbn [mapM]; intros b t I AC E.
    - injection E as <-. exists t. split; [reflexivity|]. split; [apply later_refl|intros r []].
    - match type of E with bind ?x _ = _ => destruct x as [a|] eqn:EA; [|discriminate] end. cbn [bind] in E. destruct (mapM istmt refs) as [b'|] eqn:EB; [|discriminate]. injection E as <-.
      destruct (init_one it r a t I (AC r (or_introl eq_refl)) EA) as (t1 & E1 & L1 & N1). destruct (IH b' t1 I (fun x J => AC x (or_intror J)) eq_refl) as (t2 & E2 & L2 & N2).
      exists t2. cbn [execute_all]. rewrite E1. cbn [obind]. split; [assumption|]. split; [exact (later_trans _ _ _ L1 L2)|]. intros x [<-|J]; [exact (numbered_later _ _ _ _ L2 N1)|auto].
  Qed.
  Lemma init_repeat refs b its : mapM istmt refs = Ok b -> forall t, (forall it, In it its -> iteration k env it) -> (forall it r, In it its -> In r refs -> accessible k env it r) ->
    exists t', repeat_all A IM its b t = Some t' /\ later t t' /\ (forall it r, In it its -> In r refs -> numbered it r t').
  Proof.
    intros E. induction its as [|it its IH]; intros t I AC; cbn [repeat_all].
    - exists t. split; [reflexivity|]. split; [apply later_refl|intros it r []].
    - destruct (init_all it refs b t (I it (or_introl eq_refl)) (fun r J => AC it r (or_introl eq_refl) J) E) as (t1 & E1 & L1 & N1).
      destruct (IH t1 (fun i J => I i (or_intror J)) (fun i r J => AC i r (or_intror J))) as (t2 & E2 & L2 & N2). rewrite E1. cbn [obind].
      exists t2. split; [assumption|]. split; [exact (later_trans _ _ _ L1 L2)|]. intros i r [<-|J] JR; [exact (numbered_later _ _ _ _ L2 (N1 r JR))|auto].
  Qed.

  Lemma declared_unswapped : unswapped k (after_declarations A k).
  Proof. unfold unswapped, after_declarations, array_allocations. cbn [pointers]. rewrite map_map. reflexivity. Qed.
  Lemma declared_cells n : lookup n (scalars k) <> None -> cells (after_declarations A k) n = Some (number A).
  Proof.
    intros H. unfold after_declarations, scalar_initialization. cbn [cells].
    replace (lookup n (map (fun s : string * option expr => (fst s, EConst None)) (scalars k))) with (Some (EConst None)); [reflexivity|].
    rewrite (lookup_map (fun _ : option expr => EConst None)). now destruct (lookup n (scalars k)).
  Qed.
  Lemma init_agrees f s s' : kernel_function k = Ok f -> swaps k = [] -> runs A (source_machine k env) (loops k) (body k) env s s' ->
    exists t, initializes A k env (after_declarations A k) t /\ unswapped k t /\ agrees k env (accessed k env) (filled A) t.
  Proof.
    intros F SW (its & IT & R). destruct (initialization_ok k f F) as (b & B & E).
    assert (AC : forall it r, In it its -> In r (kernel_refs k) -> accessible k env it r).
    { intros it r I J. apply in_flat_map in J as (a & IA & J). exact (repeat_all_accessible A k env (body k) its s s' R it a r I IA J). }
    destruct (init_repeat (kernel_refs k) b its B (after_declarations A k) (fun it J => iterations_extend _ _ _ _ IT J) AC) as (t & RT & (L1 & L2 & L3) & N).
    assert (U : unswapped k t) by (unfold unswapped; rewrite L1; exact declared_unswapped).
    exists t. split; [|split; [assumption|]].
    - exists (mkInit (loops k) b (swaps k)), t. split; [assumption|]. split; [|cbn [iswaps]; rewrite SW; reflexivity]. rewrite declared_unswapped. exists its. auto.
    - split.
      + intros n dims zs D I (NE & its' & it & a & r & IT' & J & IA & IR & P). rewrite <- (iterations_fun _ _ _ _ IT IT') in J. exists n.
        destruct (declared_array k env n dims D) as (es & DE & _). rewrite U, lookup_identity by congruence. split; [reflexivity|]. cbn [elements filled].
        apply (N it r J) with (zs := zs); [|assumption|assumption]. apply in_flat_map. eauto.
      + intros n H. rewrite L2. now apply declared_cells.
  Qed.
End Initialization.

(** ** The main program *)
Lemma kernel_loop_trace argv1 c ints tr ints' : does argv1 c ints tr ints' -> c = While (IGt "repeat" 0) (Seq (Act KernelCall) (SetInt "repeat" (IMinus1 "repeat"))) ->
  tr = repeat KernelCall (Z.to_nat (ints "repeat")) /\ (forall y, y <> "repeat" -> ints' y = ints y).
Proof.
  induction 1 as [| | | | |b c ints H|b c ints t1 ints1 t2 ints2 H D1 _ D2 IH]; intros E; try discriminate E; injection E as -> ->.
  - cbn [holds] in H. replace (Z.to_nat (ints "repeat")) with O by lia. auto.
  - cbn [holds] in H. inversion D1 as [| |c d i u1 ints3 u2 ints4 DA DB| | | |]; subst. inversion DA; subst. inversion DB; subst.
    destruct (IH eq_refl) as [-> K]. cbn [String.eqb Ascii.eqb Bool.eqb int_value] in *. split.
    + replace (Z.to_nat (ints3 "repeat")) with (S (Z.to_nat (ints3 "repeat" - 1))) by lia. reflexivity.
    + intros y N. rewrite K by assumption. apply String.eqb_neq in N. now rewrite N.
Qed.
Lemma kernel_loop_does argv1 m : forall ints, Z.to_nat (ints "repeat") = m ->
  exists ints', does argv1 (While (IGt "repeat" 0) (Seq (Act KernelCall) (SetInt "repeat" (IMinus1 "repeat")))) ints (repeat KernelCall m) ints' /\ (forall y, y <> "repeat" -> ints' y = ints y).
Proof.
  induction m as [|m IH]; intros ints H.
  - exists ints. split; [|auto]. apply does_end. cbn [holds]. lia.
  - destruct (IH (fun y => if String.eqb y "repeat" then int_value argv1 ints (IMinus1 "repeat") else ints y)) as (ints' & D & K); [cbn; lia|].
    exists ints'. split.
    + change (repeat KernelCall (S m)) with (([KernelCall] ++ []) ++ repeat KernelCall m). eapply does_loop; [cbn [holds]; lia|apply (does_seq _ _ _ _ _ ints); constructor|exact D].
    + intros y N. rewrite K by assumption. apply String.eqb_neq in N. now rewrite N.
Qed.
Definition repetition : command :=
  Seq (Seq (SetInt "repeat" (INum 2))
      (Seq (If (IEq "warmup" 0) (Seq (SetInt "repeat" IArgv1) (Act StartRegion)))
           (While (IGt "repeat" 0) (Seq (Act KernelCall) (SetInt "repeat" (IMinus1 "repeat"))))))
      (SetInt "warmup" (IMinus1 "warmup")).
Ltac invdoes H := inversion H; subst; clear H.
Lemma repetition_trace argv1 ints tr ints' : does argv1 repetition ints tr ints' ->
  tr = (if ints "warmup" =? 0 then StartRegion :: repeat KernelCall (Z.to_nat argv1) else repeat KernelCall 2) /\ ints' "warmup" = ints "warmup" - 1.
Proof.
  intros H. unfold repetition in H. inversion H as [| |? ? ? t1 i1 t2 i2 H1 H2| | | |]; subst. inversion H1 as [| |? ? ? t3 i3 t4 i4 H3 H4| | | |]; subst.
  inversion H3; subst. inversion H4 as [| |? ? ? t5 i5 t6 i6 H5 H6| | | |]; subst. inversion H2; subst. apply kernel_loop_trace in H6 as [-> K]; [|reflexivity].
  cbn [String.eqb Ascii.eqb Bool.eqb int_value]. specialize (K "warmup" ltac:(discriminate)). rewrite app_nil_r. cbn [app].
  inversion H5 as [| | |? ? ? ? ? HH HB|? ? ? HH| |]; subst; cbn [holds String.eqb Ascii.eqb Bool.eqb] in HH, K.
  - apply Z.eqb_eq in HH as HE. inversion HB as [| |? ? ? t7 i7 t8 i8 H7 H8| | | |]; subst. inversion H7; subst. inversion H8; subst. cbn [String.eqb Ascii.eqb Bool.eqb int_value] in *.
    rewrite HE. split; [reflexivity|congruence].
  - destruct (Z.eqb_spec (ints "warmup") 0) as [E|E]; [contradiction|]. split; [reflexivity|congruence].
Qed.
Lemma repetition_does argv1 ints : exists ints', does argv1 repetition ints (if ints "warmup" =? 0 then StartRegion :: repeat KernelCall (Z.to_nat argv1) else repeat KernelCall 2) ints' /\ ints' "warmup" = ints "warmup" - 1.
Proof.
  set (ints1 := fun y => if String.eqb y "repeat" then int_value argv1 ints (INum 2) else ints y).
  assert (K : exists tr ints2, does argv1 (If (IEq "warmup" 0) (Seq (SetInt "repeat" IArgv1) (Act StartRegion))) ints1 tr ints2 /\ ints2 "warmup" = ints "warmup"
    /\ tr ++ repeat KernelCall (Z.to_nat (ints2 "repeat")) = if ints "warmup" =? 0 then StartRegion :: repeat KernelCall (Z.to_nat argv1) else repeat KernelCall 2).
  { destruct (Z.eqb_spec (ints "warmup") 0) as [E|E].
    - exists ([] ++ [StartRegion]), (fun y => if String.eqb y "repeat" then int_value argv1 ints1 IArgv1 else ints1 y). split; [|split; reflexivity].
      apply does_then; [exact E|]. eapply does_seq; constructor.
    - exists [], ints1. split; [now apply does_else|]. split; reflexivity. }
  destruct K as (tr & ints2 & D & K1 & K2). destruct (kernel_loop_does argv1 _ ints2 eq_refl) as (ints3 & D3 & K3). exists (fun y => if String.eqb y "warmup" then int_value argv1 ints3 (IMinus1 "warmup") else ints3 y). split.
  - rewrite <- K2. rewrite <- (app_nil_r (tr ++ _)). eapply does_seq; [|constructor]. apply (does_seq argv1 _ _ _ [] ints1); [constructor|]. eapply does_seq; eassumption.
  - cbn. rewrite K3 by discriminate. now rewrite K1.
Qed.
Lemma main_trace argv1 ints tr ints' : does argv1 main_template ints tr ints' -> tr = measured_trace argv1.
Proof.
  unfold main_template. fold repetition. intros H. inversion H as [| |? ? ? t1 i1 t2 i2 H1 H2| | | |]; subst. inversion H1; subst. inversion H2 as [| |? ? ? t3 i3 t4 i4 H3 H4| | | |]; subst. inversion H4; subst.
  inversion H3 as [| |? ? ? t5 i5 t6 i6 H5 H6| | | |]; subst. inversion H5; subst. clear H H1 H2 H3 H4 H5.
  inversion H6 as [| | | | |? ? ? HN|? ? ? u1 j1 u2 j2 HH D1 D2]; subst; [cbn in HN; lia|]. clear H6 HH. apply repetition_trace in D1 as [-> W1]. cbn in W1.
  inversion D2 as [| | | | |? ? ? HN|? ? ? v1 k1 v2 k2 HH D3 D4]; subst; [cbn in HN; lia|]. clear D2 HH. apply repetition_trace in D3 as [-> W2]. rewrite W1 in W2 |- *. cbn in W2 |- *.
  inversion D4 as [| | | | |? ? ? HN|? ? ? w1 l1 w2 l2 HH D5 D6]; subst; [|cbn in HH; lia]. unfold measured_trace. cbn. now rewrite app_nil_r.
Qed.
Lemma main_does argv1 ints : exists ints', does argv1 main_template ints (measured_trace argv1) ints'.
Proof.
  unfold main_template. fold repetition. set (i0 := fun y => if String.eqb y "warmup" then int_value argv1 ints (INum 1) else ints y).
  destruct (repetition_does argv1 i0) as (i1 & D1 & W1). destruct (repetition_does argv1 i1) as (i2 & D2 & W2). rewrite W1 in D2, W2. cbn in D1, D2, W1, W2. exists i2.
  change (measured_trace argv1) with ([InitArrays] ++ ([KernelCall; KernelCall] ++ (StartRegion :: repeat KernelCall (Z.to_nat argv1))) ++ [StopRegion]).
  eapply does_seq; [constructor|]. eapply does_seq; [|constructor]. apply (does_seq argv1 _ _ _ [] i0); [constructor|].
  apply (does_loop argv1 _ _ _ [KernelCall; KernelCall] i1); [cbn; lia|exact D1|]. rewrite <- (app_nil_r (StartRegion :: _)). eapply does_loop; [cbn; lia|exact D2|]. apply does_end. cbn. lia.
Qed.
Lemma performs_app {V} (A : arithmetic V) k env l : forall m t t1 t2, performs_all A k env l t t1 -> performs_all A k env m t1 t2 -> performs_all A k env (l ++ m) t t2.
Proof. intros m t t1 t2 H. revert t2. induction H as [t|a l t t1 t1' H _ IH]; intros t2 K; [exact K|]. cbn [app]. econstructor; eauto. Qed.

Section Main.
  Context {V : Type} (A : arithmetic V) (k : kernel) (env : ienv).
  Lemma performs_fun a (t x y : @process V) : performs A k env a t x -> performs A k env a t y -> x = y.
  Proof.
    intros [t0 t1 (i & u & I1 & R1 & ->)|f t0 t1 F C|t0|t0] K; inversion K as [? ? (j & v & J1 & S1 & ->)|g ? ? G D| |]; subst; try reflexivity.
    - rewrite I1 in J1. injection J1 as <-. now rewrite (runs_fun _ _ _ _ _ _ _ _ R1 S1).
    - rewrite F in G. injection G as <-. now apply (calls_fun A k env f t0).
  Qed.
  Lemma performs_all_fun l : forall (t x y : @process V), performs_all A k env l t x -> performs_all A k env l t y -> x = y.
  Proof.
    induction l as [|a l IH]; intros t x y H K; inversion H; subst; inversion K; subst; [reflexivity|].
    match goal with H1 : performs A k env a t ?u, H2 : performs A k env a t ?w |- _ => rewrite (performs_fun a t _ _ H1 H2) in * end. eauto.
  Qed.
  Hypothesis W : well_named k env.
  Lemma accessed_covered its it a : iterations (loops k) env its -> In it its -> In a (body k) -> covered (accessed k env) it (find_refs (lvalue a) ++ find_refs (rvalue a)).
  Proof. intros IT I IA r n zs J P NE. split; [assumption|]. exists its, it, a, r. auto. Qed.
  Lemma runs_source s s' : swaps k = [] -> kernel_runs A k env s s' -> runs A (source_machine k env) (loops k) (body k) env s s'.
  Proof. intros SW (s1 & R & ->). now rewrite SW. Qed.
  Lemma calls_repeat f n : kernel_function k = Ok f -> swaps k = [] -> forall s s' t, kernel_repeats A k env n s s' -> unswapped k t -> initialized k s -> agrees k env (accessed k env) s t ->
    exists t', performs_all A k env (repeat KernelCall n) t t' /\ unswapped k t' /\ initialized k s' /\ agrees k env (accessed k env) s' t'.
  Proof.
    intros F SW. induction n as [|n IH]; intros s s' t H U I AG; inversion H as [|? ? s1 ? R K]; subst.
    - exists t. split; [constructor|auto].
    - apply runs_source in R; [|assumption]. destruct (call_same A k env W (accessed k env) f s t s1 F U AG I) as (t1 & C1 & A1 & U1 & I1); [rewrite SW; intros a b []|exact accessed_covered|exact R|].
      destruct (IH s1 s' t1 K U1 I1 A1) as (t2 & P2 & U2 & I2 & A2). exists t2. split; [|auto]. cbn [repeat]. econstructor; [|exact P2]. econstructor; eassumption.
  Qed.
  Lemma repeats_app n : forall m s s', kernel_repeats A k env (n + m) s s' -> exists s1, kernel_repeats A k env n s s1 /\ kernel_repeats A k env m s1 s'.
  Proof.
    induction n as [|n IH]; intros m s s' H; [exists s; split; [constructor|exact H]|]. inversion H as [|? ? s1 ? R K]; subst. destruct (IH m s1 s' K) as (s2 & K1 & K2).
    exists s2. split; [econstructor; eassumption|assumption].
  Qed.
  Lemma main_agrees f n s' : kernel_function k = Ok f -> swaps k = [] -> kernel_repeats A k env (2 + Z.to_nat n) (filled A) s' ->
    exists t', main_runs A k env n (measured_trace n) t' /\ agrees k env (accessed k env) s' t' /\ unswapped k t'.
  Proof.
    intros F SW H. inversion H as [|? ? s1 ? R _]; subst. destruct (init_agrees A k env W f (filled A) s1 F SW (runs_source _ _ SW R)) as (t0 & I0 & U0 & A0).
    destruct (repeats_app 2 (Z.to_nat n) _ _ H) as (s2 & H1 & H2). assert (IF : initialized k (filled A)) by (intros m _; discriminate).
    destruct (calls_repeat f 2 F SW _ _ t0 H1 U0 IF A0) as (t1 & P1 & U1 & IS1 & A1). destruct (calls_repeat f _ F SW _ _ t1 H2 U1 IS1 A1) as (t2 & P2 & U2 & _ & A2).
    exists t2. split; [|split; assumption]. destruct (main_does n (fun _ => 0)) as (ints' & D). exists (fun _ => 0), ints'. split; [assumption|].
    unfold measured_trace. change (InitArrays :: KernelCall :: KernelCall :: ?l) with ([InitArrays] ++ repeat KernelCall 2 ++ l).
    apply (performs_app _ _ _ _ _ _ t0); [econstructor; [constructor; exact I0|constructor]|]. apply (performs_app _ _ _ _ _ _ t1); [assumption|].
    econstructor; [constructor|]. apply (performs_app _ _ _ _ _ _ t2); [assumption|]. econstructor; [constructor|constructor].
  Qed.
End Main.

(** ** Execution, for examples *)
Fixpoint values_run (fuel : nat) (l : cloop) (env : ienv) (z : Z) : option (list Z) :=
  match fuel with
  | O => None
  | S fuel' => let? b := index_value ((cindex l, z) :: env) (cbound l) in
               if z <? b then let? zs := values_run fuel' l env (z + cstep l) in Some (z :: zs) else Some []
  end.
Lemma values_sound fuel l env : forall z zs, values_run fuel l env z = Some zs -> values l env z zs.
Proof.
  induction fuel as [|fuel IH]; cbn [values_run]; intros z zs H; [discriminate|]. destruct (index_value _ _) as [b|] eqn:E; [|discriminate]. cbn [obind] in H.
  destruct (Z.ltb_spec z b) as [L|L]; [|injection H as <-; now apply (values_stop _ _ _ b)]. destruct (values_run fuel l env (z + cstep l)) as [ys|] eqn:Y; [|discriminate]. injection H as <-.
  apply (values_step _ _ _ b); auto.
Qed.
Fixpoint iterations_run (fuel : nat) (ls : list cloop) (env : ienv) : option (list ienv) :=
  match ls with
  | [] => Some [env]
  | l :: ls' =>
      let? z := index_value env (cstart l) in
      let? zs := values_run fuel l env z in
      (fix go zs := match zs with [] => Some [] | z :: zs' => let? a := iterations_run fuel ls' ((cindex l, z) :: env) in let? b := go zs' in Some (a ++ b) end) zs
  end.
Lemma iterations_sound fuel ls : forall env its, iterations_run fuel ls env = Some its -> iterations ls env its.
Proof.
  induction ls as [|l ls IH]; cbn [iterations_run iterations]; intros env its H; [congruence|]. destruct (index_value env (cstart l)) as [z|] eqn:E; [|discriminate]. cbn [obind] in H.
  destruct (values_run fuel l env z) as [zs|] eqn:Z; [|discriminate]. cbn [obind] in H. apply values_sound in Z.
  assert (K : exists itss, Forall2 (fun z its => iterations ls ((cindex l, z) :: env) its) zs itss /\ its = concat itss).
  { clear Z E. revert its H. induction zs as [|y zs IHz]; intros its H; [injection H as <-; exists []; split; [constructor|reflexivity]|].
    destruct (iterations_run fuel ls ((cindex l, y) :: env)) as [a|] eqn:A; [|discriminate]. cbn [obind] in H.
    match type of H with obind ?o _ = _ => destruct o as [b|] eqn:B; [|discriminate] end. injection H as <-. destruct (IHz b eq_refl) as (itss & F & ->).
    exists (a :: itss). split; [constructor; auto|reflexivity]. }
  destruct K as (itss & F & ->). exists z, zs, itss. auto.
Qed.
Lemma runs_compute {V S} (A : arithmetic V) (M : machine V S) fuel ls l env s (P : S -> Prop) :
  match (let? its := iterations_run fuel ls env in repeat_all A M its l s) with Some s' => P s' | None => False end -> exists s', runs A M ls l env s s' /\ P s'.
Proof.
  destruct (iterations_run fuel ls env) as [its|] eqn:I; [|easy]. cbn [obind]. destruct (repeat_all A M its l s) as [s'|] eqn:R; [|easy]. intros H. exists s'. split; [|assumption].
  exists its. split; [now apply (iterations_sound fuel)|assumption].
Qed.
Fixpoint repeat_run {V} (A : arithmetic V) (k : kernel) (env : ienv) (its : list ienv) (n : nat) (s : @memory V) : option (@memory V) :=
  match n with
  | O => Some s
  | S n' => let? s1 := repeat_all A (source_machine k env) its (body k) s in repeat_run A k env its n' (fold_left (fun s p => swapped p s) (swaps k) s1)
  end.
Lemma repeats_compute {V} (A : arithmetic V) k env fuel n s (P : @memory V -> Prop) :
  match (let? its := iterations_run fuel (loops k) env in repeat_run A k env its n s) with Some s' => P s' | None => False end -> exists s', kernel_repeats A k env n s s' /\ P s'.
Proof.
  destruct (iterations_run fuel (loops k) env) as [its|] eqn:I; [|easy]. cbn [obind]. apply iterations_sound in I. destruct (repeat_run A k env its n s) as [s'|] eqn:R; [|easy].
  intros H. exists s'. split; [|assumption]. clear H. revert s R. induction n as [|n IH]; cbn [repeat_run]; intros s R; [injection R as ->; constructor|].
  destruct (repeat_all A (source_machine k env) its (body k) s) as [s1|] eqn:E; [|discriminate]. cbn [obind] in R. econstructor; [|apply IH; exact R].
  exists s1. split; [exists its; auto|reflexivity].
Qed.
