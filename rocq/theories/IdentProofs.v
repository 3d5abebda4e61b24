From Coq Require Import Lia.
From Verif Require Import PyBase PyBaseFacts PyStr PyVal DefineModel DefineSpec DefineProofs IdentModel IdentSpec.
Local Open Scope string_scope.
Local Open Scope Z_scope.
Local Open Scope list_scope.

(** ** Tuples *)
Fixpoint frozen (v : value) : value := match v with VList l | VTuple l => VTuple (map frozen l) | _ => v end.
Fixpoint vsize (v : value) : nat := match v with VList l | VTuple l => S (fold_right (fun x n => S (vsize x) + n)%nat 0%nat l) | _ => 1%nat end.
Lemma to_tuple_frozen n x : (vsize x <= n)%nat -> to_tuple n x = Ok (frozen x).
Proof.
  revert x. induction n as [|n IH]; intros x L; [destruct x; cbn in L; lia|]. destruct x as [| | | | |l|l| | |]; try reflexivity; cbn [to_tuple].
  - destruct l as [|a [|b r]]; [reflexivity| |].
    + rewrite IH by (cbn in *; lia). reflexivity.
    + rewrite IH by (cbn in *; lia). rewrite IH by (cbn in *; lia). reflexivity.
  - destruct l as [|a [|b r]]; [reflexivity| |].
    + rewrite IH by (cbn in *; lia). reflexivity.
    + rewrite IH by (cbn in *; lia). rewrite IH by (cbn in *; lia). reflexivity.
Qed.
Lemma frozen_size v : vsize (frozen v) = vsize v.
Proof.
  induction v using value_induction; cbn [frozen vsize]; try easy; f_equal; induction H as [|x l E F IH]; cbn [map fold_right]; [easy|now rewrite E, IH|easy|now rewrite E, IH].
Qed.
Lemma frozen_twice v : frozen (frozen v) = frozen v.
Proof.
  induction v using value_induction; cbn [frozen]; try easy; f_equal; rewrite map_map; apply map_ext_in; intros x I; rewrite Forall_forall in H; now apply H.
Qed.
Lemma frozen_alike a b : frozen a = frozen b <-> alike a b.
Proof.
  revert b. assert (SQ : forall l, Forall (fun a => forall b, frozen a = frozen b <-> alike a b) l -> forall l', map frozen l = map frozen l' <-> Forall2 alike l l').
  { induction 1 as [|x l E F IH]; intros [|y l']; cbn; try (split; [easy|inversion 1]); [split; constructor|]. split.
    - intros [= X L]. constructor; [now apply E|now apply IH].
    - inversion 1; subst. f_equal; [now apply E|now apply IH]. }
  induction a using value_induction; intros w; try (split; [destruct w; cbn; intros E; try discriminate; rewrite ?E; apply alike_same|intros A; inversion A; subst; [easy|discriminate]]).
  - cbn [frozen]. split.
    + intros E. destruct w; cbn in E; try discriminate E; injection E as E; apply (SQ _ H) in E; eapply alike_elements; try reflexivity; easy.
    + intros A. inversion A as [|? ? la lb EA EB F]; subst; [easy|]. injection EA as <-. apply (SQ _ H) in F. destruct w; try discriminate; injection EB as ->; cbn; now f_equal.
  - cbn [frozen]. split.
    + intros E. destruct w; cbn in E; try discriminate E; injection E as E; apply (SQ _ H) in E; eapply alike_elements; try reflexivity; easy.
    + intros A. inversion A as [|? ? la lb EA EB F]; subst; [easy|]. injection EA as <-. apply (SQ _ H) in F. destruct w; try discriminate; injection EB as ->; cbn; now f_equal.
Qed.
(** Without dictionaries *)
Inductive no_dict : value -> Prop :=
| nd_atom v : elements v = None -> (forall l, v <> VDict l) -> no_dict v
| nd_elements v l : elements v = Some l -> Forall no_dict l -> no_dict v.
Lemma frozen_hashable v : no_dict v -> hashable (frozen v).
Proof.
  induction v using value_induction; cbn [frozen]; intros N; try (now constructor).
  - constructor. inversion N as [? E|? l' E F]; subst; [discriminate|]. injection E as <-. apply Forall_forall. intros x I. apply in_map_iff in I as (y & <- & I). rewrite Forall_forall in *. now apply H, F.
  - constructor. inversion N as [? E|? l' E F]; subst; [discriminate|]. injection E as <-. apply Forall_forall. intros x I. apply in_map_iff in I as (y & <- & I). rewrite Forall_forall in *. now apply H, F.
  - inversion N as [? E D|? l' E F]; subst; [now destruct (D l)|discriminate].
Qed.

(** ** Arguments *)
Lemma argument_value_frozen n v : (vsize v <= n)%nat -> argument_value n v = Ok (frozen (by_name v)).
Proof.
  intros L. unfold argument_value. destruct v; try reflexivity.
  - rewrite to_tuple_frozen by easy. cbn [bind frozen]. change (VTuple (map frozen l)) with (frozen (VList l)). rewrite to_tuple_frozen by (now rewrite frozen_size). cbn [bind]. now rewrite frozen_twice.
  - cbn [bind]. rewrite to_tuple_frozen by easy. reflexivity.
Qed.
Definition pick (kwargs : list (string * value)) (p : string * value) : list (string * value) :=
  match lookup (fst p) kwargs with
  | Some w => [(fst p, w)]
  | None => if mem (fst p) ignored then [] else [(fst p, frozen (by_name (snd p)))]
  end.
Lemma identify_picks n kwargs args : (forall k v, In (k, v) args -> (vsize v <= n)%nat) -> identify n kwargs args = Ok (flat_map (pick kwargs) args).
Proof.
  induction args as [|[k v] args IH]; intros L; [easy|]. cbn [identify flat_map]. unfold pick at 1. cbn [fst snd].
  destruct (lookup k kwargs); [rewrite IH by (intros; apply (L k0); now right); reflexivity|]. destruct (mem k ignored); [rewrite IH by (intros; apply (L k0); now right); reflexivity|].
  rewrite argument_value_frozen by (apply (L k); now left). rewrite IH by (intros; apply (L k0); now right). reflexivity.
Qed.

(** ** Sorted by key *)
Section Keys.
  Context {V : Type}.
  Notation kle := (fun a b : string * V => key_leb a b = true).
  Lemma sort_keys_sorted (l : list (string * V)) : StronglySorted kle (sort_with key_leb l).
  Proof. apply sort_with_sorted; [intros a b; apply String.leb_total|intros a b c; apply str_leb_trans]. Qed.
  Lemma sorted_keys_unique (l1 l2 : list (string * V)) : StronglySorted kle l1 -> StronglySorted kle l2 -> NoDup (map fst l1) -> Permutation l1 l2 -> l1 = l2.
  Proof.
    intros H1. revert l2. induction H1 as [|x l1 H1 IH Hx]; intros l2 H2 D P; [now apply Permutation_nil in P|].
    destruct l2 as [|y l2]; [symmetry in P; now apply Permutation_nil in P|]. inversion H2 as [|? ? H2' Hy]; subst. cbn in D. inversion D as [|? ? NI D']; subst.
    assert (E : x = y).
    { rewrite Forall_forall in Hx, Hy. assert (Ix : In x (y :: l2)) by (apply (Permutation_in x P); now left). assert (Iy : In y (x :: l1)) by (apply (Permutation_in y (Permutation_sym P)); now left).
      destruct Ix as [->|Ix]; [easy|]. destruct Iy as [->|Iy]; [easy|]. exfalso. apply NI. rewrite (str_leb_antisym (fst x) (fst y)); [now apply in_map|now apply Hx|now apply Hy]. }
    subst y. f_equal. apply IH; [easy|easy|]. now apply Permutation_cons_inv in P.
  Qed.
  Lemma same_elements (l1 l2 : list (string * V)) : StronglySorted kle l1 -> StronglySorted kle l2 -> NoDup (map fst l1) -> NoDup (map fst l2) -> ((forall p, In p l1 <-> In p l2) <-> l1 = l2).
  Proof.
    intros S1 S2 D1 D2. split; [|intros ->; easy]. intros H. apply sorted_keys_unique; try easy. apply NoDup_Permutation; [now apply NoDup_map_inv in D1|now apply NoDup_map_inv in D2|easy].
  Qed.
End Keys.
Lemma pick_key kwargs p q : In q (pick kwargs p) -> fst q = fst p.
Proof. unfold pick. destruct (lookup (fst p) kwargs); [intros [<-|[]]; easy|]. destruct (mem (fst p) ignored); [easy|]. now intros [<-|[]]. Qed.
Lemma pick_single kwargs p : pick kwargs p = [] \/ exists w, pick kwargs p = [(fst p, w)].
Proof. unfold pick. destruct (lookup (fst p) kwargs); [right; eauto|]. destruct (mem (fst p) ignored); [now left|right; eauto]. Qed.
Lemma picks_sorted kwargs args : StronglySorted (fun a b => key_leb a b = true) args -> StronglySorted (fun a b => key_leb a b = true) (flat_map (pick kwargs) args).
Proof.
  induction 1 as [|p args S IH F]; cbn; [constructor|]. destruct (pick_single kwargs p) as [->|[w ->]]; [easy|]. cbn. constructor; [easy|].
  apply Forall_forall. intros q I. apply in_flat_map in I as (r & R & Q). apply pick_key in Q. rewrite Forall_forall in F. specialize (F r R). unfold key_leb in *. cbn. now rewrite Q.
Qed.
Lemma picks_nodup kwargs args : NoDup (map fst args) -> NoDup (map fst (flat_map (pick kwargs) args)).
Proof.
  induction args as [|p args IH]; cbn; [constructor|]. intros D. inversion D as [|? ? NI D']; subst. destruct (pick_single kwargs p) as [->|[w ->]]; [now apply IH|]. cbn. constructor; [|now apply IH].
  intros I. apply NI. apply in_map_iff in I as (q & E & I). apply in_flat_map in I as (r & R & Q). apply pick_key in Q. rewrite <- E, Q. now apply in_map.
Qed.

(** ** Identifiers *)
Definition fuel_enough (n : nat) (args : list (string * value)) : Prop := forall k v, In (k, v) args -> (vsize v <= n)%nat.
Definition kwargs_of (required : list string) (c : list (string * Z)) (m : string) : list (string * value) := [("define", frozen (define_value required c)); ("pmodel", VStr m)].
Definition picked args required c m := flat_map (pick (kwargs_of required c m)) (sort_with key_leb args).
Definition identifier_value (l : list (string * value)) : value := VTuple (map (fun p => VTuple [VStr (fst p); snd p]) l).
Lemma sort_keys_in {V} (l : list (string * V)) p : In p (sort_with key_leb l) <-> In p l.
Proof. split; apply Permutation_in; [symmetry|]; apply sort_with_perm'. Qed.
Lemma define_size required c : (vsize (define_value required c) <= 4 + 6 * length c)%nat.
Proof. destruct required; cbn [define_value vsize]; [lia|]. induction c as [|p c IH]; cbn [map fold_right vsize length]; lia. Qed.
Lemma result_identifier_picked n args required c m : fuel_enough n args -> (vsize (define_value required c) <= n)%nat ->
  result_identifier n args required c m = Ok (identifier_value (picked args required c m)).
Proof.
  intros F D. unfold result_identifier. rewrite to_tuple_frozen by easy. cbn [bind]. unfold identifier_from_arguments. rewrite identify_picks.
  - reflexivity.
  - intros k v I. apply (proj1 (sort_keys_in _ _)) in I. now apply (F k).
Qed.
Lemma identifier_value_inj l l' : identifier_value l = identifier_value l' <-> l = l'.
Proof.
  unfold identifier_value. split; [|now intros ->]. intros [= E]. revert l' E. induction l as [|[k v] l IH]; intros [|[k' v'] l'] E; cbn in E; try discriminate; [easy|].
  injection E as -> -> E. f_equal. now apply IH.
Qed.
Lemma define_frozen_inj required c c' : required <> [] -> frozen (define_value required c) = frozen (define_value required c') <-> c = c'.
Proof.
  intros NE. split; [|now intros ->]. destruct required; [easy|]. cbn [define_value frozen]. intros [= E]. revert c' E. induction c as [|[k v] c IH]; intros [|[k' v'] c'] E; cbn in E; try discriminate; [easy|].
  injection E as -> -> E. f_equal. now apply IH.
Qed.
Lemma picked_in args required c m k w : In (k, w) (picked args required c m) <->
  (exists v, In (k, v) args) /\ (k = "define" /\ w = frozen (define_value required c) \/ k = "pmodel" /\ w = VStr m) \/
  ~ irrelevant k /\ exists v, In (k, v) args /\ w = frozen (by_name v).
Proof.
  unfold picked. rewrite in_flat_map. split.
  - intros ([k' v] & I & P). apply (proj1 (sort_keys_in _ _)) in I. assert (E := pick_key _ _ _ P). cbn in E. subst k'. unfold pick, kwargs_of in P. cbn [fst snd lookup] in P.
    destruct (String.eqb_spec k "define") as [->|N1]; [destruct P as [[= <-]|[]]; left; split; eauto|]. destruct (String.eqb_spec k "pmodel") as [->|N2]; [destruct P as [[= <-]|[]]; left; split; eauto|].
    destruct (mem k ignored) eqn:M; [easy|]. destruct P as [[= <-]|[]]. right. split; [|eauto]. apply mem_nin in M. unfold irrelevant. cbn in *. intuition congruence.
  - intros [([v I] & C)|(NI & v & I & ->)]; exists (k, v); (split; [now apply sort_keys_in|]); unfold pick, kwargs_of; cbn [fst snd lookup].
    + destruct C as [[-> ->]|[-> ->]]; cbn; auto.
    + unfold irrelevant in NI. cbn in NI. destruct (String.eqb_spec k "define") as [->|N1]; [tauto|]. destruct (String.eqb_spec k "pmodel") as [->|N2]; [tauto|].
      assert (M : mem k ignored = false) by (apply mem_nin; cbn; intuition congruence). rewrite M. now left.
Qed.
Lemma picked_equal a b required c c' m m' : NoDup (map fst a) -> NoDup (map fst b) -> required <> [] ->
  (exists v, In ("define", v) a) -> (exists v, In ("pmodel", v) a) -> (exists v, In ("define", v) b) -> (exists v, In ("pmodel", v) b) ->
  picked a required c m = picked b required c' m' <-> c = c' /\ m = m' /\ same_arguments a b.
Proof.
  intros DA DB NE A1 A2 B1 B2.
  assert (SA : forall x d y, NoDup (map fst x) -> StronglySorted (fun p q => key_leb p q = true) (picked x required d y) /\ NoDup (map fst (picked x required d y))).
  { intros x d y D. split; [apply picks_sorted, sort_keys_sorted|]. apply picks_nodup. apply (Permutation_NoDup (Permutation_map fst (sort_with_perm' key_leb x)) D). }
  destruct (SA a c m DA) as [S1 N1]. destruct (SA b c' m' DB) as [S2 N2]. rewrite <- (same_elements _ _ S1 S2 N1 N2). split.
  - intros H. assert (IR1 : irrelevant "define") by (unfold irrelevant; cbn; tauto). assert (IR2 : irrelevant "pmodel") by (unfold irrelevant; cbn; tauto). split; [|split].
    + assert (I : In ("define", frozen (define_value required c)) (picked b required c' m')) by (apply H, picked_in; left; auto).
      apply picked_in in I as [(_ & [[_ E]|[E _]])|[N _]]; [now apply define_frozen_inj in E|discriminate|easy].
    + assert (I : In ("pmodel", VStr m) (picked b required c' m')) by (apply H, picked_in; left; auto).
      apply picked_in in I as [(_ & [[E _]|[_ E]])|[N _]]; [discriminate|congruence|easy].
    + split.
      * intros k v NI I. assert (J : In (k, frozen (by_name v)) (picked b required c' m')) by (apply H, picked_in; right; eauto).
        apply picked_in in J as [(_ & [[-> _]|[-> _]])|(_ & w & J & E)]; [easy|easy|]. exists w. split; [easy|]. now apply frozen_alike.
      * intros k w NI I. assert (J : In (k, frozen (by_name w)) (picked a required c m)) by (apply H, picked_in; right; eauto).
        apply picked_in in J as [(_ & [[-> _]|[-> _]])|(_ & v & J & E)]; [easy|easy|]. exists v. split; [easy|]. now apply frozen_alike.
  - intros (<- & <- & F & G) [k w]. rewrite !picked_in. split.
    + intros [(_ & C)|(NI & v & I & ->)]; [left; split; [destruct C as [[-> _]|[-> _]]; easy|easy]|]. right. split; [easy|]. destruct (F k v NI I) as (w & J & A). exists w. split; [easy|]. now apply frozen_alike.
    + intros [(_ & C)|(NI & v & I & ->)]; [left; split; [destruct C as [[-> _]|[-> _]]; easy|easy]|]. right. split; [easy|]. destruct (G k v NI I) as (w & J & A). exists w. split; [easy|]. symmetry. now apply frozen_alike.
Qed.
Lemma picked_hashable args required c m : required <> [] -> (forall k v, In (k, v) args -> no_dict v) -> hashable (identifier_value (picked args required c m)).
Proof.
  intros NE ND. constructor. apply Forall_forall. intros x I. apply in_map_iff in I as ([k w] & <- & I). constructor. constructor; [constructor|]. constructor; [|constructor]. cbn [snd].
  apply picked_in in I as [(_ & [[_ ->]|[_ ->]])|(_ & v & I & ->)].
  - apply frozen_hashable. destruct required; [easy|]. eapply nd_elements; [reflexivity|]. apply Forall_forall. intros x X. apply in_map_iff in X as (p & <- & _).
    eapply nd_elements; [reflexivity|]. repeat constructor; easy.
  - constructor.
  - apply ND in I. destruct v; try (now apply frozen_hashable). cbn. constructor.
Qed.
Lemma picked_unhashable args c m : (exists v, In ("define", v) args) -> hashableb (identifier_value (picked args [] c m)) = false.
Proof.
  intros D. destruct (hashableb _) eqn:H; [exfalso|easy]. apply hashableb_spec in H. inversion H as [| | | | |? F| |]; subst. rewrite Forall_forall in F.
  assert (I : In ("define", VDict []) (picked args [] c m)) by (apply picked_in; left; auto).
  specialize (F (VTuple [VStr "define"; VDict []]) (in_map (fun p => VTuple [VStr (fst p); snd p]) _ _ I)). inversion F as [| | | | |? F'| |]; subst. inversion F' as [|? ? _ F'']; subst. inversion F'' as [|? ? X _]; subst. inversion X.
Qed.
Lemma result_identifier_ne n args r r' rs rs' c m : result_identifier n args (r :: rs) c m = result_identifier n args (r' :: rs') c m.
Proof. reflexivity. Qed.
Lemma mapM_ext {A B} (f g : A -> res B) l : (forall x, f x = g x) -> mapM f l = mapM g l.
Proof. intros E. induction l as [|x l IH]; cbn; [easy|]. now rewrite E, IH. Qed.
Lemma run_identifiers_agree n args required required' options options' models : Permutation required required' -> Permutation options options' -> (forall vs, ~ In (".", vs) options) ->
  run_identifiers n args required options models = run_identifiers n args required' options' models.
Proof.
  intros P Q N. unfold run_identifiers. rewrite <- (combinations_order required' options options' Q). rewrite (combinations_set_order required required' options P N).
  destruct (combinations required' options); cbn [bind]; [|easy]. apply mapM_ext. intros x. destruct required, required'; try easy; [now apply Permutation_nil in P|symmetry in P; now apply Permutation_nil in P].
Qed.
Definition largest (args : list (string * value)) : nat := fold_right (fun p n => vsize (snd p) + n)%nat 0%nat args.
Lemma largest_enough args n : (largest args <= n)%nat -> fuel_enough n args.
Proof.
  revert n. induction args as [|p args IH]; intros n L k v I; [easy|]. cbn in L. destruct I as [->|I]; [cbn in L; lia|]. apply (IH (largest args) (Nat.le_refl _)) in I. fold (largest args) in L. lia.
Qed.

(** ** Storing *)
Lemma store_put_keys {R} eqb i (r : R) d j : (forall a b, eqb a b = true <-> a = b) -> In j (map fst (store_put eqb i r d)) <-> j = i \/ In j (map fst d).
Proof.
  intros E. induction d as [|[k v] d IH]; [cbn; intuition congruence|]. cbn [store_put]. destruct (eqb i k) eqn:Q; cbn [map fst In].
  - apply E in Q as ->. intuition congruence.
  - rewrite IH. tauto.
Qed.
Lemma store_put_spec {R} eqb i (r : R) d : (forall a b, eqb a b = true <-> a = b) -> NoDup (map fst d) ->
  NoDup (map fst (store_put eqb i r d)) /\ (forall x, In (i, x) (store_put eqb i r d) <-> x = r) /\ forall j x, j <> i -> In (j, x) (store_put eqb i r d) <-> In (j, x) d.
Proof.
  intros E N. induction d as [|[k v] d IH].
  - cbn. split; [repeat constructor; intros []|]. split; [intros x; split; [intros [X|[]]; congruence|intros ->; now left]|]. intros j x J. split; [intros [X|[]]; congruence|intros []].
  - cbn [map fst] in N. inversion N as [|? ? N1 N2]; subst. cbn [store_put]. destruct (eqb i k) eqn:Q.
    + apply E in Q as <-. cbn [map fst]. split; [exact N|]. split.
      * intros x. split; [|intros ->; now left]. intros [X|X]; [congruence|]. exfalso. apply N1. now apply (in_map fst) in X.
      * intros j x J. split; (intros [X|X]; [exfalso; congruence|now right]).
    + assert (NE : i <> k) by (intros ->; rewrite (proj2 (E k k) eq_refl) in Q; discriminate). destruct (IH N2) as (I1 & I2 & I3). cbn [map fst]. split.
      * constructor; [|exact I1]. rewrite store_put_keys by exact E. intros [X|X]; congruence.
      * split.
        -- intros x. split; [intros [X|X]; [congruence|now apply I2]|intros ->; right; now apply I2].
        -- intros j x J. split; (intros [X|X]; [now left|right; now apply (I3 j x J)]).
Qed.
