From Coq Require Import String Sorted Permutation.
From Verif Require Import PyBase PyStr ConstModel ConstSpec.
Local Open Scope Z_scope.

(** ** The dictionary *)

Lemma get_none cs n : get cs n = None <-> ~ In n (map fst cs).
Proof.
  induction cs as [|[m v] cs IH]; cbn; [tauto|]. destruct (String.eqb_spec m n) as [->|N].
  - split; [discriminate|]. intros H. exfalso. apply H. now left.
  - rewrite IH. intuition.
Qed.
Lemma get_in cs n v : NoDup (map fst cs) -> (get cs n = Some v <-> In (n, v) cs).
Proof.
  induction cs as [|[m w] cs IH]; cbn; intros H; [split; [discriminate|tauto]|].
  inversion H as [|? ? Hm Hcs]; subst. destruct (String.eqb_spec m n) as [->|N].
  - split; [intros [= ->]; now left|]. intros [[= ->]|Hin]; [reflexivity|].
    exfalso. apply Hm. change n with (fst (n, v)). now apply in_map.
  - rewrite (IH Hcs). split; [auto|]. intros [[= -> _]|]; [congruence|assumption].
Qed.

Lemma get_perm cs cs' n : NoDup (map fst cs) -> Permutation cs cs' -> get cs' n = get cs n.
Proof.
  intros H P. assert (H' : NoDup (map fst cs')) by (apply (Permutation_NoDup (Permutation_map fst P) H)).
  destruct (get cs n) as [v|] eqn:E.
  - apply (get_in cs' n v H'). apply (Permutation_in _ P). now apply get_in.
  - apply get_none. apply get_none in E. intros Hin. apply E.
    apply (Permutation_in n (Permutation_sym (Permutation_map fst P)) Hin).
Qed.

Lemma assign_names cs n v :
  map fst (assign cs n v) = map fst cs ++ (if get cs n then [] else [n]).
Proof.
  induction cs as [|[m w] cs IH]; cbn; [reflexivity|]. destruct (String.eqb m n); cbn.
  - now rewrite app_nil_r.
  - now rewrite IH.
Qed.
Lemma assign_get cs n v x : get (assign cs n v) x = if String.eqb n x then Some v else get cs x.
Proof.
  induction cs as [|[m w] cs IH]; cbn.
  - reflexivity.
  - destruct (String.eqb_spec m n) as [->|N]; cbn.
    + now destruct (String.eqb n x).
    + rewrite IH. destruct (String.eqb_spec m x) as [->|Nx]; [|reflexivity].
      destruct (String.eqb_spec n x) as [->|]; [congruence|reflexivity].
Qed.
Lemma NoDup_snoc {A} (l : list A) x : NoDup l -> ~ In x l -> NoDup (l ++ [x]).
Proof.
  intros H Hx. apply (Permutation_NoDup (l := x :: l)); [apply Permutation_cons_append|now constructor].
Qed.
Lemma assign_nodup cs n v : NoDup (map fst cs) -> NoDup (map fst (assign cs n v)).
Proof.
  intros H. rewrite assign_names. destruct (get cs n) eqn:E; [now rewrite app_nil_r|].
  apply NoDup_snoc; [assumption|]. now apply get_none.
Qed.

Lemma set_perm cs n v : Permutation (assign cs n v) (set_constant cs n v).
Proof. apply sort_with_perm'. Qed.
Lemma set_nodup cs n v : NoDup (map fst cs) -> NoDup (map fst (set_constant cs n v)).
Proof.
  intros H. apply (Permutation_NoDup (Permutation_map fst (set_perm cs n v))). now apply assign_nodup.
Qed.
Lemma set_get cs n v x : NoDup (map fst cs) ->
  get (set_constant cs n v) x = if String.eqb n x then Some v else get cs x.
Proof.
  intros H. rewrite (get_perm (assign cs n v)); [apply assign_get|now apply assign_nodup|apply set_perm].
Qed.
Definition sorted_names (cs : consts) : Prop :=
  StronglySorted (fun a b => String.leb a b = true) (map fst cs).
Lemma sorted_map cs : StronglySorted (fun a b => by_name a b = true) cs -> sorted_names cs.
Proof.
  unfold sorted_names. induction 1 as [|x l H IH Hx]; cbn; constructor; [assumption|].
  apply Forall_map. exact Hx.
Qed.
Lemma set_sorted cs n v : sorted_names (set_constant cs n v).
Proof.
  apply sorted_map, sort_with_sorted.
  - intros a b. apply String.leb_total.
  - intros a b c. apply str_leb_trans.
Qed.

(** ** Histories *)

Definition rexec (rh : list op) : state := fold_right (fun o st => step st o) init rh.
Lemma exec_rexec h : exec h = rexec (rev h).
Proof. unfold exec, rexec. symmetry. apply (fold_left_rev_right (fun o st => step st o)). Qed.

Lemma subs_kernels st k e : kernels (snd (subs_consts st k e)) = kernels st.
Proof. unfold subs_consts. now destruct (lookup (k, e) (lru st)). Qed.

Lemma kernels_inv rh : forall k,
  NoDup (map fst (kernels (rexec rh) k)) /\ sorted_names (kernels (rexec rh) k)
  /\ forall n, get (kernels (rexec rh) k) n = last_set rh k n.
Proof.
  induction rh as [|[k' n v|k'|k' e] rh IH]; intros k; cbn [rexec fold_right step kernels last_set].
  - repeat split; constructor.
  - fold (rexec rh). unfold upd. rewrite (Nat.eqb_sym k' k). destruct (Nat.eqb_spec k k') as [->|N]; cbn [andb]; [|apply IH].
    destruct (IH k') as (H1 & H2 & H3). split; [now apply set_nodup|]. split; [apply set_sorted|].
    intros x. rewrite set_get by assumption. now rewrite H3.
  - fold (rexec rh). unfold upd. rewrite (Nat.eqb_sym k' k). destruct (Nat.eqb_spec k k') as [->|N]; [|apply IH].
    repeat split; constructor.
  - fold (rexec rh). rewrite subs_kernels. apply IH.
Qed.

Lemma expr_eqb_spec a b : expr_eqb a b = true -> a = b.
Proof.
  revert b. induction a; intros []; cbn; try discriminate.
  - now intros ->%Z.eqb_eq.
  - now intros ->%String.eqb_eq.
  - intros [H1 H2]%andb_true_iff. f_equal; auto.
  - intros [H1 H2]%andb_true_iff. f_equal; auto.
Qed.
Lemma key_eqb_spec a b : key_eqb a b = true -> a = b.
Proof.
  destruct a, b. unfold key_eqb. cbn. intros [H1%Nat.eqb_eq H2%expr_eqb_spec]%andb_true_iff. now subst.
Qed.
Lemma lookup_in k c r : lookup k c = Some r -> In (k, r) c.
Proof.
  induction c as [|[k' r'] c IH]; cbn; [discriminate|]. destruct (key_eqb k k') eqn:E.
  - apply key_eqb_spec in E as ->. intros [= ->]. now left.
  - intros H. right. auto.
Qed.
Lemma firstn_in {A} n (l : list A) x : In x (firstn n l) -> In x l.
Proof.
  revert n. induction l as [|y l IH]; intros [|n]; cbn; try tauto. intros [->|H]; [now left|right; eauto].
Qed.

Lemma cache_inv rh : disciplined_rev rh -> forall k e r, In ((k, e), r) (lru (rexec rh)) ->
  r = subs (kernels (rexec rh) k) e /\ substituted rh k = true.
Proof.
  induction rh as [|[k' n v|k'|k' e'] rh IH]; intros D k e r Hin; cbn [rexec fold_right step] in *;
    try fold (rexec rh) in *.
  - destruct Hin.
  - cbn [lru kernels] in *. destruct D as [D1 D2]. destruct (IH D2 k e r Hin) as [H1 H2].
    cbn [substituted]. split; [|assumption]. unfold upd. destruct (Nat.eqb_spec k k'); [congruence|assumption].
  - destruct Hin.
  - cbn [disciplined_rev] in D. specialize (IH D). rewrite subs_kernels. cbn [substituted].
    unfold subs_consts in Hin. destruct (lookup (k', e') (lru (rexec rh))) as [r'|] eqn:E; cbn [snd lru] in Hin.
    + destruct Hin as [[= -> -> ->]|Hin].
      * apply lookup_in in E. destruct (IH _ _ _ E) as [H1 H2]. now rewrite H2, orb_true_r.
      * unfold evict in Hin. apply filter_In in Hin as [Hin _]. destruct (IH _ _ _ Hin) as [H1 H2].
        now rewrite H2, orb_true_r.
    + apply firstn_in in Hin. destruct Hin as [[= <- <- <-]|Hin].
      * now rewrite Nat.eqb_refl.
      * destruct (IH _ _ _ Hin) as [H1 H2]. now rewrite H2, orb_true_r.
Qed.

Lemma value_subs cs rho e :
  value rho (subs cs e) = value (fun s => match get cs s with Some v => v | None => rho s end) e.
Proof. induction e; cbn; try congruence. now destruct (get cs s). Qed.
Lemma value_ext rho rho' e : (forall s, rho s = rho' s) -> value rho e = value rho' e.
Proof. intros H. induction e; cbn; congruence. Qed.

Lemma subs_current h k e :
  disciplined h -> forall rho,
  value rho (fst (subs_consts (exec h) k e)) = value (with_current h k rho) e.
Proof.
  unfold disciplined, with_current, current. intros D rho. rewrite exec_rexec.
  assert (E : fst (subs_consts (rexec (rev h)) k e) = subs (kernels (rexec (rev h)) k) e).
  { unfold subs_consts. destruct (lookup (k, e) (lru (rexec (rev h)))) as [r|] eqn:E; [|reflexivity].
    apply lookup_in in E. cbn. now apply (cache_inv _ D k e r). }
  rewrite E, value_subs. apply value_ext. intros s.
  destruct (kernels_inv (rev h) k) as (_ & _ & ->). reflexivity.
Qed.

(** ** Arguments of the benchmark program *)

Lemma leb_names_unique (l1 l2 : list string) :
  StronglySorted (fun a b => String.leb a b = true) l1 -> StronglySorted (fun a b => String.leb a b = true) l2 ->
  Permutation l1 l2 -> l1 = l2.
Proof. apply sorted_unique. exact String.leb_antisym. Qed.

Lemma assoc_decl i cs name j v :
  NoDup (map fst cs) -> nth_error cs j = Some (name, v) ->
  assoc (declarations_from i cs) name = Some (i + Z.of_nat j).
Proof.
  revert i j. induction cs as [|[n w] cs IH]; intros i j H Hj; [destruct j; discriminate|].
  inversion H as [|? ? Hn Hcs]; subst. cbn [declarations_from assoc]. destruct j as [|j]; cbn in Hj.
  - injection Hj as -> ->. rewrite String.eqb_refl. f_equal. lia.
  - destruct (String.eqb_spec n name) as [->|N].
    + exfalso. apply Hn. change name with (fst (name, v)). apply in_map. now apply nth_error_In in Hj.
    + rewrite (IH (i + 1) j Hcs Hj). f_equal. lia.
Qed.

Lemma program_value_ok gen used name v :
  NoDup (map fst gen) -> NoDup (map fst used) -> map fst gen = map fst used ->
  get used name = Some v -> - 2^31 <= v < 2^31 ->
  program_value gen used name = Some v.
Proof.
  intros H1 H2 E G R. apply get_in in G; [|assumption]. apply In_nth_error in G as (j & Hj).
  assert (Hn : nth_error (map fst gen) j = Some name).
  { rewrite E, nth_error_map, Hj. reflexivity. }
  rewrite nth_error_map in Hn. destruct (nth_error gen j) as [[n w]|] eqn:Hg; [|discriminate].
  injection Hn as ->. unfold program_value, const_declarations. rewrite (assoc_decl 2 gen name j w H1 Hg).
  replace (Z.to_nat (2 + Z.of_nat j)) with (S (S j)) by lia. cbn [argv app nth_error].
  rewrite nth_error_map, Hj. cbn. f_equal. unfold atoi.
  rewrite Z.mod_small; [lia|]. change (2 ^ 32) with (2 * 2^31). lia.
Qed.

Lemma last_set_defines l name :
  last_set (rev (defines l)) 0 name <> None <-> In name (map fst l).
Proof.
  unfold defines. rewrite <- map_rev. rewrite <- (rev_involutive (map fst l)), <- map_rev, <- in_rev.
  generalize (rev l). clear l. induction l as [|[n v] l IH]; cbn; [tauto|].
  destruct (String.eqb_spec n name) as [->|N].
  - split; [now left|discriminate].
  - rewrite IH. intuition.
Qed.

Lemma program_constants l1 l2 name v :
  (forall n, In n (map fst l1) <-> In n (map fst l2)) ->
  current (defines l2) 0 name = Some v -> - 2^31 <= v < 2^31 ->
  program_value (kernels (exec (defines l1)) 0%nat) (kernels (exec (defines l2)) 0%nat) name = Some v.
Proof.
  intros Hn Hc R. rewrite !exec_rexec.
  destruct (kernels_inv (rev (defines l1)) 0) as (N1 & S1 & G1).
  destruct (kernels_inv (rev (defines l2)) 0) as (N2 & S2 & G2).
  apply program_value_ok; try assumption; [|now rewrite G2].
  apply leb_names_unique; [exact S1|exact S2|].
  apply NoDup_Permutation; [assumption|assumption|]. intros n.
  assert (A : forall cs l, (forall n, get cs n = last_set (rev (defines l)) 0 n) -> (In n (map fst cs) <-> In n (map fst l))).
  { intros cs l G. rewrite <- (last_set_defines l n), <- G. destruct (in_dec string_dec n (map fst cs)) as [I|I].
    - split; [|tauto]. intros _ E. now apply get_none in E.
    - split; [tauto|]. intros E. exfalso. apply E. now apply get_none. }
  rewrite (A _ l1 G1), (A _ l2 G2). apply Hn.
Qed.
