(** Proofs for C50-C52. *)
From Coq Require Import Lqa.
From Verif Require Import MachModel MachSpec PyNumFacts CtrProofs.
Local Open Scope Z_scope.
Local Open Scope list_scope.

(** ** Versions *)
Lemma number_value d : number d = value d.
Proof.
  unfold number. assert (K : forall d a, fold_left (fun a c => 10 * a + (Z.of_N c - 48)) d a = a * 10 ^ Z.of_nat (length d) + value d).
  { clear d. induction d as [|c d IH]; intros a; cbn [fold_left value length]; [cbn; lia|].
    rewrite IH, Nat2Z.inj_succ, Z.pow_succ_r by lia. ring. }
  rewrite K. lia.
Qed.
Lemma class_digit c : (48 <= c <= 57)%N -> class c = CDigit.
Proof. intros H. unfold class. now rewrite (proj2 (is_digit_spec c) H). Qed.
Lemma runs_digits d rest : digits d -> (rest = [] \/ exists t, rest = 46%N :: t) -> runs (d ++ rest) = (CDigit, d) :: runs rest.
Proof.
  intros [N F] R. induction d as [|c d IH]; [congruence|]. inversion F as [|? ? Hc Hd]; subst. cbn [app runs].
  destruct d as [|c' d].
  - cbn [app]. destruct R as [->|(t & ->)]; cbn [runs]; rewrite (class_digit c Hc); [reflexivity|].
    assert (class 46 = CDot) as E by reflexivity. destruct (runs t) as [|[k r] rs]; rewrite E; [reflexivity|].
    destruct (same_class CDot k) eqn:S; [destruct k; discriminate|reflexivity].
  - rewrite IH by (congruence || assumption). rewrite (class_digit c Hc). reflexivity.
Qed.
Lemma loose_dotted ds : ds <> [] -> Forall digits ds -> loose_version (dotted ds) = map Num (map value ds).
Proof.
  unfold dotted, loose_version. induction ds as [|d ds IH]; [congruence|]. intros _ F. inversion F as [|? ? Hd Hds]; subst.
  destruct ds as [|d' ds].
  - cbn [join map]. rewrite <- (app_nil_r d), runs_digits by auto. rewrite app_nil_r. cbn. now rewrite number_value.
  - rewrite join_cons by discriminate. rewrite runs_digits by eauto.
    assert (E : runs (46%N :: join 46 (d' :: ds)) = (CDot, [46%N]) :: runs (join 46 (d' :: ds))).
    { change (runs (46%N :: join 46 (d' :: ds))) with (match runs (join 46 (d' :: ds)) with
        | (k, r) :: rs => if same_class CDot k then (k, 46%N :: r) :: rs else (CDot, [46%N]) :: (k, r) :: rs | [] => [(CDot, [46%N])] end).
      destruct (runs (join 46 (d' :: ds))) as [|[k r] rs]; [reflexivity|]. now destruct k. }
    rewrite E. cbn [flat_map app map]. rewrite IH by (discriminate || assumption). now rewrite number_value.
Qed.
Lemma older_irrefl a : ~ older a a.
Proof. induction a as [|x a IH]; intros H; inversion H; subst; [lia|auto]. Qed.
Lemma nums_le a b : version_le (map Num a) (map Num b) = Ok true <-> older a b \/ a = b.
Proof.
  revert b. induction a as [|x a IH]; intros [|y b]; cbn.
  - tauto.
  - split; [intros _; left; constructor|reflexivity].
  - split; [discriminate|]. intros [H|H]; [inversion H|discriminate].
  - destruct (Z.eqb_spec x y) as [->|N].
    + rewrite IH. split; (intros [H|H]; [left|right]); try congruence; try (now constructor). inversion H; subst; [lia|assumption].
    + split.
      * intros H. injection H as H. apply Z.ltb_lt in H. left. now constructor.
      * intros [H|H]; [|congruence]. inversion H; subst; [|congruence]. f_equal. now apply Z.ltb_lt.
Qed.
Lemma nums_total a b : exists x, version_le (map Num a) (map Num b) = Ok x.
Proof.
  revert b. induction a as [|x a IH]; intros [|y b]; cbn; eauto. destruct (x =? y); eauto.
Qed.
Lemma min_le v : version_le min_supported (map Num v) = Ok true <-> older [0; 8; 3] v /\ ~ exists t, v = [0; 8; 3] ++ t.
Proof.
  assert (E : min_supported = map Num [0; 8; 3] ++ [Txt (codes "dev"); Num 0]) by reflexivity. rewrite E.
  assert (K : forall p v, version_le (map Num p ++ [Txt (codes "dev"); Num 0]) (map Num v) = Ok true <-> older p v /\ ~ exists t, v = p ++ t).
  { clear. induction p as [|x p IH]; intros [|y v]; cbn [map app].
    - cbn. split; [discriminate|]. intros [H _]; inversion H.
    - cbn. split; [discriminate|]. intros [_ H]. exfalso. apply H. eexists. reflexivity.
    - cbn. split; [discriminate|]. intros [H _]; inversion H.
    - cbn [version_le]. destruct (Z.eqb_spec x y) as [->|N].
      + rewrite IH. split.
        * intros [H1 H2]. split; [now constructor|]. intros (t & Ht). apply H2. exists t. congruence.
        * intros [H1 H2]. split; [inversion H1; subst; [lia|assumption]|]. intros (t & ->). apply H2. now exists t.
      + split.
        * intros H. injection H as H. apply Z.ltb_lt in H. split; [now constructor|]. intros (t & Ht). congruence.
        * intros [H _]. inversion H; subst; [|congruence]. f_equal. now apply Z.ltb_lt. }
  apply K.
Qed.
Lemma check_dotted ds : ds <> [] -> Forall digits ds -> let v := map value ds in
  check_version (Text (dotted ds)) = Ok tt <->
  (older [0; 8; 3] v /\ ~ exists t, v = [0; 8; 3] ++ t) /\ (older v [0; 8; 17] \/ v = [0; 8; 17]).
Proof.
  intros N F v. assert (T : dotted ds <> []).
  { destruct ds as [|d ds]; [congruence|]. inversion F as [|? ? [Nd _] _]; subst. unfold dotted. destruct ds as [|d' ds]; [exact Nd|].
    rewrite join_cons by discriminate. destruct d; [congruence|discriminate]. }
  unfold check_version. destruct (dotted ds) as [|c s] eqn:E; [congruence|]. rewrite <- E, loose_dotted by assumption. fold v.
  rewrite <- min_le, <- nums_le. change (map Num [0; 8; 17]) with this_version.
  destruct (version_le min_supported (map Num v)) as [[|]|]; cbn [bind].
  - destruct (version_le (map Num v) this_version) as [[|]|]; cbn [bind].
    + tauto.
    + destruct (mapM _ _); cbn [bind]; split; [discriminate|intros []; discriminate| discriminate|intros []; discriminate].
    + split; [discriminate|intros []; discriminate].
  - destruct (mapM _ _); cbn [bind]; split; [discriminate|intros []; discriminate| discriminate|intros []; discriminate].
  - split; [discriminate|intros []; discriminate].
Qed.

Lemma text_leb_refl a : text_leb a a = true.
Proof. induction a as [|x a IH]; cbn; [reflexivity|]. now rewrite N.eqb_refl. Qed.
Lemma text_leb_antisym a b : text_leb a b = true -> text_leb b a = true -> a = b.
Proof.
  revert b. induction a as [|x a IH]; intros [|y b]; cbn; try discriminate; [reflexivity|].
  rewrite (N.eqb_sym y x). destruct (N.eqb_spec x y) as [->|N]; [intros; f_equal; now apply IH|].
  rewrite !N.ltb_lt. lia.
Qed.
Lemma text_leb_trans a b c : text_leb a b = true -> text_leb b c = true -> text_leb a c = true.
Proof.
  revert b c. induction a as [|x a IH]; intros [|y b] [|z c]; cbn; try discriminate; try reflexivity.
  destruct (N.eqb_spec x y) as [->|N1]; destruct (N.eqb_spec y z) as [->|N2]; try rewrite ?N.eqb_refl; auto.
  - now apply IH.
  - intros H _. destruct (N.eqb_spec x z) as [->|]; [congruence|assumption].
  - rewrite !N.ltb_lt. intros H1 H2. destruct (N.eqb_spec x z) as [->|]; [lia|]. apply N.ltb_lt. lia.
Qed.
Lemma text_leb_total a b : text_leb a b = true \/ text_leb b a = true.
Proof.
  revert b. induction a as [|x a IH]; intros [|y b]; cbn; auto. rewrite (N.eqb_sym y x).
  destruct (N.eqb_spec x y) as [->|N]; [apply IH|]. rewrite !N.ltb_lt. lia.
Qed.
Lemma text_eqb_sym a b : text_eqb a b = text_eqb b a.
Proof. destruct (text_eqb_spec a b) as [E|N], (text_eqb_spec b a) as [E2|N2]; congruence. Qed.
Lemma version_refl a : version_le a a = Ok true.
Proof.
  induction a as [|[x|x] a IH]; cbn; [reflexivity| |]; [now rewrite Z.eqb_refl|]. destruct (text_eqb_spec x x); congruence.
Qed.
Lemma version_antisym a b : version_le a b = Ok true -> version_le b a = Ok true -> a = b.
Proof.
  revert b. induction a as [|[x|x] a IH]; intros [|[y|y] b]; cbn; try discriminate; [reflexivity| |].
  - rewrite (Z.eqb_sym y x). destruct (Z.eqb_spec x y) as [->|N]; [intros; f_equal; now apply IH|].
    intros H1 H2. injection H1 as H1. injection H2 as H2. apply Z.ltb_lt in H1, H2. lia.
  - rewrite (text_eqb_sym y x). destruct (text_eqb_spec x y) as [->|N].
    + intros; f_equal; now apply IH.
    + intros H1 H2. injection H1 as H1. injection H2 as H2. destruct N. now apply text_leb_antisym.
Qed.
Lemma version_trans a b c : version_le a b = Ok true -> version_le b c = Ok true -> version_le a c = Ok true.
Proof.
  revert b c. induction a as [|[x|x] a IH]; intros [|[y|y] b] [|[z|z] c]; cbn; try discriminate; try reflexivity.
  - destruct (Z.eqb_spec x y) as [->|N1].
    + destruct (Z.eqb_spec y z) as [->|]; [apply IH|auto].
    + intros H1. injection H1 as H1. apply Z.ltb_lt in H1. destruct (Z.eqb_spec y z) as [->|N2].
      * intros _. destruct (Z.eqb_spec x z); [lia|]. f_equal. now apply Z.ltb_lt.
      * intros H2. injection H2 as H2. apply Z.ltb_lt in H2. destruct (Z.eqb_spec x z); [lia|]. f_equal. apply Z.ltb_lt. lia.
  - destruct (text_eqb_spec x y) as [->|N1].
    + destruct (text_eqb_spec y z) as [->|]; [apply IH|auto].
    + intros H1. injection H1 as H1. destruct (text_eqb_spec y z) as [->|N2].
      * intros _. destruct (text_eqb_spec x z); [congruence|]. now f_equal.
      * intros H2. injection H2 as H2. destruct (text_eqb_spec x z) as [->|]; [|f_equal; now apply (text_leb_trans x y z)].
        exfalso. apply N1. now apply text_leb_antisym.
Qed.
Lemma version_total a b x : version_le a b = Ok x -> exists y, version_le b a = Ok y /\ (x = true \/ y = true).
Proof.
  revert b x. induction a as [|[m|m] a IH]; intros [|[n|n] b] x; cbn; try discriminate; try (intros [= <-]; eauto).
  - rewrite (Z.eqb_sym n m). destruct (Z.eqb_spec m n) as [->|N]; [apply IH|]. intros [= <-].
    eexists. split; [reflexivity|]. rewrite !Z.ltb_lt. lia.
  - rewrite (text_eqb_sym n m). destruct (text_eqb_spec m n) as [->|N].
    + apply IH.
    + intros [= <-]. eexists. split; [reflexivity|]. apply text_leb_total.
Qed.

(** ** Compiler *)
Lemma or_else_empty a b : empty a -> or_else a b = b.
Proof. now intros [->| ->]. Qed.
Lemma or_else_set c b : c <> [] -> or_else (Some c) b = Some c.
Proof. now destruct c. Qed.
Lemma find_split {A} (f : A -> bool) l x : find f l = Some x -> exists l1 l2, l = l1 ++ x :: l2 /\ f x = true /\ forall y, In y l1 -> f y = false.
Proof.
  induction l as [|y l IH]; cbn; [discriminate|]. destruct (f y) eqn:E.
  - intros [= <-]. exists [], l. split; [reflexivity|]. split; [assumption|intros _ []].
  - intros H. destruct (IH H) as (l1 & l2 & -> & H1 & H2). exists (y :: l1), l2. split; [reflexivity|]. split; [assumption|].
    intros z [<-|Hz]; auto.
Qed.
Section Compiler.
  Variables (installed : text -> bool) (machine : list (text * option text)).
  Lemma explicit_compiler args c flags c' fl : c <> [] -> get_compiler installed machine args (Some c) flags = Ok (c', fl) -> c' = c.
  Proof.
    intros N. unfold get_compiler. destruct args as [[ac af]|]; rewrite ?or_else_set by assumption; cbn [bind];
      destruct (match _ with Some f => Ok f | None => _ end); cbn [bind]; congruence.
  Qed.
  Lemma command_line_compiler c f req flags c' fl : empty req ->
    get_compiler installed machine (Some (Some c, f)) req flags = Ok (c', fl) -> c' = c.
  Proof.
    intros N. unfold get_compiler. rewrite (or_else_empty req) by assumption. cbn [bind].
    destruct (match _ with Some f => Ok f | None => _ end); cbn [bind]; congruence.
  Qed.
  Lemma first_installed args flags c fl : (args = None \/ exists f, args = Some (None, f)) ->
    get_compiler installed machine args None flags = Ok (c, fl) ->
    exists m1 x m2, machine = m1 ++ (c, x) :: m2 /\ installed c = true /\ forall d y, In (d, y) m1 -> installed d = false.
  Proof.
    intros A. unfold get_compiler.
    destruct A as [->|[f ->]]; cbn [or_else];
    (destruct (find _ machine) as [[d v]|] eqn:F; cbn [bind fst]; [|discriminate];
     destruct (match _ with Some f => Ok f | None => _ end); cbn [bind]; [|discriminate]; intros H;
     assert (d = c) as -> by congruence; apply find_split in F as (m1 & m2 & -> & H1 & H2); exists m1, v, m2;
     (split; [reflexivity|]); (split; [exact H1|]); intros z y Hz; exact (H2 _ Hz)).
  Qed.
  Lemma none_installed args flags : (args = None \/ exists f, args = Some (None, f)) -> (forall c x, In (c, x) machine -> installed c = false) ->
    get_compiler installed machine args None flags = Err RuntimeError.
  Proof.
    intros A H. unfold get_compiler.
    assert (F : find (fun x => installed (fst x)) machine = None).
    { destruct (find _ machine) as [[d v]|] eqn:F; [|reflexivity]. apply find_some in F as [F1 F2]. cbn in F2. now rewrite (H d v F1) in F2. }
    destruct A as [->|[f ->]]; cbn [or_else]; rewrite F; reflexivity.
  Qed.
  Lemma flags_chosen args req flags c fl : get_compiler installed machine args req flags = Ok (c, fl) ->
    exists f, fl = split 32 f
    /\ (forall g, g <> [] -> flags = Some g -> f = g)
    /\ (forall cc g, args = Some (cc, Some g) -> empty flags -> f = g)
    /\ (flags = None -> (args = None \/ exists cc, args = Some (cc, None)) ->
        lookup c machine = Some (Some f) \/ lookup c machine = None /\ f = []).
  Proof.
    unfold get_compiler.
    destruct (match args with Some (c0, f) => _ | None => (req, flags) end) as [oc of] eqn:A.
    destruct (match oc with Some c0 => Ok c0 | None => _ end) as [c0|]; cbn [bind]; [|discriminate].
    intros H. destruct (match of with Some f => Ok f | None => _ end) as [f|] eqn:F; cbn [bind] in H; [|discriminate].
    assert (c0 = c) as -> by congruence. assert (fl = split 32 f) as -> by congruence. clear H.
    exists f. split; [reflexivity|]. split; [|split].
    - intros g Ng ->. assert (of = Some g) as ->.
      { destruct args as [[ac af]|]; [rewrite or_else_set in A by assumption|]; congruence. }
      congruence.
    - intros cc g -> E. rewrite (or_else_empty flags) in A by assumption. assert (of = Some g) as -> by congruence. congruence.
    - intros -> E. assert (of = None) as -> by (destruct E as [->|[cc ->]]; cbn in A; congruence).
      destruct (lookup c machine) as [[g|]|]; [left|discriminate|right]; [congruence|split; [reflexivity|congruence]].
  Qed.
End Compiler.

(** ** Benchmarks *)
Lemma list_eqb_refl a : list_eqb a a = true.
Proof. induction a as [|x a IH]; cbn; [reflexivity|]. rewrite IH, andb_true_r. apply Qeq_bool_iff. reflexivity. Qed.
Lemma lookup_in {A} (l : list (text * A)) k v : NoDup (map fst l) -> In (k, v) l -> lookup k l = Some v.
Proof.
  induction l as [|[x w] l IH]; cbn; [intros _ []|]. intros H. inversion H as [|? ? N ND]; subst. intros [[= -> ->]|I].
  - destruct (text_eqb_spec k k); congruence.
  - destruct (text_eqb_spec k x) as [->|]; [|now apply IH]. exfalso. apply N. now apply (in_map fst) in I.
Qed.
Lemma never_needed sizes stored items : NoDup (map fst sizes) -> incl items sizes ->
  (forall k v, In (k, v) items -> exists w, lookup k stored = Some w) -> needs_update sizes stored items = false.
Proof.
  intros ND. induction items as [|[k v] items IH]; cbn; intros I S; [reflexivity|].
  destruct (S k v (or_introl eq_refl)) as (w & ->). rewrite (lookup_in sizes k v ND) by (apply I; now left).
  rewrite list_eqb_refl. apply IH; [intros x Hx; apply I; now right|]. intros k' v' H. apply (S k' v'). now right.
Qed.
Lemma stale_kept sizes e r s : NoDup (map fst sizes) -> (forall k v, In (k, v) sizes -> exists w, lookup k (e_sizes e) = Some w) ->
  e_results e = Some r -> e_stats e = Some s -> update_entry sizes (Some e) = e.
Proof.
  intros ND S R T. unfold update_entry. rewrite never_needed; [|assumption|apply incl_refl|assumption]. now rewrite R, T.
Qed.
Lemma needed_missing sizes stored items : NoDup (map fst sizes) -> incl items sizes ->
  (exists k v, In (k, v) items /\ lookup k stored = None) -> needs_update sizes stored items = true.
Proof.
  intros ND. induction items as [|[k v] items IH]; cbn; intros I (k' & v' & H & L); [destruct H|].
  destruct (lookup k stored) as [w|] eqn:E; [|reflexivity]. destruct H as [H|H]; [congruence|].
  rewrite (lookup_in sizes k v ND) by (apply I; now left). rewrite list_eqb_refl.
  apply IH; [intros x Hx; apply I; now right|]. eauto.
Qed.
Lemma incomplete_replaced sizes e : NoDup (map fst sizes) ->
  (exists k v, In (k, v) sizes /\ lookup k (e_sizes e) = None) \/ e_results e = None \/ e_stats e = None ->
  update_entry sizes (Some e) = mkEntry sizes (Some []) (Some []).
Proof.
  intros ND H. unfold update_entry. destruct (needs_update sizes (e_sizes e) sizes) eqn:E; [reflexivity|].
  destruct H as [H|H]; [rewrite needed_missing in E; [discriminate|assumption|apply incl_refl|assumption]|].
  destruct H as [->| ->]; [reflexivity|]. now destruct (e_results e).
Qed.

Lemma fill_skip measure todo : forall n i budget r s, (i + todo <= length r)%nat -> fill measure n i todo budget r s = (r, s, n, budget, true).
Proof.
  induction todo as [|todo IH]; cbn [fill]; intros n i budget r s H; [reflexivity|]. destruct (Nat.ltb_spec i (length r)); [|lia]. apply IH. lia.
Qed.
Definition new_stats (measure : nat -> list Q) (n k : nat) : list (list Q) := map measure (seq n k).
Lemma fill_new measure todo : forall n budget r s,
  fill measure n (length r) todo budget r s =
    (let k := Nat.min todo budget in
     (r ++ map max_stats (new_stats measure n k), s ++ new_stats measure n k, (n + k)%nat, (budget - k)%nat, (todo <=? budget)%nat)).
Proof.
  induction todo as [|todo IH]; cbn [fill]; intros n budget r s.
  - cbn. now rewrite !app_nil_r, Nat.add_0_r, Nat.sub_0_r.
  - rewrite Nat.ltb_irrefl. destruct budget as [|budget].
    + cbn. now rewrite !app_nil_r, Nat.add_0_r.
    + replace (S (length r)) with (length (r ++ [max_stats (measure n)])) by (rewrite app_length; cbn; lia).
      rewrite IH. cbn zeta. cbn [Nat.min]. unfold new_stats. cbn [seq map]. rewrite <- !app_assoc. cbn [app].
      replace (S n + Nat.min todo budget)%nat with (n + S (Nat.min todo budget))%nat by lia. reflexivity.
Qed.
Lemma start_cases c : (complete c /\ exists r s, start c = (r, s) /\ c_results c = Some r /\ c_stats c = Some s /\ length r = c_sizes c /\ length s = c_sizes c)
  \/ (~ complete c /\ start c = ([], [])).
Proof.
  unfold start, complete. destruct (c_results c) as [r|] eqn:R, (c_stats c) as [s|] eqn:S;
    try (right; split; [intros (r' & s' & H & H' & _); congruence|reflexivity]).
  destruct (Nat.eqb_spec (length r) (length s)) as [E1|N1]; cbn [andb].
  - destruct (Nat.eqb_spec (length s) (c_sizes c)) as [E2|N2].
    + left. split; [exists r, s|exists r, s]; repeat split; congruence.
    + right. split; [|reflexivity]. intros (r' & s' & H & H' & H1 & H2). congruence.
  - right. split; [|reflexivity]. intros (r' & s' & H & H' & H1 & H2). congruence.
Qed.
Lemma maximum_spec l : forall m, largest (maximum l m) (m :: l).
Proof.
  induction l as [|x l IH]; cbn [maximum]; intros m.
  - split; [now left|]. intros y [<-|[]]. lra.
  - destruct (IH (if Qltb m x then x else m)) as [H1 H2]. pose proof (Qltb_spec m x) as B. split.
    + destruct H1 as [H1|H1]; [|right; now right]. rewrite <- H1. destruct (Qltb m x); [right; now left|now left].
    + assert (Hm : (m <= maximum l (if Qltb m x then x else m))%Q /\ (x <= maximum l (if Qltb m x then x else m))%Q).
      { pose proof (H2 _ (or_introl eq_refl)) as H. destruct B; lra. }
      intros y [<-|[<-|Hy]]; [apply Hm..|]. apply H2. now right.
Qed.
Lemma max_stats_spec l : l <> [] -> largest (max_stats l) l.
Proof. destruct l as [|x l]; [congruence|]. intros _. apply maximum_spec. Qed.
Lemma complete_same_sizes c r s : length r = c_sizes c -> length s = c_sizes c -> complete (mkCell (c_sizes c) (Some r) (Some s)).
Proof. intros. exists r, s. auto. Qed.
Lemma new_results measure n k : (forall i, measure i <> []) -> Forall2 largest (map max_stats (new_stats measure n k)) (new_stats measure n k).
Proof.
  intros H. unfold new_stats. generalize (seq n k). intros l. induction l as [|i l IH]; cbn; constructor; [|assumption]. now apply max_stats_spec.
Qed.
Lemma run_finished measure cells : (forall i, measure i <> []) -> forall n budget out, run_cells measure n budget cells = (out, true) ->
  Forall2 (fun c c' => c_sizes c' = c_sizes c /\ complete c' /\ (complete c /\ c' = c \/ ~ complete c /\ fresh_results c')) cells out.
Proof.
  intros M. induction cells as [|c cells IH]; cbn [run_cells]; intros n budget out; [intros [= <-]; constructor|].
  destruct (start_cases c) as [(C & r & s & -> & H1 & H2 & H3 & H4)|(C & ->)].
  - rewrite fill_skip by lia. destruct (run_cells _ _ _ cells) as [rest b] eqn:R. intros H. injection H as <- ->.
    constructor; [|now apply (IH n budget)].
    assert (E : mkCell (c_sizes c) (Some r) (Some s) = c) by (destruct c; cbn in *; congruence).
    rewrite E. auto.
  - change (fill measure n 0) with (fill measure n (length (@nil Q))). rewrite fill_new. cbn zeta.
    destruct (Nat.leb_spec (c_sizes c) budget) as [L|L]; [|discriminate].
    destruct (run_cells _ _ _ cells) as [rest b] eqn:R. intros H. injection H as <- ->. constructor; [|now apply IH in R].
    assert (Nat.min (c_sizes c) budget = c_sizes c) as E by lia.
    split; [reflexivity|]. split; [apply complete_same_sizes; unfold new_stats; rewrite E; cbn [app]; now rewrite ?map_length, ?seq_length|].
    right. split; [assumption|]. eexists _, _. split; [reflexivity|]. split; [reflexivity|]. cbn [app]. now apply new_results.
Qed.
Lemma run_enough measure cells : forall n budget, (all_sizes cells <= budget)%nat -> exists out, run_cells measure n budget cells = (out, true).
Proof.
  induction cells as [|c cells IH]; cbn [run_cells]; intros n budget L; [eauto|]. unfold all_sizes in L. cbn [map fold_right] in L. fold (all_sizes cells) in L.
  destruct (start_cases c) as [(C & r & s & -> & H1 & H2 & H3 & H4)|(C & ->)].
  - rewrite fill_skip by lia. destruct (IH n budget) as [out ->]; [lia|]. eauto.
  - change (fill measure n 0) with (fill measure n (length (@nil Q))). rewrite fill_new. cbn zeta.
    destruct (Nat.leb_spec (c_sizes c) budget); [|lia].
    match goal with |- context [run_cells measure ?n' ?b' cells] => destruct (IH n' b') as [out ->]; [lia|] end. eauto.
Qed.
(** Complete measurements are never touched, and the number of sizes stays. *)
Lemma run_keeps measure cells : forall n budget,
  Forall2 (fun c c' => c_sizes c' = c_sizes c /\ (complete c -> c' = c)) cells (fst (run_cells measure n budget cells)).
Proof.
  assert (R : forall l, Forall2 (fun c c' => c_sizes c' = c_sizes c /\ (complete c -> c' = c)) l l).
  { induction l; constructor; auto. }
  induction cells as [|c cells IH]; cbn [run_cells]; intros n budget; [constructor|].
  destruct (start_cases c) as [(C & r & s & -> & H1 & H2 & H3 & H4)|(C & ->)].
  - rewrite fill_skip by lia. specialize (IH n budget). destruct (run_cells _ _ _ cells) as [rest b]. constructor; [|assumption].
    split; [reflexivity|]. intros _. destruct c; cbn in *; congruence.
  - change (fill measure n 0) with (fill measure n (length (@nil Q))). rewrite fill_new. cbn zeta.
    destruct (Nat.leb_spec (c_sizes c) budget).
    + match goal with |- context [run_cells measure ?n' ?b' cells] => specialize (IH n' b'); destruct (run_cells measure n' b' cells) as [rest b] end.
      constructor; [|assumption]. split; [reflexivity|]. intros X. now destruct C.
    + cbn [fst]. constructor; [|apply R]. match goal with |- context [if ?b then _ else _] => destruct b end; split; auto. intros X. now destruct C.
Qed.
Lemma keeps_sizes a b : Forall2 (fun c c' => c_sizes c' = c_sizes c /\ (complete c -> c' = c)) a b -> all_sizes b = all_sizes a.
Proof. unfold all_sizes. induction 1 as [|c c' a b [H _] _ IH]; [reflexivity|]. cbn. now rewrite IH, H. Qed.
Lemma history_keeps cells l : history cells l -> Forall2 (fun c c' => c_sizes c' = c_sizes c /\ (complete c -> c' = c)) cells l.
Proof.
  induction 1 as [|l measure budget H IH]; [induction cells; constructor; auto|].
  pose proof (run_keeps measure l O budget) as R. revert R. generalize (fst (run_cells measure 0 budget l)). clear H.
  induction IH as [|c c' a b [H1 H2] F IH']; intros out R; inversion R as [|? c2 ? out' [K1 K2] R']; subst; constructor; [|now apply IH'].
  split; [congruence|]. intros C. rewrite <- (H2 C). apply K2. now rewrite (H2 C).
Qed.
Lemma resume cells l measure budget : history cells l -> (forall i, measure i <> []) -> (all_sizes cells <= budget)%nat ->
  exists out, run_cells measure O budget l = (out, true)
    /\ Forall2 (fun c c' => c_sizes c' = c_sizes c /\ complete c' /\ (complete c -> c' = c)) cells out.
Proof.
  intros H M L. pose proof (history_keeps _ _ H) as K. pose proof (keeps_sizes _ _ K) as E.
  destruct (run_enough measure l O budget) as [out R]; [lia|]. exists out. split; [assumption|].
  apply run_finished in R; [|assumption]. clear - K R. revert out R. induction K as [|c c' a b [H1 H2] F IH]; intros out R;
    inversion R as [|? c2 ? out' [K1 [K2 K3]] R']; subst; constructor; [|now apply IH].
  split; [congruence|]. split; [assumption|]. intros C. pose proof (H2 C) as ->. destruct K3 as [[_ K3]|[K3 _]]; [assumption|now destruct K3].
Qed.

(** ** C50: comparison of sizes *)
Lemma nth_combine {A B} (a : list A) : forall (b : list B) p, In p (combine a b) <-> exists n, nth_error a n = Some (fst p) /\ nth_error b n = Some (snd p).
Proof.
  induction a as [|x a IH]; intros [|y b] p; cbn; split; try tauto.
  - intros ([|n] & A1 & B1); discriminate.
  - intros ([|n] & A1 & B1); discriminate.
  - intros ([|n] & A1 & B1); discriminate.
  - intros [<-|I]; [exists 0%nat; now split|]. apply IH in I. destruct I as (n & I). now exists (S n).
  - intros ([|n] & A1 & B1); cbn in *; [left; destruct p; cbn in *; congruence|right]. apply IH. now exists n.
Qed.
Lemma differs_spec a b : (forall x, In x a -> 0 < x)%Q -> (forall y, In y b -> 0 < y)%Q ->
  differs a b = true <-> exists n x y, nth_error a n = Some x /\ nth_error b n = Some y /\ (x + x / 100 <= y \/ y + y / 100 <= x)%Q.
Proof.
  intros P R. unfold differs. rewrite existsb_exists.
  assert (K : forall x y, (0 < x)%Q -> (0 < y)%Q -> Qle_bool (1 # 100) (Qabs (x - y) / (if Qle_bool x y then x else y)) = true <-> (x + x / 100 <= y \/ y + y / 100 <= x)%Q).
  { intros x y X Y. rewrite Qle_bool_iff. assert (E1 : (x / 100 == x * (1#100))%Q) by (unfold Qdiv; reflexivity). assert (E2 : (y / 100 == y * (1#100))%Q) by (unfold Qdiv; reflexivity). rewrite E1, E2.
    destruct (Qle_bool x y) eqn:E.
    - apply Qle_bool_iff in E. rewrite Qabs_neg by lra. split; intros H.
      + left. assert (D : ((1 # 100) * x <= - (x - y))%Q) by (apply (Qmult_le_r _ _ (/ x)); [now apply Qinv_lt_0_compat|]; rewrite <- Qmult_assoc, Qmult_inv_r by lra; rewrite Qmult_1_r; exact H). lra.
      + apply Qle_shift_div_l; [exact X|]. lra.
    - assert (L : (y < x)%Q). { apply Qnot_le_lt. intros C. apply Qle_bool_iff in C. congruence. } rewrite Qabs_pos by lra. split; intros H.
      + right. assert (D : ((1 # 100) * y <= x - y)%Q) by (apply (Qmult_le_r _ _ (/ y)); [now apply Qinv_lt_0_compat|]; rewrite <- Qmult_assoc, Qmult_inv_r by lra; rewrite Qmult_1_r; exact H). lra.
      + apply Qle_shift_div_l; [exact Y|]. lra. }
  split.
  - intros ([x y] & I & H). cbn [fst snd] in H. apply nth_combine in I. destruct I as (n & A & B). cbn [fst snd] in A, B. exists n, x, y. repeat split; [exact A|exact B|].
    apply K; [apply P; eapply nth_error_In; eassumption|apply R; eapply nth_error_In; eassumption|exact H].
  - intros (n & x & y & A & B & H). exists (x, y). split; [apply nth_combine; now exists n|]. cbn [fst snd].
    apply K; [apply P; eapply nth_error_In; eassumption|apply R; eapply nth_error_In; eassumption|exact H].
Qed.
