From Coq Require Import String Permutation Sorted Lia.
From Verif Require Import PyBase PyBaseFacts PyStr LoopModel AstModel AstSpec LCModel LCSpec LCProofs FrontModel FrontSpec FrontPoly FrontProofs.
Local Open Scope string_scope.
Local Open Scope list_scope.
Local Open Scope Z_scope.

Definition rep (o : list poly) (idx : list sym) : Prop := Forall2 (fun p s => same p (expand s) = true) o idx.
(** The same variables *)
Definition alike (a b : list sym) : Prop := Forall2 (fun s t => exists v c c', shape s = Some (v, c) /\ shape t = Some (v, c')) a b.
Lemma eval_atom rho x : eval rho (atom x) = match fst x with Some v => rho v | None => 0 end + snd x.
Proof. unfold atom. destruct (fst x) as [v|]; rewrite !eval_cons; unfold monomial; cbn [fst snd map]; unfold zprod; cbn [fold_right]; change (eval rho []) with 0; ring. Qed.
Lemma rep_eval rho p s x : same p (expand s) = true -> shape s = Some x -> eval rho p = match fst x with Some v => rho v | None => 0 end + snd x.
Proof. intros S H. rewrite (eval_same _ _ _ S), (eval_same _ _ _ (shape_atom _ _ H)). apply eval_atom. Qed.
Lemma same_alike x y s t v c c' : same x (expand s) = true -> same y (expand t) = true -> shape s = Some (v, c) -> shape t = Some (v, c') -> (same x y = true <-> c = c').
Proof.
  intros X Y S T. split.
  - intros E. apply (eval_same (fun _ => 1)) in E. rewrite (rep_eval _ _ _ _ X S), (rep_eval _ _ _ _ Y T) in E. cbn in E. lia.
  - intros ->. apply (same_trans _ _ _ X). apply (same_trans _ (atom (v, c'))); [now apply shape_atom|]. apply same_sym. apply (same_trans _ _ _ Y). now apply shape_atom.
Qed.
Section Order.
  Variable less : poly -> poly -> option bool.
  Lemma tuple_less_offsets a b ia ib r : less_sound less -> rep a ia -> rep b ib -> alike ia ib -> tuple_less less a b = Ok r ->
    if r then not_below (offsets ib) (offsets ia) else not_below (offsets ia) (offsets ib).
  Proof.
    intros LS A. revert b ib r. induction A as [|x s a ia X A IH]; intros b ib r B L H.
    - inversion L; subst. inversion B; subst. cbn in H. injection H as <-. exact I.
    - inversion L as [|? t ? ib' (v & c & c' & S & T) L']; subst. inversion B as [|y ? b' ? Y B']; subst. cbn [tuple_less] in H. unfold offsets. cbn [map]. rewrite S, T. fold (offsets ia). fold (offsets ib').
      pose proof (same_alike _ _ _ _ _ _ _ X Y S T) as SA. destruct (same x y) eqn:E.
      + assert (c = c') by now apply SA. subst c'. specialize (IH _ _ _ B' L' H). destruct r; cbn; auto.
      + destruct (less x y) as [b|] eqn:Lx; [|discriminate]. injection H as ->. pose proof (LS _ _ _ Lx (fun _ => 1) ltac:(lia)) as D. rewrite (rep_eval _ _ _ _ X S), (rep_eval _ _ _ _ Y T) in D. cbn [fst snd] in D.
        assert (N : c <> c') by (intros Q; apply SA in Q; congruence). destruct r; cbn; left.
        * assert (F : forall k, k + c < k + c' -> c < c') by lia. apply (F (match v with Some _ => 1 | None => 0 end)). now apply D.
        * assert (F : forall k, ~ k + c < k + c' -> c' < c) by lia. apply (F (match v with Some _ => 1 | None => 0 end)). intros Q. apply D in Q. discriminate.
  Qed.
  Lemma tuple_less_total a b ia ib : less_numbers less -> rep a ia -> rep b ib -> alike ia ib -> exists r, tuple_less less a b = Ok r.
  Proof.
    intros LN A. revert b ib. induction A as [|x s a ia X A IH]; intros b ib B L.
    - inversion L; subst. inversion B; subst. now exists false.
    - inversion L as [|? t ? ib' (v & c & c' & S & T) L']; subst. inversion B as [|y ? b' ? Y B']; subst. cbn [tuple_less]. destruct (same x y); [now apply (IH _ ib')|].
      destruct (LN x y (c - c')) as (r & E); [|rewrite E; now exists r]. apply same_const. intros g. rewrite weigh_psub, (weigh_same g _ _ X), (weigh_same g _ _ Y), (weigh_same g _ _ (shape_atom _ _ S)), (weigh_same g _ _ (shape_atom _ _ T)).
      unfold atom. cbn [fst snd]. destruct v; rewrite !weigh_cons; cbn [fst snd]; change (sort_names []) with (@nil string); ring.
  Qed.
  Definition falls (a b : list sym) : Prop := not_below (offsets a) (offsets b).
  Lemma insert_sorted x ix l il r : less_sound less -> rep x ix -> Forall2 rep l il -> (forall i, In i il -> alike ix i) -> Sorted falls il -> insert_access less x l = Ok r ->
    exists ir, Forall2 rep r ir /\ Permutation (ix :: il) ir /\ Sorted falls ir /\ (forall i, HdRel falls i il -> falls i ix -> HdRel falls i ir).
  Proof.
    intros LS X F. revert r. induction F as [|y iy l il Y F IH]; intros r AL SO H; cbn in H.
    - injection H as <-. exists [ix]. split; [now constructor|]. split; [reflexivity|]. split; [repeat constructor|]. intros i _ Q. now constructor.
    - destruct (tuple_less less x y) as [b|] eqn:T; [|discriminate]. cbn in H. pose proof (tuple_less_offsets _ _ _ _ _ LS X Y (AL iy (or_introl eq_refl)) T) as O. inversion SO as [|? ? SO' HD]; subst. destruct b.
      + destruct (insert_access less x l) as [r'|] eqn:E; [|discriminate]. cbn in H. injection H as <-. destruct (IH r') as (ir & A & B & C & D); [intros i I; apply AL; now right|easy|easy|].
        exists (iy :: ir). split; [now constructor|]. split; [rewrite perm_swap; now constructor|]. split; [constructor; [easy|]; apply D; [easy|exact O]|]. intros i Q _. inversion Q; subst. now constructor.
      + injection H as <-. exists (ix :: iy :: il). split; [constructor; [easy|now constructor]|]. split; [reflexivity|]. split; [constructor; [easy|now constructor]|]. intros i _ Q. now constructor.
  Qed.
  Definition all_alike (refs : list (list sym)) : Prop := forall a b, In a refs -> In b refs -> alike a b.
  Lemma sort_sorted l il r : less_sound less -> Forall2 rep l il -> all_alike il -> sort_accesses less l = Ok r -> exists ir, Forall2 rep r ir /\ Permutation il ir /\ Sorted falls ir.
  Proof.
    intros LS F. revert r. induction F as [|x ix l il X F IH]; intros r AL H; cbn in H.
    - injection H as <-. exists []. repeat constructor.
    - destruct (sort_accesses less l) as [r'|]; [|discriminate]. cbn in H. destruct (IH r') as (ir & A & B & C); [intros a b Ia Ib; apply AL; now right|easy|].
      destruct (insert_sorted x ix r' ir r LS X A) as (ir' & A' & B' & C' & _); [|easy|easy|].
      + intros i Q. apply AL; [now left|right]. now apply (Permutation_in _ (Permutation_sym B)).
      + exists ir'. split; [easy|]. split; [|easy]. rewrite <- B'. now constructor.
  Qed.
  Lemma insert_total x ix l il : less_numbers less -> rep x ix -> Forall2 rep l il -> (forall i, In i il -> alike ix i) -> exists r, insert_access less x l = Ok r /\ Permutation (x :: l) r.
  Proof.
    intros LN X F. induction F as [|y iy l il Y F IH]; intros AL; cbn; [now exists [x]|].
    destruct (tuple_less_total _ _ _ _ LN X Y (AL iy (or_introl eq_refl))) as (b & ->). cbn. destruct b; [|now exists (x :: y :: l)].
    destruct IH as (r & -> & P); [intros i I; apply AL; now right|]. cbn. exists (y :: r). split; [easy|]. rewrite perm_swap. now constructor.
  Qed.
  Lemma sort_total l il : less_numbers less -> Forall2 rep l il -> all_alike il -> exists r, sort_accesses less l = Ok r /\ Permutation l r.
  Proof.
    intros LN F. induction F as [|x ix l il X F IH]; intros AL; cbn; [now exists []|]. destruct IH as (r & -> & P); [intros a b Ia Ib; apply AL; now right|]. cbn.
    destruct (Permutation_Forall2 P F) as (ir & P' & F'). destruct (insert_total x ix r ir LN X F') as (r' & -> & Q).
    - intros i I. apply AL; [now left|right]. now apply (Permutation_in _ (Permutation_sym P')).
    - exists r'. split; [easy|]. rewrite <- Q. now constructor.
  Qed.
End Order.

(** ** Differences *)
Fixpoint offset_poly (ds : list string) (cs : list Z) : poly := match cs with [] => [] | c :: cs' => (tl ds, c) :: offset_poly (tl ds) cs' end.
Lemma lin_difference g ds la lb : Forall2 (fun x y : option string * Z => fst x = fst y) la lb ->
  weigh g (lin ds la) - weigh g (lin ds lb) = weigh g (offset_poly ds (map (fun xy => snd (fst xy) - snd (snd xy)) (combine la lb))).
Proof.
  intros F. revert ds. induction F as [|x y la lb E F IH]; intros ds; [cbn; ring|]. cbn [lin combine map offset_poly fst snd]. rewrite !weigh_app, weigh_cons, <- IH, !weigh_prefix. unfold atom. rewrite E. cbn [fst snd].
  destruct (fst y); rewrite !weigh_cons; cbn [fst snd]; change (sort_names []) with (@nil string); rewrite app_nil_r; change (weigh (fun m => g (sort_names (tl ds ++ m))) []) with 0; ring.
Qed.
Definition falling (cs : list Z) : Prop := not_below cs (map (fun _ => 0) cs).
Lemma coeff_offset_above ds cs e : length cs = length ds -> (length ds <= e)%nat -> coeff (offset_poly ds cs) e = 0.
Proof.
  revert ds. induction cs as [|c cs IH]; intros [|d ds] L H; try discriminate; [reflexivity|]. cbn [offset_poly tl]. rewrite coeff_cons. cbn [fst snd length] in *.
  destruct (Nat.eqb_spec (length ds) e); [lia|]. rewrite IH; [ring|lia|lia].
Qed.
Lemma falling_coeff ds cs : length cs = length ds -> falling cs -> Forall (fun c => c = 0) cs \/ exists e, 0 < coeff (offset_poly ds cs) e /\ forall e', (e < e')%nat -> coeff (offset_poly ds cs) e' = 0.
Proof.
  revert ds. induction cs as [|c cs IH]; intros [|d ds] L H; try discriminate; [left; constructor|]. cbn [length] in L. injection L as L. cbn in H. cbn [offset_poly tl].
  destruct H as [H|[-> H]].
  - right. exists (length ds). rewrite coeff_cons. cbn [fst snd]. rewrite Nat.eqb_refl, coeff_offset_above by lia. split; [lia|]. intros e' Q. rewrite coeff_cons. cbn [fst snd]. destruct (Nat.eqb_spec (length ds) e'); [lia|]. rewrite coeff_offset_above by lia. ring.
  - destruct (IH ds L H) as [Z|(e & A & B)]; [left; now constructor|]. right. exists e. rewrite coeff_cons. cbn [fst snd]. split.
    + destruct (Nat.eqb _ _); lia.
    + intros e' Q. rewrite coeff_cons. cbn [fst snd]. rewrite B by assumption. now destruct (Nat.eqb _ _).
Qed.
Lemma zero_offsets g ds cs : Forall (fun c => c = 0) cs -> weigh g (offset_poly ds cs) = 0.
Proof. intros F. revert ds. induction F as [|c cs -> F IH]; intros ds; [reflexivity|]. cbn [offset_poly]. rewrite weigh_cons, IH. cbn [fst snd]. ring. Qed.
Lemma integer_coeff p e : is_integer p = true -> e <> 0%nat -> coeff p e = 0.
Proof.
  intros H N. induction p as [|[m c] p IH]; [reflexivity|]. cbn in H. apply andb_prop in H as [A B]. rewrite coeff_cons, IH by assumption. cbn [fst snd]. destruct m; [|discriminate]. cbn [length]. destruct (Nat.eqb_spec 0 e); [congruence|ring].
Qed.
Lemma falling_grows ds cs p : length cs = length ds -> falling cs -> same p (offset_poly ds cs) = true -> grows (Poly (normal p)).
Proof.
  intros L F SM. cbn [grows]. assert (C : forall e, coeff (normal p) e = coeff (offset_poly ds cs) e) by (intros e; rewrite coeff_normal; now apply coeff_same).
  destruct (falling_coeff ds cs L F) as [Z|(e & A & B)].
  - assert (E : normal p = []). { apply normal_nil. intros m. unfold cf. rewrite (weigh_same _ _ _ SM). now apply zero_offsets. }
    rewrite E. cbn; lia.
  - destruct (is_integer (normal p)) eqn:I.
    + destruct e as [|e]; [rewrite C; lia|]. pose proof (integer_coeff _ (S e) I ltac:(lia)) as X. rewrite C in X. lia.
    + exists e. rewrite C. split; [easy|]. intros e' Q. rewrite C. now apply B.
Qed.
Lemma not_below_falling xs ys : not_below xs ys -> length xs = length ys -> falling (map (fun xy => fst xy - snd xy) (combine xs ys)).
Proof.
  revert ys. induction xs as [|x xs IH]; intros [|y ys] H L; try discriminate; [exact I|]. unfold falling. cbn in *. destruct H as [H|[-> H]]; [left; lia|right; split; [lia|]]. apply IH; [easy|lia].
Qed.
Definition usual_shapes (idx : list sym) : Prop := forall s, In s idx -> exists x, shape s = Some x.
Lemma shapes_list idx : usual_shapes idx -> Forall2 (fun s x => shape s = Some x) idx (map (fun s => match shape s with Some x => x | None => (None, 0) end) idx).
Proof. intros H. induction idx as [|s idx IH]; constructor; [destruct (H s (or_introl eq_refl)) as (x & ->); reflexivity|apply IH; intros t I; apply H; now right]. Qed.
Lemma alike_shapes a b : alike a b -> usual_shapes a /\ usual_shapes b /\ length a = length b.
Proof.
  induction 1 as [|s t a b (v & c & c' & S & T) F (A & B & L)]; [repeat split; intros s []|]. split; [|split; [|cbn; lia]]; intros x [<-|I]; eauto.
Qed.
Lemma difference_grows sizes a b ia ib : length ia = length sizes -> rep a ia -> rep b ib -> alike ia ib -> falls ia ib ->
  grows (Poly (normal (psub (reassemble a (dimension_factors (map SVar sizes))) (reassemble b (dimension_factors (map SVar sizes)))))).
Proof.
  intros L A B AL FA. destruct (alike_shapes _ _ AL) as (UA & UB & LE).
  apply (falling_grows sizes (map (fun xy => fst xy - snd xy) (combine (offsets ia) (offsets ib)))).
  - rewrite map_length, combine_length. unfold offsets. rewrite !map_length. lia.
  - apply not_below_falling; [exact FA|]. unfold offsets. rewrite !map_length. exact LE.
  - apply same_cf. intros m. unfold cf. rewrite weigh_psub.
    rewrite <- (weigh_same _ _ _ (reassemble_same (map SVar sizes) ia a ltac:(now rewrite map_length) A)), <- (weigh_same _ _ _ (reassemble_same (map SVar sizes) ib b ltac:(rewrite map_length; congruence) B)).
    rewrite (weigh_same _ _ _ (linear_lin sizes _ _ (shapes_list _ UA))), (weigh_same _ _ _ (linear_lin sizes _ _ (shapes_list _ UB))), lin_difference.
    + f_equal. f_equal. clear - AL. induction AL as [|s t ia ib (v & c & c' & S & T) F IH]; [reflexivity|]. cbn. rewrite S, T. cbn. f_equal. exact IH.
    + clear - AL. induction AL as [|s t ia ib (v & c & c' & S & T) F IH]; [constructor|]. cbn. constructor; [now rewrite S, T|easy].
Qed.
Lemma differences_gaps env sizes os idxs : Forall2 rep os idxs -> (forall i, In i idxs -> length i = length sizes) ->
  map (dist_value env) (differences (map (fun o => reassemble o (dimension_factors (map SVar sizes))) os)) = map Some (gaps (map (place env (map SVar sizes)) idxs)).
Proof.
  intros F L. assert (P : forall o i, rep o i -> length i = length sizes -> eval env (reassemble o (dimension_factors (map SVar sizes))) = place env (map SVar sizes) i).
  { intros o i R LI. rewrite <- eval_linear. symmetry. apply eval_same, reassemble_same; [now rewrite map_length|exact R]. }
  induction F as [|o i os idxs R F IH]; [reflexivity|]. destruct F as [|o' i' os' idxs' R' F']; [reflexivity|].
  specialize (IH (fun j I => L j (or_intror I))). cbn [map differences gaps dist_value] in *. rewrite IH. f_equal. f_equal. rewrite eval_normal, eval_psub, (P _ _ R), (P _ _ R'); [reflexivity|apply L; right; now left|apply L; now left].
Qed.
Lemma differences_grow sizes os idxs : Forall2 rep os idxs -> (forall i, In i idxs -> length i = length sizes) -> all_alike idxs -> Sorted falls idxs ->
  Forall grows (differences (map (fun o => reassemble o (dimension_factors (map SVar sizes))) os)).
Proof.
  intros F. induction F as [|o i os idxs R F IH]; intros L AL SO; [constructor|]. destruct F as [|o' i' os' idxs' R' F']; [constructor|]. cbn [map differences]. inversion SO as [|? ? SO' HD]; subst. constructor.
  - inversion HD; subst. apply (difference_grows _ _ _ i i'); try easy; [apply L; now left|apply AL; [now left|right; now left]].
  - apply IH; [intros j I; apply L; now right|intros x y X Y; apply AL; now right|easy].
Qed.
Lemma differences_length l : length (differences l) = (length l - 1)%nat.
Proof. induction l as [|a [|b l] IH]; cbn in *; try reflexivity. rewrite IH. lia. Qed.

(** ** Arrays *)
Lemma has_inner_iff inner o s v c : same o (expand s) = true -> shape s = Some (v, c) -> (has_inner inner o = true <-> v = Some inner).
Proof.
  intros S H. assert (E : same o (atom (v, c)) = true) by (apply (same_trans _ _ _ S); now apply shape_atom).
  assert (ND : NoDup (map (fun t => sort_names (fst t)) (atom (v, c)))) by (destruct v; cbn; repeat constructor; cbn; try easy; intros [X|[]]; discriminate).
  unfold has_inner. rewrite existsb_exists. split.
  - intros ([m d] & I & X). apply (proj1 (same_in _ _ _ E)) in I. apply normal_distinct in I; [|easy]. destruct I as (N & t & I & <- & <-). unfold atom in I. cbn [fst snd] in I.
    assert (Z : forall d, coeff_of ([], d) ([inner], 1) = None).
    { intros d. unfold coeff_of. cbn [fst snd names_eqb andb]. change (1 =? 0) with false. cbv iota. destruct (forallb _ _) eqn:Q; [exfalso|reflexivity]. rewrite forallb_forall in Q.
      assert (A : In (Power inner (occurs inner [inner])) (args ([inner], 1))) by (apply in_power; split; [now left|easy]). specialize (Q _ A). apply existsb_exists in Q as ([z|s' n] & J & B); [discriminate|]. now apply in_power in J as [[] _]. }
    destruct v as [v|].
    + destruct I as [<-|[<-|[]]]; cbn [fst snd] in X; [|change (sort_names []) with (@nil string) in X; rewrite Z in X; discriminate]. change (sort_names [v]) with [v] in X.
      unfold coeff_of in X. cbn [fst snd names_eqb andb] in X. change (1 =? 0) with false in X. cbv iota in X. destruct (String.eqb_spec v inner) as [->|NE]; [reflexivity|]. cbn in X. unfold occurs in X. cbn in X. rewrite !String.eqb_refl in X. cbn in X.
      destruct (String.eqb_spec inner v); [congruence|discriminate].
    + destruct I as [<-|[]]. cbn [fst snd] in X. change (sort_names []) with (@nil string) in X. rewrite Z in X. discriminate.
  - intros ->. exists ([inner], 1). split.
    + apply (proj2 (same_in _ _ _ E)). apply normal_distinct; [easy|]. split; [lia|]. exists ([inner], 1). split; [now left|easy].
    + unfold coeff_of. cbn [fst snd names_eqb andb]. change (1 =? 0) with false. cbv iota. rewrite String.eqb_refl. reflexivity.
Qed.
Lemma inner_used inner os refs : Forall2 rep os refs -> (forall i, In i refs -> usual_shapes i) -> (existsb (has_inner inner) (concat os) = true <-> uses inner refs).
Proof.
  intros F U. rewrite existsb_exists. split.
  - intros (p & I & H). apply in_concat in I as (o & I & J). destruct (F2_in_left _ _ _ _ F I) as (idx & K & R). destruct (F2_in_left _ _ _ _ R J) as (s & M & S). destruct (U idx K s M) as ([v c] & SH).
    apply (has_inner_iff inner _ _ _ _ S SH) in H. subst v. now exists idx, s, c.
  - intros (idx & s & c & I & J & SH). assert (X : exists o, In o os /\ rep o idx).
    { clear - F I. induction F as [|a b l l' R F IH]; [easy|]. destruct I as [->|I]; [exists a; split; [now left|easy]|]. destruct (IH I) as (o & A & B). exists o. split; [now right|easy]. }
    destruct X as (o & O & R). assert (Y : exists p, In p o /\ same p (expand s) = true).
    { clear - R J. induction R as [|a b l l' H F IH]; [easy|]. destruct J as [->|J]; [exists a; split; [now left|easy]|]. destruct (IH J) as (p & A & B). exists p. split; [now right|easy]. }
    destruct Y as (p & P & S). exists p. split; [apply in_concat; now exists o|]. now apply (has_inner_iff inner _ _ _ _ S SH).
Qed.
Lemma lookup_in {A} (l : list (string * A)) n x : lookup l n = Some x -> In (n, x) l.
Proof. unfold lookup. destruct (find _ l) as [[m y]|] eqn:E; [|discriminate]. cbn. intros [= ->]. apply find_some in E as [I E]. cbn in E. apply String.eqb_eq in E. now subst m. Qed.
Lemma references_subscripts k n : references k n = map Some (array_references k n).
Proof.
  unfold references, array_references, subscripts, entries. generalize (match lookup (sources k) n with Some r => r | None => [] end ++ match lookup (destinations k) n with Some r => r | None => [] end). intros l.
  induction l as [|[i|] l IH]; cbn; [reflexivity|f_equal; exact IH|exact IH].
Qed.
Lemma in_subscripts l idx : In idx (subscripts l) <-> In (Some idx) l.
Proof.
  unfold subscripts. rewrite in_flat_map. split; [intros (a & I & J); destruct a as [i|]; [destruct J as [->|[]]; easy|easy]|]. intros I. exists (Some idx). split; [easy|now left].
Qed.
Lemma in_entries k n a : In a (entries (sources k) n ++ entries (destinations k) n) -> exists arefs, In (n, arefs) (sources k ++ destinations k) /\ In a arefs.
Proof.
  rewrite in_app_iff. unfold entries. intros [I|I].
  - destruct (lookup (sources k) n) as [r|] eqn:E; [|easy]. apply lookup_in in E. exists r. split; [apply in_app_iff; now left|easy].
  - destruct (lookup (destinations k) n) as [r|] eqn:E; [|easy]. apply lookup_in in E. exists r. split; [apply in_app_iff; now right|easy].
Qed.
Lemma map_SVar_inj a b : map SVar a = map SVar b -> a = b.
Proof. revert b. induction a as [|x a IH]; intros [|y b] E; try discriminate; [easy|]. injection E as -> E. f_equal. auto. Qed.
Lemma usual_references k n sizes idx : usual k -> lookup (variables k) n = Some (Some (map SVar sizes)) -> In idx (array_references k n) -> idx <> [] /\ usual_reference (map fst (loops k)) sizes idx.
Proof.
  intros [_ U] L I. apply in_subscripts, in_entries in I as (arefs & I & J). destruct (U _ _ I) as [->|(sizes' & L' & V)]; [destruct J as [J|[]]; discriminate|].
  assert (sizes' = sizes) by (apply map_SVar_inj; congruence). subst sizes'. destruct (V _ J) as (i & E & N & R). injection E as <-. now split.
Qed.
Lemma usual_reference_shapes ls sizes idx : usual_reference ls sizes idx -> usual_shapes idx.
Proof. intros (_ & _ & U) s I. destruct (U s I) as (v & c & E & _). now exists (v, c). Qed.
Lemma split_all k n sizes refs : lookup (variables k) n = Some (Some (map SVar sizes)) -> (forall i, In i refs -> i <> [] /\ usual_reference (map fst (loops k)) sizes i) ->
  exists es os, mapM (access_expr k n) (map Some refs) = Ok es /\ mapM (fun e => split_access e (dimension_factors (map SVar sizes))) es = Ok os /\ Forall2 rep os refs.
Proof.
  intros L. induction refs as [|i refs IH]; intros U; [exists [], []; repeat split; constructor|]. destruct IH as (es & os & A & B & C); [intros j I; apply U; now right|].
  destruct (U i (or_introl eq_refl)) as [N R]. destruct (split_usual _ _ _ R) as (o & S & P). exists (linear (map SVar sizes) i :: es), (o :: os).
  assert (E : access_expr k n (Some i) = Ok (linear (map SVar sizes) i)) by (unfold access_expr; rewrite L; now destruct i).
  split; [cbn [map mapM]; rewrite E; cbn [bind]; now rewrite A|]. split; [cbn [mapM]; rewrite S; cbn [bind]; now rewrite B|]. now constructor.
Qed.
Lemma uniform_alike k n sizes : usual k -> lookup (variables k) n = Some (Some (map SVar sizes)) -> uniform (array_references k n) -> all_alike (array_references k n).
Proof.
  intros U L UN a b A B. destruct (usual_references _ _ _ _ U L A) as [_ (LA & _ & SA)]. destruct (usual_references _ _ _ _ U L B) as [_ (LB & _ & SB)].
  assert (N : forall p s s' v v' c c', nth_error a p = Some s -> nth_error b p = Some s' -> shape s = Some (v, c) -> shape s' = Some (v', c') -> v = v') by (intros; eapply (UN a b p); eassumption).
  clear UN. assert (LE : length a = length b) by congruence. clear LA LB A B. revert b LE SB N. induction a as [|s a IH]; intros [|t b] LE SB N; try discriminate; constructor.
  - destruct (SA s (or_introl eq_refl)) as (v & c & E & _). destruct (SB t (or_introl eq_refl)) as (v' & c' & E' & _). assert (v = v') by (now apply (N 0%nat s t v v' c c')). subst v'. now exists v, c, c'.
  - apply IH; [intros x I; apply SA; now right|now injection LE|intros x I; apply SB; now right|]. intros p. apply (N (S p)).
Qed.
Lemma array_unused less k inner n sizes : usual k -> lookup (variables k) n = Some (Some (map SVar sizes)) -> ~ uses inner (array_references k n) -> array_distances less k inner n (map SVar sizes) = Ok ([], 0).
Proof.
  intros U L N. destruct (split_all k n sizes (array_references k n) L) as (es & os & A & B & C); [intros i I; now apply (usual_references k n sizes)|].
  unfold array_distances. rewrite references_subscripts, A. cbn [bind]. rewrite B. cbn [bind]. destruct (existsb (has_inner inner) (concat os)) eqn:E; [|reflexivity]. contradiction N.
  apply (inner_used inner os); [easy| |easy]. intros i I. apply (usual_reference_shapes (map fst (loops k)) sizes). now apply (usual_references k n sizes).
Qed.
Lemma array_result less k inner n sizes ds w : usual k -> lookup (variables k) n = Some (Some (map SVar sizes)) -> uniform (array_references k n) -> less_sound less ->
  uses inner (array_references k n) -> array_distances less k inner n (map SVar sizes) = Ok (ds, w) ->
  exists order, Permutation (array_references k n) order /\ Sorted (fun a b => not_below (offsets a) (offsets b)) order
    /\ (forall env, map (dist_value env) ds = map Some (gaps (map (place env (map SVar sizes)) order)) ++ [None])
    /\ Forall grows ds /\ w = Z.of_nat (length (entries (destinations k) n)).
Proof.
  intros U L UN LS US H. destruct (split_all k n sizes (array_references k n) L) as (es & os & A & B & C); [intros i I; now apply (usual_references k n sizes)|].
  unfold array_distances in H. rewrite references_subscripts, A in H. cbn [bind] in H. rewrite B in H. cbn [bind] in H.
  assert (E : existsb (has_inner inner) (concat os) = true). { apply (inner_used inner os (array_references k n)); [easy| |easy]. intros i I. apply (usual_reference_shapes (map fst (loops k)) sizes). now apply (usual_references k n sizes). }
  rewrite E in H. cbn [negb] in H. match type of H with (if ?b then _ else _) = _ => destruct b end; [discriminate|]. destruct (sort_accesses less os) as [sorted|] eqn:S; [|discriminate]. cbn [bind] in H.
  destruct (sort_sorted less os _ sorted LS C (uniform_alike _ _ _ U L UN) S) as (order & F & P & SO). injection H as <- <-. exists order. split; [easy|]. split; [exact SO|].
  assert (LN : forall i, In i order -> length i = length sizes) by (intros i I; apply (Permutation_in _ (Permutation_sym P)) in I; apply (usual_references k n sizes i U L I)).
  split; [|split; [|reflexivity]].
  - intros env. rewrite map_app. f_equal. now apply differences_gaps.
  - apply Forall_app. split; [|repeat constructor]. apply (differences_grow sizes sorted order); try easy. intros a b X Y. apply (uniform_alike _ _ _ U L UN); now apply (Permutation_in _ (Permutation_sym P)).
Qed.
Lemma array_total less k inner n sizes : usual k -> lookup (variables k) n = Some (Some (map SVar sizes)) -> uniform (array_references k n) -> less_numbers less ->
  ~ In None (entries (destinations k) n) -> exists r, array_distances less k inner n (map SVar sizes) = Ok r.
Proof.
  intros U L UN LN NN. destruct (split_all k n sizes (array_references k n) L) as (es & os & A & B & C); [intros i I; now apply (usual_references k n sizes)|].
  unfold array_distances. rewrite references_subscripts, A. cbn [bind]. rewrite B. cbn [bind]. destruct (negb _); [now eexists|].
  match goal with |- context [existsb ?f ?l] => assert (Q : existsb f l = false); [|rewrite Q] end; [apply existsb_forall; intros [i|] I; [reflexivity|contradiction]|].
  destruct (sort_total less os _ LN C (uniform_alike _ _ _ U L UN)) as (r & -> & _). cbn [bind]. now eexists.
Qed.

(** ** Kernels *)
Lemma counted_perm k x vars vars' a b : Permutation vars vars' -> counted k x vars a b -> counted k x vars' a b.
Proof.
  intros P. revert a b. induction P as [|v vars vars' P IH|u v vars|l1 l2 l3 P IH Q IH']; intros a b C.
  - exact C.
  - inversion C; subst; [apply co_scalar|apply co_unused; [assumption|]|apply co_used; [assumption|]]; now apply IH.
  - inversion C as [|? ? ? ? C1|? ? ? ? ? N1 C1|? ? ? ? ? N1 C1]; subst; inversion C1 as [|? ? ? ? C2|? ? ? ? ? N2 C2|? ? ? ? ? N2 C2]; subst;
      try rewrite (Z.add_shuffle3 (Z.of_nat (length (array_references _ _)))); try rewrite (Z.add_shuffle3 (Z.of_nat (length (entries _ _))));
      repeat first [assumption | apply co_scalar | apply co_unused; [assumption|] | apply co_used; [assumption|]].
  - auto.
Qed.
Lemma array_dims k n dims : usual k -> NoDup (map fst (variables k)) -> In (n, Some dims) (variables k) -> array_references k n <> [] -> exists sizes, dims = map SVar sizes /\ lookup (variables k) n = Some (Some (map SVar sizes)).
Proof.
  intros [_ U] ND I NE. destruct (array_references k n) as [|idx r] eqn:E; [congruence|]. assert (J : In idx (array_references k n)) by (rewrite E; now left).
  apply in_subscripts, in_entries in J as (arefs & J & K). destruct (U _ _ J) as [->|(sizes & L & _)]; [destruct K as [K|[]]; discriminate|]. exists sizes. split; [|easy].
  apply lookup_in in L. assert (X : forall (l : list (string * option (list sym))) x y, NoDup (map fst l) -> In (n, x) l -> In (n, y) l -> x = y).
  { clear. intros l x y ND. induction l as [|[m z] l IH]; cbn; [easy|]. cbn in ND. inversion ND as [|? ? N ND']; subst. intros [A|A] [B|B]; [congruence| | |now apply IH].
    - injection A as -> ->. contradiction N. apply in_map_iff. now exists (n, y).
    - injection B as -> ->. contradiction N. apply in_map_iff. now exists (n, x). }
  specialize (X _ _ _ ND I L). congruence.
Qed.
Lemma array_no_references less k inner n dims : array_references k n = [] -> array_distances less k inner n dims = Ok ([], 0).
Proof. intros E. unfold array_distances. rewrite references_subscripts, E. reflexivity. Qed.
Lemma uses_dec x refs : uses x refs \/ ~ uses x refs.
Proof.
  assert (D : forall s, (exists c, shape s = Some (Some x, c)) \/ ~ (exists c, shape s = Some (Some x, c))).
  { intros s. destruct (shape s) as [[[v|] c]|]; [destruct (string_dec v x) as [->|N]; [left; now exists c|right; intros (d & E); congruence]|right; intros (d & E); congruence|right; intros (d & E); congruence]. }
  assert (DI : forall idx, (exists s c, In s idx /\ shape s = Some (Some x, c)) \/ ~ (exists s c, In s idx /\ shape s = Some (Some x, c))).
  { induction idx as [|s idx [(t & c & I & E)|N]]; [right; now intros (s & c & [] & _)|left; exists t, c; split; [now right|easy]|]. destruct (D s) as [(c & E)|M]; [left; exists s, c; split; [now left|easy]|right].
    intros (t & c & [<-|I] & E); [apply M; now exists c|apply N; now exists t, c]. }
  induction refs as [|idx refs [(i & s & c & I & J & E)|N]]; [right; now intros (i & s & c & [] & _)|left; exists i, s, c; split; [now right|easy]|].
  destruct (DI idx) as [(s & c & I & E)|M]; [left; exists idx, s, c; split; [now left|easy]|right]. intros (i & s & c & [<-|I] & J & E); [apply M; now exists s, c|apply N; now exists i, s, c].
Qed.
Lemma uses_nonempty x refs : uses x refs -> refs <> [].
Proof. intros (i & s & c & I & _) ->. easy. Qed.
Lemma gaps_length l : length (gaps l) = (length l - 1)%nat.
Proof. induction l as [|a [|b l] IH]; cbn in *; try reflexivity. rewrite IH. lia. Qed.
Lemma all_result less k inner vars ds w : usual k -> NoDup (map fst (variables k)) -> (forall v, In v vars -> In v (variables k)) -> (forall n, uniform (array_references k n)) -> less_sound less ->
  all_distances less k inner vars = Ok (ds, w) -> Forall grows ds /\ counted k inner vars (Z.of_nat (length ds)) w.
Proof.
  intros U ND SUB UN LS. revert ds w. induction vars as [|[n [dims|]] vars IH]; intros ds w H; cbn [all_distances] in H.
  - injection H as <- <-. split; constructor.
  - destruct (array_distances less k inner n dims) as [[d1 w1]|] eqn:A; [|discriminate]. cbn [bind] in H. destruct (all_distances less k inner vars) as [[d2 w2]|] eqn:B; [|discriminate]. cbn [bind fst snd] in H. injection H as <- <-.
    destruct (IH (fun v I => SUB v (or_intror I)) d2 w2 eq_refl) as [G C].
    destruct (uses_dec inner (array_references k n)) as [US|N].
    + destruct (array_dims k n dims U ND (SUB _ (or_introl eq_refl)) (uses_nonempty _ _ US)) as (sizes & -> & L). destruct (array_result _ _ _ _ _ _ _ U L (UN n) LS US A) as (order & P & _ & V & G1 & ->).
      split; [now apply Forall_app|]. assert (LD : length d1 = length (array_references k n)).
      { specialize (V (fun _ => 0)). apply (f_equal (@length _)) in V. rewrite app_length, !map_length, gaps_length, map_length, <- (Permutation_length P) in V. cbn in V. pose proof (uses_nonempty _ _ US). destruct (array_references k n); [easy|cbn in *; lia]. }
      rewrite app_length, Nat2Z.inj_add, LD. now constructor.
    + assert (E : array_distances less k inner n dims = Ok ([], 0)).
      { destruct (array_references k n) as [|i r] eqn:E; [now apply array_no_references|]. destruct (array_dims k n dims U ND (SUB _ (or_introl eq_refl))) as (sizes & -> & L); [congruence|]. rewrite <- E in N. now apply array_unused. }
      assert ((d1, w1) = ([], 0)) as X by congruence. injection X as -> ->. split; [exact G|]. cbn [app]. rewrite Z.add_0_l. now constructor.
  - destruct (IH (fun v I => SUB v (or_intror I)) ds w H) as [G C]. split; [easy|]. now constructor.
Qed.
Lemma kernel_result less k inner incr rest ds w : usual k -> NoDup (map fst (variables k)) -> (forall n, uniform (array_references k n)) -> less_sound less -> rev (loops k) = (inner, incr) :: rest ->
  reuse_distances less k = Ok (ds, w) -> Forall grows ds /\ counted k inner (variables k) (Z.of_nat (length ds)) w.
Proof.
  intros U ND UN LS R H. unfold reuse_distances in H. rewrite R in H. destruct (checks k) as [[]|]; [|discriminate]. cbn [bind] in H.
  set (vars := sort_with _ _) in H. assert (P : Permutation (variables k) vars) by (apply sort_with_perm').
  destruct (all_result less k inner vars ds w U ND) as [G C]; [intros v I; now apply (Permutation_in _ (Permutation_sym P))|easy|easy|easy|]. split; [easy|]. now apply (counted_perm k inner vars).
Qed.
Lemma all_total less k inner vars : usual k -> NoDup (map fst (variables k)) -> (forall v, In v vars -> In v (variables k)) -> (forall n, uniform (array_references k n)) -> less_numbers less ->
  (forall n dims, In (n, Some dims) vars -> ~ In None (entries (destinations k) n)) -> exists r, all_distances less k inner vars = Ok r.
Proof.
  intros U ND SUB UN LN. induction vars as [|[n [dims|]] vars IH]; intros NN; cbn [all_distances]; [now eexists| |apply IH; [intros v I; apply SUB; now right|intros m d I; apply (NN m d); now right]].
  destruct IH as (r2 & ->); [intros v I; apply SUB; now right|intros m d I; apply (NN m d); now right|].
  assert (X : exists r1, array_distances less k inner n dims = Ok r1).
  { destruct (array_references k n) as [|i r] eqn:E; [exists ([], 0); now apply array_no_references|]. destruct (array_dims k n dims U ND (SUB _ (or_introl eq_refl))) as (sizes & -> & L); [congruence|].
    apply array_total; auto. apply (NN n (map SVar sizes)). now left. }
  destruct X as (r1 & ->). cbn [bind]. now eexists.
Qed.
Lemma kernel_total less k : usual k -> NoDup (map fst (variables k)) -> (forall n, uniform (array_references k n)) -> less_numbers less ->
  (forall n dims, In (n, Some dims) (variables k) -> ~ In None (entries (destinations k) n)) -> checks k = Ok tt -> exists r, reuse_distances less k = Ok r.
Proof.
  intros U ND UN LN NN C. unfold reuse_distances. rewrite C. cbn [bind]. pose proof (proj1 (usual_accepted k U) C) as (NE & _). destruct (rev (loops k)) as [|[inner incr] rest] eqn:R; [contradiction NE; rewrite <- (rev_involutive (loops k)), R; reflexivity|].
  set (vars := sort_with _ _). assert (P : Permutation (variables k) vars) by (apply sort_with_perm').
  apply all_total; try assumption; [intros v I; now apply (Permutation_in _ (Permutation_sym P))|]. intros n dims I. apply (NN n dims). now apply (Permutation_in _ (Permutation_sym P)).
Qed.
Lemma kernel_classified less decide k inner incr rest ds w es tails total size cs :
  usual k -> NoDup (map fst (variables k)) -> (forall n, uniform (array_references k n)) -> less_sound less -> sound decide -> rev (loops k) = (inner, incr) :: rest -> 0 < es ->
  reuse_distances less k = Ok (ds, w) -> (forall d, In d tails <-> In d (map (scale_dist es) ds)) -> build_level decide ds es w tails total size = Ok cs ->
  exists n0, 1 <= n0 /\ forall n, n0 <= n -> exists c, desymbolize (fun _ => n) cs = Ok c
    /\ classified (map (fun d => option_map (Z.mul es) (dist_value (fun _ => n) d)) ds) (eval (fun _ => n) total) size (hits c).
Proof.
  intros U ND UN LS SD R ES H T B. destruct (kernel_result _ _ _ _ _ _ _ U ND UN LS R H) as [G _]. rewrite Forall_forall in G. now apply (level_large' decide ds es w tails total size cs).
Qed.

Lemma numbers_only_sound : less_sound numbers_only.
Proof.
  intros p q b H rho _. unfold numbers_only in H. assert (E : eval rho p - eval rho q = eval rho (normal (psub p q))) by (rewrite eval_normal; symmetry; apply eval_psub).
  destruct (normal (psub p q)) as [|[[|] c] [|]]; try discriminate; injection H as <-.
  - change (eval rho []) with 0 in E. split; [lia|discriminate].
  - rewrite eval_cons in E. unfold monomial in E. cbn [fst snd map] in E. change (eval rho []) with 0 in E. change (zprod []) with 1 in E. rewrite Z.ltb_lt. lia.
Qed.
Lemma numbers_only_decides : less_numbers numbers_only.
Proof.
  intros p q z H. unfold numbers_only. assert (A : forall t, In t (normal (psub p q)) -> fst t = []).
  { intros [m c] I. apply (proj1 (same_in _ _ _ H)) in I. apply normal_distinct in I; [|repeat constructor; easy]. destruct I as (_ & t & [<-|[]] & <- & _). reflexivity. }
  destruct (normal_keys (psub p q)) as [ND _]. destruct (normal (psub p q)) as [|[m c] [|[m' c'] l]].
  - now eexists.
  - specialize (A _ (or_introl eq_refl)). cbn in A. subst m. now eexists.
  - pose proof (A _ (or_introl eq_refl)) as X. pose proof (A _ (or_intror (or_introl eq_refl))) as Y. cbn in X, Y. subst m m'. cbn in ND. inversion ND as [|? ? N _]. contradiction N. now left.
Qed.
