(** Proofs for C118: the cache lines which executed kernel code touches, and the references the layer conditions are made for. *)
From Coq Require Import String Permutation Sorted Lia.
From Verif Require Import PyBase PyBaseFacts LoopModel LoopSpec LoopProofs AstModel AstSpec AstProofs CodeModel CodeSpec CodeProofs LCModel LCSpec LCProofs FrontModel FrontSpec FrontProofs FrontDistance LruSpec LruProofs LruLink FlowModel FlowSpec FlowProofs.
Local Open Scope list_scope.
Local Open Scope Z_scope.

(** ** Numbers of elements *)
Lemma row_major_from : forall dims zs acc, length dims = length zs -> fold_left (fun acc p => acc * fst p + snd p) (combine dims zs) acc = acc * zprod dims + access_to_sympy dims zs.
Proof.
  induction dims as [|d dims IH]; intros [|z zs] acc E; try discriminate E; [cbn [combine fold_left]; change (zprod []) with 1; change (access_to_sympy [] []) with 0; ring|].
  cbn [combine fold_left fst snd]. rewrite IH by (injection E; auto). rewrite access_cons, zprod_cons. cbn [tl]. ring.
Qed.
Lemma row_major_access dims zs : length dims = length zs -> row_major dims zs = access_to_sympy dims zs.
Proof. intros E. unfold row_major. rewrite row_major_from by exact E. ring. Qed.
Lemma access_plus (f : string -> Z) : forall xs cs dims, length xs = length cs ->
  access_to_sympy dims (map (fun p => f (fst p) + snd p) (combine xs cs)) = access_to_sympy dims (map f xs) + access_to_sympy dims cs.
Proof.
  induction xs as [|x xs IH]; intros [|c cs] dims E; try discriminate E; [reflexivity|]. cbn [combine map fst snd]. rewrite !access_cons, IH by (injection E; auto). ring.
Qed.
Lemma access_tl dims dims' zs : tl dims = tl dims' -> access_to_sympy dims zs = access_to_sympy dims' zs.
Proof. intros E. destruct zs as [|z zs]; [reflexivity|]. now rewrite !access_cons, E. Qed.
Lemma shapes_values names idx : Forall2 (fun x s => exists c, shape s = Some (Some x, c)) names idx ->
  exists cs, length names = length cs /\ forall env, map (seval env) idx = map (fun p => env (fst p) + snd p) (combine names cs).
Proof.
  induction 1 as [|x s names idx (c & S1) _ (cs & E & H)]; [exists []; split; reflexivity|]. exists (c :: cs). split; [cbn; now rewrite E|]. intros env. cbn [map combine fst snd]. rewrite <- H. f_equal. exact (shape_value env s _ S1).
Qed.
Lemma place_moves (env env' : string -> Z) names idx sizes first : Forall2 (fun x s => exists c, shape s = Some (Some x, c)) names idx -> (forall s, In s sizes -> env s = env' s) ->
  place env (map SVar (first :: tl sizes)) idx + access_to_sympy (map env' sizes) (map env' names) = place env' (map SVar (first :: tl sizes)) idx + access_to_sympy (map env sizes) (map env names).
Proof.
  intros F A. destruct (shapes_values _ _ F) as (cs & E & V). unfold place. rewrite !V.
  assert (T : forall g : string -> Z, tl (map (seval g) (map SVar (first :: tl sizes))) = tl (map g sizes)) by (intros g; cbn [map tl]; rewrite map_map; destruct sizes; reflexivity).
  rewrite !(access_tl _ _ _ (T _)), !access_plus by exact E. replace (map env sizes) with (map env' sizes) by (apply map_ext_in; intros s I; symmetry; now apply A). ring.
Qed.

(** ** Order of iterations *)
Definition entry_name (en : entry) : string := match en with (x, _, _, _) => x end.
Lemma iteration_keeps es : forall e it m, In it (iterations es e) -> ~ In m (map entry_name es) -> CodeSpec.lookup m it = CodeSpec.lookup m e.
Proof.
  induction es as [|[[[x mn] mx] step] es IH]; intros e it m I N; cbn [iterations] in I; [destruct I as [<-|[]]; reflexivity|]. apply in_flat_map in I as (z & _ & I). cbn [map entry_name In] in N.
  rewrite (IH _ _ m I) by tauto. cbn [CodeSpec.lookup]. destruct (String.eqb_spec m x) as [->|]; [tauto|reflexivity].
Qed.
Fixpoint lex_less (a b : list Z) : Prop := match a, b with x :: a', y :: b' => x < y \/ (x = y /\ lex_less a' b') | _, _ => False end.
Lemma sorted_flat_map {A B} (R : B -> B -> Prop) (f : A -> list B) (Q : A -> A -> Prop) l : StronglySorted Q l -> (forall x, In x l -> StronglySorted R (f x)) -> (forall x y a b, Q x y -> In a (f x) -> In b (f y) -> R a b) -> StronglySorted R (flat_map f l).
Proof.
  intros S1 H C. induction S1 as [|x l S1 IH F]; [constructor|]. cbn [flat_map].
  assert (G : forall p, StronglySorted R p -> (forall a b, In a p -> In b (flat_map f l) -> R a b) -> StronglySorted R (p ++ flat_map f l)).
  { intros p SP X. induction SP as [|a p SP IHp FP]; [apply IH; intros y I; apply H; now right|]. cbn [app]. constructor; [apply IHp; intros u v I; apply X; now right|]. apply Forall_app. split; [exact FP|]. apply Forall_forall. intros b I. apply X; [now left|exact I]. }
  apply G; [apply H; now left|]. intros a b Ia Ib. apply in_flat_map in Ib as (y & Iy & Ib). rewrite Forall_forall in F. exact (C x y a b (F y Iy) Ia Ib).
Qed.
Lemma ticks_sorted lo hi step : 0 < step -> StronglySorted Z.lt (ticks lo hi step).
Proof.
  intros P. unfold ticks. generalize (Z.to_nat ((hi - lo + step - 1) / step)) as j. intros j. generalize 0%nat as a. induction j as [|j IH]; intros a; cbn [seq map]; constructor; [apply IH|]. apply Forall_forall. intros y I.
  apply in_map_iff in I as (b & <- & I). apply in_seq in I. nia.
Qed.
Lemma iterations_sorted es : Forall (fun en => 0 < snd en) es -> NoDup (map entry_name es) -> forall e,
  StronglySorted (fun a b => lex_less (map (environment a) (map entry_name es)) (map (environment b) (map entry_name es))) (iterations es e).
Proof.
  induction es as [|[[[x mn] mx] step] es IH]; intros F ND e; cbn [iterations]; [repeat constructor|]. inversion F as [|? ? P F']; subst. cbn [map entry_name] in ND |- *. inversion ND as [|? ? N ND']; subst.
  assert (V : forall z it, In it (iterations es ((x, z) :: e)) -> environment it x = z).
  { intros z it I. unfold environment. rewrite (iteration_keeps es _ it x I N). cbn [CodeSpec.lookup]. now rewrite String.eqb_refl. }
  apply (sorted_flat_map _ _ Z.lt); [now apply ticks_sorted| |].
  - intros z _. specialize (IH F' ND' ((x, z) :: e)).
    assert (G : forall l, incl l (iterations es ((x, z) :: e)) -> StronglySorted (fun a b => lex_less (map (environment a) (map entry_name es)) (map (environment b) (map entry_name es))) l ->
      StronglySorted (fun a b => lex_less (map (environment a) (x :: map entry_name es)) (map (environment b) (x :: map entry_name es))) l).
    { induction l as [|a l IHl]; intros IL SL; [constructor|]. apply StronglySorted_inv in SL as [SL FL]. constructor; [apply IHl; [intros y I; apply IL; now right|exact SL]|]. rewrite Forall_forall in FL. apply Forall_forall. intros b Ib. cbn [map lex_less]. right.
      split; [rewrite (V z a), (V z b); [reflexivity|apply IL; now right|apply IL; now left]|now apply FL]. }
    apply G; [apply incl_refl|exact IH].
  - intros z z' a b L Ia Ib. cbn [map lex_less]. left. now rewrite (V z a Ia), (V z' b Ib).
Qed.
Lemma access_bound dims zs : Forall2 (fun d z => 0 <= z < d) dims zs -> 0 <= access_to_sympy dims zs < zprod dims.
Proof.
  intros F. induction F as [|d z dims zs H F IH]; [change (access_to_sympy [] []) with 0; change (zprod []) with 1; lia|]. rewrite access_cons, zprod_cons. cbn [tl]. nia.
Qed.
(** In a row-major array, elements with larger indices follow. *)
Lemma lex_access : forall names cs dims (f g : string -> Z), length names = length cs ->
  Forall2 (fun d z => 0 <= z < d) dims (map (fun p => f (fst p) + snd p) (combine names cs)) -> Forall2 (fun d z => 0 <= z < d) dims (map (fun p => g (fst p) + snd p) (combine names cs)) ->
  lex_less (map f names) (map g names) -> access_to_sympy dims (map f names) < access_to_sympy dims (map g names).
Proof.
  intros names cs dims f g E F G LL. assert (H : access_to_sympy dims (map (fun p => f (fst p) + snd p) (combine names cs)) < access_to_sympy dims (map (fun p => g (fst p) + snd p) (combine names cs))).
  { revert cs dims E F G LL. induction names as [|x names IH]; intros [|c cs] dims E F G LL; try discriminate E; [destruct LL|]. cbn [combine map fst snd] in *. inversion F as [|d ? dims' ? F1 F2]; subst. inversion G as [|? ? ? ? G1 G2]; subst.
    rewrite !access_cons. cbn [tl]. pose proof (access_bound _ _ F2). pose proof (access_bound _ _ G2). cbn [lex_less] in LL. destruct LL as [LL|[EQ LL]]; [nia|]. injection E as E. specialize (IH cs dims' E F2 G2 LL). rewrite EQ. lia. }
  rewrite !access_plus in H by exact E. lia.
Qed.
Lemma sorted_map {A B} (R : A -> A -> Prop) (Q : B -> B -> Prop) (f : A -> B) l : StronglySorted R l -> (forall x y, In x l -> In y l -> R x y -> Q (f x) (f y)) -> StronglySorted Q (map f l).
Proof.
  induction 1 as [|x l S1 IH F]; intros H; [constructor|]. cbn [map]. constructor; [apply IH; intros a b Ia Ib; apply H; now right|]. apply Forall_forall. intros y I. apply in_map_iff in I as (z & <- & I). rewrite Forall_forall in F. apply H; [now left|now right|now apply F].
Qed.

(** ** Recorded accesses *)
Lemma acc_add_names eqb d k a n : In n (map fst (acc_add eqb d k a)) <-> In n (map fst d) \/ n = k.
Proof.
  induction d as [|[k' s] d IH]; cbn [acc_add]; [cbn; intuition|]. destruct (String.eqb_spec k k') as [->|N]; cbn [map fst In]; [intuition|]. rewrite IH. tauto.
Qed.
Lemma acc_add_nodup eqb d k a : NoDup (map fst d) -> NoDup (map fst (acc_add eqb d k a)).
Proof.
  induction d as [|[k' s] d IH]; cbn [acc_add map fst]; intros ND; [repeat constructor; easy|]. inversion ND as [|? ? N ND']; subst. destruct (String.eqb_spec k k') as [->|NE]; cbn [map fst]; [assumption|]. constructor; [|now apply IH]. rewrite acc_add_names. intros [I|I]; [contradiction|]. now apply NE.
Qed.
Definition distinct (st : kstate) : Prop := NoDup (map fst (AstModel.sources st)) /\ NoDup (map fst (AstModel.destinations st)).
Lemma p_sources_distinct eqb : forall x st st', p_sources eqb x st = Ok st' -> distinct st -> distinct st'.
Proof.
  induction x as [n|v|op l IHl r IHr|op x IH|a IHa s IHs|]; intros st st' H D; cbn [p_sources] in H; try discriminate.
  - cbn [get_basename get_offsets bind] in H. destruct (get_offsets (EID n)) as [a|] eqn:O; cbn in H; try discriminate; injection H as <-; split; [apply acc_add_nodup, D|apply D].
  - injection H as <-. exact D.
  - destruct (p_sources eqb l st) as [st1|] eqn:L; [|discriminate]. cbn [bind] in H. destruct (p_sources eqb r st1) as [st2|] eqn:R; [|discriminate]. injection H as <-. exact (IHr _ _ R (IHl _ _ L D)).
  - destruct (allowed_unary op); [|discriminate]. destruct (p_sources eqb x st) as [st1|] eqn:L; [|discriminate]. injection H as <-. exact (IH _ _ L D).
  - destruct (get_basename (EArr a s)) as [n|]; [|discriminate]. cbn [bind] in H. destruct (get_offsets (EArr a s)) as [o|]; [|discriminate]. injection H as <-. split; [apply acc_add_nodup, D|apply D].
Qed.
Lemma p_assignment_distinct eqb a st st' : p_assignment eqb a st = Ok st' -> distinct st -> distinct st'.
Proof.
  intros H D. unfold p_assignment in H. destruct (lvalue a) as [n|v|op l r|op x|b s|] eqn:LV; try discriminate; rewrite <- LV in H;
    (destruct (get_basename (lvalue a)) as [m|]; [|discriminate]; cbn [bind] in H; destruct (get_offsets (lvalue a)) as [o|]; [|discriminate]; cbn [bind] in H; apply (p_sources_distinct eqb _ _ _ H);
     destruct (String.eqb (aop a) "=")%string; cbn; split; try apply acc_add_nodup; apply D).
Qed.
Lemma p_assignments_distinct eqb : forall l st st', p_assignments eqb l st = Ok st' -> distinct st -> distinct st'.
Proof.
  induction l as [|a l IH]; intros st st' H D; cbn [p_assignments] in H; [now injection H as <-|]. destruct (p_assignment eqb a st) as [st1|] eqn:A; [|discriminate]. exact (IH _ _ H (p_assignment_distinct _ _ _ _ A D)).
Qed.
Lemma lookup_listed (d : list (string * list access)) n a : NoDup (map fst d) -> (listed d n a <-> In a (entries d n)).
Proof.
  unfold entries. intros ND. split.
  - intros (s & I & J). replace (FrontModel.lookup d n) with (Some s); [exact J|]. unfold FrontModel.lookup. induction d as [|[m q] d IH]; [easy|]. cbn [map fst] in ND. inversion ND as [|? ? N ND']; subst. cbn [find fst]. destruct I as [[= -> ->]|I]; [now rewrite String.eqb_refl|].
    destruct (String.eqb_spec n m) as [->|]; [|now apply IH]. exfalso. apply N. apply in_map_iff. now exists (m, s).
  - intros I. destruct (FrontModel.lookup d n) as [s|] eqn:L; [|destruct I]. apply FrontDistance.lookup_in in L. now exists s.
Qed.
Lemma lookup_declared e ds vs n dims : Forall2 declares ds vs -> known_dimensions (map fst e) ds -> FrontModel.lookup (map (fun v => (fst v, snd (snd v))) vs) n = Some (Some dims) -> extents e ds n = map (seval (environment e)) dims.
Proof.
  unfold FrontModel.lookup, extents. intros F K. induction F as [|d [m [ty sz]] ds vs D F IH]; [discriminate|]. destruct D as (E1 & _ & E2). cbn [fst snd] in E1, E2. subst m. cbn [map find fst snd]. destruct (String.eqb_spec n (dname d)) as [->|NE].
  - cbn [option_map snd]. intros [= E]. rewrite E in E2. destruct E2 as (_ & E2). assert (K' : forall x, In (Some x) (dimensions (dtype d)) -> Forall plain (literals x) /\ incl (names x) (map fst e)) by (intros x I; apply (K d x); [now left|exact I]).
    clear - E2 K'. induction E2 as [|o s os dims (x & -> & H) F IH]; [reflexivity|]. cbn [map]. f_equal; [|apply IH; intros y I; apply K'; now right]. cbn [extent]. destruct (K' x (or_introl eq_refl)) as [P I]. now rewrite (H P e I).
  - apply IH. intros d' x I. apply (K d' x). now right.
Qed.

(** ** Executed references *)
Lemma map_flat_map {A B C} (g : B -> C) (f : A -> list B) l : map g (flat_map f l) = flat_map (fun x => map g (f x)) l.
Proof. induction l as [|x l IH]; [reflexivity|]. cbn [flat_map]. now rewrite map_app, IH. Qed.
Lemma flat_map_ext_in {A B} (f g : A -> list B) l : (forall x, In x l -> f x = g x) -> flat_map f l = flat_map g l.
Proof. induction l as [|x l IH]; intros H; [reflexivity|]. cbn [flat_map]. rewrite H by now left. rewrite IH; [reflexivity|]. intros y I. apply H. now right. Qed.
Lemma flat_map_map {A B C} (f : B -> list C) (g : A -> B) l : flat_map f (map g l) = flat_map (fun x => f (g x)) l.
Proof. induction l as [|x l IH]; [reflexivity|]. cbn [map flat_map]. now rewrite IH. Qed.
Section Flow.
  Context (eqb : access -> access -> bool) (ds : list decl) (vs : list (string * variable)) (ls : list cloop) (es : list entry) (body : list cassign) (kst : kstate)
          (e : env) (rho : string -> Z) (number : string -> nat) (order : cassign -> list (string * list expr)) (sizes : list string) (width : Z).
  Hypothesis ES : eqb_sound eqb.
  Hypothesis R : Forall2 recorded ls es.
  Hypothesis K : p_assignments eqb (map read_as body) empty_state = Ok kst.
  Hypothesis RB : readable_body body.
  Hypothesis KS : known_subscripts (map fst e) ls body.
  Hypothesis ND : NoDup (map dname ds).
  Hypothesis DC : Forall2 declares ds vs.
  Hypothesis KD : known_dimensions (map fst e) ds.
  Definition recorded_front : front := mkFront (map (fun en => match en with (x, _, _, step) => (x, step) end) es) (map (fun v => (fst v, snd (snd v))) vs) (AstModel.sources kst) (AstModel.destinations kst).
  Notation k := recorded_front.
  Hypothesis ST : stencil k sizes.
  Hypothesis SE : incl sizes (map fst e).
  Hypothesis RHO : forall m z, CodeSpec.lookup m e = Some z -> rho m = z.
  Hypothesis OR : any_order order body.
  Hypothesis NE : es <> [].
  Notation names := (map entry_name es).
  Lemma loop_names : map fst (loops k) = names.
  Proof. unfold recorded_front. cbn [loops]. rewrite map_map. apply map_ext. now intros [[[x mn] mx] step]. Qed.
  Lemma index_names : map index ls = names.
  Proof. clear - R. induction R as [|l en ls' es' R1 R2 IH]; [reflexivity|]. cbn [map]. rewrite (IH R2). destruct R1 as (? & ? & ? & -> & _). reflexivity. Qed.
  Lemma sizes_length : length sizes = length names.
  Proof. destruct ST as (_ & E & _). rewrite E. rewrite <- loop_names. now rewrite map_length. Qed.
  Lemma sizes_cons (f : string) : length (f :: tl sizes) = length names.
  Proof. rewrite <- sizes_length. pose proof sizes_length as E. rewrite map_length in E. destruct sizes as [|s l]; [|reflexivity]. exfalso. apply NE. now destruct es. Qed.
  Lemma known_size it s : In it (iterations es e) -> In s sizes -> environment it s = rho s.
  Proof.
    intros I J. destruct ST as (_ & _ & N & _). specialize (N s J). rewrite loop_names in N. unfold environment. rewrite (iteration_keeps es e it s I N). specialize (SE s J). pose proof (lookup_environment s e SE) as L. rewrite L. symmetry. now apply RHO.
  Qed.
  Lemma known_value s : In s sizes -> environment e s = rho s.
  Proof. intros J. pose proof (lookup_environment s e (SE s J)) as L. symmetry. now apply RHO. Qed.
  Definition value_at (s : expr) : Z := match ceval rho s with Some z => z | None => 0 end.
  Definition executed_ref (r : string * list expr) : ref := (number (fst r), access_to_sympy (extents e ds (fst r)) (map value_at (snd r))).
  Definition executed_refs : list ref := flat_map (fun a => map executed_ref (order a)) body.
  Definition shift (it : env) : Z := access_to_sympy (map (environment it) sizes) (map (environment it) names) - access_to_sympy (map rho sizes) (map rho names).
  Lemma listed_usual n a : listed (AstModel.sources kst) n a \/ listed (AstModel.destinations kst) n a -> a <> None ->
    exists idx first, a = Some idx /\ In idx (array_references k n) /\ FrontModel.lookup (variables k) n = Some (Some (map SVar (first :: tl sizes))) /\ Forall2 (fun x s => exists c, shape s = Some (Some x, c)) names idx.
  Proof.
    intros L NN. destruct ST as (_ & _ & _ & H). assert (D : distinct kst) by (apply (p_assignments_distinct eqb _ _ _ K); split; constructor).
    assert (X : exists arefs, In (n, arefs) (AstModel.sources kst ++ AstModel.destinations kst) /\ In a arefs) by (destruct L as [(q & I & J)|(q & I & J)]; exists q; (split; [apply in_or_app; auto|exact J])).
    destruct X as (arefs & I & J). destruct (H n arefs I) as [->|(f & LK & _ & A)]; [destruct J as [<-|[]]; congruence|]. destruct (A a J) as (idx & -> & F). exists idx, f. split; [reflexivity|]. rewrite loop_names in F. split; [|split; [exact LK|exact F]].
    unfold array_references. apply in_subscripts. apply in_or_app. destruct D as [D1 D2]. destruct L as [L|L]; [left|right]; apply lookup_listed; assumption.
  Qed.
  Lemma ref_known a n subs : In a body -> In (n, subs) (element_refs a) -> exists idx first, In idx (array_references k n) /\ Forall2 same_index subs idx /\
    FrontModel.lookup (variables k) n = Some (Some (map SVar (first :: tl sizes))) /\ Forall2 (fun x s => exists c, shape s = Some (Some x, c)) names idx.
  Proof.
    intros I J. destruct (analysis_exact eqb ES _ _ K) as (S1 & _ & D1 & _). rewrite (read_statement body RB) in S1, D1. apply filter_In in J as [J E]. cbn [is_element snd] in E. assert (SN : subs <> []) by (intros ->; discriminate).
    assert (G : exists x, (listed (AstModel.sources kst) n x \/ listed (AstModel.destinations kst) n x) /\ describes x subs).
    { apply in_app_or in J as [J|J]; [destruct (S1 n subs) as (x & L & D)|destruct (D1 n subs) as (x & L & D)]; try (apply in_flat_map; exists (statement a); split; [now apply in_map|exact J]); exists x; auto. }
    destruct G as (x & L & D). destruct x as [idx|]; [|cbn in D; contradiction]. destruct (listed_usual n (Some idx) L ltac:(discriminate)) as (i & f & [= <-] & A & B & C). exists idx, f. destruct D as [_ D]. auto.
  Qed.
  Lemma dims_access (g : string -> Z) n first zs : FrontModel.lookup (variables k) n = Some (Some (map SVar (first :: tl sizes))) -> (forall s, In s sizes -> g s = rho s) ->
    access_to_sympy (extents e ds n) zs = access_to_sympy (map (seval g) (map SVar (first :: tl sizes))) zs /\ length (extents e ds n) = length names.
  Proof.
    intros L G. rewrite (lookup_declared e ds vs n _ DC KD L). split; [|transitivity (length (first :: tl sizes)); [now rewrite !map_length|exact (sizes_cons first)]]. apply access_tl. rewrite !map_map. cbn [map tl seval]. apply map_ext_in. intros s I. assert (J : In s sizes) by (destruct sizes; [destruct I|now right]). rewrite (G s J). now apply known_value.
  Qed.
  Lemma value_same s i : same_index s i -> value_at s = seval rho i.
  Proof. intros H. unfold value_at. now rewrite (H rho). Qed.
  Lemma map_same subs idx : Forall2 same_index subs idx -> map value_at subs = map (seval rho) idx.
  Proof. induction 1 as [|s i subs idx H F IH]; [reflexivity|]. cbn [map]. now rewrite IH, (value_same s i H). Qed.
  Lemma line_is it a r : In it (iterations es e) -> In a body -> In r (element_refs a) -> line_touched width number e ds it r = line_of width (shift it) (executed_ref r).
  Proof.
    destruct r as [n subs]. intros I J H. destruct (ref_known a n subs J H) as (idx & f & A & SI & LK & SH). unfold line_touched, line_of, executed_ref. cbn [fst snd]. f_equal. f_equal.
    assert (V : index_values it subs = map (seval (environment it)) idx).
    { assert (KN : forall s, In s subs -> incl (expr_names s) (map fst it)).
      { intros s Is m M. apply (iteration_names ls es e it R I). apply filter_In in H as [H _]. exact (KS a n subs s J H Is m M). }
      clear - SI KN. unfold index_values. induction SI as [|s i subs idx SI1 SI IH]; [reflexivity|]. cbn [map]. rewrite IH by (intros q Q; apply KN; now right). f_equal.
      rewrite (ceval_subscript it s (KN s (or_introl eq_refl)) (seval (environment it) i)); [reflexivity|]. apply SI1. }
    pose proof (F2_length _ _ _ SH) as LN. destruct (dims_access (environment it) n f (index_values it subs) LK (fun s S1 => known_size it s I S1)) as [E1 E2].
    rewrite row_major_access by (rewrite E2, V, LN; symmetry; apply map_length). rewrite E1, V. rewrite (map_same _ _ SI). destruct (dims_access rho n f (map (seval rho) idx) LK (fun s _ => eq_refl)) as [E3 _]. rewrite E3.
    fold (place (environment it) (map SVar (f :: tl sizes)) idx). fold (place rho (map SVar (f :: tl sizes)) idx).
    pose proof (place_moves (environment it) rho names idx sizes f SH (fun s S1 => known_size it s I S1)) as M. unfold shift. lia.
  Qed.
  Lemma lines_are its : incl its (iterations es e) -> lines width number e ds order (events body its) = trace width executed_refs (map shift its).
  Proof.
    intros I. unfold lines, events, trace. rewrite flat_map_flat_map, flat_map_map. apply flat_map_ext_in. intros it J. rewrite flat_map_map. unfold iteration, executed_refs. rewrite map_flat_map. apply flat_map_ext_in. intros a A. cbn [fst snd]. rewrite map_map. apply map_ext_in. intros r H.
    apply (line_is it a r (I it J) A). eapply Permutation_in; [exact (OR a A)|exact H].
  Qed.
  Lemma variables_nodup : NoDup (map fst (variables k)).
  Proof.
    assert (E : map fst (variables k) = map dname ds); [|rewrite E; exact ND]. unfold recorded_front. cbn [variables]. rewrite map_map. clear - DC.
    induction DC as [|d v ds' vs' D F IH]; [reflexivity|]. cbn [map]. rewrite (IH F). destruct D as (<- & _). reflexivity.
  Qed.
  Lemma lookup_variables n x : In (n, x) (variables k) -> FrontModel.lookup (variables k) n = Some x.
  Proof.
    pose proof variables_nodup as N. unfold FrontModel.lookup. generalize dependent (variables k). intros l N I. induction l as [|[m y] l IH]; [easy|]. cbn [map fst] in N. inversion N as [|? ? N1 N2]; subst. cbn [find fst]. destruct I as [[= -> ->]|I]; [now rewrite String.eqb_refl|].
    destruct (String.eqb_spec n m) as [->|]; [|now apply IH]. exfalso. apply N1. apply in_map_iff. now exists (m, x).
  Qed.
  Lemma refs_same : same_in executed_refs (kernel_refs number rho k (variables k)).
  Proof.
    assert (D : distinct kst) by (apply (p_assignments_distinct eqb _ _ _ K); split; constructor). intros x. split.
    - intros I. apply in_flat_map in I as (a & A & I). apply in_map_iff in I as ((n & subs) & <- & I). assert (H : In (n, subs) (element_refs a)) by (eapply Permutation_in; [exact (OR a A)|exact I]).
      destruct (ref_known a n subs A H) as (idx & f & IX & SI & LK & SH). unfold kernel_refs. apply in_flat_map. exists (n, Some (map SVar (f :: tl sizes))). split; [now apply FrontDistance.lookup_in|]. apply in_map_iff. exists idx. split; [|exact IX].
      unfold executed_ref. cbn [fst snd]. f_equal. rewrite (map_same _ _ SI). destruct (dims_access rho n f (map (seval rho) idx) LK (fun s _ => eq_refl)) as [E3 _]. rewrite E3. reflexivity.
    - intros I. apply in_flat_map in I as ((n & [dims|]) & IV & I); [|destruct I]. apply in_map_iff in I as (idx & <- & I). pose proof (lookup_variables _ _ IV) as LK.
      apply in_subscripts in I. apply in_app_or in I. destruct (analysis_exact eqb ES _ _ K) as (_ & S2 & _ & D2). rewrite (read_statement body RB) in S2, D2.
      assert (L : listed (AstModel.sources kst) n (Some idx) \/ listed (AstModel.destinations kst) n (Some idx)) by (destruct D as [DA DB]; destruct I as [I|I]; [left|right]; now apply lookup_listed).
      assert (G : exists a subs, In a body /\ In (n, subs) (stmt_reads (statement a) ++ stmt_writes (statement a)) /\ describes (Some idx) subs).
      { destruct L as [L|L]; [destruct (S2 n _ L) as (subs & J & DE)|destruct (D2 n _ L) as (subs & J & DE)]; apply in_flat_map in J as (q & J & Q); apply in_map_iff in J as (a & <- & J); exists a, subs; (split; [exact J|split; [apply in_or_app; auto|exact DE]]). }
      destruct G as (a & subs & A & J & (SN & SI)). assert (H : In (n, subs) (element_refs a)) by (apply filter_In; split; [exact J|]; cbn; destruct subs; [congruence|reflexivity]).
      destruct (listed_usual n (Some idx) L ltac:(discriminate)) as (i & f & [= <-] & _ & LK' & _). rewrite LK in LK'. injection LK' as ->.
      apply in_flat_map. exists a. split; [exact A|]. apply in_map_iff. exists (n, subs). split; [|eapply Permutation_in; [apply Permutation_sym, (OR a A)|exact H]]. unfold executed_ref. cbn [fst snd]. f_equal. rewrite (map_same _ _ SI).
      destruct (dims_access rho n f (map (seval rho) idx) LK (fun s _ => eq_refl)) as [E3 _]. rewrite E3. reflexivity.
  Qed.
  (** ** The conditions of C70 and C111 *)
  Lemma stencil_usual : usual k.
  Proof.
    destruct ST as (N & LN & SN & H). split; [exact N|]. intros n arefs I. destruct (H n arefs I) as [->|(f & LK & NF & A)]; [now left|right]. exists (f :: tl sizes). split; [exact LK|]. intros a J. destruct (A a J) as (idx & -> & F). exists idx. split; [reflexivity|].
    pose proof (F2_length _ _ _ F) as LI. rewrite loop_names in LI. split; [intros ->; cbn in LI; rewrite map_length in LI; destruct es; [now apply NE|discriminate]|]. split; [|split].
    - rewrite <- LI. symmetry. exact (sizes_cons f).
    - intros s [<-|S1]; [exact NF|]. apply SN. destruct sizes; [destruct S1|now right].
    - intros s S1. clear - F S1. induction F as [|x q l idx (c & SH) F IH]; [destruct S1|]. destruct S1 as [<-|S1]; [exists (Some x), c; split; [exact SH|now left]|]. destruct (IH S1) as (v & c' & A & B). exists v, c'. split; [exact A|]. destruct v; [now right|exact Logic.I].
  Qed.
  Lemma array_shapes n idx : In idx (array_references k n) -> Forall2 (fun x s => exists c, shape s = Some (Some x, c)) names idx.
  Proof.
    intros I. apply in_subscripts, in_app_or in I. assert (D : distinct kst) by (apply (p_assignments_distinct eqb _ _ _ K); split; constructor).
    assert (L : listed (AstModel.sources kst) n (Some idx) \/ listed (AstModel.destinations kst) n (Some idx)) by (destruct D as [DA DB]; destruct I as [I|I]; [left|right]; now apply lookup_listed).
    now destruct (listed_usual n (Some idx) L ltac:(discriminate)) as (i & f & [= <-] & _ & _ & H).
  Qed.
  Lemma stencil_uniform n : uniform (array_references k n).
  Proof.
    intros a b p s s' v v' c c' A B NA NB SA SB. pose proof (array_shapes n a A) as FA. pose proof (array_shapes n b B) as FB.
    assert (G : forall l idx q t w d, Forall2 (fun x s => exists c, shape s = Some (Some x, c)) l idx -> nth_error idx q = Some t -> shape t = Some (w, d) -> nth_error (map Some l) q = Some w).
    { clear. intros l idx q t w d F. revert q. induction F as [|x u l idx (c & SH) F IH]; intros [|q] N S1; try discriminate; cbn in *; [injection N as ->; congruence|now apply IH]. }
    pose proof (G _ _ _ _ _ _ FA NA SA) as GA. pose proof (G _ _ _ _ _ _ FB NB SB) as GB. congruence.
  Qed.
  Lemma stencil_uses inner incr rest n : rev (loops k) = (inner, incr) :: rest -> array_references k n <> [] -> uses inner (array_references k n).
  Proof.
    intros RV NN. destruct (array_references k n) as [|idx l] eqn:E; [congruence|]. assert (I : In idx (array_references k n)) by (rewrite E; now left). pose proof (array_shapes n idx I) as F. rewrite <- loop_names in F.
    assert (EL : map fst (loops k) = map fst (rev rest) ++ [inner]) by (rewrite <- (rev_involutive (loops k)), RV; cbn [rev]; rewrite map_app; reflexivity). rewrite EL in F. apply Forall2_app_inv_l in F as (i1 & i2 & _ & F2 & ->). inversion F2 as [|? s ? ? (c & SH) F3]; subst.
    exists (i1 ++ s :: l'), s, c. split; [now left|]. split; [apply in_or_app; right; now left|exact SH].
  Qed.
  (** Positions grow. *)
  Lemma shift_sorted : Forall (fun en => 0 < snd en) es -> executed_refs <> [] -> no_overrun e ds (events body (iterations es e)) -> StronglySorted Z.lt (map shift (iterations es e)).
  Proof.
    intros P NX OV. assert (NN : NoDup names) by (rewrite <- loop_names; apply ST).
    assert (X : exists a r, In a body /\ In r (element_refs a)).
    { destruct executed_refs as [|x l] eqn:E; [congruence|]. assert (I : In x executed_refs) by (rewrite E; now left). apply in_flat_map in I as (a & A & I). apply in_map_iff in I as (r & _ & I). exists a, r. split; [exact A|]. eapply Permutation_in; [exact (OR a A)|exact I]. }
    destruct X as (a & (n & subs) & A & H). destruct (ref_known a n subs A H) as (idx & f & IX & SI & LK & SH). destruct (shapes_values _ _ SH) as (cs & LC & VC).
    apply (sorted_map (fun a b => lex_less (map (environment a) names) (map (environment b) names))); [now apply iterations_sorted|].
    assert (B : forall it, In it (iterations es e) -> Forall2 (fun d z => 0 <= z < d) (extents e ds n) (map (fun p => environment it (fst p) + snd p) (combine names cs))).
    { intros it I. rewrite <- VC. assert (EV : In (it, a) (events body (iterations es e))) by (apply in_flat_map; exists it; split; [exact I|now apply in_map]). specialize (OV (it, a) (n, subs) EV H). cbn [fst snd] in OV. unfold in_bounds in OV.
      replace (index_values it subs) with (map (seval (environment it)) idx) in OV; [exact OV|].
      assert (KN : forall s, In s subs -> incl (expr_names s) (map fst it)).
      { intros s Is m M. apply (iteration_names ls es e it R I). apply filter_In in H as [H _]. exact (KS a n subs s A H Is m M). }
      clear - SI KN. unfold index_values. induction SI as [|s i subs idx SI1 SI IH]; [reflexivity|]. cbn [map]. rewrite <- IH by (intros q Q; apply KN; now right). f_equal.
      rewrite (ceval_subscript it s (KN s (or_introl eq_refl)) (seval (environment it) i)); [reflexivity|]. apply SI1. }
    intros it it' I I' LL. pose proof (lex_access names cs (extents e ds n) (environment it) (environment it') LC (B it I) (B it' I') LL) as Q.
    destruct (dims_access (environment it) n f (map (environment it) names) LK (fun s S1 => known_size it s I S1)) as [E1 _]. destruct (dims_access (environment it') n f (map (environment it') names) LK (fun s S1 => known_size it' s I' S1)) as [E2 _]. rewrite E1, E2 in Q.
    assert (T : forall (g : string -> Z) zs, access_to_sympy (map (seval g) (map SVar (f :: tl sizes))) zs = access_to_sympy (map g sizes) zs) by (intros g zs; apply access_tl; cbn [map tl]; rewrite map_map; destruct sizes; reflexivity).
    rewrite !T in Q. unfold shift. lia.
  Qed.
End Flow.

(** ** Misses of executed code *)
Lemma reuse_in refs r v : In r refs -> reuse refs r = Some v -> In (Some v) (distances refs).
Proof.
  intros I D. destruct (first_access r refs I) as (pre & post & E & N). rewrite <- D, <- (distance_reuse refs pre r N). now apply (distance_in refs r pre post).
Qed.
Lemma positions_shift c a b : map (fun x => x - c) (positions a b) = positions (a - c) (b - c).
Proof. unfold positions. rewrite map_map. replace (b - c - (a - c)) with (b - a) by lia. apply map_ext. intros i. lia. Qed.
Lemma nest_nonempty s ls body : nest s ls body -> ls <> [].
Proof. now destruct 1. Qed.
Lemma trace_nothing L ts : trace L [] ts = [].
Proof. unfold trace. induction ts as [|t ts IH]; [reflexivity|exact IH]. Qed.
Section Result.
  Context (eqb : access -> access -> bool) (ds : list decl) (vs : list (string * variable)) (ls : list cloop) (es : list entry) (body : list cassign) (kst : kstate) (s : stmt)
          (e : env) (rho : string -> Z) (number : string -> nat) (order : cassign -> list (string * list expr)) (sizes : list string) (width : Z).
  Hypothesis ES : eqb_sound eqb.
  Hypothesis N : nest s ls body.
  Hypothesis R : Forall2 recorded ls es.
  Hypothesis K : p_assignments eqb (map read_as body) empty_state = Ok kst.
  Hypothesis DC : Forall2 declares ds vs.
  Hypothesis WB : well_behaved e ds ls body.
  Notation k := (recorded_front vs es kst).
  Hypothesis ST : stencil k sizes.
  Hypothesis SE : incl sizes (map fst e).
  Hypothesis RHO : constants e rho.
  Hypothesis OR : any_order order body.
  Hypothesis INJ : forall a b, In a ds -> In b ds -> number (dname a) = number (dname b) -> dname a = dname b.
  Hypothesis WP : 0 < width.
  Notation position := (position_of sizes (map index ls)).
  Notation xs := (executed_refs ds body e rho number order).
  Notation refs := (kernel_refs number rho k (variables k)).
  Lemma es_nonempty : es <> [].
  Proof. intros E. subst es. inversion R; subst. now apply (nest_nonempty s [] body N). Qed.
  Lemma runs evs e' : exec e s evs e' <-> e' = e /\ evs = events body (iterations es e).
  Proof. destruct WB as (P & A & W & KI & _). exact (nest_executes s ls body N es e R P A W KI evs e'). Qed.
  Lemma events_app a b : events body (a ++ b) = events body a ++ events body b.
  Proof. apply flat_map_app. Qed.
  Lemma shift_position it : shift es rho sizes it = position it - row_major (map rho sizes) (map rho (map index ls)).
  Proof.
    unfold shift, position_of. pose proof (sizes_length vs es kst sizes ST) as E. rewrite (index_names ls es R). rewrite !row_major_access; [reflexivity| |]; rewrite map_length, E; symmetry; apply map_length.
  Qed.
  Lemma shift_positions its a b : map position its = positions a b -> map (shift es rho sizes) its = positions (a - row_major (map rho sizes) (map rho (map index ls))) (b - row_major (map rho sizes) (map rho (map index ls))).
  Proof. intros E. rewrite <- positions_shift, <- E, map_map. apply map_ext. exact shift_position. Qed.
  Lemma steps_positive : Forall (fun en : entry => 0 < snd en) es.
  Proof. destruct WB as (P & A & _). clear - R P A. induction R as [|l en ls' es' R1 R2 IH]; constructor; inversion P; inversion A; subst; [now apply (advances_step l)|now apply IH]. Qed.
  Context (before window after : list env) (t : Z).
  Hypothesis IT : iterations es e = before ++ window ++ after.
  Lemma lines_before : lines width number e ds order (events body before) = trace width xs (map (shift es rho sizes) before).
  Proof. destruct WB as (_ & _ & _ & _ & RB & KS & ND & KD). destruct RHO as [RH _]. apply (lines_are eqb ds vs ls es body kst e rho number order sizes width); try assumption; [exact es_nonempty|]. intros x I. rewrite IT. apply in_or_app. now left. Qed.
  Lemma lines_window : lines width number e ds order (events body window) = trace width xs (map (shift es rho sizes) window).
  Proof. destruct WB as (_ & _ & _ & _ & RB & KS & ND & KD). destruct RHO as [RH _]. apply (lines_are eqb ds vs ls es body kst e rho number order sizes width); try assumption; [exact es_nonempty|]. intros x I. rewrite IT. apply in_or_app. right. apply in_or_app. now left. Qed.
  Lemma same_refs : same_in xs refs.
  Proof. destruct WB as (_ & _ & _ & _ & RB & KS & ND & KD). destruct RHO as [RH _]. apply (refs_same eqb ds vs ls es body kst e rho number order sizes); try assumption. exact es_nonempty. Qed.
  Context (less : poly -> poly -> option bool) (dd : list dist) (w : Z) (n : nat).
  Hypothesis LS : less_sound less.
  Hypothesis RD : reuse_distances less k = Ok (dd, w).
  Hypothesis NN : Forall (not_negative rho) dd.
  Notation values := (map (dist_value rho) dd).
  Notation size := (Z.of_nat n * width).
  Notation len := (Z.of_nat (length dd)).
  Lemma values_perm : Permutation values (distances refs).
  Proof.
    destruct WB as (_ & _ & _ & _ & RB & KS & ND & KD). destruct RHO as [RH _].
    assert (RV : exists inner incr rest, rev (loops k) = (inner, incr) :: rest).
    { destruct (rev (loops k)) as [|[inner incr] rest] eqn:E; [|eauto]. exfalso. apply es_nonempty. apply (f_equal (@rev _)) in E. rewrite rev_involutive in E. cbn in E. now destruct es. }
    destruct RV as (inner & incr & rest & RV).
    assert (VN : map fst (variables k) = map dname ds).
    { unfold recorded_front. cbn [variables]. rewrite map_map. clear - DC. induction DC as [|d v ds' vs' D F IH]; [reflexivity|]. cbn [map]. rewrite (IH F). destruct D as (<- & _). reflexivity. }
    apply (kernel_lru less k inner incr rest rho number refs dd w).
    - exact (stencil_usual vs ls es kst e sizes R ST SE es_nonempty).
    - exact (variables_nodup ds vs es kst ND DC).
    - exact (stencil_uniform eqb vs es body kst sizes K ST).
    - exact LS.
    - exact RV.
    - intros m. exact (stencil_uses eqb vs es body kst sizes K ST inner incr rest m RV).
    - intros a b Ia Ib. rewrite VN in Ia, Ib. apply in_map_iff in Ia as (da & <- & Ia). apply in_map_iff in Ib as (db & <- & Ib). now apply INJ.
    - exact RD.
    - exact NN.
    - apply Permutation_refl.
  Qed.
  Lemma refs_length : length refs = length dd.
  Proof. pose proof (Permutation_length values_perm) as P. rewrite map_length in P. unfold distances in P. rewrite distances_length in P. congruence. Qed.
  (** The accesses before and in a window of iterations *)
  Lemma flow_window : line_by_line position width t before window -> no_overrun e ds (events body (iterations es e)) ->
    (forall v i, In (Some v) values -> 0 <= i < width -> In (t + i - v) (map position (before ++ window))) ->
    exists ts u, lines width number e ds order (events body before) = trace width xs ts /\ lines width number e ds order (events body window) = trace width xs (positions u (u + width)) /\
      (xs = [] \/ ((exists ts0, ts = ts0 ++ [u - 1]) /\ StronglySorted Z.lt (ts ++ positions u (u + width)) /\
        forall r v i, In r refs -> reuse refs r = Some v -> 0 <= i < width -> In (u + i - v) (ts ++ positions u (u + width)))).
  Proof.
    intros ((others & last & EB & EL) & EW) OV WARM. rewrite lines_before, lines_window, (shift_positions window t (t + width) EW). set (P0 := row_major (map rho sizes) (map rho (map index ls))) in *.
    replace (t + width - P0) with (t - P0 + width) by lia. exists (map (shift es rho sizes) before), (t - P0). split; [reflexivity|]. split; [reflexivity|].
    destruct (list_eq_dec (fun a b : ref => reflect_dec _ _ (ref_eqb_spec a b)) xs []) as [EX|NX]; [now left|right].
    destruct WB as (_ & _ & _ & _ & RB & KS & ND & KD). destruct RHO as [RH _].
    split; [|split].
    - exists (map (shift es rho sizes) others). rewrite EB, map_app. cbn [map]. f_equal. f_equal. rewrite shift_position, EL. unfold P0. lia.
    - pose proof (shift_sorted eqb ds vs ls es body kst e rho number order sizes ES R K RB KS DC KD ST SE RH OR es_nonempty steps_positive NX OV) as SO. rewrite IT, app_assoc, map_app in SO. apply sorted_split in SO as (SO & _ & _).
      rewrite map_app, (shift_positions window t (t + width) EW) in SO. fold P0 in SO. replace (t + width - P0) with (t - P0 + width) in SO by lia. exact SO.
    - intros r v i I D B. assert (IV : In (Some v) values) by (apply (Permutation_in _ (Permutation_sym values_perm)), (reuse_in refs r v I D)). specialize (WARM v i IV B).
      apply in_map_iff in WARM as (it & E & J). apply in_app_or in J. apply in_or_app. destruct J as [J|J]; [left|right].
      + apply in_map_iff. exists it. split; [rewrite shift_position, E; unfold P0; lia|exact J].
      + assert (X : In (t + i - v) (map position window)) by (apply in_map_iff; now exists it). rewrite EW in X. apply positions_in in X. apply positions_in. lia.
  Qed.
  Lemma flow_upper : line_by_line position width t before window -> no_overrun e ds (events body (iterations es e)) ->
    needed values 2 + 2 * len * (width - 1) <= size -> (forall v i, In (Some v) values -> 0 <= i < width -> In (t + i - v) (map position (before ++ window))) ->
    misses_after n (lines width number e ds order (events body before)) (lines width number e ds order (events body window)) <= missing values (size - len * (2 * width - 1)).
  Proof.
    intros LB OV FIT WARM. destruct (flow_window LB OV WARM) as (ts & u & -> & -> & C). rewrite (missing_perm _ _ _ values_perm), <- refs_length. destruct C as [EX|(LA & SO & WA)].
    { rewrite EX. rewrite !trace_nothing. cbn [misses_after]. unfold missing. lia. }
    apply (window_upper n width xs refs WP same_refs); try assumption. rewrite refs_length, <- (needed_perm _ _ 2 values_perm). exact FIT.
  Qed.
  Lemma flow_consecutive first : first <= t -> map position before = positions first t -> map position window = positions t (t + width) ->
    exists t0 u, t0 <= u /\ lines width number e ds order (events body before) = trace width xs (positions t0 u) /\ lines width number e ds order (events body window) = trace width xs (positions u (u + width)).
  Proof.
    intros FT EB EW. rewrite lines_before, lines_window, (shift_positions window t (t + width) EW), (shift_positions before first t EB). set (P0 := row_major (map rho sizes) (map rho (map index ls))) in *.
    exists (first - P0), (t - P0). replace (t + width - P0) with (t - P0 + width) by lia. split; [lia|]. now split.
  Qed.
  Lemma flow_lower first : first <= t -> map position before = positions first t -> map position window = positions t (t + width) ->
    missing values (size + len * width) <= misses_after n (lines width number e ds order (events body before)) (lines width number e ds order (events body window)).
  Proof.
    intros FT EB EW. destruct (flow_consecutive first FT EB EW) as (t0 & u & LE & -> & ->). rewrite (missing_perm _ _ _ values_perm), <- refs_length. now apply (window_lower n width xs refs t0 u WP same_refs).
  Qed.
End Result.

(** ** Code has one structure *)
Lemma loop_of_unique l b l' b' s : loop_of l b s -> loop_of l' b' s -> l = l' /\ b = b'.
Proof.
  intros (n & -> & I) (n' & E & I'). injection E as E1 E2 E3 _ E4 E5 E6. split; [|assumption]. destruct l as [x t f bd inc], l' as [x' t' f' bd' inc']. cbn in *. subst.
  destruct inc as [i|], inc' as [i'|]; subst; try (destruct I as [I|I]; discriminate I); try (destruct I' as [I'|I']; discriminate I'); [now injection I' as <-|reflexivity].
Qed.
Lemma assignments_unique items l : assignments items l -> forall l', assignments items l' -> l = l'.
Proof. induction 1 as [|c items l A IH|op x y items l A IH]; intros l' B; inversion B; subst; [reflexivity|now apply IH|f_equal; now apply IH]. Qed.
Lemma assignments_no_loop ps inner ls body l : nest inner ls body -> assignments (map SPragma ps ++ [inner]) l -> False.
Proof.
  intros N. revert l. induction ps as [|p ps IH]; intros l A; cbn in A.
  - destruct (nest_is_for _ _ _ N) as (i & c & n & b & ->). inversion A.
  - inversion A; subst. eapply IH; eauto.
Qed.
Lemma pragmas_unique ps : forall inner rest ps' inner' rest', map SPragma ps ++ inner :: rest = map SPragma ps' ++ inner' :: rest' ->
  (forall c, inner <> SPragma c) -> (forall c, inner' <> SPragma c) -> ps = ps' /\ inner = inner' /\ rest = rest'.
Proof.
  induction ps as [|p ps IH]; intros inner rest [|p' ps'] inner' rest' E N N'; cbn in E.
  - now injection E as -> ->.
  - injection E as -> _. now contradiction (N p').
  - injection E as <- _. now contradiction (N' p).
  - injection E as -> E. destruct (IH _ _ _ _ _ E N N') as (-> & -> & ->). auto.
Qed.
Lemma nest_no_pragma s ls body : nest s ls body -> forall c, s <> SPragma c.
Proof. intros N c ->. destruct (nest_is_for _ _ _ N) as (? & ? & ? & ? & E). discriminate. Qed.
Lemma nest_unique s ls body : nest s ls body -> forall ls' body', nest s ls' body' -> ls = ls' /\ body = body'.
Proof.
  induction 1 as [l op x y s L|l items body s L NE A|l inner s ls body L N IH|l ps inner s ls body L N IH]; intros ls' body' M;
    destruct M as [l' op' x' y' s L'|l' items' body' s L' NE' A'|l' inner' s ls' body' L' N'|l' ps' inner' s ls' body' L' N'];
    destruct (loop_of_unique _ _ _ _ _ L L') as [<- E].
  - now injection E as -> -> ->.
  - discriminate.
  - subst inner'. destruct (nest_is_for _ _ _ N') as (? & ? & ? & ? & E). discriminate.
  - discriminate.
  - discriminate.
  - injection E as <-. split; [reflexivity|now apply (assignments_unique items)].
  - subst inner'. destruct (nest_is_for _ _ _ N') as (? & ? & ? & ? & E). discriminate.
  - injection E as ->. exfalso. eapply assignments_no_loop; eauto.
  - subst inner. destruct (nest_is_for _ _ _ N) as (? & ? & ? & ? & E). discriminate.
  - subst inner. destruct (nest_is_for _ _ _ N) as (? & ? & ? & ? & E). discriminate.
  - subst inner'. destruct (IH _ _ N') as [-> ->]. auto.
  - subst inner. destruct (nest_is_for _ _ _ N) as (? & ? & ? & ? & E). discriminate.
  - discriminate.
  - injection E as <-. exfalso. eapply assignments_no_loop; eauto.
  - subst inner'. destruct (nest_is_for _ _ _ N') as (? & ? & ? & ? & E). discriminate.
  - injection E as E. destruct (pragmas_unique _ _ _ _ _ _ E (nest_no_pragma _ _ _ N) (nest_no_pragma _ _ _ N')) as (_ & <- & _). destruct (IH _ _ N') as [-> ->]. auto.
Qed.
Lemma declarations_unique ds : forall x rest ds' x' rest', map SDecl ds ++ x :: rest = map SDecl ds' ++ x' :: rest' ->
  (forall d, x <> SDecl d) -> (forall d, x' <> SDecl d) -> ds = ds' /\ x :: rest = x' :: rest'.
Proof.
  induction ds as [|d ds IH]; intros x rest [|d' ds'] x' rest' E N N'; cbn in E.
  - auto.
  - injection E as -> _. now contradiction (N d').
  - injection E as <- _. now contradiction (N' d).
  - injection E as -> E. destruct (IH _ _ _ _ _ E N N') as (-> & H). auto.
Qed.
Lemma code_unique ds ps s ws ls body ds' ps' s' ws' ls' body' :
  map SDecl ds ++ map SPragma ps ++ s :: map swap_call ws = map SDecl ds' ++ map SPragma ps' ++ s' :: map swap_call ws' -> nest s ls body -> nest s' ls' body' ->
  ds = ds' /\ s = s' /\ ls = ls' /\ body = body'.
Proof.
  intros E N N'.
  assert (ND : forall s ls body, nest s ls body -> forall d, s <> SDecl d) by (intros s0 ls0 body0 N0 d ->; destruct (nest_is_for _ _ _ N0) as (? & ? & ? & ? & E0); discriminate).
  assert (C : ds = ds' /\ map SPragma ps ++ s :: map swap_call ws = map SPragma ps' ++ s' :: map swap_call ws').
  { destruct ps as [|p ps], ps' as [|p' ps']; cbn [map app] in E |- *; apply (declarations_unique ds) in E; auto; try (intros d; discriminate); eapply ND; eauto. }
  destruct C as (-> & E'). destruct (pragmas_unique _ _ _ _ _ _ E' (nest_no_pragma _ _ _ N) (nest_no_pragma _ _ _ N')) as (_ & <- & _). destruct (nest_unique _ _ _ N _ _ N') as [-> ->]. auto.
Qed.
(** What is recorded belongs to the parts of the code. *)
Lemma recorded_of eqb items ds ps s ws ls body k : Forall c_tree items -> items = map SDecl ds ++ map SPragma ps ++ s :: map swap_call ws -> nest s ls body ->
  process_code eqb (Some items) = Ok k ->
  Forall2 recorded ls (stack (kernel_nest k)) /\ p_assignments eqb (map read_as body) empty_state = Ok (accesses (kernel_nest k)) /\
  (NoDup (map dname ds) -> Forall2 declares ds (CodeModel.variables (kernel_variables k))).
Proof.
  intros T E N H. destruct (process_sound eqb items k T H) as (ds' & ls' & body' & ws' & (ps' & s' & E' & N') & D & R & K & _). rewrite E in E'.
  destruct (code_unique _ _ _ _ _ _ _ _ _ _ _ _ E' N N') as (<- & <- & <- & <-). split; [exact R|]. split; [exact K|]. intros ND.
  destruct (declare_all_variables ds (mkDeclared None []) _ ND (fun d _ x => x) D) as (vs & V & F). cbn in V. now rewrite V.
Qed.
