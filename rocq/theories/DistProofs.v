(** Proofs about distances between references. *)
From Coq Require Import String.
From Verif Require Import PyBase PyBaseFacts DistModel DistSpec.
Local Open Scope Z_scope.

Fixpoint prod (l : list Z) : Z := match l with [] => 1 | x :: l' => x * prod l' end.
Lemma product_value v l : forall e, value v (fold_left Mul l e) = value v e * prod (map (value v) l).
Proof. induction l as [|x l IH]; intros e; cbn; [ring|]. rewrite IH. cbn. ring. Qed.
Lemma element_step (l : list (Z * Z)) : forall acc, fold_left (fun acc p => acc * fst p + snd p) l acc = acc * prod (map fst l) + fold_left (fun acc p => acc * fst p + snd p) l 0.
Proof. induction l as [|[n i] l IH]; intros acc; cbn; [ring|]. rewrite IH, (IH i). ring. Qed.
Lemma fst_combine {A B} (a : list A) : forall (b : list B), length b = length a -> map fst (combine a b) = a.
Proof. induction a as [|x a IH]; intros [|y b] H; cbn in *; try discriminate; [reflexivity|]. f_equal. apply IH. lia. Qed.
Lemma flatten_value v : forall access dims e, length access = length dims ->
  value v (flatten dims access e) = value v e + element (map (value v) dims) (map (value v) access).
Proof.
  induction access as [|a access IH]; intros [|n dims] e L; cbn in L; try discriminate; cbn [flatten tl]; [unfold element; cbn; ring|].
  rewrite IH by lia. cbn [value]. unfold product. rewrite product_value. unfold element. cbn [map combine fold_left fst snd value].
  rewrite (element_step _ (0 * value v n + value v a)), fst_combine by (rewrite !map_length; lia). ring.
Qed.

Lemma compile_loop_ok all srcs dsts s d : forall names, (forall n, In n names -> find_key n all <> None) ->
  exists acc, compile_loop all names srcs dsts s d = Ok acc /\ (forall n, ~ In n names -> find_key n acc = None) /\
  (NoDup names -> forall n sizes, In n names -> find_key n all = Some sizes ->
    entry n acc = map (fun a => flatten sizes a (Num 0)) ((if s then present (get srcs n) else []) ++ (if d then present (get dsts n) else []))).
Proof.
  induction names as [|m names IH]; intros K; [exists []; repeat split; intros; contradiction|].
  destruct IH as (acc & E & N & H); [intros n I; apply K; now right|]. cbn [compile_loop].
  destruct (find_key m all) as [sz|] eqn:F; [|exfalso; apply (K m); [now left|exact F]].
  set (l := (if s then present (get srcs m) else []) ++ (if d then present (get dsts m) else [])).
  assert (M : mapM (access_to_sympy all m) l = Ok (map (fun a => flatten sz a (Num 0)) l)).
  { clearbody l. induction l as [|a l IHl]; [reflexivity|]. cbn. unfold access_to_sympy at 1. rewrite F. cbn. unfold bind in *. rewrite IHl. reflexivity. }
  rewrite M. unfold bind. rewrite E. eexists. split; [reflexivity|]. split.
  - intros n I. destruct (map _ l); [apply N; intros J; apply I; now right|]. cbn. destruct (String.eqb_spec n m) as [->|]; [exfalso; apply I; now left|]. apply N. intros J. apply I. now right.
  - intros D n sizes I G. inversion D as [|? ? D1 D2]; subst. destruct I as [<-|I].
    + rewrite F in G. injection G as <-. fold l. destruct (map _ l) eqn:Q; [unfold entry; now rewrite N|]. unfold entry. cbn. now rewrite String.eqb_refl.
    + assert (X : n <> m) by (intros ->; contradiction). rewrite <- (H D2 n sizes I G). destruct (map _ l); [reflexivity|]. unfold entry. cbn. destruct (String.eqb_spec n m); [contradiction|reflexivity].
Qed.

Lemma distances_value simplify v : sound simplify -> forall l, map (value v) (distances simplify l) =
  map (fun p => fst p - snd p) (combine (map (value v) l) (tl (map (value v) l))).
Proof.
  intros S. induction l as [|a [|b l] IH]; [reflexivity..|]. change (distances simplify (a :: b :: l)) with (simplify (Sub a b) :: distances simplify (b :: l)). cbn [map tl combine fst snd]. f_equal; [now rewrite S|].
  rewrite IH. reflexivity.
Qed.
Lemma entry_distances simplify n : forall acc, (forall p, In p acc -> snd p <> []) -> NoDup (map fst acc) ->
  entry n (compile_relative_distances simplify acc) = distances simplify (entry n acc).
Proof.
  induction acc as [|[m l] acc IH]; intros E D; [reflexivity|]. inversion D as [|? ? D1 D2]; subst. cbn [map fst] in D1.
  assert (IH' := IH (fun p I => E p (or_intror I)) D2). clear IH. unfold entry in *. unfold compile_relative_distances in *. cbn [flat_map fst snd find_key].
  destruct (String.eqb_spec n m) as [->|X].
  - assert (Z0 : find_key m acc = None). { clear -D1. induction acc as [|[k w] acc IH]; [reflexivity|]. cbn in *. destruct (String.eqb_spec m k) as [->|]; [exfalso; tauto|]. apply IH. tauto. }
    destruct (distances simplify l) eqn:Q; cbn [app find_key]; [|now rewrite String.eqb_refl]. rewrite IH', Z0. reflexivity.
  - destruct (distances simplify l) eqn:Q; cbn [app find_key]; [exact IH'|]. destruct (String.eqb_spec n m); [contradiction|exact IH'].
Qed.
Lemma compile_loop_keys all srcs dsts s d : forall names acc, compile_loop all names srcs dsts s d = Ok acc ->
  (forall p, In p acc -> snd p <> []) /\ (NoDup names -> NoDup (map fst acc)) /\ (forall n, In n (map fst acc) -> In n names).
Proof.
  induction names as [|m names IH]; intros acc E; cbn in E; [injection E as <-; split; [intros p I; destruct I|split; [intros _; constructor|intros n I; destruct I]]|].
  unfold bind in E. destruct (mapM _ _) as [l|]; [|discriminate]. destruct (compile_loop _ _ _ _ _ _) as [r|]; [|discriminate].
  destruct (IH r eq_refl) as (A & B & C). injection E as <-. destruct l as [|a l].
  - split; [exact A|]. split; [intros D; inversion D; now apply B|]. intros n I. right. now apply C.
  - split; [intros p [<-|I]; [discriminate|now apply A]|]. split.
    + intros D. inversion D as [|? ? D1 D2]; subst. cbn. constructor; [|now apply B]. intros I. apply C in I. contradiction.
    + intros n [<-|I]; [now left|right; now apply C].
Qed.
Lemma find_in {A} (all : list (string * A)) : NoDup (map fst all) -> forall n x, In (n, x) all -> find_key n all = Some x.
Proof.
  induction all as [|[k y] all IH]; intros D n x I; [destruct I|]; destruct I as [I|I]; inversion D as [|? ? D1 D2]; subst; cbn.
  - injection I as -> ->. now rewrite String.eqb_refl.
  - destruct (String.eqb_spec n k) as [->|]; [|now apply IH]. exfalso. apply D1. apply in_map_iff. now exists (k, x).
Qed.
Lemma found_key {A} (all : list (string * A)) n : In n (map fst all) -> find_key n all <> None.
Proof. induction all as [|[k y] all IH]; intros I; [destruct I|]. cbn in *. destruct (String.eqb_spec n k); [discriminate|]. destruct I as [->|I]; [contradiction|now apply IH]. Qed.

Lemma relative simplify vars srcs dsts : sound simplify -> NoDup (map fst vars) ->
  exists acc, compile_sympy_accesses vars srcs dsts true true = Ok acc /\
  forall n sizes v, In (n, sizes) vars -> indices_match sizes srcs dsts n ->
    map (value v) (entry n acc) = referenced v sizes srcs dsts n /\
    map (value v) (entry n (compile_relative_distances simplify acc)) =
      map (fun p => fst p - snd p) (combine (referenced v sizes srcs dsts n) (tl (referenced v sizes srcs dsts n))).
Proof.
  intros S D. unfold compile_sympy_accesses. destruct (compile_loop_ok vars srcs dsts true true (map fst vars)) as (acc & E & _ & H); [apply found_key|].
  exists acc. split; [exact E|]. intros n sizes v I M. destruct (compile_loop_keys _ _ _ _ _ _ _ E) as (A & B & _).
  assert (V : map (value v) (entry n acc) = referenced v sizes srcs dsts n).
  { rewrite (H D n sizes); [|apply in_map_iff; now exists (n, sizes)|now apply find_in]. unfold referenced. rewrite map_map. apply map_ext_in. intros a J. rewrite flatten_value by (now apply M). cbn. ring. }
  split; [exact V|]. rewrite entry_distances by auto. rewrite distances_value by exact S. now rewrite V.
Qed.

(** Sums of neighbouring differences *)
Lemma telescope : forall (o : list Z) i k, (i + k < length o)%nat ->
  sum (firstn k (skipn i (map (fun p => fst p - snd p) (combine o (tl o))))) = nth i o 0 - nth (i + k) o 0.
Proof.
  induction o as [|x o IH]; intros i k L; cbn in L; [lia|]. destruct i as [|i].
  - destruct k as [|k]; [cbn; ring|]. destruct o as [|y o]; [cbn in L; lia|]. specialize (IH 0%nat k). cbn [Nat.add length] in *. cbn [tl combine map skipn firstn sum fst snd] in *.
    change (skipn 0 (map (fun p : Z * Z => fst p - snd p) (combine (y :: o) o))) with (map (fun p : Z * Z => fst p - snd p) (combine (y :: o) o)) in IH. rewrite IH by lia. cbn. ring.
  - destruct o as [|y o]; [cbn in L; lia|]. specialize (IH i k). cbn [tl combine map skipn] in *. rewrite IH by (cbn in *; lia). reflexivity.
Qed.
Lemma differences_length (o : list Z) : length (map (fun p => fst p - snd p) (combine o (tl o))) = (length o - 1)%nat.
Proof. rewrite map_length, combine_length. destruct o as [|x o]; cbn [tl length]; [reflexivity|]. rewrite Nat.min_r; lia. Qed.
Lemma free_value v v' e : (forall s, In s (free_symbols e) -> v s = v' s) -> value v e = value v' e.
Proof. induction e; cbn; intros H; auto; rewrite IHe1, IHe2; auto; intros s I; apply H; apply in_or_app; auto. Qed.
