From Coq Require Import String Ascii DecimalString DecimalZ Decimal.
From Verif Require Import PyBase PathModel PathSpec.
Local Open Scope string_scope.

Lemma append_assoc (a b c : string) : (a ++ b) ++ c = a ++ b ++ c.
Proof. induction a; cbn; congruence. Qed.
Lemma append_nil_r (a : string) : a ++ "" = a.
Proof. induction a; cbn; congruence. Qed.
Lemma length_append (a b : string) : String.length (a ++ b) = (String.length a + String.length b)%nat.
Proof. induction a; cbn; congruence. Qed.
Lemma append_cancel_r (a b c : string) : a ++ c = b ++ c -> a = b.
Proof.
  revert b. induction a as [|x a IH]; intros [|y b] H; [reflexivity| | |].
  - apply (f_equal String.length) in H. cbn in H. rewrite length_append in H. lia.
  - apply (f_equal String.length) in H. cbn in H. rewrite length_append in H. lia.
  - injection H as -> H. f_equal. now apply IH.
Qed.
Lemma append_cancel_l (a b c : string) : a ++ b = a ++ c -> b = c.
Proof. induction a; cbn; [auto|]. intros [= H]. auto. Qed.

Lemma contains_append c a b : contains c (a ++ b) <-> contains c a \/ contains c b.
Proof. induction a; cbn; [tauto|]. rewrite IHa. tauto. Qed.

Lemma no_slash_id s : ~ contains "/"%char s -> no_slash s = s.
Proof.
  induction s as [|c s IH]; cbn; intros H; [reflexivity|].
  destruct (Ascii.eqb_spec c slash) as [->|N]; [exfalso; apply H; now left|].
  f_equal. apply IH. intros E. apply H. now right.
Qed.
Lemma components_from_id cur s : ~ contains "/"%char s -> components_from cur s = add_component (cur ++ s) [].
Proof.
  revert cur. induction s as [|c s IH]; intros cur H; cbn in *.
  - now rewrite append_nil_r.
  - destruct (Ascii.eqb_spec c slash) as [->|N]; [exfalso; apply H; now left|].
    rewrite IH by (intros E; apply H; now right). rewrite append_assoc. reflexivity.
Qed.
Lemma components_usual s : usual s -> components s = [s].
Proof.
  intros (H1 & H2 & _). unfold components. rewrite components_from_id by assumption.
  destruct s; [congruence|reflexivity].
Qed.
Lemma components_usual' s : usual s -> components (no_slash s) = [s].
Proof. intros H. rewrite no_slash_id by apply H. now apply components_usual. Qed.

(** ** Joined flags *)
Lemma contains_dec c s : {contains c s} + {~ contains c s}.
Proof.
  induction s as [|d s IH]; cbn; [now right|]. destruct (ascii_dec d c) as [->|N]; [left; now left|].
  destruct IH as [IH|IH]; [left; now right|right; tauto].
Qed.
Lemma split_first c (a b x y : string) :
  ~ contains c a -> ~ contains c b -> a ++ String c x = b ++ String c y -> a = b /\ x = y.
Proof.
  revert b. induction a as [|d a IH]; intros [|e b] Ha Hb H; cbn in *.
  - injection H as ->. now split.
  - injection H as -> _. exfalso. apply Hb. now left.
  - injection H as -> _. exfalso. apply Ha. now left.
  - injection H as -> H. destruct (IH b) as [-> ->]; auto.
Qed.
Lemma join_inj a b :
  a <> [] -> b <> [] -> (forall f, In f a -> ~ contains "_"%char f) -> (forall f, In f b -> ~ contains "_"%char f) ->
  join_underscore a = join_underscore b -> a = b.
Proof.
  revert b. induction a as [|x a IH]; intros [|y b] Na Nb Ha Hb H; try congruence.
  assert (Hx : ~ contains "_"%char x) by (apply Ha; now left).
  assert (Hy : ~ contains "_"%char y) by (apply Hb; now left).
  destruct a as [|x' a], b as [|y' b].
  - cbn in H. now subst.
  - exfalso. cbn [join_underscore] in H. apply Hx. rewrite H. apply contains_append. right. now left.
  - exfalso. cbn [join_underscore] in H. apply Hy. rewrite <- H. apply contains_append. right. now left.
  - change (x ++ String "_" (join_underscore (x' :: a)) = y ++ String "_" (join_underscore (y' :: b))) in H.
    apply split_first in H as [-> H]; [|assumption|assumption]. f_equal.
    apply IH; try discriminate; try assumption; intros f Hf; [apply Ha|apply Hb]; now right.
Qed.
Lemma join_usual l : l <> [] -> (forall f, In f l -> usual f) -> usual (join_underscore l).
Proof.
  destruct l as [|x l]; [congruence|]. intros _ H.
  destruct (H x (or_introl eq_refl)) as (H1 & H2 & H3).
  assert (Hs : ~ contains "/"%char (join_underscore (x :: l))).
  { clear H1 H2 H3. revert x H. induction l as [|y l IH]; intros x H; [now apply H; left|].
    change (~ contains "/"%char (x ++ String "_" (join_underscore (y :: l)))).
    rewrite contains_append. cbn [contains]. intros [E|[E|E]].
    - revert E. apply H. now left.
    - discriminate.
    - revert E. apply IH. intros f Hf. apply H. now right. }
  split; [|split; [assumption|]].
  - destruct l; [assumption|]. destruct x; [congruence|discriminate].
  - destruct l; [assumption|]. destruct x; [congruence|assumption].
Qed.

(** ** Numbers *)
Lemma uint_chars d c : contains c (NilEmpty.string_of_uint d) -> (48 <= nat_of_ascii c <= 57)%nat.
Proof.
  induction d; cbn [NilEmpty.string_of_uint contains]; try tauto; (intros [<-|H]; [cbn; lia|auto]).
Qed.
Lemma show_chars z c : contains c (show z) -> c = "-"%char \/ (48 <= nat_of_ascii c <= 57)%nat.
Proof.
  unfold show. destruct z as [|p|p]; cbn [Z.to_int NilZero.string_of_int].
  - cbn. intros [<-|[]]. right. cbn. lia.
  - unfold NilZero.string_of_uint. destruct (Pos.to_uint p) eqn:E;
      [cbn; intros [<-|[]]; right; cbn; lia|..]; intros H; right; eapply uint_chars; exact H.
  - intros [<-|H]; [now left|]. right. unfold NilZero.string_of_uint in H.
    destruct (Pos.to_uint p) eqn:E;
      [cbn in H; destruct H as [<-|[]]; cbn; lia|..]; eapply uint_chars; exact H.
Qed.
Lemma show_inj a b : show a = show b -> a = b.
Proof.
  unfold show. intros H.
  assert (G : forall z, NilZero.int_of_string (NilZero.string_of_int (Z.to_int z)) = Some (Z.to_int z)).
  { intros z. apply NilZero.isi; destruct z; cbn; try discriminate;
      intros [= E]; now apply (DecimalPos.Unsigned.to_uint_nonnil p). }
  apply (f_equal NilZero.int_of_string) in H. rewrite !G in H. injection H as H.
  rewrite <- (DecimalZ.of_to a), <- (DecimalZ.of_to b). now f_equal.
Qed.
Lemma show_usual z : usual (show z).
Proof.
  split; [|split].
  - unfold show. destruct z; cbn; [discriminate| |discriminate].
    unfold NilZero.string_of_uint. destruct (Pos.to_uint p); discriminate.
  - intros H. destruct (show_chars z _ H) as [E|E]; [discriminate|]. cbn in E. lia.
  - destruct (show z) as [|c s] eqn:E; [exact I|]. intros ->.
    assert (H : contains "."%char (show z)) by (rewrite E; now left).
    destruct (show_chars z _ H) as [E'|E']; [discriminate|]. cbn in E'. lia.
Qed.
Lemma item_usual n v : ~ contains "/"%char n -> usual (show_item (n, v)).
Proof.
  intros H. unfold show_item. cbn [fst snd]. split; [discriminate|split; [|discriminate]].
  cbn [String.append contains]. intros [E|E]; [discriminate|]. revert E.
  rewrite contains_append. cbn [String.append contains]. rewrite contains_append. cbn [contains].
  intros [E|[E|[E|[E|[E|[]]]]]]; try discriminate; [contradiction|].
  destruct (show_usual v) as (_ & U & _). contradiction.
Qed.
Lemma item_inj a b :
  ~ contains ","%char (fst a) -> ~ contains ","%char (fst b) -> show_item a = show_item b -> a = b.
Proof.
  destruct a as [n v], b as [m w]. cbn [fst]. intros Ha Hb H. unfold show_item in H. cbn [fst snd] in H.
  injection H as H. cbn [String.append] in H. apply split_first in H as [-> H]; [|assumption|assumption].
  injection H as H. apply append_cancel_r in H. apply show_inj in H. now subst.
Qed.

Local Open Scope list_scope.
(** ** Locations *)
Definition shown (s : string) : Prop := match s with String c _ => c <> "."%char | EmptyString => True end.

Lemma last_hidden (A B X Y : list string) a b :
  Forall shown X -> Forall shown Y ->
  A ++ [String "." a] ++ X = B ++ [String "." b] ++ Y -> A = B /\ a = b /\ X = Y.
Proof.
  revert Y. induction X as [|x X IH] using rev_ind; intros Y HX HY H.
  - destruct Y as [|y Y _] using rev_ind.
    + rewrite !app_nil_r in H. apply app_inj_tail in H as [-> [= ->]]. auto.
    + exfalso. rewrite app_nil_r in H. rewrite !app_assoc in H. apply app_inj_tail in H as [_ <-].
      apply Forall_app in HY as [_ HY]. inversion HY as [|? ? Hs _]. now apply Hs.
  - destruct Y as [|y Y _] using rev_ind.
    + exfalso. rewrite app_nil_r in H. rewrite !app_assoc in H. apply app_inj_tail in H as [_ ->].
      apply Forall_app in HX as [_ HX]. inversion HX as [|? ? Hs _]. now apply Hs.
    + rewrite !app_assoc in H. apply app_inj_tail in H as [H ->]. rewrite <- !app_assoc in H.
      apply Forall_app in HX as [HX _]. apply Forall_app in HY as [HY _].
      destruct (IH Y HX HY H) as (-> & -> & ->). auto.
Qed.

Definition rest (k : content) (r : request) : list string :=
  (if machine_and_compiler_dependent k
      then [machine_file r; compiler r; join_underscore (flags r)] else [])
  ++ other_dependencies k r ++ [file_name k r].

Lemma flat_map_usual l : Forall usual l -> flat_map (fun d => components (no_slash d)) l = l.
Proof. induction 1 as [|x l H _ IH]; [reflexivity|]. cbn. now rewrite IH, components_usual'. Qed.

Lemma others_usual k r : usual_request r -> Forall usual (other_dependencies k r).
Proof.
  intros (U1 & U2 & U3 & U4 & U5 & U6 & U7 & U8 & U9).
  destruct k; cbn; repeat constructor; try apply U5; try apply U6; try apply U7; try apply U8; try apply show_usual.
  apply Forall_map, Forall_forall. intros [n v] H. apply item_usual. now apply (U9 n v).
Qed.

Lemma location_rest k r : usual_request r ->
  location k r = components (kernel_dir r) ++ [String "." (kernel_file r ++ "_kerncraft")%string] ++ rest k r.
Proof.
  intros U. unfold location, rest. rewrite (flat_map_usual (other_dependencies k r)) by now apply others_usual.
  destruct U as (U1 & U2 & U3 & U4 & _).
  assert (Uj : usual (join_underscore (flags r))) by (apply join_usual; [assumption|apply U4]).
  destruct (machine_and_compiler_dependent k); [|reflexivity].
  rewrite (components_usual _ U1), (components_usual _ U2), (components_usual' _ Uj). reflexivity.
Qed.

Lemma file_shown k r : shown (file_name k r).
Proof. destruct k; cbn; try discriminate. Qed.

Lemma rest_shown k r : usual_request r -> Forall shown (rest k r).
Proof.
  intros U. unfold rest. pose proof (others_usual k r U) as O.
  destruct U as (U1 & U2 & U3 & U4 & _).
  assert (Uj : usual (join_underscore (flags r))) by (apply join_usual; [assumption|apply U4]).
  apply Forall_app. split.
  - destruct (machine_and_compiler_dependent k); repeat constructor; [apply U1|apply U2|apply Uj].
  - apply Forall_app. split; [|constructor; [apply file_shown|constructor]].
    eapply Forall_impl; [|exact O]. now intros s (_ & _ & H).
Qed.

Lemma file_name_inj k1 k2 r1 r2 : file_name k1 r1 = file_name k2 r2 ->
  k1 = k2 /\ match k1 with KernelC | KernelS | KernelO | Executable => openmp r1 = openmp r2 | _ => True end.
Proof.
  destruct k1, k2; cbn [file_name]; unfold omp; destruct (openmp r1), (openmp r2);
    cbn; intros H; try discriminate H; auto.
Qed.

Lemma map_item_inj a b :
  (forall n v, In (n, v) a -> ~ contains ","%char n) -> (forall n v, In (n, v) b -> ~ contains ","%char n) ->
  map show_item a = map show_item b -> a = b.
Proof.
  revert b. induction a as [|[n v] a IH]; intros [|[m w] b] Ha Hb H; try discriminate; [reflexivity|].
  cbn [map] in H. pose proof (f_equal (hd "") H) as H1. pose proof (f_equal (@tl string) H) as H2.
  cbn [hd tl] in H1, H2. f_equal.
  - apply item_inj; [apply (Ha n v); now left|apply (Hb m w); now left|exact H1].
  - apply IH; [|intros n' v' Hin; apply (Hb n' v'); now right|assumption].
    intros n' v' Hin. apply (Ha n' v'). now right.
Qed.

Lemma location_injective k1 k2 a b :
  usual_request a -> usual_request b -> location k1 a = location k2 b ->
  k1 = k2 /\ components (kernel_dir a) = components (kernel_dir b) /\ kernel_file a = kernel_file b
  /\ same_visible k1 a b.
Proof.
  intros Ua Ub H. rewrite !location_rest in H by assumption.
  apply last_hidden in H as (Hd & Hf & Hr); [|now apply rest_shown|now apply rest_shown].
  apply append_cancel_r in Hf.
  assert (Hn : file_name k1 a = file_name k2 b).
  { unfold rest in Hr. rewrite !app_assoc in Hr. now apply app_inj_tail in Hr as [_ Hr]. }
  destruct (file_name_inj k1 k2 a b Hn) as [<- Ho].
  split; [reflexivity|]. split; [assumption|]. split; [assumption|].
  destruct Ua as (_ & _ & Fa & Fa' & _ & _ & _ & _ & Ca).
  destruct Ub as (_ & _ & Fb & Fb' & _ & _ & _ & _ & Cb).
  assert (J : join_underscore (flags a) = join_underscore (flags b) -> flags a = flags b).
  { apply join_inj; try assumption; intros f Hin; [now apply Fa'|now apply Fb']. }
  unfold same_visible, same_compilation.
  destruct k1; cbn [rest machine_and_compiler_dependent other_dependencies app] in Hr; try exact I; try exact Ho;
    unfold rest in Hr; cbn [machine_and_compiler_dependent other_dependencies app] in Hr;
    try (injection Hr; intros; repeat split; auto; fail).
  - injection Hr as Hc. now apply show_inj in Hc.
  - injection Hr as Hc Hr. apply show_inj in Hc. split; [assumption|].
    apply app_inj_tail in Hr as [Hr _].
    apply map_item_inj; [intros n v Hin; now apply (Ca n v)|intros n v Hin; now apply (Cb n v)|assumption].
Qed.
