(** Proofs for C143 and C144. *)
From Coq Require Import Lia.
From Verif Require Import PyBase PyText MachModel MachSpec MachProofs PerfModel PerfProofs CmdModel CmdSpec.
Local Open Scope N_scope.
Local Open Scope list_scope.

(** ** Words *)
Definition nonempty (a : text) : bool := match a with [] => false | _ => true end.
Lemma split_space t : split 32 (32 :: t) = [] :: split 32 t.
Proof. reflexivity. Qed.
Lemma consists_split t ws : consists t ws -> filter nonempty (split 32 t) = ws.
Proof.
  induction 1 as [|t ws C IH|w t ws N S E C IH]; [reflexivity|exact IH|].
  assert (F : nonempty w = true) by (destruct w; [contradiction|reflexivity]). destruct E as [->|[u ->]].
  - rewrite app_nil_r, split_single by assumption. cbn [filter]. rewrite F. f_equal. exact IH.
  - rewrite split_app by assumption. cbn [filter]. rewrite F. f_equal. rewrite split_space in IH. exact IH.
Qed.
Lemma join_consists l : (forall w, In w l -> ~ In 32 w) -> consists (join 32 l) (filter nonempty l).
Proof.
  induction l as [|w l IH]; intros H; [constructor|]. specialize (IH (fun v I => H v (or_intror I))). assert (Hw := H w (or_introl eq_refl)).
  destruct l as [|v l].
  - cbn [join filter]. destruct w as [|c w]; [constructor|]. cbn [nonempty]. rewrite <- (app_nil_r (c :: w)) at 1. constructor; [discriminate|assumption|now left|constructor].
  - rewrite join_cons by discriminate. change (filter nonempty (w :: v :: l)) with (if nonempty w then w :: filter nonempty (v :: l) else filter nonempty (v :: l)).
    destruct w as [|c w]; [now constructor|]. cbn [nonempty]. constructor; [discriminate|assumption|right; eauto|now constructor].
Qed.
Lemma split_consists t : consists t (filter nonempty (split 32 t)).
Proof. rewrite <- (join_split 32 t) at 1. apply join_consists. intros w I. now apply split_free with (s := t). Qed.
Lemma consists_iff t ws : consists t ws <-> filter nonempty (split 32 t) = ws.
Proof. split; [apply consists_split|]. intros <-. apply split_consists. Qed.
Lemma neat_iff t : neat t <-> ~ In [] (split 32 t).
Proof.
  split.
  - intros (ws & N & W & ->) I. rewrite split_join in I by (auto; intros; now apply W). now apply W in I as [[] _].
  - intros N. exists (split 32 t). split; [apply split_not_nil|]. split; [|symmetry; apply join_split]. intros w I. split; [intros ->; contradiction|]. now apply split_free with (s := t).
Qed.
Lemma neat_words t ws : neat t -> consists t ws -> split 32 t = ws.
Proof.
  intros N C. apply neat_iff in N. apply consists_split in C. rewrite <- C. symmetry. clear C. induction (split 32 t) as [|w l IH]; [reflexivity|]. cbn [filter].
  destruct w; [exfalso; apply N; now left|]. cbn [nonempty]. f_equal. apply IH. intros I. apply N. now right.
Qed.

(** ** Flags *)
Lemma lookup_in {A} k (l : list (text * A)) v : lookup k l = Some v -> In (k, v) l.
Proof. induction l as [|[x w] l IH]; cbn; [discriminate|]. destruct (text_eqb_spec k x) as [->|]; [intros [= ->]; now left|intros H; right; auto]. Qed.
Lemma lookup_none {A} k (l : list (text * A)) v : lookup k l = None -> ~ In (k, v) l.
Proof. induction l as [|[x w] l IH]; cbn; [auto|]. destruct (text_eqb_spec k x) as [->|N]; [discriminate|]. intros H [E|I]; [congruence|now apply IH]. Qed.
Lemma compiler_flags installed machine args c fl : get_compiler installed machine args None None = Ok (c, fl) -> exists f, fl = split 32 f /\ chosen_flags machine args c f.
Proof.
  intros H. apply flags_chosen in H as (f & -> & _ & H2 & H3). exists f. split; [reflexivity|]. unfold chosen_flags.
  assert (R : args = None \/ (exists cc, args = Some (cc, None)) -> In (c, Some f) machine \/ f = [] /\ forall g, ~ In (c, g) machine).
  { intros A. destruct (H3 eq_refl A) as [L|[L ->]]; [left; now apply lookup_in|right]. split; [reflexivity|]. intros g. now apply lookup_none. }
  destruct args as [[cc [g|]]|]; [|apply R; eauto|apply R; auto]. apply (H2 cc g); [reflexivity|now left].
Qed.

(** ** Assembly of icc *)
Notation vk := (codes "vkmovb").
Notation kk := (codes "kmovb").
Lemma no_start_in a t : ~ occurs_in vk a -> (t = [] \/ exists u, t = vk ++ u) -> forall x y, a = x ++ y -> y <> [] -> starts_with vk (y ++ t) = false.
Proof.
  intros N T x y -> Y. apply not_true_is_false. rewrite starts_with_spec. intros [u E]. assert (N' : ~ occurs_in vk y).
  { intros (p & q & ->). apply N. exists (x ++ p), q. now rewrite !app_assoc. }
  clear N. cbn [codes N_of_ascii] in *. destruct y as [|c1 y]; [contradiction|]. destruct T as [->|[w ->]].
  - apply N'. exists [], u. rewrite app_nil_r in E. exact E.
  - assert (B : (6 <= length y + 1)%nat -> False).
    { intros L. apply N'. exists [], (skipn 6 (c1 :: y)). cbn [app]. assert (F := f_equal (firstn 6) E). rewrite firstn_app in F.
      replace (6 - length (c1 :: y))%nat with O in F by (cbn [length]; lia). rewrite firstn_O, app_nil_r in F. rewrite <- (firstn_skipn 6 (c1 :: y)) at 1. rewrite F. reflexivity. }
    vm_compute in E. do 5 (destruct y as [|? y]; [cbn in E; injection E; intros; subst; discriminate|]). apply B. cbn. lia.
Qed.
Lemma no_start_all a : ~ occurs_in vk a -> forall x y, a = x ++ y -> y <> [] -> starts_with vk (y ++ []) = false.
Proof. intros N. apply no_start_in; [assumption|now left]. Qed.
Lemma rewritten_replace s r : rewritten vk kk s r -> forall fuel, (length s <= fuel)%nat -> replace fuel vk kk s = r.
Proof.
  induction 1 as [s N|a b c N R IH]; intros fuel L.
  - rewrite <- (app_nil_r s) at 1. rewrite replace_pass; [|now apply no_start_all|now rewrite app_nil_r]. destruct (fuel - length s)%nat; cbn [replace]; apply app_nil_r.
  - rewrite replace_pass; [|apply no_start_in; [assumption|right; eauto]|assumption]. f_equal. rewrite !app_length in L. rewrite replace_hit; [|discriminate|rewrite app_length; lia]. f_equal.
    apply IH. change (length vk) with 6%nat in L. lia.
Qed.
Lemma starts_dec s : (exists t, s = vk ++ t) \/ starts_with vk s = false.
Proof. destruct (starts_with vk s) eqn:E; [left; now apply starts_with_spec|now right]. Qed.
Lemma occurs_first s : ~ occurs_in vk s \/ exists a b, s = a ++ vk ++ b /\ ~ occurs_in vk a.
Proof.
  induction s as [|c s IH]; [left; intros (a & b & E); destruct a; discriminate|].
  destruct (starts_dec (c :: s)) as [[t E]|F]; [right; exists [], t; split; [exact E|intros (a & b & E'); destruct a; discriminate]|].
  destruct IH as [N|(a & b & -> & N)].
  - left. intros (a & b & E). destruct a as [|x a]; [|injection E as -> ->; apply N; exists a, b; reflexivity].
    assert (T : starts_with vk (c :: s) = true) by (apply starts_with_spec; exists b; exact E). congruence.
  - right. exists (c :: a), b. split; [reflexivity|]. intros (x & y & E). destruct x as [|x0 x]; [|injection E as -> ->; apply N; exists x, y; reflexivity].
    assert (T : starts_with vk (c :: a ++ vk ++ b) = true) by (apply starts_with_spec; exists (y ++ vk ++ b); change (c :: a ++ vk ++ b) with ((c :: a) ++ vk ++ b); rewrite E; now rewrite <- app_assoc). congruence.
Qed.
Lemma rewritten_exists n s : (length s <= n)%nat -> exists r, rewritten vk kk s r.
Proof.
  revert s. induction n as [|n IH]; intros s L; destruct (occurs_first s) as [N|(a & b & -> & N)]; try (eexists; now constructor).
  - rewrite !app_length in L. cbn in L. lia.
  - rewrite !app_length in L. change (length vk) with 6%nat in L. destruct (IH b ltac:(lia)) as [r R]. exists (a ++ kk ++ r). now apply other.
Qed.
Lemma icc_iff s r : kept_output (codes "icc") true s = r <-> rewritten vk kk s r.
Proof.
  unfold kept_output. replace (text_eqb (codes "icc") (codes "icc") && true) with true by reflexivity. split; [|intros R; now apply rewritten_replace].
  intros <-. destruct (rewritten_exists (length s) s (le_n _)) as [r R]. now rewrite (rewritten_replace s r R _ (le_n _)).
Qed.
