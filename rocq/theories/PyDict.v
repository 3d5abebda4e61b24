(** Dictionaries with texts as keys, in order of insertion. Nothing in here is specific to kerncraft. *)
From Coq Require Import Lia.
From Verif Require Export PyText.
Local Open Scope list_scope.

Definition tdict (A : Type) := list (text * A).
(** [d.get(k)] *)
Fixpoint tget {A} (k : text) (d : tdict A) : option A :=
  match d with [] => None | (x, v) :: d' => if text_eqb k x then Some v else tget k d' end.
(** [d[k] = v] *)
Fixpoint tset {A} (k : text) (v : A) (d : tdict A) : tdict A :=
  match d with [] => [(k, v)] | (x, w) :: d' => if text_eqb k x then (x, v) :: d' else (x, w) :: tset k v d' end.
(** [d.update(e)] *)
Definition tupdate {A} (d e : tdict A) : tdict A := fold_left (fun d x => tset (fst x) (snd x) d) e d.

Lemma text_eqb_refl k : text_eqb k k = true.
Proof. now destruct (text_eqb_spec k k). Qed.
Lemma text_eqb_neq a b : a <> b -> text_eqb a b = false.
Proof. now destruct (text_eqb_spec a b). Qed.
Lemma tget_tset {A} k j (v : A) d : tget k (tset j v d) = if text_eqb k j then Some v else tget k d.
Proof.
  induction d as [|[x w] d IH]; cbn; [reflexivity|].
  destruct (text_eqb_spec j x) as [->|N]; cbn; [destruct (text_eqb k x); reflexivity|].
  destruct (text_eqb_spec k x) as [->|M].
  - now rewrite text_eqb_neq by congruence.
  - exact IH.
Qed.
Lemma tget_in {A} k (v : A) d : tget k d = Some v -> In (k, v) d.
Proof.
  induction d as [|[x w] d IH]; cbn; [discriminate|]. destruct (text_eqb_spec k x) as [->|N]; [|auto].
  intros H. left. congruence.
Qed.
Lemma tget_none {A} k (d : tdict A) : tget k d = None <-> ~ In k (map fst d).
Proof.
  induction d as [|[x w] d IH]; cbn; [tauto|]. destruct (text_eqb_spec k x) as [->|N]; [|rewrite IH; intuition congruence].
  split; [discriminate|tauto].
Qed.
Lemma tget_some {A} k (d : tdict A) : In k (map fst d) -> exists v, tget k d = Some v.
Proof. destruct (tget k d) eqn:E; [eauto|]. intros H. now apply tget_none in E. Qed.
Lemma tset_in {A} j (v : A) d x : In x (tset j v d) -> x = (j, v) \/ In x d.
Proof.
  induction d as [|[y w] d IH]; cbn; [intros [<-|[]]; now left|].
  destruct (text_eqb_spec j y) as [->|N].
  - intros [<-|I]; [now left|auto].
  - intros [<-|I]; [auto|]. destruct (IH I) as [E|J]; auto.
Qed.
Lemma tset_keys {A} j (v : A) d k : In k (map fst (tset j v d)) <-> k = j \/ In k (map fst d).
Proof.
  induction d as [|[y w] d IH]; cbn; [intuition congruence|].
  destruct (text_eqb_spec j y) as [->|N]; cbn; [intuition congruence|]. rewrite IH. intuition congruence.
Qed.
Lemma tset_nodup {A} j (v : A) d : NoDup (map fst d) -> NoDup (map fst (tset j v d)).
Proof.
  induction d as [|[y w] d IH]; cbn; intros H; [repeat constructor; intros []|]. inversion_clear H as [|? ? N D].
  destruct (text_eqb_spec j y) as [->|M]; cbn; [now constructor|]. constructor; [|auto]. rewrite tset_keys. intros [E|I]; [congruence|auto].
Qed.
Lemma tget_of_in {A} k (v : A) d : NoDup (map fst d) -> In (k, v) d -> tget k d = Some v.
Proof.
  induction d as [|[y w] d IH]; cbn; intros H J; [easy|]. inversion_clear H as [|? ? N D]. destruct J as [E|I].
  - injection E as -> ->. now rewrite text_eqb_refl.
  - destruct (text_eqb_spec k y) as [->|M]; [|auto]. exfalso. apply N. now apply (in_map fst) in I.
Qed.
(** Look-up after [update]: the last entry of the second dictionary, which has every key once *)
Lemma tget_tupdate {A} k (d e : tdict A) : NoDup (map fst e) ->
  tget k (tupdate d e) = match tget k e with Some v => Some v | None => tget k d end.
Proof.
  unfold tupdate. revert d. induction e as [|[y w] e IH]; intros d H; [reflexivity|]. inversion_clear H as [|? ? N D].
  cbn [fold_left fst snd]. rewrite IH by assumption. cbn [tget]. rewrite tget_tset. destruct (text_eqb_spec k y) as [->|M]; [|reflexivity].
  now rewrite (proj2 (tget_none y e) N).
Qed.
