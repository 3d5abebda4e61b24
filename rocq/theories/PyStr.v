(** Facts about Python strings and sorting shared by several models. Nothing in here is specific to
    kerncraft. *)
From Coq Require Import String Ascii Sorted Permutation.
From Verif Require Import PyBase.

(** ** The order of strings *)

Lemma ascii_compare_trans (a b c : ascii) :
  Ascii.compare a b = Lt -> Ascii.compare b c = Lt -> Ascii.compare a c = Lt.
Proof. unfold Ascii.compare. rewrite !N.compare_lt_iff. apply N.lt_trans. Qed.

Lemma ascii_compare_eq (a b : ascii) : Ascii.compare a b = Eq <-> a = b.
Proof.
  unfold Ascii.compare. rewrite N.compare_eq_iff. split; [|now intros ->].
  intros H. rewrite <- (ascii_N_embedding a), <- (ascii_N_embedding b). now f_equal.
Qed.

Lemma str_compare_refl s : String.compare s s = Eq.
Proof.
  induction s as [|a s IH]; [reflexivity|]. cbn. now rewrite (proj2 (ascii_compare_eq a a) eq_refl).
Qed.

Lemma str_leb_trans a b c :
  String.leb a b = true -> String.leb b c = true -> String.leb a c = true.
Proof.
  unfold String.leb. revert b c. induction a as [|x a IH]; intros [|y b] [|z c]; cbn; try reflexivity; try discriminate.
  destruct (Ascii.compare x y) eqn:Exy; try discriminate.
  - apply ascii_compare_eq in Exy as ->. destruct (Ascii.compare y z) eqn:Eyz; try discriminate; try reflexivity.
    intros H1 H2. now apply (IH b c).
  - intros _. destruct (Ascii.compare y z) eqn:Eyz; try discriminate.
    + intros _. apply ascii_compare_eq in Eyz as <-. now rewrite Exy.
    + intros _. now rewrite (ascii_compare_trans x y z Exy Eyz).
Qed.

Lemma str_leb_refl a : String.leb a a = true.
Proof. unfold String.leb. now rewrite str_compare_refl. Qed.

(** ** [sorted] *)
Section Sorting.
  Context {A : Type} (leb : A -> A -> bool).
  Hypothesis total : forall a b, leb a b = true \/ leb b a = true.
  Hypothesis trans : forall a b c, leb a b = true -> leb b c = true -> leb a c = true.
  Let le a b := leb a b = true.

  Lemma insert_with_perm x l : Permutation (x :: l) (insert_with leb x l).
  Proof.
    induction l as [|y l IH]; cbn; [reflexivity|]. destruct (leb x y); [reflexivity|].
    rewrite perm_swap. now constructor.
  Qed.
  Lemma sort_with_perm' l : Permutation l (sort_with leb l).
  Proof.
    induction l as [|x l IH]; cbn; [reflexivity|]. rewrite <- insert_with_perm. now constructor.
  Qed.
  Lemma insert_with_sorted x l : StronglySorted le l -> StronglySorted le (insert_with leb x l).
  Proof.
    induction 1 as [|y l Hl IH Hy]; cbn; [repeat constructor|].
    destruct (leb x y) eqn:E.
    - constructor; [now constructor|]. constructor; [assumption|].
      rewrite Forall_forall in *. intros z Hz. apply (trans x y z E). now apply Hy.
    - constructor; [assumption|]. rewrite Forall_forall in *. intros z Hz.
      apply (Permutation_in z (Permutation_sym (insert_with_perm x l))) in Hz as [<-|Hz]; [|now apply Hy].
      destruct (total y x); [assumption|congruence].
  Qed.
  Lemma sort_with_sorted l : StronglySorted le (sort_with leb l).
  Proof. induction l as [|x l IH]; cbn; [constructor|now apply insert_with_sorted]. Qed.

  Hypothesis antisym : forall a b, leb a b = true -> leb b a = true -> a = b.
  Lemma sorted_unique l1 l2 :
    StronglySorted le l1 -> StronglySorted le l2 -> Permutation l1 l2 -> l1 = l2.
  Proof.
    intros H1. revert l2. induction H1 as [|x l1 H1 IH Hx]; intros l2 H2 P.
    - now apply Permutation_nil in P.
    - destruct l2 as [|y l2]; [symmetry in P; now apply Permutation_nil in P|].
      inversion H2 as [|? ? H2' Hy]; subst.
      assert (E : x = y).
      { rewrite Forall_forall in Hx, Hy.
        assert (Ix : In x (y :: l2)) by (apply (Permutation_in x P); now left).
        assert (Iy : In y (x :: l1)) by (apply (Permutation_in y (Permutation_sym P)); now left).
        destruct Ix as [->|Ix]; [reflexivity|]. destruct Iy as [->|Iy]; [reflexivity|].
        apply antisym; [now apply Hx|now apply Hy]. }
      subst y. f_equal. apply IH; [assumption|]. now apply Permutation_cons_inv in P.
  Qed.
End Sorting.
