(** Facts about the notions of [PyBase]. *)
From Coq Require Import Permutation Sorted.
From Verif Require Import PyBase.

Section StableSortFacts.
  Context {A : Type} (key : A -> Z).

  Lemma insert_by_perm x l : Permutation (x :: l) (insert_by key x l).
  Proof.
    induction l as [|y l IH]; cbn [insert_by]; [reflexivity|].
    destruct (key x <=? key y); [reflexivity|].
    rewrite perm_swap. constructor. exact IH.
  Qed.

  Lemma sort_by_perm l : Permutation l (sort_by key l).
  Proof.
    induction l as [|x l IH]; cbn; [constructor|].
    etransitivity; [|apply insert_by_perm]. now constructor.
  Qed.

  Lemma sort_by_in x l : In x (sort_by key l) <-> In x l.
  Proof.
    split; apply Permutation_in; [symmetry|]; apply sort_by_perm.
  Qed.

  Lemma insert_by_hd x l y :
    HdRel (fun a b => key a <= key b) y l -> key y <= key x ->
    HdRel (fun a b => key a <= key b) y (insert_by key x l).
  Proof.
    destruct l as [|z l]; cbn [insert_by]; intros H Hle.
    - now constructor.
    - inversion H; subst. destruct (key x <=? key z); now constructor.
  Qed.

  Lemma insert_by_sorted x l :
    Sorted (fun a b => key a <= key b) l ->
    Sorted (fun a b => key a <= key b) (insert_by key x l).
  Proof.
    induction l as [|y l IH]; cbn [insert_by]; intros H.
    - repeat constructor.
    - destruct (Z.leb_spec (key x) (key y)) as [Hle|Hgt].
      + constructor; [exact H|]. now constructor.
      + inversion H; subst. constructor; [now apply IH|].
        apply insert_by_hd; [assumption|lia].
  Qed.

  Lemma sort_by_sorted l : Sorted (fun a b => key a <= key b) (sort_by key l).
  Proof.
    induction l as [|x l IH]; cbn; [constructor|]. now apply insert_by_sorted.
  Qed.

  Lemma sort_by_length l : length (sort_by key l) = length l.
  Proof. symmetry. apply Permutation_length, sort_by_perm. Qed.
End StableSortFacts.

Lemma zsum_app l1 l2 : zsum (l1 ++ l2) = zsum l1 + zsum l2.
Proof. induction l1 as [|x l1 IH]; cbn [zsum fold_right app] in *; unfold zsum in *; lia. Qed.

Lemma zprod_app l1 l2 : zprod (l1 ++ l2) = zprod l1 * zprod l2.
Proof.
  induction l1 as [|x l1 IH]; cbn [zprod fold_right app] in *; unfold zprod in *.
  - lia.
  - rewrite IH. ring.
Qed.

Lemma zprod_cons x l : zprod (x :: l) = x * zprod l.
Proof. reflexivity. Qed.

Lemma zprod_pos l : Forall (fun x => 0 < x) l -> 0 < zprod l.
Proof.
  induction 1 as [|x l Hx _ IH]; [unfold zprod; cbn; lia|].
  rewrite zprod_cons. now apply Z.mul_pos_pos.
Qed.

Lemma zprod_nonneg l : Forall (fun x => 0 <= x) l -> 0 <= zprod l.
Proof.
  induction 1 as [|x l Hx _ IH]; [unfold zprod; cbn; lia|].
  rewrite zprod_cons. now apply Z.mul_nonneg_nonneg.
Qed.

Lemma F2_length {A B} (R : A -> B -> Prop) l l' : Forall2 R l l' -> length l = length l'.
Proof. induction 1; cbn; congruence. Qed.
