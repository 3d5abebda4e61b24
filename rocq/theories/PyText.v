(** Python texts as lists of code points, with [str.split] and [str.join] for a separator of one character.
    Nothing in here is specific to kerncraft. *)
From Coq Require Export String Ascii NArith.
From Verif Require Export PyBase.
Open Scope list_scope.

Definition text := list N.
(** Literals: the code points of an ASCII string. *)
Fixpoint codes (s : string) : text :=
  match s with EmptyString => [] | String c s' => N_of_ascii c :: codes s' end.

Fixpoint text_eqb (a b : text) : bool :=
  match a, b with
  | [], [] => true
  | x :: a', y :: b' => (x =? y)%N && text_eqb a' b'
  | _, _ => false
  end.
Lemma text_eqb_spec a b : reflect (a = b) (text_eqb a b).
Proof.
  revert b. induction a as [|x a IH]; intros [|y b]; cbn; try (constructor; congruence).
  destruct (N.eqb_spec x y) as [->|N]; cbn; [destruct (IH b)|]; constructor; congruence.
Qed.
Definition text_dec (a b : text) : {a = b} + {a <> b} := list_eq_dec N.eq_dec a b.

(** [s.split(c)]: never empty, [''.split(c) == ['']]. *)
Fixpoint split (c : N) (s : text) : list text :=
  match s with
  | [] => [[]]
  | x :: s' => if (x =? c)%N then [] :: split c s' else match split c s' with [] => [[x]] | p :: ps => (x :: p) :: ps end
  end.
(** [c.join(l)] *)
Fixpoint join (c : N) (l : list text) : text :=
  match l with [] => [] | [p] => p | p :: l' => p ++ c :: join c l' end.

Lemma split_not_nil c s : split c s <> [].
Proof. destruct s as [|x s]; cbn; [discriminate|]. destruct (x =? c)%N; [discriminate|]. now destruct (split c s). Qed.
Lemma join_cons c p l : l <> [] -> join c (p :: l) = p ++ c :: join c l.
Proof. destruct l; [congruence|reflexivity]. Qed.
Lemma join_split c s : join c (split c s) = s.
Proof.
  induction s as [|x s IH]; [reflexivity|]. cbn [split]. destruct (N.eqb_spec x c) as [->|N].
  - rewrite join_cons by apply split_not_nil. cbn. now rewrite IH.
  - destruct (split c s) as [|p ps] eqn:E; [now apply split_not_nil in E|].
    destruct ps as [|q ps]; [cbn in *; now rewrite IH|]. rewrite join_cons in * by discriminate. cbn [app]. now rewrite IH.
Qed.
Lemma split_app c p s : ~ In c p -> split c (p ++ c :: s) = p :: split c s.
Proof.
  induction p as [|x p IH]; cbn; intros H; [now rewrite N.eqb_refl|].
  destruct (N.eqb_spec x c) as [->|N]; [now exfalso; apply H; left|]. rewrite IH by tauto. reflexivity.
Qed.
Lemma split_single c p : ~ In c p -> split c p = [p].
Proof.
  induction p as [|x p IH]; cbn; intros H; [reflexivity|].
  destruct (N.eqb_spec x c) as [->|N]; [now exfalso; apply H; left|]. now rewrite IH by tauto.
Qed.
Lemma split_join c l : l <> [] -> (forall p, In p l -> ~ In c p) -> split c (join c l) = l.
Proof.
  induction l as [|p l IH]; [congruence|]. intros _ H. destruct l as [|q l].
  - apply split_single, H. now left.
  - rewrite join_cons by discriminate. rewrite split_app by (apply H; now left). f_equal.
    apply IH; [discriminate|]. intros r Hr. apply H. now right.
Qed.
Lemma split_free c s p : In p (split c s) -> ~ In c p.
Proof.
  revert p. induction s as [|x s IH]; cbn; intros p.
  - intros [<-|[]] [].
  - destruct (N.eqb_spec x c) as [->|N].
    + intros [<-|H]; [intros []|now apply IH].
    + destruct (split c s) as [|q qs] eqn:E; [now apply split_not_nil in E|].
      intros [<-|H]; [|apply IH; now right]. intros [H|H]; [congruence|]. revert H. apply IH. now left.
Qed.
