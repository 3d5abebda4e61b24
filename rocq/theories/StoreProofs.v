From Coq Require Import Lia Permutation.
From Verif Require Import PyBase StoreModel StoreSpec.
Local Open Scope N_scope.
Local Open Scope list_scope.

(** ** The dictionary *)
Lemma put_keys s p : map fst (put_result s p) = if existsb (N.eqb (fst p)) (map fst s) then map fst s else map fst s ++ [fst p].
Proof. induction s as [|[k v] s IH]; cbn; [easy|]. destruct (fst p =? k) eqn:E; cbn; [easy|]. rewrite IH. now destruct (existsb _ _). Qed.
Lemma put_proper s p : proper s -> proper (put_result s p).
Proof.
  unfold proper. intros D. rewrite put_keys. destruct (existsb (N.eqb (fst p)) (map fst s)) eqn:E; [easy|].
  apply (Permutation_NoDup (Permutation_cons_append (map fst s) (fst p))). constructor; [|easy]. intros I.
  assert (X : existsb (N.eqb (fst p)) (map fst s) = true) by (apply existsb_exists; exists (fst p); split; [easy|apply N.eqb_refl]). congruence.
Qed.
Lemma put_stored s p k v : proper s -> stored (put_result s p) k v <-> (k = fst p /\ v = snd p) \/ (k <> fst p /\ stored s k v).
Proof.
  unfold stored, proper. induction s as [|[j w] s IH]; cbn.
  - intros _. split; [intros [->|[]]; now left|]. intros [[-> ->]|[_ []]]. left. now destruct p.
  - intros D. inversion D as [|? ? NI D']; subst. destruct (N.eqb_spec (fst p) j) as [E|N]; cbn.
    + subst j. split.
      * intros [[= <- <-]|I]; [now left|]. right. split; [|now right]. intros ->. apply NI. now apply (in_map fst) in I.
      * intros [[-> ->]|[M [[= <- <-]|I]]]; [now left|easy|now right].
    + rewrite IH by easy. split.
      * intros [[= <- <-]|[A|[A B]]]; [right; split; [congruence|now left]|now left|right; split; [easy|now right]].
      * intros [A|[A [[= <- <-]|B]]]; [right; now left|now left|right; right; easy].
Qed.
Lemma put_results_spec l s : proper s -> proper (put_results s l) /\ forall k v, stored (put_results s l) k v <-> last_result l k v \/ (~ mentioned l k /\ stored s k v).
Proof.
  unfold put_results. revert s. induction l as [|p l IH]; intros s P; cbn [fold_left].
  - split; [easy|]. intros k v. split; [intros I; right; split; [easy|easy]|]. intros [(a & b & E & _)|[_ I]]; [destruct a; discriminate|easy].
  - destruct (IH (put_result s p) (put_proper s p P)) as [P' S]. split; [easy|]. intros k v. rewrite S, put_stored by easy. split.
    + intros [(a & b & -> & N)|[N [[-> ->]|[M I]]]].
      * left. exists (p :: a), b. auto.
      * left. exists [], l. destruct p. auto.
      * right. split; [|easy]. unfold mentioned. cbn. intros [J|J]; [now apply M|easy].
    + intros [(a & b & E & N)|[N I]].
      * destruct a as [|x a]; cbn in E; injection E as -> ->; [right; split; [easy|now left]|left; now exists a, b].
      * right. split; [intros J; apply N; now right|]. right. split; [|easy]. intros ->. apply N. now left.
Qed.

(** ** Crashes *)
Lemma steps_app f a b : do_steps f (a ++ b) = do_steps (do_steps f a) b. Proof. apply fold_left_app. Qed.
Lemma writes_temp l f t : temp f = Some t -> do_steps f (map WriteTemp l) = mkFiles (store f) (Some (t ++ l)).
Proof.
  revert f t. induction l as [|b l IH]; intros f t E; cbn; [rewrite app_nil_r, <- E; now destruct f|]. unfold do_steps in IH. rewrite (IH _ (t ++ [b])); cbn; [now rewrite <- app_assoc|]. now rewrite E.
Qed.
Definition is_temp (s : step) : bool := match s with OpenTemp | WriteTemp _ => true | _ => false end.
Lemma writes_are_temp l : forallb is_temp (OpenTemp :: map WriteTemp l) = true.
Proof. cbn. now induction l. Qed.
Lemma temp_only l f : forallb is_temp l = true -> store (do_steps f l) = store f.
Proof.
  revert f. induction l as [|s l IH]; intros f E; [easy|]. cbn in E. apply andb_true_iff in E as [A B]. cbn. unfold do_steps in IH. rewrite (IH _ B). now destruct s.
Qed.
Lemma prefix_app {A} (x p q : list A) r : x ++ r = p ++ q -> (exists s, p = x ++ s) \/ (exists y, x = p ++ y /\ q = y ++ r).
Proof.
  revert p. induction x as [|a x IH]; intros p E; [left; now exists p|]. destruct p as [|b p]; cbn in E; [right; exists (a :: x); split; [easy|now symmetry]|].
  injection E as -> E. destruct (IH p E) as [[s ->]|(y & -> & ->)]; [left; now exists s|right; now exists y].
Qed.
Section Pickle.
  Variable pickle : storage -> list N.
  Notation save_steps := (save_steps pickle).
  Notation run_steps := (run_steps pickle).
  Lemma save_done s f : do_steps f (save_steps s) = mkFiles (Some (pickle s)) None.
  Proof. unfold StoreModel.save_steps. change (OpenTemp :: map WriteTemp (pickle s) ++ [Move]) with ([OpenTemp] ++ map WriteTemp (pickle s) ++ [Move]). rewrite !steps_app. cbn [do_steps fold_left do_step].
    fold (do_steps (mkFiles (store f) (Some [])) (map WriteTemp (pickle s))). now rewrite (writes_temp (pickle s) _ []). Qed.
  Lemma save_crash s f x r : save_steps s = x ++ r -> r <> [] -> store (do_steps f x) = store f.
  Proof.
    intros E N. assert (T : forallb is_temp x = true).
    { unfold StoreModel.save_steps in E. change (OpenTemp :: map WriteTemp (pickle s) ++ [Move]) with ((OpenTemp :: map WriteTemp (pickle s)) ++ [Move]) in E. symmetry in E.
      destruct (prefix_app _ _ _ _ E) as [[s' P]|(y & P & Q)].
      - assert (A : forallb is_temp (OpenTemp :: map WriteTemp (pickle s)) = true) by apply writes_are_temp. rewrite P, forallb_app in A. now apply andb_true_iff in A.
      - destruct y as [|z y]; [rewrite app_nil_r in P; subst x; apply writes_are_temp|]. destruct y; [|discriminate]. cbn in Q. injection Q as _ Q. symmetry in Q. contradiction. }
    now apply temp_only.
  Qed.
  Lemma run_crash batches s f x r : run_steps s batches = x ++ r ->
    (store (do_steps f x) = store f) \/ exists k, (0 < k <= length batches)%nat /\ store (do_steps f x) = Some (pickle (put_results s (concat (firstn k batches)))).
  Proof.
    revert s f x. induction batches as [|b batches IH]; intros s f x E; cbn [StoreModel.run_steps] in E.
    - destruct x; [now left|discriminate].
    - symmetry in E. destruct (prefix_app _ _ _ _ E) as [[s' P]|(y & -> & Q)].
      + destruct s' as [|z s'].
        * rewrite app_nil_r in P. subst x. right. exists 1%nat. split; [cbn; lia|]. rewrite save_done. cbn. now rewrite app_nil_r.
        * left. now apply (save_crash (put_results s b) f x (z :: s')).
      + right. rewrite steps_app. destruct (IH (put_results s b) (do_steps f (save_steps (put_results s b))) y Q) as [H|(k & K & H)].
        * exists 1%nat. split; [cbn; lia|]. rewrite H, save_done. cbn. now rewrite app_nil_r.
        * exists (S k). split; [cbn; lia|]. rewrite H. cbn. do 2 f_equal. unfold put_results. now rewrite fold_left_app.
  Qed.
  Lemma run_done batches s f : batches <> [] -> store (do_steps f (run_steps s batches)) = Some (pickle (put_results s (concat batches))).
  Proof.
    revert s f. induction batches as [|b batches IH]; intros s f N; [easy|]. cbn [StoreModel.run_steps]. rewrite steps_app. destruct batches as [|b' batches].
    - cbn [StoreModel.run_steps do_steps fold_left]. fold (do_steps f (save_steps (put_results s b))). rewrite save_done. cbn. now rewrite app_nil_r.
    - rewrite IH by discriminate. cbn [concat]. unfold put_results. now rewrite <- fold_left_app.
  Qed.
End Pickle.
