From Coq Require Import Lia.
From Verif Require Import PyBase PyVal JsonModel JsonSpec.
Local Open Scope list_scope.

Lemma put_key_new k v d : (forall k', In k' (map fst d) -> key_eqb k k' = false) -> put_key k v d = d ++ [(k, v)].
Proof.
  induction d as [|[k' v'] d IH]; cbn; intros N; [easy|]. rewrite (N k') by now left. rewrite IH; [easy|]. intros j I. apply N. now right.
Qed.
Lemma put_all_new (l d : list (value * value)) : distinct_keys (map fst (d ++ l)) -> fold_left (fun d p => put_key (fst p) (snd p) d) l d = d ++ l.
Proof.
  revert d. induction l as [|[k v] l IH]; intros d D; cbn [fold_left]; [now rewrite app_nil_r|]. cbn [fst snd].
  assert (N : forall k', In k' (map fst d) -> key_eqb k k' = false).
  { clear IH. induction d as [|[j w] d IH]; cbn in *; [easy|]. inversion D as [|? ? F D']; subst. intros k' [<-|I]; [apply F; rewrite map_app; apply in_or_app; right; now left|now apply IH]. }
  rewrite put_key_new by exact N. rewrite IH; [now rewrite <- app_assoc|]. now rewrite <- app_assoc.
Qed.
Section Jsonify.
  Variable str : value -> string.
  Lemma json_key_is_key k : text_or_number (json_key str k).
  Proof. unfold json_key. destruct k; cbn; easy. Qed.
  Lemma put_key_json k v d : text_or_number k -> is_json v -> Forall (fun p => text_or_number (fst p) /\ is_json (snd p)) d -> Forall (fun p => text_or_number (fst p) /\ is_json (snd p)) (put_key k v d).
  Proof.
    intros K V. induction d as [|[k' v'] d IH]; cbn; intros F; [now constructor|]. inversion F as [|? ? [A B] F']; subst. destruct (key_eqb k k'); constructor; auto.
  Qed.
  Lemma jsonify_json v : is_json (jsonify str v).
  Proof.
    induction v using value_induction; cbn [jsonify]; try constructor.
    - apply Forall_forall. intros x I. apply in_map_iff in I as (y & <- & I). rewrite Forall_forall in H. now apply H.
    - apply Forall_forall. intros x I. apply in_map_iff in I as (y & <- & I). rewrite Forall_forall in H. now apply H.
    - assert (G : forall m d, Forall (fun p => is_json (snd p)) m -> Forall (fun p => text_or_number (fst p) /\ is_json (snd p)) d ->
        Forall (fun p => text_or_number (fst p) /\ is_json (snd p)) (fold_left (fun d p => put_key (json_key str (fst p)) (snd p) d) m d)).
      { induction m as [|p m IH]; cbn; intros d M D; [easy|]. inversion M; subst. apply IH; [easy|]. apply put_key_json; [apply json_key_is_key|easy|easy]. }
      apply G; [|constructor]. apply Forall_forall. intros x I. apply in_map_iff in I as (y & <- & I). cbn. rewrite Forall_forall in H. now apply H.
  Qed.
  (** Converted keys *)
  Lemma fold_keys (m : list (value * value)) d : fold_left (fun d p => put_key (json_key str (fst p)) (snd p) d) m d =
    fold_left (fun d p => put_key (fst p) (snd p) d) (map (fun p => (json_key str (fst p), snd p)) m) d.
  Proof. revert d. induction m as [|p m IH]; intros d; cbn; [easy|]. apply IH. Qed.
  Lemma jsonify_dict l : distinct_keys (map (fun p => json_key str (fst p)) l) -> jsonify str (VDict l) = VDict (map (fun p => (json_key str (fst p), jsonify str (snd p))) l).
  Proof.
    intros D. cbn [jsonify]. f_equal. rewrite fold_keys, put_all_new; [cbn [app]; rewrite map_map; reflexivity|]. cbn [app]. now rewrite !map_map.
  Qed.
  Lemma jsonify_same v : is_json v -> well_formed v -> jsonify str v = v.
  Proof.
    induction v using value_induction; intros J W; try easy.
    - cbn. f_equal. inversion J as [| | | |? F| |]; subst. inversion W as [? E|? l' E G|]; subst; [discriminate|]. injection E as <-. rewrite <- (map_id l) at 2. apply map_ext_in. intros x I.
      rewrite Forall_forall in *. apply H; auto.
    - cbn. f_equal. inversion J as [| | | | |? F|]; subst. inversion W as [? E|? l' E G|]; subst; [discriminate|]. injection E as <-. rewrite <- (map_id l) at 2. apply map_ext_in. intros x I.
      rewrite Forall_forall in *. apply H; auto.
    - inversion J as [| | | | | |? F]; subst. inversion W as [? E D|? l' E G|? D G]; subst; [now destruct (D l)|discriminate|].
      rewrite Forall_forall in *. assert (K : forall p, In p l -> json_key str (fst p) = fst p) by (intros p I; destruct (F p I) as [X _]; unfold json_key; now destruct (fst p)).
      rewrite jsonify_dict.
      + f_equal. rewrite <- (map_id l) at 2. apply map_ext_in. intros [k x] I. rewrite (K _ I). cbn [fst snd]. f_equal. apply (H (k, x) I); [apply (F (k, x) I)|apply (G (k, x) I)].
      + rewrite (map_ext_in _ fst l K). exact D.
  Qed.
End Jsonify.
