(** C46: Merging result files keeps all entries *)
From Verif Require Import PyBase DefineModel MergeModel MergeSpec MergeProofs.
Local Open Scope string_scope.
Local Open Scope N_scope.
Local Open Scope list_scope.

(** Every entry of the result: those of the source; below a leaf of the source nothing; otherwise those of the destination. Empty dictionaries of the
    source leave leaves of the destination. *)
Theorem C46_entries : forall u d r, unique_keys u -> update u d = Ok r -> forall p,
  match entry u p with
  | Some (IsLeaf v) => entry r p = Some (IsLeaf v)
  | Some IsNode => match entry d p with Some (IsLeaf w) => entry r p = Some (IsLeaf w) | _ => entry r p = Some IsNode end
  | None => leaf_above u p /\ entry r p = None \/ ~ leaf_above u p /\ entry r p = entry d p
  end.
Proof. exact (fun u d r U H p => update_merged u U d r H p). Qed.
Print Assumptions C46_entries.

(** What the source mentions is taken. *)
Theorem C46_taken : forall u d r p v, unique_keys u -> update u d = Ok r -> entry u p = Some (IsLeaf v) -> entry r p = Some (IsLeaf v).
Proof. intros u d r p v U H E. assert (M := update_merged u U d r H p). unfold merged in M. now rewrite E in M. Qed.
Print Assumptions C46_taken.
(** What it does not mention is kept. *)
Theorem C46_kept : forall u d r p, unique_keys u -> update u d = Ok r -> entry u p = None -> ~ leaf_above u p -> entry r p = entry d p.
Proof. intros u d r p U H E N. assert (M := update_merged u U d r H p). unfold merged in M. rewrite E in M. now destruct M as [[A _]|[_ M]]. Qed.
Print Assumptions C46_kept.
(** Nothing else appears. *)
Theorem C46_nothing_else : forall u d r p v, unique_keys u -> update u d = Ok r -> entry r p = Some (IsLeaf v) -> entry u p = Some (IsLeaf v) \/ entry d p = Some (IsLeaf v).
Proof.
  intros u d r p v U H E. assert (M := update_merged u U d r H p). unfold merged in M. destruct (entry u p) as [[w|]|].
  - left. congruence.
  - destruct (entry d p) as [[w|]|]; [right; congruence|congruence|congruence].
  - destruct M as [[_ M]|[_ M]]; [congruence|right; congruence].
Qed.
Print Assumptions C46_nothing_else.

(** It fails exactly if a nonempty dictionary of the source meets something in the destination which is no dictionary. *)
Theorem C46_errors : forall u d, unique_keys u -> is_mapping u = true ->
  (conflict u d <-> exists e, update u d = Err e) /\ (forall e, update u d = Err e -> e = TypeError \/ e = AttributeError).
Proof.
  intros u d U M. split; [split|].
  - intros C. destruct (update_conflict u U d C) as (e & E & _). now exists e.
  - intros [e E]. exact (proj1 (update_err u U M d e E)).
  - intros e E. exact (proj2 (update_err u U M d e E)).
Qed.
Print Assumptions C46_errors.

(** Several sources are merged one after the other, so the last source which mentions an entry decides. *)
Theorem C46_sources : forall d sources last r, merge d (sources ++ [last]) = Ok r <-> exists m, merge d sources = Ok m /\ is_mapping last = true /\ update last m = Ok r.
Proof.
  intros d sources last r. unfold merge. destruct (is_mapping d); [|split; [discriminate|intros (m & E & _); discriminate]]. rewrite merge_all_app. destruct (merge_all sources d) as [m|e]; cbn.
  - destruct (is_mapping last) eqn:L.
    + split; [intros H; exists m; split; [easy|]; split; [easy|]; destruct (update last m); cbn in H; [congruence|discriminate]|]. intros (m' & [= <-] & _ & E). now rewrite E.
    + split; [discriminate|]. intros (m' & _ & E & _). discriminate.
  - split; [discriminate|]. intros (m' & E & _). discriminate.
Qed.
Print Assumptions C46_sources.

(** Refuted: "what the source mentions is taken" for empty dictionaries: they do not replace other objects, while other objects replace dictionaries. *)
Theorem C46_empty_refuted : forall k v l, update (Node [(k, Node [])]) (Node [(k, Leaf v)]) = Ok (Node [(k, Leaf v)]) /\ update (Node [(k, Leaf v)]) (Node [(k, Node l)]) = Ok (Node [(k, Leaf v)]).
Proof. intros k v l. cbn. rewrite String.eqb_refl. cbn. split; reflexivity. Qed.
Print Assumptions C46_empty_refuted.

(** ** Examples *)
Definition dest : tree := Node [("a", Node [("x", Leaf 1); ("y", Leaf 2)]); ("b", Leaf 3)].
Definition source : tree := Node [("a", Node [("y", Leaf 20); ("z", Node [("w", Leaf 30)])]); ("c", Leaf 4)].
Example C46_ex : update source dest = Ok (Node [("a", Node [("x", Leaf 1); ("y", Leaf 20); ("z", Node [("w", Leaf 30)])]); ("b", Leaf 3); ("c", Leaf 4)]).
Proof. reflexivity. Qed.
Example C46_unique_ex : unique_keys source.
Proof. repeat (constructor; cbn; try (intuition discriminate)). Qed.
Example C46_kept_ex : entry source ["a"; "x"] = None /\ ~ leaf_above source ["a"; "x"] /\ entry dest ["a"; "x"] = Some (IsLeaf 1).
Proof.
  split; [easy|]. split; [|easy]. intros (q & r & v & E & N & H). destruct q as [|k1 [|k2 [|k3 q]]]; cbn in E; inversion E; subst; cbn in H; try discriminate; try easy.
Qed.
Example C46_errors_ex : conflict source (Node [("a", Leaf 7)]) /\ update source (Node [("a", Leaf 7)]) = Err TypeError.
Proof. split; [|reflexivity]. exists ["a"], "y", 7. split; [easy|]. split; [easy|]. discriminate. Qed.
Example C46_sources_ex : merge dest [source; Node [("c", Leaf 5)]] = Ok (Node [("a", Node [("x", Leaf 1); ("y", Leaf 20); ("z", Node [("w", Leaf 30)])]); ("b", Leaf 3); ("c", Leaf 5)]).
Proof. reflexivity. Qed.
