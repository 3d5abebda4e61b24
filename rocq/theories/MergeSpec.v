(** What merging nested dictionaries is to mean *)
From Verif Require Export PyBase MergeModel.
Local Open Scope list_scope.

(** The entry at a path of keys. (Trees are those of the model.) *)
Inductive kind := IsLeaf (v : N) | IsNode.
Fixpoint entry (t : tree) (p : list string) : option kind :=
  match p with
  | [] => Some (match t with Leaf v => IsLeaf v | Node _ => IsNode end)
  | k :: p' => match t with Leaf _ => None | Node l => match find (fun x => String.eqb k (fst x)) l with Some (_, t') => entry t' p' | None => None end end
  end.
(** A dictionary has every key once. *)
Inductive unique_keys : tree -> Prop :=
| uk_leaf v : unique_keys (Leaf v)
| uk_node l : NoDup (map fst l) -> Forall (fun x => unique_keys (snd x)) l -> unique_keys (Node l).
(** A leaf of [u] is above [p]. *)
Definition leaf_above (u : tree) (p : list string) : Prop := exists q r v, p = q ++ r /\ r <> [] /\ entry u q = Some (IsLeaf v).
(** A nonempty dictionary of [u] meets a leaf of [d]. *)
Definition conflict (u d : tree) : Prop := exists p k v, entry d p = Some (IsLeaf v) /\ entry u p = Some IsNode /\ entry u (p ++ [k]) <> None.
