(** Which objects can be written as JSON *)
From Verif Require Export PyVal.
Local Open Scope list_scope.

(** Texts, numbers, booleans, arrays (lists and tuples) and objects whose keys are texts or numbers; null is left out. *)
Definition text_or_number (k : value) : Prop := match k with VStr _ | VInt _ | VBool _ | VFloat _ => True | _ => False end.
Inductive is_json : value -> Prop :=
| json_str s : is_json (VStr s) | json_int z : is_json (VInt z) | json_bool b : is_json (VBool b) | json_float x : is_json (VFloat x)
| json_list l : Forall is_json l -> is_json (VList l) | json_tuple l : Forall is_json l -> is_json (VTuple l)
| json_dict l : Forall (fun p => text_or_number (fst p) /\ is_json (snd p)) l -> is_json (VDict l).

(** Dictionaries, at any depth, have keys which are different. *)
Inductive distinct_keys : list value -> Prop :=
| dk_nil : distinct_keys []
| dk_cons k l : (forall k', In k' l -> key_eqb k' k = false) -> distinct_keys l -> distinct_keys (k :: l).
Inductive well_formed : value -> Prop :=
| wf_atom v : elements v = None -> (forall l, v <> VDict l) -> well_formed v
| wf_elements v l : elements v = Some l -> Forall well_formed l -> well_formed v
| wf_dict l : distinct_keys (map fst l) -> Forall (fun p => well_formed (snd p)) l -> well_formed (VDict l).
