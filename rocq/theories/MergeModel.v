(** Merging of result files: picklemerge.py:8-46 *)
From Verif Require Export PyBase DefineModel.
Local Open Scope string_scope.
Local Open Scope list_scope.

(** Nested dictionaries. Everything which is not a mapping is a leaf. Simplification: keys are texts, and leaves support neither [get] nor item
    assignment (lists support the latter for integer keys) (as in picklemerge.py:8-20). *)
Inductive tree := Leaf (v : N) | Node (l : list (string * tree)).
(** [d\[k\] = v] (picklemerge.py:8-20) *)
Definition set_item (d : tree) (k : string) (v : tree) : res tree := match d with Node l => Ok (Node (put k v l)) | Leaf _ => Err TypeError end.
(** [d.get(k, {})] (picklemerge.py:8-20) *)
Definition get_item (d : tree) (k : string) : res tree :=
  match d with Node l => Ok (match lookup k l with Some t => t | None => Node [] end) | Leaf _ => Err AttributeError end.
(** [update(d, u)]: picklemerge.py:8-21. The result is also the new content of [d]. *)
Fixpoint update (u d : tree) {struct u} : res tree :=
  match u with
  | Leaf _ => Err AttributeError
  | Node items =>
      (fix go (items : list (string * tree)) (d : tree) : res tree :=
         match items with
         | [] => Ok d
         | (k, v) :: items' =>
             match v with
             | Node _ => do s <- get_item d k; do r <- update v s; do d' <- set_item d k r; go items' d'
             | Leaf _ => do d' <- set_item d k v; go items' d'
             end
         end) items d
  end.
(** [main] (picklemerge.py:35-46): the destination and all sources have to be mappings. *)
Definition is_mapping (t : tree) : bool := match t with Node _ => true | Leaf _ => false end.
Fixpoint merge_all (sources : list tree) (d : tree) : res tree :=
  match sources with
  | [] => Ok d
  | u :: sources' => if is_mapping u then do d' <- update u d; merge_all sources' d' else Err AssertionError
  end.
Definition merge (destination : tree) (sources : list tree) : res tree := if is_mapping destination then merge_all sources destination else Err AssertionError.
