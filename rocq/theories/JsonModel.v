(** Results as JSON: kerncraft.py:279-301 *)
From Verif Require Export PyVal.
Local Open Scope string_scope.
Local Open Scope Z_scope.
Local Open Scope list_scope.

(** [d\[k\] = v]: an equal key keeps its place (kerncraft.py:298). *)
Fixpoint put_key (k v : value) (d : list (value * value)) : list (value * value) :=
  match d with [] => [(k, v)] | (k', v') :: d' => if key_eqb k k' then (k', v) :: d' else (k', v') :: put_key k v d' end.

Section Jsonify.
  (** [str()] of other objects (kerncraft.py:297, 301) *)
  Variable str : value -> string.
  Definition is_key (k : value) : bool := match k with VStr _ | VInt _ | VBool _ | VFloat _ => true | _ => false end.
  (** kerncraft.py:295-296 *)
  Definition json_key (k : value) : value := if is_key k then k else VStr (str k).
  (** Booleans are integers (kerncraft.py:279-301). *)
  Fixpoint jsonify (v : value) : value :=
    match v with
    | VStr _ | VInt _ | VBool _ | VFloat _ => v
    | VList l => VList (map jsonify l)
    | VTuple l => VTuple (map jsonify l)
    | VDict l => VDict (fold_left (fun d p => put_key (json_key (fst p)) (snd p) d) (map (fun p => (fst p, jsonify (snd p))) l) [])
    | _ => VStr (str v)
    end.
End Jsonify.
