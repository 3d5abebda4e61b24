(** Specification for declarations taken from the kernel: what a generator of code sees of a declaration. *)
From Coq Require Import String.
From Verif Require Import PyBase DeclModel.

(** Name of the declaration, declared name, is it a pointer, storage *)
Definition view (h : heap) (a : nat) : option (string * string * bool * list string) :=
  match nth_error h a with
  | Some (Decl n t s) =>
      match nth_error h t with
      | Some (TypeDecl dn) => Some (n, dn, false, s)
      | Some (PtrDecl t') => match nth_error h t' with Some (TypeDecl dn) => Some (n, dn, true, s) | _ => None end
      | _ => None
      end
  | _ => None
  end.
(** All objects that existed before are as before. *)
Definition kept (h h' : heap) : Prop := exists new, h' = h ++ new.
(** [d] is seen as a scalar with the given name and storage. *)
Definition scalar (h : heap) (d : nat) (n dn : string) (s : list string) : Prop := view h d = Some (n, dn, false, s).
