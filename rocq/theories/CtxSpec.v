(** Specification for temporary changes. *)
From Verif Require Import PyBase CtxModel.
Local Open Scope Z_scope.

(** All directories can be removed. *)
Fixpoint removable (p : prog) : Prop :=
  match p with
  | Skip | Show | Fail _ => True
  | Call q | Limit _ q | NoSort q => removable q
  | Seq q r | Try q r => removable q /\ removable r
  | Temp b q => b = true /\ removable q
  end.
(** Numbers of directories are not used again. *)
Definition consistent (s : state) : Prop := forall d, In d (dirs s) -> d < made s.
(** [k] nested calls *)
Fixpoint nested (k : nat) : prog := match k with O => Skip | S k' => Call (nested k') end.
