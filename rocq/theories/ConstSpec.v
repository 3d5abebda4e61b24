(** Specification of constants: what was set last. *)
From Coq Require Import String.
From Verif Require Import PyBase ConstModel.
Local Open Scope Z_scope.

(** The history with the latest operation first. *)
Fixpoint last_set (rh : list op) (k : nat) (name : string) : option Z :=
  match rh with
  | [] => None
  | SetC k' n v :: rh' => if (Nat.eqb k' k && String.eqb n name)%bool then Some v else last_set rh' k name
  | Clear k' :: rh' => if Nat.eqb k' k then None else last_set rh' k name
  | Subs _ _ :: rh' => last_set rh' k name
  end.
(** Value set last in the history [h], if any (and if not cleared since). *)
Definition current (h : list op) (k : nat) (name : string) : option Z := last_set (rev h) k name.

(** Meaning of expressions. *)
Fixpoint value (rho : string -> Z) (e : expr) : Z :=
  match e with
  | Num z => z
  | Sym s => rho s
  | Add a b => value rho a + value rho b
  | Mul a b => value rho a * value rho b
  end.
Definition with_current (h : list op) (k : nat) (rho : string -> Z) : string -> Z :=
  fun s => match current h k s with Some v => v | None => rho s end.

(** Kernel [k] has been asked to substitute since the last call of clear_state (of any kernel). *)
Fixpoint substituted (rh : list op) (k : nat) : bool :=
  match rh with
  | [] => false
  | Clear _ :: _ => false
  | Subs k' _ :: rh' => (Nat.eqb k' k || substituted rh' k)%bool
  | SetC _ _ _ :: rh' => substituted rh' k
  end.
(** Constants are set only before the first substitution. *)
Fixpoint disciplined_rev (rh : list op) : Prop :=
  match rh with
  | [] => True
  | SetC k _ _ :: rh' => substituted rh' k = false /\ disciplined_rev rh'
  | _ :: rh' => disciplined_rev rh'
  end.
Definition disciplined (h : list op) : Prop := disciplined_rev (rev h).

(** Constants set one after the other, as by [-D] options. *)
Definition defines (l : list (string * Z)) : list op := map (fun x => SetC 0 (fst x) (snd x)) l.
