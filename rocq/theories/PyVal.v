(** Python objects as far as results and arguments contain them. Nothing in here is specific to kerncraft. *)
From Coq Require Export String.
From Verif Require Export PyBase PyNum.
Local Open Scope list_scope.

(** [VObj]: any other object, known by a number. Files are known by their name and content. *)
Inductive value :=
| VInt (z : Z) | VStr (s : string) | VBool (b : bool) | VFloat (x : num) | VNone
| VList (l : list value) | VTuple (l : list value) | VDict (l : list (value * value))
| VFile (name content : string) | VObj (n : N).

Section Induction.
  Variable P : value -> Prop.
  Hypothesis int : forall z, P (VInt z).
  Hypothesis str : forall s, P (VStr s).
  Hypothesis bool : forall b, P (VBool b).
  Hypothesis float : forall x, P (VFloat x).
  Hypothesis none : P VNone.
  Hypothesis list : forall l, Forall P l -> P (VList l).
  Hypothesis tuple : forall l, Forall P l -> P (VTuple l).
  Hypothesis dict : forall l, Forall (fun p => P (fst p) /\ P (snd p)) l -> P (VDict l).
  Hypothesis file : forall n c, P (VFile n c).
  Hypothesis obj : forall n, P (VObj n).
  Fixpoint value_induction (v : value) : P v :=
    match v with
    | VInt z => int z | VStr s => str s | VBool b => bool b | VFloat x => float x | VNone => none
    | VList l => list l ((fix go l : Forall P l := match l with nil => Forall_nil _ | cons x l' => Forall_cons _ (value_induction x) (go l') end) l)
    | VTuple l => tuple l ((fix go l : Forall P l := match l with nil => Forall_nil _ | cons x l' => Forall_cons _ (value_induction x) (go l') end) l)
    | VDict l => dict l ((fix go l : Forall (fun p => P (fst p) /\ P (snd p)) l := match l with nil => Forall_nil _ | cons x l' => Forall_cons _ (conj (value_induction (fst x)) (value_induction (snd x))) (go l') end) l)
    | VFile n c => file n c | VObj n => obj n
    end.
End Induction.
(** The elements of a list or tuple *)
Definition elements (v : value) : option (list value) := match v with VList l | VTuple l => Some l | _ => None end.
(** [hash(v)] does not raise a TypeError. *)
Inductive hashable : value -> Prop :=
| hash_int z : hashable (VInt z) | hash_str s : hashable (VStr s) | hash_bool b : hashable (VBool b) | hash_float x : hashable (VFloat x) | hash_none : hashable VNone
| hash_tuple l : Forall hashable l -> hashable (VTuple l) | hash_file n c : hashable (VFile n c) | hash_obj n : hashable (VObj n).
Fixpoint hashableb (v : value) : bool :=
  match v with VList _ | VDict _ => false | VTuple l => forallb hashableb l | _ => true end.
Lemma hashableb_spec v : hashableb v = true <-> hashable v.
Proof.
  induction v using value_induction; cbn; split; intros E; try constructor; try easy; try (now inversion E).
  - rewrite forallb_forall in E. rewrite Forall_forall in *. intros x I. apply H, E; easy.
  - inversion E as [| | | | |? F| |]; subst. apply forallb_forall. intros x I. rewrite Forall_forall in *. apply H; [easy|now apply F].
Qed.
(** Equality of keys of a dictionary ([==]) as far as keys are texts or numbers: integers, booleans and floats are compared as numbers. *)
Definition number (v : value) : option num :=
  match v with VInt z => Some (Fin (inject_Z z)) | VBool b => Some (Fin (if b then 1 else 0)) | VFloat x => Some x | _ => None end.
Definition key_eqb (a b : value) : bool :=
  match a, b with
  | VStr s, VStr t => String.eqb s t
  | _, _ => match number a, number b with Some x, Some y => neqb x y | _, _ => false end
  end.
