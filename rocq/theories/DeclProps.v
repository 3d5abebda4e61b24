(** C148: declarations for generated code are taken from the kernel without changing it. *)
From Coq Require Import String.
From Verif Require Import PyBase DeclModel DeclSpec DeclProofs.

(** The declarations of all scalars are returned in their order, with the suffix at both names, as pointers if asked for, and the nodes of the kernel are
    as before. *)
Theorem C148_declarations : forall h items pointer suffix, exists h' l, get_scalar_declarations h items pointer suffix = (h', l) /\ kept h h' /\
  Forall2 (fun d d' => exists n dn s, scalar h d n dn s /\ view h' d' = Some ((n ++ suffix)%string, (dn ++ suffix)%string, pointer, s)) (filter (is_scalar h) items) l.
Proof.
  intros h items p sfx. unfold get_scalar_declarations. destruct (each_spec p sfx (filter (is_scalar h) items) h) as (new & r & E & F & _).
  { intros d I. apply filter_In in I. now apply is_scalar_view. }
  exists (h ++ new), r. split; [exact E|]. split; [now exists new|]. exact F.
Qed.
Print Assumptions C148_declarations.
(** Which statements are scalars: those a generator of code sees as a declaration without pointer. *)
Theorem C148_scalars : forall h d, is_scalar h d = true <-> exists n dn s, view h d = Some (n, dn, false, s).
Proof. exact is_scalar_view. Qed.
Print Assumptions C148_scalars.
(** With suffix or pointers, all returned nodes are new, so that changing them does not change the kernel. *)
Theorem C148_new_partial : forall h items pointer suffix, suffix <> ""%string \/ pointer = true ->
  forall d, In d (snd (get_scalar_declarations h items pointer suffix)) -> (List.length h <= d)%nat.
Proof.
  intros h items p sfx T d I. unfold get_scalar_declarations in I. destruct (each_spec p sfx (filter (is_scalar h) items) h) as (new & r & E & _ & A & _).
  { intros x J. apply filter_In in J. now apply is_scalar_view. }
  rewrite E in I. apply (A); [|exact I]. destruct T as [T| ->]; [|apply orb_true_r]. unfold truth. destruct (String.eqb_spec sfx ""); [contradiction|reflexivity].
Qed.
Print Assumptions C148_new_partial.
(** Without both, the nodes of the kernel themselves are returned: a caller that changes them changes the kernel. *)
Theorem C148_shared_refuted : forall h items, get_scalar_declarations h items false "" = (h, filter (is_scalar h) items).
Proof.
  intros h items. unfold get_scalar_declarations. destruct (each_spec false "" (filter (is_scalar h) items) h) as (new & r & E & _ & _ & B).
  { intros x J. apply filter_In in J. now apply is_scalar_view. }
  destruct (B eq_refl) as [-> ->]. now rewrite app_nil_r in E.
Qed.
Print Assumptions C148_shared_refuted.
(** The declarations with storage extern have the names of the scalars, and the kernel is unchanged. *)
Theorem C148_extern : forall h items, exists h' l, build_scalar_extern_declarations h items = (h', l) /\ kept h h' /\ (forall d, In d l -> (List.length h <= d)%nat) /\
  Forall2 (fun d d' => exists n dn s, scalar h d n dn s /\ view h' d' = Some (n, dn, false, ["extern"%string])) (filter (is_scalar h) items) l.
Proof. intros h items. destruct (extern_spec h items) as (new & r & E & A & F). exists (h ++ new), r. split; [exact E|]. split; [now exists new|]. now split. Qed.
Print Assumptions C148_extern.

(** A kernel with two scalars, an array and a loop *)
Definition kernel_heap : heap := [TypeDecl "s"; Decl "s" 0 []; OtherNode; Decl "a" 2 []; TypeDecl "t"; Decl "t" 4 ["static"%string]; OtherNode].
Definition items : list nat := [1; 3; 5; 6]%nat.
Example C148_example : let (h, l) := get_scalar_declarations kernel_heap items true "_" in
  map (view h) l = [Some ("s_", "s_", true, []); Some ("t_", "t_", true, ["static"])]%string /\ firstn 7 h = kernel_heap /\ l = [8; 11]%nat.
Proof. vm_compute. repeat split. Qed.
Example C148_shared_example : let (h, l) := get_scalar_declarations kernel_heap items false "" in l = [1; 5]%nat /\ view (fold_left set_extern l h) 1 = Some ("s", "s", false, ["extern"])%string.
Proof. vm_compute. repeat split. Qed.
Example C148_extern_example : let (h, l) := build_scalar_extern_declarations kernel_heap items in
  map (view h) l = [Some ("s", "s", false, ["extern"]); Some ("t", "t", false, ["extern"])]%string /\ firstn 7 h = kernel_heap.
Proof. vm_compute. repeat split. Qed.
