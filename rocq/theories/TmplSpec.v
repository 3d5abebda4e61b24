(** Specification: substitution in trees, all at once. Of the model only the trees are used. *)
From Coq Require Import String.
From Verif Require Import PyBase TmplModel.
Local Open Scope string_scope.
Local Open Scope list_scope.

(** Identifiers of a tree *)
Fixpoint mentions (id : string) (n : node) : Prop :=
  match n with
  | Id m => m = id
  | Node _ _ ones items =>
      (fix any (l : list node) : Prop := match l with [] => False | x :: l' => mentions id x \/ any l' end) ones
      \/ (fix any (l : list node) : Prop := match l with [] => False | x :: l' => mentions id x \/ any l' end) items
  end.
(** Substitution of lists of nodes for identifiers; in a place for a single node only lists of length one make sense *)
Definition single (l : list node) : node := match l with [x] => x | _ => Node "list" [] [] l end.
Fixpoint fill (s : string -> option (list node)) (n : node) : list node :=
  match n with
  | Id m => match s m with Some l => l | None => [Id m] end
  | Node k ts ones items => [Node k ts (map (fun a => single (fill s a)) ones) (flat_map (fill s) items)]
  end.
Definition nodes (r : replacement) : list node := match r with Single x => [x] | Inject l => l end.
Definition only (id : string) (r : replacement) (m : string) : option (list node) := if String.eqb m id then Some (nodes r) else None.
Fixpoint assigned (l : list (string * replacement)) (m : string) : option (list node) :=
  match l with [] => None | (id, r) :: l' => if String.eqb m id then Some (nodes r) else assigned l' m end.

(** Lists are only put into lists: the identifier is nowhere in the place of a single node. No bare lists in the tree. *)
Fixpoint in_lists (id : string) (n : node) : Prop :=
  match n with
  | Id _ => True
  | Node k _ ones items =>
      k <> "list"
      /\ (fix all (l : list node) : Prop := match l with [] => True | x :: l' => (x <> Id id /\ in_lists id x) /\ all l' end) ones
      /\ (fix all (l : list node) : Prop := match l with [] => True | x :: l' => in_lists id x /\ all l' end) items
  end.
(** Behind the identifier no other use of it follows as the next element of the same list. *)
Fixpoint apart (id : string) (l : list node) : Prop :=
  match l with
  | [] => True
  | x :: l' => (x = Id id -> match l' with [] => True | y :: _ => ~ mentions id y end) /\ apart id l'
  end.
Fixpoint all_apart (id : string) (n : node) : Prop :=
  match n with
  | Id _ => True
  | Node _ _ ones items =>
      apart id items
      /\ (fix all (l : list node) : Prop := match l with [] => True | x :: l' => all_apart id x /\ all l' end) ones
      /\ (fix all (l : list node) : Prop := match l with [] => True | x :: l' => all_apart id x /\ all l' end) items
  end.
Definition placeholders : list string := ["DECLARE_CONSTS"; "DECLARE_ARRAYS"; "DECLARE_INIT_SCALARS"; "DUMMY_CALLS"; "KERNEL_CALL"; "INIT_ARRAYS"].
(** No identifier of the pieces is called like a placeholder. *)
Definition clean (p : pieces) : Prop :=
  forall h, In h placeholders ->
    ~ In h (map fst (top p)) /\ ~ In h (constants p)
    /\ forall x, In x (const_decls p ++ array_decls p ++ scalar_decls p ++ array_inits p) -> ~ mentions h x.
(** No bare lists in a tree *)
Fixpoint proper (n : node) : Prop :=
  match n with
  | Id _ => True
  | Node k _ ones items =>
      k <> "list"
      /\ (fix all (l : list node) : Prop := match l with [] => True | x :: l' => proper x /\ all l' end) ones
      /\ (fix all (l : list node) : Prop := match l with [] => True | x :: l' => proper x /\ all l' end) items
  end.
(** Arguments of a call *)
Definition arguments (n : node) : list node := match n with Node "FuncCall" _ [_; Node "ExprList" _ _ args] _ => args | _ => [] end.
(** What belongs in the place of each placeholder *)
Definition intended (p : pieces) (m : string) : option (list node) :=
  if String.eqb m "DECLARE_CONSTS" then Some (const_decls p)
  else if String.eqb m "DECLARE_ARRAYS" then Some (array_decls p)
  else if String.eqb m "DECLARE_INIT_SCALARS" then Some (scalar_decls p)
  else if String.eqb m "INIT_ARRAYS" then Some (array_inits p)
  else if String.eqb m "DUMMY_CALLS" then Some [build_dummy_calls (top p)]
  else if String.eqb m "KERNEL_CALL" then Some [build_kernel_call "kernel" (top p) (constants p)]
  else None.
(** The pieces are trees without bare lists. *)
Definition proper_pieces (p : pieces) : Prop :=
  forall x, In x (const_decls p ++ array_decls p ++ scalar_decls p ++ array_inits p) -> proper x.
(** An argument fits a parameter: arrays are passed by their name, scalars by their address to a parameter with the suffix, constants by value. *)
Definition fits_parameter (ds : decls) (consts : list string) (param : string * bool) (arg : node) : Prop :=
  match arg with
  | Id n => fst param = n /\ if snd param then In (n, KArray) ds else In n consts
  | Node "UnaryOp" ["&"] [Id n] [] => fst param = (n ++ "_")%string /\ snd param = true /\ In (n, KScalar) ds
  | _ => False
  end.
(** How a variable is handed to a function that must be assumed to change it *)
Definition by_reference (d : string * dkind) : node :=
  match snd d with KArray => Id (fst d) | _ => Node "UnaryOp" ["&"] [Id (fst d)] [] end.
