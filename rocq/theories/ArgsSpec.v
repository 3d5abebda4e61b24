(** Specification of the arguments of the program *)
From Verif Require Export PyBase PyText AstModel AstSpec ArgsModel.
Local Open Scope string_scope.
Local Open Scope list_scope.

(** Symbols written in an expression *)
Fixpoint symbols (s : sym) : list string :=
  match s with SVar n => [n] | SInt _ => [] | SMul a b | SAdd a b | SSub a b => symbols a ++ symbols b end.
(** What [free_symbols] of an algebra system may leave out: symbols that have no influence on the value *)
Definition free_symbols (free : sym -> list string) : Prop :=
  (forall s, incl (free s) (symbols s)) /\
  (forall s env env', (forall n, In n (free s) -> env n = env' n) -> seval env s = seval env' s).
(** Expressions of a kernel, one by one *)
Definition size_of (k : kernel) (s : sym) : Prop := exists v dims, In (v, Some dims) (k_variables k) /\ In s dims.
Definition bound_of (k : kernel) (s : sym) : Prop := exists l, In l (k_loops k) /\ (s = l_start l \/ s = l_stop l).
Definition index_of_access (k : kernel) (s : sym) : Prop :=
  exists v l idx, (In (v, l) (k_sources k) \/ In (v, l) (k_destinations k)) /\ In (Some idx) l /\ In s idx.
Definition step_of (k : kernel) (s : sym) : Prop := exists l, In l (k_loops k) /\ s = l_step l.
Definition is_index (k : kernel) (n : string) : Prop := exists l, In l (k_loops k) /\ l_index l = n.
(** Values of symbols that agree with the constants *)
Definition respects (constants : list (string * Z)) (env : string -> Z) : Prop := forall n v, In (n, v) constants -> env n = v.
(** An expression is a number: it has the same value for all symbols that are not constants. *)
Definition number (constants : list (string * Z)) (s : sym) : Prop :=
  forall env env', respects constants env -> respects constants env' -> seval env s = seval env' s.
(** The unit a model is documented to have if it is used on its own *)
Definition default_unit (m : pmodel) : output_unit := match m with RooflineFLOP | RooflineASM | RooflineIACA => FlopPerS | _ => CyPerCL end.
