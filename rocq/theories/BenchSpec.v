(** What a user expects of benchmarks: independent of the code. *)
From Verif Require Import BenchModel.
Local Open Scope Z_scope.
Local Open Scope list_scope.

(** An environment variable that can exist: its name is not empty and has neither '=' nor NUL, its value has no NUL. *)
Definition name_ok (n : text) : Prop := n <> [] /\ ~ In 61%N n /\ ~ In 0%N n.
Definition value_ok (v : text) : Prop := ~ In 0%N v.
Definition env_ok (e : env) : Prop := forall n v, e n = Some v -> name_ok n /\ value_ok v.
(** Both environments have the same variables with the same values. *)
Definition same_env (e e' : env) : Prop := forall n, e n = e' n.
(** Code that changes at most the given variables. *)
Definition changes_only {A} (names : list text) (body : env -> env * res A) : Prop :=
  forall e n, ~ In n names -> fst (body e) n = e n.

(** [w] may have replaced [v]: only the value changed, and it moved from the start towards the end of the range of [v], not beyond. *)
Definition moved (v w : var) : Prop :=
  v_adjustable w = v_adjustable v /\ v_regions w = v_regions v /\ v_scale w = v_scale v /\ v_stop w = v_stop v /\
  (v_value w = v_value v \/
   v_adjustable v = true /\
   match v_scale v with
   | Lin => v_value v <= v_value w <= v_stop v
   | Log => v_stop v <= v_value w <= v_value v
   end)%Q.
(** The variable can be moved further. *)
Definition has_room (v : var) : Prop :=
  match v_scale v with Lin => v_value v < v_stop v | Log => v_stop v < v_value v end%Q.
(** Ranges with positive ends *)
Definition positive (v : var) : Prop := (0 < v_value v /\ 0 < v_stop v)%Q.

(** Number of repetitions of region [r] in a run: the given number, the value of the variable, or the number of times the marked region
    was entered. *)
Definition count_of (calls define : text -> Z) (s : source) (r : text) : Z :=
  match s with Marker => calls r | Variable_ x => define x | Fixed n => n end.
(** [(r, p)] is the configuration that applies to region [r]: its own, or the one of the region ''. *)
Definition applies (config : list (text * rep)) (r key : text) (p : rep) : Prop :=
  In (key, p) config /\ (key = r \/ key = [] /\ forall q, ~ In (r, q) config).
