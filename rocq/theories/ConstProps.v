(** Properties C14 and C55: constants. *)
From Coq Require Import String.
From Verif Require Import PyBase ConstModel ConstSpec ConstProofs.
Local Open Scope Z_scope.
Local Open Scope string_scope.

(** Substitution uses the values set last, if constants of a kernel are set only before its first
    substitution after clear_state; the size of the cache and other kernels do not matter. *)
Theorem C14_substitutes_current_partial : forall h k e,
  disciplined h -> forall rho,
  value rho (fst (subs_consts (exec h) k e)) = value (with_current h k rho) e.
Proof. exact subs_current. Qed.
Print Assumptions C14_substitutes_current_partial.

Definition C14_expr : expr := Add (Mul (Sym "N") (Sym "M")) (Sym "i").
Definition C14_history : list op :=
  [SetC 0 "N" 10; SetC 0 "M" 3; SetC 1 "N" 7; SetC 0 "N" 11; Subs 0 C14_expr;
   SetC 1 "M" 2; Subs 1 C14_expr; Clear 0; SetC 0 "N" 20; SetC 0 "M" 2].
Example C14_case : disciplined C14_history /\
  fst (subs_consts (exec C14_history) 0 C14_expr) = Add (Mul (Num 20) (Num 2)) (Sym "i") /\
  fst (subs_consts (exec C14_history) 1 C14_expr) = Add (Mul (Num 7) (Num 2)) (Sym "i").
Proof. repeat split; vm_compute; reflexivity. Qed.

(** A constant changed after a substitution is ignored. *)
Theorem C14_stale_refuted : exists h e,
  fst (subs_consts (exec h) 0 e) = Num 10 /\ current h 0 "N" = Some 20 /\ e = Sym "N".
Proof.
  exists [SetC 0 "N" 10; Subs 0 (Sym "N"); SetC 0 "N" 20], (Sym "N").
  repeat split; vm_compute; reflexivity.
Qed.
Print Assumptions C14_stale_refuted.

(** A benchmark program gets, for each constant, its current value, independently of the order in
    which the constants were set, now and when the program was generated; the same constants must
    have been set then, and the value must fit in 32 bits. *)
Theorem C55_constants_partial : forall l1 l2 name v,
  (forall n, In n (map fst l1) <-> In n (map fst l2)) ->
  current (defines l2) 0 name = Some v -> - 2^31 <= v < 2^31 ->
  program_value (kernels (exec (defines l1)) 0%nat) (kernels (exec (defines l2)) 0%nat) name = Some v.
Proof. exact program_constants. Qed.
Print Assumptions C55_constants_partial.

Example C55_case :
  (forall n, In n (map fst [("N", 1); ("M", 2); ("K", 3)]) <-> In n (map fst [("M", 100); ("K", 200); ("N", 300); ("K", 250)]))
  /\ map (program_value (kernels (exec (defines [("N", 1); ("M", 2); ("K", 3)])) 0%nat)
           (kernels (exec (defines [("M", 100); ("K", 200); ("N", 300); ("K", 250)])) 0%nat)) ["K"; "M"; "N"]
     = [Some 250; Some 100; Some 300].
Proof. split; [cbn; tauto|vm_compute; reflexivity]. Qed.

(** The generated program is kept between runs whatever constants are set: one constant more and
    the program takes its value for another constant. *)
Theorem C55_other_constants_refuted : exists l1 l2,
  current (defines l2) 0 "N" = Some 1000 /\
  program_value (kernels (exec (defines l1)) 0%nat) (kernels (exec (defines l2)) 0%nat) "N" = Some 5.
Proof. exists [("N", 1000)], [("N", 1000); ("M", 5)]. split; vm_compute; reflexivity. Qed.
Print Assumptions C55_other_constants_refuted.

(** Constants are read as 32 bit integers. *)
Theorem C55_large_refuted : exists l,
  current (defines l) 0 "N" = Some 3000000000 /\
  program_value (kernels (exec (defines l)) 0%nat) (kernels (exec (defines l)) 0%nat) "N" = Some (-1294967296).
Proof. exists [("N", 3000000000)]. split; vm_compute; reflexivity. Qed.
Print Assumptions C55_large_refuted.
