(** C78 and C79: the generated benchmark program. *)
From Coq Require Import String.
From Verif Require Import GenModel GenSpec GenProofs AstSpec.
Local Open Scope string_scope.
Local Open Scope list_scope.
Local Open Scope Z_scope.

(** ** Examples *)
Definition integers (n : Z) : arithmetic Z :=
  mkArith (fun op a b => if String.eqb op "+" then a + b else if String.eqb op "-" then a - b else if String.eqb op "*" then a * b else Z.div a b) Z.opp (fun z => z) n.
Definition at2 (n : string) (j i : expr) : expr := EArr (EArr (EID n) j) i.
(** [for(j = 1; j < M-1; ++j) for(i = 1; i < N-1; ++i) { b[j][i] = (a[j][i-1] + a[j][i+1]) * c; r += b[j][i]; }] *)
Definition stencil : kernel :=
  mkKernel [("a", [EID "M"; EID "N"]); ("b", [EID "M"; EID "N"])] [("c", Some (EConst (Some 2))); ("r", None)] ["M"; "N"]
    [mkCloop "j" (EConst (Some 1)) (EBin "-" (EID "M") (EConst (Some 1))) 1; mkCloop "i" (EConst (Some 1)) (EBin "-" (EID "N") (EConst (Some 1))) 1]
    [mkassign "=" (at2 "b" (EID "j") (EID "i"))
       (EBin "*" (EBin "+" (at2 "a" (EID "j") (EBin "-" (EID "i") (EConst (Some 1)))) (at2 "a" (EID "j") (EBin "+" (EID "i") (EConst (Some 1))))) (EID "c"));
     mkassign "+=" (EID "r") (at2 "b" (EID "j") (EID "i"))] [].
Definition stencil_env : ienv := [("M", 4); ("N", 5)].
Ltac not_in := let H := fresh in intros H; cbn in H; repeat (destruct H as [H|H]; [discriminate H|]); exact H.
Ltac nodup := repeat (constructor; [not_in|]); constructor.
Ltac dims_fixed := let l := fresh in let n := fresh in let ds := fresh in let d := fresh in let I := fresh in let J := fresh in let K := fresh in let Q := fresh in
  intros l n ds d I J K Q; cbn in I, J;
  repeat (destruct I as [I|I]; [subst l|]); try easy; repeat (destruct J as [J|J]; [injection J as <- <-|]); try easy; cbn in K, Q;
  repeat (destruct K as [K|K]; [subst d; cbn in Q; repeat (destruct Q as [Q|Q]; [discriminate Q|]); easy|]); easy.
Example stencil_named : well_named stencil stencil_env.
Proof. split; [cbn; nodup|]. split; [reflexivity|]. dims_fixed. Qed.
Definition stencil_memory : @memory Z := mkMemory (fun n zs => match zs with [j; i] => Some (10 * j + i) | _ => None end) (fun n => Some 2).
(** A process with the same contents *)
Definition stencil_process : @process Z :=
  mkProcess (fun _ z => if (0 <=? z) && (z <? 20) then Some (10 * (z / 5) + z mod 5) else None)%bool [("a", "a"); ("b", "b")] (fun _ => Some 2) (fun _ => None).

(** ** C78: the generated kernel function does what the kernel code does. *)
(** Full statement: for all kernels with different names of arrays, scalars and constants, the generated function is valid and a call changes the
    contents of arrays and scalars as one execution of the kernel code. It is false for kernels with [swap] and if a scalar is called as another
    one with the suffix of pointers. For all others: every call of the function from a process with the contents of a memory ends with the contents
    the kernel code produces, if that is defined; then all accesses of the function are within the allocated memory. For kernels with [swap] this
    is what the kernel does without it. *)
Theorem C78_partial : forall V (A : arithmetic V) (k : kernel) (env : ienv) (f : func) s t s',
  well_named k env -> kernel_function k = Ok f ->
  (forall a b, In (a, b) (swaps k) -> lookup a (arrays k) <> None /\ lookup b (arrays k) <> None) ->
  unswapped k t -> assigned k s -> agrees k env everywhere s t ->
  kernel_runs A (without_swaps k) env s s' ->
  exists t', calls A k env f t t' /\ agrees k env everywhere s' t' /\ unswapped k t' /\ assigned k s'.
Proof.
  intros V A k env f s t s' W F SW U IS AG (s1 & R & ->).
  exact (call_same A k env W everywhere f s t s1 F U AG IS SW (fun _ _ _ _ _ _ _ _ _ _ _ _ => Logic.I) R).
Qed.
(** There is no other result of a call. *)
Theorem C78_deterministic : forall V (A : arithmetic V) (k : kernel) (env : ienv) (f : func) t t1 t2, calls A k env f t t1 -> calls A k env f t t2 -> t1 = t2.
Proof. intros V A k env f t t1 t2. apply calls_fun. Qed.
(** The function is generated, whatever the statements are. *)
Theorem C78_generated : forall k env, well_named k env -> well_referenced k -> exists f, kernel_function k = Ok f.
Proof.
  intros k env W R. apply function_ok. intros r I. apply in_flat_map in I as (s & IS & I). destruct (R s r IS I) as (n & subs & dims & RF & D & L).
  rewrite <- (dimensions_lookup k env W) in D.
  assert (NE : subs <> []).
  { intros ->. assert (K : forall e, In r (find_refs e) -> exists a i, r = EArr a i).
    { induction e as [m|z|op x IHx y IHy|op x IHx|a IHa b IHb|]; cbn [find_refs]; intros J; try easy; [apply in_app_or in J as [J|J]; auto|auto|destruct J as [<-|[]]; eauto]. }
    destruct (K (EBin "" (lvalue s) (rvalue s)) I) as (a & i & ->). cbn [reference] in RF. destruct (reference a) as [[m l]|]; [|discriminate]. injection RF as _ E. now destruct l. }
  destruct (transform_ref_ok _ r n subs dims RF NE D L) as [idx E]. eauto.
Qed.


Example C78_stencil : exists f t' s', kernel_function stencil = Ok f /\ calls (integers 7) stencil stencil_env f stencil_process t'
  /\ kernel_runs (integers 7) stencil stencil_env stencil_memory s' /\ agrees stencil stencil_env everywhere s' t'
  /\ blocks t' "b" 11 = Some 84 /\ cells t' "r" = Some 410 /\ blocks t' "a" 11 = Some 21.
Proof.
  destruct (runs_compute (integers 7) (source_machine stencil stencil_env) 10 (loops stencil) (body stencil) stencil_env stencil_memory
    (fun s => elements s "b" [2; 1] = Some 84 /\ elements s "a" [2; 1] = Some 21 /\ variables s "r" = Some 410)) as (s' & R & B & AA & RR).
  { vm_compute. auto. }
  destruct (C78_generated stencil stencil_env stencil_named) as [f F].
  { intros s r I J. cbn in I. destruct I as [<-|[<-|[]]]; cbn in J; repeat (destruct J as [<-|J]; [do 3 eexists; split; [reflexivity|]; split; [reflexivity|]; cbn; lia|]); easy. }
  assert (K : kernel_runs (integers 7) stencil stencil_env stencil_memory s') by (exists s'; split; [exact R|reflexivity]).
  destruct (C78_partial _ (integers 7) stencil stencil_env f stencil_memory stencil_process s' stencil_named F) as (t' & C & AG & U & _).
  - intros a b [].
  - reflexivity.
  - intros n _. discriminate.
  - split; [|reflexivity]. intros n dims zs D I _. exists n. unfold declared in D. cbn [stencil arrays lookup] in D.
    assert (E : dims = [4; 5] /\ lookup n (pointers stencil_process) = Some n).
    { cbn [stencil_process pointers lookup]. destruct (String.eqb_spec n "a") as [->|_]; [split; [now injection D|reflexivity]|]. destruct (String.eqb_spec n "b") as [->|_]; [split; [now injection D|reflexivity]|discriminate]. }
    destruct E as [-> L]. split; [assumption|]. pose proof (position_bound _ _ I) as BO. apply inside_range in I. inversion I as [|? j ? l' J I']; subst. inversion I' as [|? i ? l'' J' I'']; subst. inversion I''; subst.
    cbn [position] in *. change (zprod [5]) with 5 in *. change (zprod []) with 1 in *. cbn [stencil_process blocks stencil_memory elements].
    replace ((0 <=? _) && (_ <? 20))%bool with true; [|symmetry; apply andb_true_iff; split; [apply Z.leb_le|apply Z.ltb_lt]; nia].
    f_equal. replace (j * 5 + (i * 1 + 0)) with (i + j * 5) by ring. rewrite Z.div_add, Z.mod_add, Z.div_small, Z.mod_small by lia. lia.
  - exact K.
  - exists f, t', s'. split; [assumption|]. split; [assumption|]. split; [assumption|]. split; [assumption|]. destruct AG as [AE AV]. split; [|split].
    + destruct (AE "b" [4; 5] [2; 1] eq_refl eq_refl Logic.I) as (b & L & E). rewrite U in L. injection L as <-. etransitivity; [exact E|exact B].
    + rewrite AV by discriminate. exact RR.
    + destruct (AE "a" [4; 5] [2; 1] eq_refl eq_refl Logic.I) as (b & L & E). rewrite U in L. injection L as <-. etransitivity; [exact E|exact AA].
Qed.

(** [for(i = 0; i < N; ++i) a[i] = 1; swap(a, b);]: after the call, the arrays are not exchanged. *)
Definition swapping : kernel :=
  mkKernel [("a", [EID "N"]); ("b", [EID "N"])] [] ["N"] [mkCloop "i" (EConst (Some 0)) (EID "N") 1] [mkassign "=" (EArr (EID "a") (EID "i")) (EConst (Some 1))] [("a", "b")].
Example swapping_named : well_named swapping [("N", 1)].
Proof. split; [cbn; nodup|]. split; [reflexivity|]. dims_fixed. Qed.
Theorem C78_swap_refuted : exists (A : arithmetic Z) k env f s t s' t',
  well_named k env /\ swaps k = [("a", "b")] /\ kernel_function k = Ok f /\ unswapped k t /\ agrees k env everywhere s t
  /\ kernel_runs A k env s s' /\ calls A k env f t t'
  /\ elements s' "a" [0] = Some 3 /\ elements s' "b" [0] = Some 1 /\ lookup "a" (pointers t') = Some "a" /\ blocks t' "a" 0 = Some 1 /\ blocks t' "b" 0 = Some 3.
Proof.
  pose (s := mkMemory (fun n zs => if String.eqb n "b" then Some 3 else Some 5) (fun _ => None) : @memory Z).
  pose (t := mkProcess (fun n z => if String.eqb n "b" then Some 3 else Some 5) [("a", "a"); ("b", "b")] (fun _ => None) (fun _ => None) : @process Z).
  destruct (runs_compute (integers 7) (source_machine swapping [("N", 1)]) 10 (loops swapping) (body swapping) [("N", 1)] s
    (fun s => elements s "a" [0] = Some 1 /\ elements s "b" [0] = Some 3)) as (s1 & R & EA & EB); [vm_compute; auto|].
  assert (AG : agrees swapping [("N", 1)] everywhere s t).
  { split; [|intros n H; now destruct H]. intros n dims zs D _ _. exists n. cbn [t pointers lookup]. unfold declared in D. cbn [swapping arrays lookup] in D.
    destruct (String.eqb_spec n "a") as [->|_]; [split; reflexivity|]. destruct (String.eqb_spec n "b") as [->|_]; [split; reflexivity|discriminate]. }
  destruct (kernel_function swapping) as [f|] eqn:F; [|discriminate].
  destruct (C78_partial Z (integers 7) swapping [("N", 1)] f s t s1 swapping_named F) as (t' & C & [AE _] & U & _).
  - intros a b [E|[]]. injection E as <- <-. split; discriminate.
  - reflexivity.
  - intros n H. now destruct H.
  - exact AG.
  - exists s1. split; [exact R|reflexivity].
  - exists (integers 7), swapping, [("N", 1)], f, s, t, (swapped ("a", "b") s1), t'. split; [exact swapping_named|]. split; [reflexivity|]. split; [exact F|]. split; [reflexivity|]. split; [exact AG|].
    split; [exists s1; split; [exact R|reflexivity]|]. split; [exact C|]. split; [exact EB|]. split; [exact EA|]. split; [rewrite U; reflexivity|].
    destruct (AE "a" [1] [0] eq_refl eq_refl Logic.I) as (x & LX & EX). destruct (AE "b" [1] [0] eq_refl eq_refl Logic.I) as (y & LY & EY). rewrite U in LX, LY. injection LX as <-. injection LY as <-.
    split; etransitivity; [exact EX|exact EA|exact EY|exact EB].
Qed.
(** Scalars [s] and [s_]: the function has a parameter and a local variable with the same name. *)
Definition clashing : kernel :=
  mkKernel [("a", [EID "N"])] [("s", None); ("s_", None)] ["N"] [mkCloop "i" (EConst (Some 0)) (EID "N") 1] [mkassign "=" (EArr (EID "a") (EID "i")) (EBin "+" (EID "s") (EID "s_"))] [].
Theorem C78_names_refuted : exists (A : arithmetic Z) k env f s s',
  NoDup (map fst (arrays k) ++ map fst (scalars k) ++ constants k) /\ map fst env = constants k /\ kernel_function k = Ok f /\ assigned k s /\ kernel_runs A k env s s'
  /\ forall t t', ~ calls A k env f t t'.
Proof.
  pose (s := mkMemory (fun n zs => Some 5) (fun _ => Some 3) : @memory Z).
  destruct (runs_compute (integers 7) (source_machine clashing [("N", 2)]) 10 (loops clashing) (body clashing) [("N", 2)] s (fun s => elements s "a" [1] = Some 6)) as (s1 & R & EA); [vm_compute; auto|].
  destruct (kernel_function clashing) as [f|] eqn:F; [|discriminate].
  exists (integers 7), clashing, [("N", 2)], f, s, s1. split; [cbn; nodup|]. split; [reflexivity|]. split; [exact F|]. split; [discriminate|]. split; [exists s1; split; [exact R|reflexivity]|].
  intros t t' [N _]. vm_compute in F. injection F as <-. cbn in N. inversion_clear N as [|? ? _ N1]. inversion_clear N1 as [|? ? NI _]. apply NI. cbn. auto 10.
Qed.

(** ** C79: the benchmark program initializes what is read and measures exactly the requested repetitions. *)
(** Whatever the kernel is: two calls before the measured region and as many calls in it as requested, none for negative numbers. *)
Theorem C79_trace : forall argv1 ints trace, (exists ints', does argv1 main_template ints trace ints') <->
  trace = InitArrays :: KernelCall :: KernelCall :: StartRegion :: repeat KernelCall (Z.to_nat argv1) ++ [StopRegion].
Proof.
  intros argv1 ints trace. split; [intros [ints' H]; exact (main_trace argv1 ints trace ints' H)|]. intros ->. exact (main_does argv1 ints).
Qed.
(** Full statement: the program executes the kernel as it was written, from the initial values that were written. It is false for kernels with [swap] and
    for scalars with initial values. For all others: if repeating the kernel code is defined when everything is initialized, the program ends without an
    access outside of the allocated memory and without reading a value that was not initialized, and all elements the kernel accesses and all scalars have
    the values the kernel code produces. *)
Theorem C79_partial : forall V (A : arithmetic V) (k : kernel) (env : ienv) (f : func) (argv1 : Z) s',
  well_named k env -> swaps k = [] -> kernel_function k = Ok f ->
  kernel_repeats A k env (2 + Z.to_nat argv1) (filled A) s' ->
  exists t', main_runs A k env argv1 (measured_trace argv1) t' /\ agrees k env (accessed k env) s' t' /\ unswapped k t'.
Proof. intros V A k env f argv1 s' W SW F H. exact (main_agrees A k env W f argv1 s' F SW H). Qed.
Theorem C79_deterministic : forall V (A : arithmetic V) (k : kernel) (env : ienv) argv1 tr1 tr2 t1 t2,
  main_runs A k env argv1 tr1 t1 -> main_runs A k env argv1 tr2 t2 -> tr1 = tr2 /\ t1 = t2.
Proof.
  intros V A k env argv1 tr1 tr2 t1 t2 (i1 & j1 & D1 & P1) (i2 & j2 & D2 & P2). apply main_trace in D1 as ->. apply main_trace in D2 as ->. split; [reflexivity|].
  exact (performs_all_fun A k env _ _ _ _ P1 P2).
Qed.
Example C79_stencil : exists t', main_runs (integers 7) stencil stencil_env 3 (measured_trace 3) t'
  /\ blocks t' "b" 11 = Some 98 /\ cells t' "r" = Some 2947 /\ measured_trace 3 = [InitArrays; KernelCall; KernelCall; StartRegion; KernelCall; KernelCall; KernelCall; StopRegion].
Proof.
  destruct (repeats_compute (integers 7) stencil stencil_env 10 5 (filled (integers 7)) (fun s => elements s "b" [2; 1] = Some 98 /\ variables s "r" = Some 2947)) as (s' & R & B & RR); [vm_compute; auto|].
  destruct (kernel_function stencil) as [f|] eqn:F; [|discriminate].
  destruct (main_agrees (integers 7) stencil stencil_env stencil_named f 3 s' F eq_refl R) as (t' & M & [AE AV] & U).
  exists t'. split; [exact M|]. split; [|split; [rewrite AV by discriminate; exact RR|reflexivity]].
  destruct (AE "b" [4; 5] [2; 1] eq_refl eq_refl) as (b & L & E).
  { split; [discriminate|]. destruct (iterations_run 10 (loops stencil) stencil_env) as [its|] eqn:I; [|discriminate]. apply iterations_sound in I as J. vm_compute in I. injection I as <-.
    eexists. exists [("i", 1); ("j", 2); ("M", 4); ("N", 5)], (hd (mkassign "" EOther EOther) (body stencil)), (at2 "b" (EID "j") (EID "i")). split; [exact J|]. cbn. auto 10. }
  rewrite U in L. injection L as <-. etransitivity; [exact E|exact B].
Qed.
(** [double c = 2; for(i = 0; i < N; ++i) a[i] = c;]: the program does not use the initial value. *)
Definition valued : kernel :=
  mkKernel [("a", [EID "N"])] [("c", Some (EConst (Some 2)))] ["N"] [mkCloop "i" (EConst (Some 0)) (EID "N") 1] [mkassign "=" (EArr (EID "a") (EID "i")) (EID "c")] [].
Theorem C79_initial_value_refuted : exists (A : arithmetic Z) k env,
  well_named k env /\ lookup "c" (scalars k) = Some (Some (EConst (Some 2)))
  /\ (exists s', kernel_repeats A k env 3 (mkMemory (fun _ _ => Some (number A)) (fun _ => Some (of_int A 2))) s' /\ elements s' "a" [0] = Some 2)
  /\ (exists trace t', main_runs A k env 1 trace t') /\ forall trace t', main_runs A k env 1 trace t' -> blocks t' "a" 0 = Some 7 /\ cells t' "c" = Some 7.
Proof.
  assert (W : well_named valued [("N", 1)]) by (split; [cbn; nodup|]; split; [reflexivity|]; dims_fixed).
  destruct (repeats_compute (integers 7) valued [("N", 1)] 10 3 (filled (integers 7)) (fun s => elements s "a" [0] = Some 7 /\ variables s "c" = Some 7)) as (s' & R & B & RR); [vm_compute; auto|].
  destruct (kernel_function valued) as [f|] eqn:F; [|discriminate].
  destruct (C79_partial Z (integers 7) valued [("N", 1)] f 1 s' W eq_refl F R) as (t & M & [AE AV] & U).
  exists (integers 7), valued, [("N", 1)]. split; [assumption|]. split; [reflexivity|]. split; [|split].
  - apply (repeats_compute (integers 7) valued [("N", 1)] 10 3). vm_compute. auto.
  - eauto.
  - intros trace t' M'. destruct (C79_deterministic _ _ _ _ _ _ _ _ _ M M') as [_ <-]. split; [|rewrite AV by discriminate; exact RR].
    destruct (AE "a" [1] [0] eq_refl eq_refl) as (b & L & E).
    { split; [discriminate|]. destruct (iterations_run 10 (loops valued) [("N", 1)]) as [its|] eqn:I; [|discriminate]. apply iterations_sound in I as J. vm_compute in I. injection I as <-.
      eexists. exists [("i", 0); ("N", 1)], (hd (mkassign "" EOther EOther) (body valued)), (EArr (EID "a") (EID "i")). split; [exact J|]. cbn. auto 10. }
    rewrite U in L. injection L as <-. etransitivity; [exact E|exact B].
Qed.
(** The code which initializes the arrays also calls [swap]: afterwards the arrays of the program are exchanged. *)
Theorem C79_swap_refuted : exists (A : arithmetic Z) k env t, well_named k env /\ swaps k = [("a", "b")]
  /\ performs A k env InitArrays (after_declarations A k) t
  /\ lookup "a" (pointers (after_declarations A k)) = Some "a" /\ lookup "a" (pointers t) = Some "b" /\ lookup "b" (pointers t) = Some "a".
Proof.
  destruct (array_initialization swapping) as [i|] eqn:I; [|discriminate].
  destruct (runs_compute (integers 7) (target_machine swapping [("N", 1)] (pointers (after_declarations (integers 7) swapping)) []) 10 (loops swapping) (ibody i) [("N", 1)] (after_declarations (integers 7) swapping)
    (fun t => pointers t = [("a", "a"); ("b", "b")])) as (t & R & P); [vm_compute in I; injection I as <-; vm_compute; reflexivity|].
  exists (integers 7), swapping, [("N", 1)], (with_pointers t (swap_pointers ("a", "b") (pointers t))). split; [exact swapping_named|]. split; [reflexivity|]. split.
  - apply performs_init. exists i, t. split; [exact I|]. vm_compute in I. injection I as <-. split; [exact R|reflexivity].
  - split; [reflexivity|]. cbn [with_pointers pointers]. rewrite P. split; reflexivity.
Qed.
Print Assumptions C78_partial.
Print Assumptions C78_deterministic.
Print Assumptions C78_generated.
Print Assumptions C78_swap_refuted.
Print Assumptions C78_names_refuted.
Print Assumptions C79_trace.
Print Assumptions C79_partial.
Print Assumptions C79_deterministic.
Print Assumptions C79_initial_value_refuted.
Print Assumptions C79_swap_refuted.
