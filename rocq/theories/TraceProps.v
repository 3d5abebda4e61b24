(** C67: the trace of virtual addresses is the trace of the kernel. *)
From Coq Require Import String Lia.
From Verif Require Import PyBase LoopModel LoopSpec LoopProofs AstModel AstSpec AstProofs TraceModel TraceSpec TraceProofs.
Local Open Scope string_scope.
Local Open Scope list_scope.
Local Open Scope Z_scope.

(** C67: row [p] has the addresses of the references of the iteration it was asked for: nothing but addresses of references of the program, loads apart from stores, and
    all of them besides those which always go to the same element. Missing: loops with another step than one, see C67_strided_refuted. *)
Theorem C67_trace_partial : forall depends eqb k stmts st its gs spacing rows mem,
  eqb_sound eqb -> p_assignments eqb stmts empty_state = Ok st ->
  NoDup (map fst (arrays k)) -> unit_stack (loops k) -> NoDup (map lvar (loops k)) -> executes (bounds (loops k)) its ->
  laid_out k spacing mem -> depends_sound k depends ->
  (forall t r, In t its -> In r (flat_map stmt_reads stmts ++ flat_map stmt_writes stmts) -> inside mem (in_iteration (constants k) (map lvar (loops k)) t) r) ->
  Forall (fun g => 0 <= g) gs ->
  compile_global_offsets depends k st gs spacing = Ok rows -> rows <> [] ->
  length rows = length gs /\
  forall p g, nth_error gs p = Some g ->
  exists t loads stores, nth_error its (Z.to_nat g) = Some t /\ nth_error rows p = Some (loads, stores) /\
    let env := in_iteration (constants k) (map lvar (loops k)) t in
    (forall a, In a loads -> exists r, In r (flat_map stmt_reads stmts) /\ reference_address mem env r a) /\
    (forall a, In a stores -> exists r, In r (flat_map stmt_writes stmts) /\ reference_address mem env r a) /\
    (forall r, In r (flat_map stmt_reads stmts) -> snd r <> [] -> In (fst r) (map fst (arrays k)) ->
       fixed (constants k) (map lvar (loops k)) its r \/ exists a, In a loads /\ reference_address mem env r a) /\
    (forall r, In r (flat_map stmt_writes stmts) -> snd r <> [] -> In (fst r) (map fst (arrays k)) ->
       fixed (constants k) (map lvar (loops k)) its r \/ exists a, In a stores /\ reference_address mem env r a).
Proof. exact trace. Qed.
Print Assumptions C67_trace_partial.

(** Asking for an iteration behind the last one is an error. *)
Theorem C67_range : forall depends k st gs spacing g,
  In g gs -> iteration_length (loops k) <= g -> compile_global_offsets depends k st gs spacing = Err AssertionError.
Proof. exact trace_range. Qed.
Print Assumptions C67_range.

(** Otherwise there is a trace if and only if no array is used without subscripts. *)
Theorem C67_total : forall depends eqb k stmts st g gs spacing,
  eqb_sound eqb -> p_assignments eqb stmts empty_state = Ok st ->
  (forall x, In x (g :: gs) -> x < iteration_length (loops k)) ->
  (exists rows, compile_global_offsets depends k st (g :: gs) spacing = Ok rows) <->
  (forall n, In (n, []) (flat_map stmt_reads stmts ++ flat_map stmt_writes stmts) -> ~ In n (map fst (arrays k))).
Proof. exact trace_total. Qed.
Print Assumptions C67_total.

(** A five point stencil [b[j][i] = (a[j][i-1] + a[j][i+1] + a[j-1][i]) * s + c[2]] with M = 5, N = 6 *)
Definition C67_a (j i : expr) : expr := EArr (EArr (EID "a") j) i.
Definition C67_plus (n : string) (z : Z) : expr := EBin "+" (EID n) (EConst (Some z)).
Definition C67_minus (n : string) (z : Z) : expr := EBin "-" (EID n) (EConst (Some z)).
Definition C67_stmt : assignment := mkassign "=" (EArr (EArr (EID "b") (EID "j")) (EID "i"))
  (EBin "+" (EBin "*" (EBin "+" (EBin "+" (C67_a (EID "j") (C67_minus "i" 1)) (C67_a (EID "j") (C67_plus "i" 1))) (C67_a (C67_minus "j" 1) (EID "i"))) (EID "s")) (EArr (EID "c") (EConst (Some 2)))).
Definition C67_constants (n : string) : Z := if String.eqb n "M" then 5 else if String.eqb n "N" then 6 else 0.
Definition C67_kernel : kernel := mkKernel
  [("c", (8, [SInt 4])); ("b", (8, [SVar "M"; SVar "N"])); ("a", (4, [SVar "M"; SVar "N"]))] [mkloop "j" 1 4 1; mkloop "i" 1 5 1] C67_constants 64.
Definition C67_memory : memory := [("c", 384, 8, [4]); ("b", 128, 8, [5; 6]); ("a", 0, 4, [5; 6])].
Definition C67_its := [[1; 1]; [1; 2]; [1; 3]; [1; 4]; [2; 1]; [2; 2]; [2; 3]; [2; 4]; [3; 1]; [3; 2]; [3; 3]; [3; 4]].
Definition C67_depends (n : string) (idx : list sym) : bool := existsb (mentions ["j"; "i"]) idx.
Definition access_none_eqb (a b : access) : bool := match a, b with None, None => true | _, _ => false end.
Lemma C67_case_laid_out : laid_out C67_kernel 0 C67_memory.
Proof.
  intros n b e d. unfold laid_out. set (L := layout _ _ _). vm_compute in L. subst L. cbn. split.
  - intros [[= <- <- <- <-]|[[= <- <- <- <-]|[[= <- <- <- <-]|[]]]]; eexists; (split; [intuition reflexivity|]); (split; [reflexivity|]); eexists; intuition reflexivity.
  - intros (sizes & I & -> & (bytes & J)).
    destruct I as [[= <- <- <-]|[[= <- <- <-]|[[= <- <- <-]|[]]]]; destruct J as [[= <- <-]|[[= <- <-]|[[= <- <-]|[]]]]; cbn; auto 10.
Qed.
Lemma C67_case_executes : executes (bounds (loops C67_kernel)) C67_its.
Proof.
  exists [[1; 2; 3]; [1; 2; 3; 4]]. split; [|reflexivity]. cbn. repeat constructor; cbn; lia.
Qed.
Lemma C67_case_inside t r : In t C67_its -> In r (flat_map stmt_reads [C67_stmt] ++ flat_map stmt_writes [C67_stmt]) -> inside C67_memory (in_iteration C67_constants ["j"; "i"] t) r.
Proof.
  intros T R base elem dims vs M V. unfold C67_its in T. cbn in T, R, M.
  repeat (destruct R as [<-|R]); try contradiction; cbn [fst snd] in *;
    (destruct M as [[=]|[[=]|[[=]|[]]]]); subst;
    repeat match goal with H : Forall2 _ (_ :: _) _ |- _ => inversion H; subst; clear H | H : Forall2 _ [] _ |- _ => inversion H; subst; clear H end;
    repeat (destruct T as [<-|T]); try contradiction;
    cbn in *; repeat match goal with H : Some _ = Some _ |- _ => injection H as <- end; repeat constructor; cbn; lia.
Qed.
Example C67_case : eqb_sound access_none_eqb /\
  exists st, p_assignments access_none_eqb [C67_stmt] empty_state = Ok st /\
  NoDup (map fst (arrays C67_kernel)) /\ unit_stack (loops C67_kernel) /\ NoDup (map lvar (loops C67_kernel)) /\ executes (bounds (loops C67_kernel)) C67_its /\
  laid_out C67_kernel 0 C67_memory /\ depends_sound C67_kernel C67_depends /\
  (forall t r, In t C67_its -> In r (flat_map stmt_reads [C67_stmt] ++ flat_map stmt_writes [C67_stmt]) -> inside C67_memory (in_iteration C67_constants ["j"; "i"] t) r) /\
  compile_global_offsets C67_depends C67_kernel st [0; 11; 4] 0 = Ok [([24; 32; 4], [184]); ([84; 92; 64], [304]); ([48; 56; 28], [232])] /\
  compile_global_offsets C67_depends C67_kernel st [0; 12; 4] 0 = Err AssertionError.
Proof.
  split; [intros [a|] [b|] subs H; try discriminate; auto|].
  eexists. split; [reflexivity|]. split; [repeat constructor; cbn; intuition discriminate|]. split; [repeat constructor; cbn; lia|].
  split; [repeat constructor; cbn; intuition discriminate|]. split; [exact C67_case_executes|]. split; [exact C67_case_laid_out|]. split; [exact (syntactic_sound C67_kernel)|].
  split; [exact C67_case_inside|]. split; reflexivity.
Qed.

(** With [for(int i=0; i<10; i+=2) b[i] = a[i]] the row of the fourth iteration has the address of a[1], which no iteration of the kernel reads. *)
Definition C67_copy : assignment := mkassign "=" (EArr (EID "b") (EID "i")) (EArr (EID "a") (EID "i")).
Definition C67_strided : kernel := mkKernel [("a", (8, [SInt 10])); ("b", (8, [SInt 10]))] [mkloop "i" 0 10 2] C67_constants 64.
Definition C67_strided_memory : memory := [("a", 0, 8, [10]); ("b", 128, 8, [10])].
Theorem C67_strided_refuted : exists st rows loads stores address,
  p_assignments access_none_eqb [C67_copy] empty_state = Ok st /\ proper (loops C67_strided) /\ laid_out C67_strided 0 C67_strided_memory /\
  executes (bounds (loops C67_strided)) [[0]; [2]; [4]; [6]; [8]] /\
  compile_global_offsets C67_depends C67_strided st [3] 0 = Ok rows /\ nth_error rows 0 = Some (loads, stores) /\ In address loads /\
  forall t r, In t [[0]; [2]; [4]; [6]; [8]] -> In r (stmt_reads C67_copy ++ stmt_writes C67_copy) -> ~ reference_address C67_strided_memory (in_iteration C67_constants ["i"] t) r address.
Proof.
  eexists _, [([8], [136])], [8], [136], 8. split; [reflexivity|]. split; [repeat constructor; cbn; lia|]. split.
  - intros n b e d. set (L := layout _ _ _). vm_compute in L. subst L. cbn. split.
    + intros [[= <- <- <- <-]|[[= <- <- <- <-]|[]]]; eexists; (split; [intuition reflexivity|]); (split; [reflexivity|]); eexists; intuition reflexivity.
    + intros (sizes & I & -> & (bytes & J)). destruct I as [[= <- <- <-]|[[= <- <- <-]|[]]]; destruct J as [[= <- <-]|[[= <- <-]|[]]]; cbn; auto 10.
  - split; [exists [[0; 2; 4; 6; 8]]; split; [repeat constructor; cbn; lia|reflexivity]|]. split; [reflexivity|]. split; [reflexivity|]. split; [now left|].
    intros t r T R (base & elem & dims & vs & p & M & _ & V & P & A). cbn in T, R, M.
    assert (Q : forall z q, nth_error (row_major [10]) q = Some [z] -> z = Z.of_nat q).
    { intros z q. do 10 (destruct q as [|q]; [cbn; intros [= <-]; reflexivity|]). destruct q; cbn; discriminate. }
    repeat (destruct R as [<-|R]); try contradiction; cbn [fst snd] in *; (destruct M as [[=]|[[=]|[]]]); subst;
    repeat match goal with H : Forall2 _ (_ :: _) _ |- _ => inversion H; subst; clear H | H : Forall2 _ [] _ |- _ => inversion H; subst; clear H end;
    apply Q in P; repeat (destruct T as [<-|T]); try contradiction;
    repeat match goal with H : ceval _ _ = Some _ |- _ => cbv in H; injection H as H end; lia.
Qed.
Print Assumptions C67_strided_refuted.

(** Iterations before the first one are not rejected: they count from the end, like indices of Python's lists, but without an end. *)
Theorem C67_wraps : forall depends k st gs spacing,
  unit_stack (loops k) -> Forall (fun g => g < iteration_length (loops k)) gs ->
  compile_global_offsets depends k st gs spacing = compile_global_offsets depends k st (map (fun g => g mod iteration_length (loops k)) gs) spacing.
Proof. exact trace_wraps. Qed.
Print Assumptions C67_wraps.
Theorem C67_negative_refuted : exists st,
  p_assignments access_none_eqb [C67_copy] empty_state = Ok st /\
  compile_global_offsets C67_depends (mkKernel (arrays C67_strided) [mkloop "i" 0 10 1] C67_constants 64) st [-1; 9; -11] 0 = Ok [([72], [200]); ([72], [200]); ([72], [200])].
Proof. eexists. split; reflexivity. Qed.
Print Assumptions C67_negative_refuted.
