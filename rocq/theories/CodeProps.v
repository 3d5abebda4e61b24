(** Properties C112-C115: which kernel code is accepted, and what the recorded loops and accesses say about its execution. *)
From Coq Require Import String Lia.
From Verif Require Import PyBase PyFloat AstModel AstSpec AstProofs CodeModel CodeSpec CodeProofs.
Local Open Scope string_scope.
Local Open Scope list_scope.
Local Open Scope Z_scope.

(** ** C112: the recorded loops are the iterations which are executed. *)
(** Accepted code consists of declarations, pragmas, one nest of loops and calls of swap. Executing the nest ends, leaves the known
    integers alone, and executes the assignments of the innermost loop once for every iteration of the recorded loops, in this order;
    nothing else is possible. Missing, and refuted below: octal numbers, steps which are not positive, assignments which change
    indices or bounds. *)
Theorem C112_iterations_partial : forall eqb items k,
  Forall c_tree items -> process_code eqb (Some items) = Ok k ->
  exists ds ps s ws ls body,
    items = map SDecl ds ++ map SPragma ps ++ s :: map swap_call ws /\ nest s ls body /\
    forall e, Forall plain_loop ls -> Forall advances ls -> well_scoped (map fst e) ls -> keeps_integers (map fst e) ls body ->
    forall evs e', exec e s evs e' <-> e' = e /\ evs = flat_map (fun it => map (pair it) body) (iterations (stack (kernel_nest k)) e).
Proof.
  intros eqb items k T H. destruct (process_sound eqb items k T H) as (ds & ls & body & ws & (ps & s & E & N) & _ & R & _).
  exists ds, ps, s, ws, ls, body. split; [exact E|]. split; [exact N|]. intros e P A W K. exact (nest_executes s ls body N _ e R P A W K).
Qed.
Print Assumptions C112_iterations_partial.

Definition dbl : ctype := TBase ["double"].
Definition int : ctype := TBase ["int"].
Definition arr (n : string) (dims : list cexpr) : decl := mkDecl n (fold_right (fun d t => TArray (Some d) t) dbl dims) None.
Definition lit (s : string) : cexpr := CConst (codes s).
Definition plus (a b : cexpr) : cexpr := CBin "+" a b.
Definition minus (a b : cexpr) : cexpr := CBin "-" a b.
Definition for_ (x : string) (lo hi : cexpr) (n : cnext) (b : stmt) : stmt := SFor (IDecls [mkDecl x int (Some lo)]) (Some (CBin "<" (CId x) hi)) n b.
Definition pp (x : string) : cnext := NUn "++" (CId x).
Definition by_ (x t : string) : cnext := NAssign "+=" (CId x) (lit t).
Definition at2 (a : string) (i j : cexpr) : cexpr := CArr (CArr (CId a) i) j.
(** double a[M][N]; double b[M][N]; double s; #pragma nounroll; for(j=1; j<M-1; ++j) { #pragma ivdep; for(i=1; i<N-1; i+=2)
    { b[j][i] = s * (a[j][i-1] + a[j][i+1]); s += b[j][i]; } } swap(a, b) *)
Definition example_body : list cassign :=
  [mkAssign "=" (at2 "b" (CId "j") (CId "i")) (CBin "*" (CId "s") (plus (at2 "a" (CId "j") (minus (CId "i") (lit "1"))) (at2 "a" (CId "j") (plus (CId "i") (lit "1")))));
   mkAssign "+=" (CId "s") (at2 "b" (CId "j") (CId "i"))].
Definition example_inner : stmt :=
  for_ "i" (lit "1") (minus (CId "N") (lit "1")) (by_ "i" "2") (SCompound (Some (map (fun a => SAssign (operator a) (left_side a) (right_side a)) example_body))).
Definition example_nest : stmt := for_ "j" (lit "1") (minus (CId "M") (lit "1")) (pp "j") (SCompound (Some [SPragma "ivdep"; example_inner])).
Definition example_code : list stmt :=
  [SDecl (arr "a" [CId "M"; CId "N"]); SDecl (arr "b" [CId "M"; CId "N"]); SDecl (mkDecl "s" dbl None); SPragma "nounroll"; example_nest; swap_call [CId "a"; CId "b"]].
Definition example_loops : list cloop :=
  [mkLoop "j" int (lit "1") (minus (CId "M") (lit "1")) None; mkLoop "i" int (lit "1") (minus (CId "N") (lit "1")) (Some (codes "2"))].
(** Equality by structure; any other sound one would do. *)
Definition sym_dec (a b : sym) : {a = b} + {a <> b}.
Proof. decide equality; [apply string_dec|apply Z.eq_dec]. Defined.
Definition access_dec (a b : access) : {a = b} + {a <> b}.
Proof. decide equality. apply list_eq_dec, sym_dec. Defined.
Definition structural (a b : access) : bool := if access_dec a b then true else false.
Definition example_kernel : kernel := match process_code structural (Some example_code) with Ok k => k | Err _ => mkKernel (mkDeclared None []) (mkParsed [] empty_state) [] end.
Lemma example_is_nest : nest example_nest example_loops example_body.
Proof.
  eapply (nest_loop_block _ ["ivdep"]); [eexists; split; [reflexivity|now left]|].
  eapply nest_block; [eexists; split; [reflexivity|reflexivity]|discriminate|]. repeat constructor.
Qed.
Lemma c1 t : c_integer t <> None -> hd_error t <> Some 48%N -> plain t.
Proof. intros A B. split; [exact A|]. intros (x & h & ->). now apply B. Qed.
Ltac plain_now := apply c1; [vm_compute; discriminate|vm_compute; discriminate].
Ltac plains := repeat (apply Forall_cons; [plain_now|]); apply Forall_nil.
(** With M = 4, N = 7: three iterations of i for each of the two of j, two assignments each *)
Definition example_env : env := [("M", 4); ("N", 7)].
Lemma example_behaves : Forall c_tree example_code /\ process_code structural (Some example_code) = Ok example_kernel /\ Forall plain_loop example_loops
  /\ Forall advances example_loops /\ well_scoped (map fst example_env) example_loops /\ keeps_integers (map fst example_env) example_loops example_body.
Proof.
  split; [|split; [vm_compute; reflexivity|split; [|split; [|split]]]].
  - repeat (apply Forall_cons; [cbn; intuition discriminate|]). apply Forall_nil.
  - apply Forall_cons; [|apply Forall_cons; [|apply Forall_nil]]; unfold plain_loop; cbn [first bound increment literals lit minus app]; plains.
  - repeat (apply Forall_cons; [vm_compute; reflexivity|]). apply Forall_nil.
  - split; [intros x; cbn; tauto|]. split; [cbn; intuition discriminate|]. split; [intros x; cbn; tauto|]. split; [cbn; intuition discriminate|exact I].
  - intros a n [<-|[<-|[]]]; cbn; intuition (subst; discriminate).
Qed.
Example C112_case : exists evs, exec example_env example_nest evs example_env /\ List.length evs = 12%nat /\
  map (fun ev => (lookup "j" (fst ev), lookup "i" (fst ev))) evs =
  flat_map (fun ji => [ji; ji]) [(Some 1, Some 1); (Some 1, Some 3); (Some 1, Some 5); (Some 2, Some 1); (Some 2, Some 3); (Some 2, Some 5)].
Proof.
  destruct example_behaves as (T & H & P & A & W & K).
  assert (R : Forall2 recorded example_loops (stack (kernel_nest example_kernel))).
  { apply Forall2_cons; [|apply Forall2_cons; [|apply Forall2_nil]]; unfold recorded; do 3 eexists; (split; [vm_compute; reflexivity|]); repeat split. }
  exists (run example_body (stack (kernel_nest example_kernel)) example_env). split; [apply (nest_executes _ _ _ example_is_nest _ _ R P A W K); auto|].
  split; vm_compute; reflexivity.
Qed.

(** A bound written as an octal number is recorded as a decimal one: ten iterations instead of eight. *)
Definition octal_loop : stmt := for_ "i" (lit "0") (lit "010") (pp "i") (SAssign "=" (CArr (CId "a") (CId "i")) (lit "1.0")).
Theorem C112_octal_refuted : exists k evs, process_code structural (Some [SDecl (arr "a" [CId "N"]); octal_loop]) = Ok k /\
  exec [] octal_loop evs [] /\ List.length evs = 8%nat /\ List.length (iterations (stack (kernel_nest k)) []) = 10%nat.
Proof.
  eexists. exists (map (fun z => ([("i", z)], mkAssign "=" (CArr (CId "a") (CId "i")) (lit "1.0"))) [0; 1; 2; 3; 4; 5; 6; 7]). split; [vm_compute; reflexivity|].
  split; [|split; vm_compute; reflexivity].
  eapply (exec_for _ "i" int (lit "0") 0 _ _ _ _ 8); [reflexivity|]. cbn [map].
  do 8 (match goal with |- loop _ _ _ _ (?ev :: ?r) _ => change (ev :: r) with ([ev] ++ r) end;
        eapply loop_again; [vm_compute; reflexivity|apply exec_assign, assigned_refl|vm_compute; reflexivity|]).
  apply loop_end. vm_compute. reflexivity.
Qed.
Print Assumptions C112_octal_refuted.
(** A step of zero is accepted: the loop does not end, while nothing is left of it in the recorded iterations. *)
Definition zero_loop : stmt := for_ "i" (lit "0") (CId "N") (by_ "i" "0") (SAssign "=" (CArr (CId "a") (CId "i")) (lit "1.0")).
Theorem C112_step_zero_refuted : exists k, process_code structural (Some [SDecl (arr "a" [CId "N"]); zero_loop]) = Ok k /\
  forall n, 0 < n -> iterations (stack (kernel_nest k)) [("N", n)] = [] /\ forall evs e', ~ exec [("N", n)] zero_loop evs e'.
Proof.
  eexists. split; [vm_compute; reflexivity|]. intros n P. split.
  - change (flat_map (fun z => [[("i", z); ("N", n)]]) (ticks 0 n 0) = []). unfold ticks. rewrite Zdiv_0_r. reflexivity.
  - intros evs e' H. inversion H as [| | | |? ? ? ? z0 ? ? ? ? z' ? V0 L0]; subst. vm_compute in V0. injection V0 as <-. clear H.
    remember [("i", 0); ("N", n)] as e eqn:E. remember (("i", z') :: e') as e1 eqn:E1.
    remember (Some (CBin "<" (CId "i") (CId "N"))) as c eqn:C. remember (by_ "i" "0") as nx eqn:NX. remember (SAssign "=" (CArr (CId "a") (CId "i")) (lit "1.0")) as b eqn:B.
    revert E E1. induction L0 as [e0 c n0 b CF|e0 c n0 b evs e1' e2' evs' e3 CT X A H IH]; intros E E1; subst.
    + cbn in CF. injection CF as L. apply Z.ltb_ge in L. lia.
    + inversion X as [|? ? ? ? ? AS| | |]; subst. apply assigned_keeps in AS; [subst|intros m M; cbn in M; contradiction]. vm_compute in A. injection A as <-. now apply IH.
Qed.
Print Assumptions C112_step_zero_refuted.
(** Assignments to the index are accepted, although iterations are skipped then: for(i=0; i<4; ++i) i = i + 1 *)
Definition skipping_loop : stmt := for_ "i" (lit "0") (lit "4") (pp "i") (SAssign "=" (CId "i") (plus (CId "i") (lit "1"))).
Theorem C112_changed_index_refuted : exists k evs, process_code structural (Some [skipping_loop]) = Ok k /\
  exec [] skipping_loop evs [] /\ List.length evs = 2%nat /\ List.length (iterations (stack (kernel_nest k)) []) = 4%nat.
Proof.
  eexists. exists (map (fun z => ([("i", z)], mkAssign "=" (CId "i") (plus (CId "i") (lit "1")))) [0; 2]). split; [vm_compute; reflexivity|].
  split; [|split; vm_compute; reflexivity]. eapply (exec_for _ "i" int (lit "0") 0 _ _ _ _ 4); [reflexivity|]. cbn [map].
  match goal with |- loop _ _ _ _ (?ev :: ?r) _ => change (ev :: r) with ([ev] ++ r) end.
  eapply loop_again; [vm_compute; reflexivity|apply (exec_assign _ _ _ _ [("i", 1)]); repeat constructor|vm_compute; reflexivity|].
  match goal with |- loop _ _ _ _ (?ev :: ?r) _ => change (ev :: r) with ([ev] ++ r) end.
  eapply loop_again; [vm_compute; reflexivity|apply (exec_assign _ _ _ _ [("i", 3)]); repeat constructor|vm_compute; reflexivity|].
  apply loop_end. vm_compute. reflexivity.
Qed.
Print Assumptions C112_changed_index_refuted.

(** ** C113: which code is accepted, and what is recorded of the declarations *)
(** Code is accepted exactly if it is declarations of variables of one of the four types (the same for all), any pragmas, one perfect nest
    of loops [for(type x = first; x < bound; x++ or x += literal)] around assignments, and calls of swap; bounds, dimensions and
    subscripts are sums, differences and products of names and integers. *)
Theorem C113_accepted : forall eqb items, Forall c_tree items ->
  ((exists k, process_code eqb (Some items) = Ok k) <->
   exists ds ls body ws, kernel_code items ds ls body ws /\ declarations_ok ds /\ Forall loop_ok ls /\ Forall assignment_ok body).
Proof. exact acceptance. Qed.
Print Assumptions C113_accepted.
(** Empty code is never accepted. *)
Theorem C113_empty : forall eqb k, process_code eqb None <> Ok k.
Proof. discriminate. Qed.
Print Assumptions C113_empty.
Theorem C113_declared : forall eqb items k,
  Forall c_tree items -> process_code eqb (Some items) = Ok k ->
  exists ds ls body ws, kernel_code items ds ls body ws /\ kernel_swaps k = map swap_call ws /\
    map (fun en => fst (fst (fst en))) (stack (kernel_nest k)) = map index ls /\
    (NoDup (map dname ds) -> Forall2 declares ds (variables (kernel_variables k))).
Proof.
  intros eqb items k T H. destruct (process_sound eqb items k T H) as (ds & ls & body & ws & C & D & R & _ & SW). exists ds, ls, body, ws. repeat split; auto.
  - clear - R. induction R as [|l en ls es (mn & mx & z & -> & _) F IH]; [reflexivity|]. cbn. now rewrite IH.
  - intros ND. destruct (declare_all_variables ds _ _ ND (fun d _ (X : In (dname d) (map fst (variables (mkDeclared None [])))) => X) D) as (vs & E & F). cbn in E. now rewrite E.
Qed.
Print Assumptions C113_declared.
(** The final check of the datatypes never fails. *)
Theorem C113_check : forall eqb items k, process_code eqb items = Ok k -> check k = Ok tt.
Proof. exact check_passes. Qed.
Print Assumptions C113_check.
Example C113_case : exists k, process_code structural (Some example_code) = Ok k /\ check k = Ok tt /\ kernel_swaps k = [swap_call [CId "a"; CId "b"]] /\
  variables (kernel_variables k) = [("a", (["double"], Some [SVar "M"; SVar "N"])); ("b", (["double"], Some [SVar "M"; SVar "N"])); ("s", (["double"], None))] /\
  stack (kernel_nest k) = [("j", SInt 1, SSub (SVar "M") (SInt 1), 1); ("i", SInt 1, SSub (SVar "N") (SInt 1), 2)].
Proof. eexists. split; [vm_compute; reflexivity|]. vm_compute. repeat split. Qed.
(** Rejected: empty braces as body, a second loop, a loop beside an assignment, other types, a hexadecimal bound, a call before the loop *)
Definition simple (b : stmt) : stmt := for_ "i" (lit "0") (CId "N") (pp "i") b.
Definition set_one : stmt := SAssign "=" (CId "s") (lit "1.0").
Example C113_rejected :
  process_code structural None = Err TypeError /\ process_code structural (Some []) = Err IndexError
  /\ process_code structural (Some [SPragma "x"]) = Err AssertionError
  /\ process_code structural (Some [simple (SCompound None)]) = Err TypeError
  /\ process_code structural (Some [simple (SCompound (Some []))]) = Err IndexError
  /\ process_code structural (Some [simple set_one; simple set_one]) = Err ValueError
  /\ process_code structural (Some [simple (SCompound (Some [set_one; simple set_one]))]) = Err ValueError
  /\ process_code structural (Some [SDecl (mkDecl "s" int None); simple set_one]) = Err AssertionError
  /\ process_code structural (Some [SDecl (mkDecl "s" dbl None); SDecl (mkDecl "t" (TBase ["float"]) None); simple set_one]) = Err AssertionError
  /\ process_code structural (Some [for_ "i" (lit "0") (lit "0x10") (pp "i") set_one]) = Err ValueError
  /\ process_code structural (Some [for_ "i" (CUn "-" (lit "1")) (CId "N") (pp "i") set_one]) = Err AttributeError
  /\ process_code structural (Some [for_ "i" (lit "0") (CId "N") (pp "j") set_one]) = Err AssertionError
  /\ process_code structural (Some [swap_call []; simple set_one]) = Err ValueError.
Proof. vm_compute. repeat split. Qed.

(** ** C114: the recorded sources and destinations, taken over the recorded iterations, are the elements the execution reads and writes. *)
Theorem C114_elements_partial : forall eqb items k,
  eqb_sound eqb -> Forall c_tree items -> process_code eqb (Some items) = Ok k ->
  exists ds ps s ws ls body,
    items = map SDecl ds ++ map SPragma ps ++ s :: map swap_call ws /\ nest s ls body /\
    forall e, Forall plain_loop ls -> Forall advances ls -> well_scoped (map fst e) ls -> keeps_integers (map fst e) ls body ->
      readable_body body -> known_subscripts (map fst e) ls body ->
    forall evs e', exec e s evs e' -> forall n zs,
      ((exists ev, In ev evs /\ reads_element ev n zs) <->
       exists it a, In it (iterations (stack (kernel_nest k)) e) /\ listed (sources (accesses (kernel_nest k))) n a /\ access_at a it zs)
      /\ ((exists ev, In ev evs /\ writes_element ev n zs) <->
          exists it a, In it (iterations (stack (kernel_nest k)) e) /\ listed (destinations (accesses (kernel_nest k))) n a /\ access_at a it zs).
Proof.
  intros eqb items k ES T H. destruct (process_sound eqb items k T H) as (ds & ls & body & ws & (ps & s & E & N) & _ & R & A & _).
  exists ds, ps, s, ws, ls, body. split; [exact E|]. split; [exact N|]. intros e P AD W K RB KS evs e' X n zs.
  apply (nest_executes s ls body N _ e R P AD W K) in X as [_ ->]. exact (elements_exact eqb ES ls _ body _ e R A RB KS n zs).
Qed.
Print Assumptions C114_elements_partial.
Lemma structural_sound : eqb_sound structural.
Proof. intros a b subs. unfold structural. destruct (access_dec a b); [subst; tauto|discriminate]. Qed.
Example C114_case : readable_body example_body /\ known_subscripts (map fst example_env) example_loops example_body
  /\ (forall evs e', exec example_env example_nest evs e' -> (exists ev, In ev evs /\ reads_element ev "a" [2; 6]) /\ ~ exists ev, In ev evs /\ reads_element ev "a" [2; 3]).
Proof.
  assert (RB : readable_body example_body).
  { intros a t [<-|[<-|[]]] I1; vm_compute in I1; [|contradiction]. destruct I1 as [<-|[<-|[]]]; left; plain_now. }
  assert (KS : known_subscripts (map fst example_env) example_loops example_body).
  { intros a n subs s [<-|[<-|[]]] I1 I2; vm_compute in I1;
      repeat match goal with H : _ \/ _ |- _ => destruct H as [H|H] | H : (_, _) = (_, _) |- _ => injection H as <- <- | H : False |- _ => contradiction end;
      vm_compute in I2; repeat match goal with H : _ \/ _ |- _ => destruct H as [H|H] | H : False |- _ => contradiction end; subst s; intros x X; vm_compute in X |- *; tauto. }
  split; [exact RB|]. split; [exact KS|]. intros evs e' X. destruct example_behaves as (T & H & P & A & W & K).
  assert (R : Forall2 recorded example_loops (stack (kernel_nest example_kernel))).
  { apply Forall2_cons; [|apply Forall2_cons; [|apply Forall2_nil]]; unfold recorded; do 3 eexists; (split; [vm_compute; reflexivity|]); repeat split. }
  apply (nest_executes _ _ _ example_is_nest _ _ R P A W K) in X as [_ ->].
  assert (AC : p_assignments structural (map read_as example_body) empty_state = Ok (accesses (kernel_nest example_kernel))) by (vm_compute; reflexivity).
  pose proof (fun zs => proj1 (elements_exact structural structural_sound _ _ _ _ example_env R AC RB KS "a" zs)) as E. split.
  - apply E. exists [("i", 5); ("j", 2); ("M", 4); ("N", 7)], (Some [SVar "j"; SAdd (SVar "i") (SInt 1)]). split; [vm_compute; tauto|].
    split; [|split; [discriminate|reflexivity]]. eexists. split; [vm_compute; tauto|]. cbn. tauto.
  - rewrite E. intros (it & a & I1 & (l & I2 & I3) & AT). vm_compute in I2.
    repeat match goal with H : _ \/ _ |- _ => destruct H as [H|H] | H : (_, _) = (_, _) |- _ => discriminate H | H : (_, _) = (_, _) |- _ => injection H as <- | H : False |- _ => contradiction end; try discriminate;
    vm_compute in I3; repeat match goal with H : _ \/ _ |- _ => destruct H as [H|H] | H : False |- _ => contradiction end; subst a;
    vm_compute in I1; repeat match goal with H : _ \/ _ |- _ => destruct H as [H|H] | H : False |- _ => contradiction end; subst it; destruct AT as [_ AT]; discriminate.
Qed.
(** Octal subscripts are recorded as decimal ones: a[010] is a[8], but a[10] is listed. *)
Definition octal_access : stmt := simple (SAssign "=" (CId "s") (CArr (CId "a") (lit "010"))).
Theorem C114_octal_refuted : exists k, process_code structural (Some [octal_access]) = Ok k /\
  (forall e, reads_element (e, mkAssign "=" (CId "s") (CArr (CId "a") (lit "010"))) "a" [8]) /\
  forall a it, listed (sources (accesses (kernel_nest k))) "a" a -> ~ access_at a it [8].
Proof.
  eexists. split; [vm_compute; reflexivity|]. split.
  - intros e. eexists. split; [now left|]. constructor; [reflexivity|constructor].
  - intros a it (l & [H|[]] & I2). injection H as <-. destruct I2 as [<-|[]]. intros [_ AT]. discriminate.
Qed.
Print Assumptions C114_octal_refuted.

(** ** C115: generated code uses the type of the indices and the innermost loop of the kernel. *)
(** The type of the indices is the common type of all loops; if they differ the answer is an error. *)
Theorem C115_index_type : forall items ds ls body ws,
  kernel_code items ds ls body ws -> Forall (fun l => exists t, index_type l = TBase t) ls ->
  exists l t, In l ls /\ index_type l = TBase t /\
  ((Forall (fun l => index_type l = TBase t) ls /\ get_index_type_all items = Ok (Some t)) \/
   (~ Forall (fun l => index_type l = TBase t) ls /\ get_index_type_all items = Err ValueError)).
Proof.
  intros items ds ls body ws C T. destruct (index_type_kernel _ _ _ _ _ C) as (s & N & -> & _). destruct (index_type_nest _ _ _ N T) as (t & HD & D).
  destruct ls as [|l ls]; [discriminate|]. cbn in HD. exists l, t. split; [now left|]. split; [congruence|exact D].
Qed.
Print Assumptions C115_index_type.
(** The innermost loop found is the one around the assignments, and contains no other loop. *)
Theorem C115_innermost : forall items ds ls body ws,
  kernel_code items ds ls body ws ->
  exists f l before, find_inner_most_loop items None = Some f /\ ls = before ++ [l] /\ nest f [l] body.
Proof.
  intros items ds ls body ws C. destruct (index_type_kernel _ _ _ _ _ C) as (s & N & _ & ->). destruct (inner_nest _ _ _ N) as (f & l & F & NF & before & E).
  exists f, l, before. auto.
Qed.
Print Assumptions C115_innermost.
Lemma example_is_code : kernel_code example_code [arr "a" [CId "M"; CId "N"]; arr "b" [CId "M"; CId "N"]; mkDecl "s" dbl None] example_loops example_body [[CId "a"; CId "b"]].
Proof. exists ["nounroll"], example_nest. split; [reflexivity|exact example_is_nest]. Qed.
Example C115_case : get_index_type_all example_code = Ok (Some ["int"]) /\ find_inner_most_loop example_code None = Some example_inner
  /\ get_index_type_all [SFor (IDecls [mkDecl "j" (TBase ["long"]) (Some (lit "0"))]) (Some (CBin "<" (CId "j") (CId "M"))) (pp "j") (simple set_one)] = Err ValueError.
Proof. vm_compute. repeat split. Qed.
