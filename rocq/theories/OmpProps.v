(** C108 to C110: the OpenMP version of the generated kernel function. *)
From Coq Require Import String.
From Verif Require Import GenModel GenSpec GenProofs AstSpec OmpModel OmpSpec OmpProofs GenProps.
Local Open Scope string_scope.
Local Open Scope list_scope.
Local Open Scope Z_scope.

(** ** C108: the threads of a team divide the iterations of the kernel among them. *)
(** Full statement: whatever pragmas stand in the loop nest, every iteration is executed by exactly one thread of the team that calls the kernel
    function. It is false if there are OpenMP directives of which none divides a loop, if another pragma mentions omp, and if a tabulator is used.
    For all ordinary pragmas: if there are no OpenMP directives, or one of the loops has one that divides it, with or without [parallel], then each
    iteration is executed by one thread, in the order of the kernel. The loops are those of the kernel. *)
Theorem C108_partial : forall n, levels n <> [] -> (forall p, In p (pragmas n) -> ordinary p) ->
  (forall p, In p (pragmas n) -> is_omp p = false) \/ (exists l, dividing n = [l]) ->
  exists m ast, get_kernel_loop_nest n = Ok (m, ast) /\ map snd (levels m) = map snd (levels n)
  /\ forall T owner its, (forall it, In it its -> (owner it < T)%nat) ->
       exists parts, map (thread_iterations m owner its) (seq 0 T) = map Some parts /\ merge parts its.
Proof.
  intros n NE O C. assert (FIN : forall m ast l, get_kernel_loop_nest n = Ok (m, ast) -> map snd (levels m) = map snd (levels n) -> shared_loops m = [l] ->
    exists m ast, get_kernel_loop_nest n = Ok (m, ast) /\ map snd (levels m) = map snd (levels n)
    /\ forall T owner its, (forall it, In it its -> (owner it < T)%nat) -> exists parts, map (thread_iterations m owner its) (seq 0 T) = map Some parts /\ merge parts its).
  { intros m ast l E L S. exists m, ast. split; [exact E|]. split; [exact L|]. intros T owner its H. exists (map (fun t => filter (fun it => Nat.eqb (owner it) t) its) (seq 0 T)). split; [|now apply owner_merge].
    rewrite map_map. apply map_ext. intros t. unfold thread_iterations. now rewrite S. }
  destruct (nest_cases n NE O) as [(N & ps & l & ls & EL & E & S)|(Y & E & S)].
  - eapply FIN; [exact E|rewrite EL; reflexivity|exact S].
  - destruct C as [C|(l & D)].
    + apply existsb_exists in Y as (p & I & Y). rewrite (C p I) in Y. discriminate.
    + eapply FIN; [exact E| |rewrite S, D; reflexivity]. unfold map_pragmas. cbn [levels]. rewrite map_map. reflexivity.
Qed.
(** Directives that do not divide a loop are all it takes to execute everything in every thread. *)
Theorem C108_repeated : forall n, levels n <> [] -> (forall p, In p (pragmas n) -> ordinary p) -> (exists p, In p (pragmas n) /\ is_omp p = true) -> dividing n = [] ->
  exists m ast, get_kernel_loop_nest n = Ok (m, ast) /\ forall owner its t, thread_iterations m owner its t = Some its.
Proof.
  intros n NE O (p & I & P) D. destruct (nest_cases n NE O) as [(N & _)|(Y & E & S)].
  - assert (Q : existsb is_omp (pragmas n) = true) by (apply existsb_exists; eauto). congruence.
  - exists (map_pragmas changed_pragma n), (map_pragmas changed_pragma n). split; [exact E|]. intros owner its t. unfold thread_iterations. now rewrite S, D.
Qed.
(** The pragmas of the kernel are changed in place; the next call gives the same loop nest. *)
Theorem C108_again : forall n m ast, (forall p, In p (pragmas n) -> ordinary p) -> get_kernel_loop_nest n = Ok (m, ast) -> get_kernel_loop_nest ast = Ok (m, ast).
Proof.
  intros n m ast O E. assert (NE : levels n <> []) by (intros L; unfold get_kernel_loop_nest in E; rewrite L in E; discriminate).
  destruct (nest_cases n NE O) as [(N & ps & l & ls & EL & E' & S)|(Y & E' & S)]; rewrite E' in E; injection E as <- <-; [exact E'|].
  set (a := map_pragmas changed_pragma n) in *. assert (EP : pragmas a = map changed_pragma (pragmas n)) by apply pragmas_map.
  assert (FX : map_pragmas changed_pragma a = a). { apply map_pragmas_id. intros p I. rewrite EP in I. apply in_map_iff in I as (q & <- & I). now apply ordinary_changed, O. }
  unfold get_kernel_loop_nest. change (fun p : text => if mentions_omp p then without_parallel p else p) with changed_pragma. rewrite FX.
  destruct (filter mentions_omp (pragmas a)) as [|q qs] eqn:Fm.
  - exfalso. apply filter_nil in Fm. rewrite EP, existsb_map' in Fm. assert (G : existsb is_omp (pragmas n) = false); [|congruence]. rewrite <- Fm. apply existsb_in. intros p I. destruct (ordinary_changed p (O p I)) as (_ & _ & H1 & H2). congruence.
  - subst a. unfold map_pragmas. cbn [levels]. destruct (levels n) as [|[ps l] ls]; [congruence|]. reflexivity.
Qed.
Theorem C108_no_loop : forall n, levels n = [] -> get_kernel_loop_nest n = Err AssertionError.
Proof. intros n E. unfold get_kernel_loop_nest. now rewrite E. Qed.

Definition loop_j : cloop := mkCloop "j" (EConst (Some 0)) (EID "M") 1.
Definition loop_i : cloop := mkCloop "i" (EConst (Some 0)) (EID "N") 1.
Ltac no_omp := intros a b E; apply (f_equal (contains (codes "omp"))) in E; rewrite (proj2 (contains_spec (codes "omp") (a ++ codes "omp" ++ b))) in E by eauto; vm_compute in E; discriminate E.
Ltac omp_words := left; eexists; split; [vm_compute; reflexivity|]; split; [intros I; cbn in I; repeat (destruct I as [I|I]; [discriminate I|]); exact I|];
  intros w x I E; vm_compute in I; repeat (destruct I as [<-|I]; [vm_compute in E; first [discriminate E|injection E as <-; reflexivity]|]); easy.
(** [#pragma omp parallel for schedule(static)] before the outer, [#pragma unroll] before the inner loop *)
Definition annotated : nest := mkNest [([codes "omp parallel for schedule(static)"], loop_j); ([codes "unroll"], loop_i)] [].
Definition plain : nest := mkNest [([], loop_j); ([codes "unroll"], loop_i)] [codes "ivdep"].
Example C108_annotated : (forall p, In p (pragmas annotated) -> ordinary p) /\ dividing annotated = [([codes "omp parallel for schedule(static)"], loop_j)]
  /\ get_kernel_loop_nest annotated = Ok (let m := mkNest [([codes "omp for schedule(static)"], loop_j); ([codes "unroll"], loop_i)] [] in (m, m)).
Proof.
  split; [|split; vm_compute; reflexivity]. intros p [<-|[<-|[]]]; [omp_words|right; no_omp].
Qed.
Example C108_plain : (forall p, In p (pragmas plain) -> ordinary p) /\ (forall p, In p (pragmas plain) -> is_omp p = false)
  /\ get_kernel_loop_nest plain = Ok (mkNest [([codes "omp for"], loop_j); ([codes "unroll"], loop_i)] [codes "ivdep"], plain).
Proof.
  split; [|split; [|vm_compute; reflexivity]]; intros p [<-|[<-|[]]]; try (right; no_omp); vm_compute; reflexivity.
Qed.
Example C108_divided : exists m ast parts, get_kernel_loop_nest annotated = Ok (m, ast)
  /\ map (thread_iterations m (fun it => match lookup "j" it with Some z => Z.to_nat (z mod 2) | None => 0%nat end) [[("j", 0)]; [("j", 1)]; [("j", 2)]]) (seq 0 2) = map Some parts
  /\ parts = [[[("j", 0)]; [("j", 2)]]; [[("j", 1)]]].
Proof. do 2 eexists. exists [[[("j", 0)]; [("j", 2)]]; [[("j", 1)]]]. split; [apply C108_annotated|]. split; vm_compute; reflexivity. Qed.
Lemma not_merged {X} (l : list X) T : l <> [] -> (2 <= T)%nat -> ~ merge (List.repeat l T) l.
Proof.
  intros N L M. apply merge_length in M. destruct l as [|x l]; [congruence|]. destruct T as [|[|T]]; [lia|lia|]. cbn [List.repeat concat] in M. rewrite !app_length in M. cbn [List.length] in M. lia.
Qed.
(** All threads execute all iterations if the user asks for vectorization only, if a pragma mentions omp otherwise, or for [parallel] without
    [for]; the outcome has nothing to do with the number of iterations or who would own them. *)
Theorem C108_not_divided_refuted : forall p, In p [codes "omp simd"; codes "prefetch comp"; codes "omp parallel"; codes "omp	parallel for"] ->
  exists m ast, get_kernel_loop_nest (mkNest [([p], loop_j); ([], loop_i)] []) = Ok (m, ast)
  /\ forall T owner its, (2 <= T)%nat -> its <> [] -> map (thread_iterations m owner its) (seq 0 T) = List.repeat (Some its) T /\ ~ merge (List.repeat its T) its.
Proof.
  intros p I. assert (S : exists m ast, get_kernel_loop_nest (mkNest [([p], loop_j); ([], loop_i)] []) = Ok (m, ast) /\ shared_loops m = []).
  { repeat (destruct I as [<-|I]; [do 2 eexists; split; vm_compute; reflexivity|]). easy. }
  destruct S as (m & ast & E & S). exists m, ast. split; [exact E|]. intros T owner its L N. split; [|now apply not_merged].
  unfold thread_iterations. rewrite S. clear. generalize 0%nat. induction T as [|T IH]; intros i; [reflexivity|]. cbn [seq map List.repeat]. now rewrite IH.
Qed.
(** A clause whose name begins with [parallel] loses that part of it as well: the directive is no longer the one the user wrote. *)
Example C108_name_changed : without_parallel (codes "omp for private(i) parallel_hint") = codes "omp for private(i)_hint".
Proof. vm_compute. reflexivity. Qed.

(** ** C109: with any number of threads and any schedule the kernel function computes what the kernel computes. *)
(** Full statement: for all kernels whose iterations do not depend on each other. It is false for kernels which assign scalars, even if every
    iteration assigns them before they are read. For kernels that only write to arrays: if no thread writes an element another thread accesses, all threads
    can execute all their operations in every order, without an access outside of the arrays or a value that is not there, and in the end
    arrays and scalars are those the sequential kernel leaves. *)
Theorem C109_partial : forall V (A : arithmetic V) (k : kernel) (env : ienv) (f : func) s t s' its parts,
  well_named k env -> kernel_function k = Ok f ->
  (forall a b, In (a, b) (swaps k) -> lookup a (arrays k) <> None /\ lookup b (arrays k) <> None) ->
  unswapped k t -> assigned k s -> agrees k env everywhere s t -> kernel_runs A (without_swaps k) env s s' ->
  iterations (loops k) env its -> merge parts its -> parts <> [] -> scalars_constant k -> independent k parts ->
  exists cds, team_calls A k env f t parts cds
  /\ forall sched, exists t2 ths, interleave A sched t (start cds) = Some (t2, ths) /\ (finished ths -> agrees k env everywhere s' t2 /\ unswapped k t2).
Proof.
  intros V A k env f s t s' its parts W F SW U IS AG (s1 & R & ->) IT M NP SC IND.
  destruct (team_same A k env f s s1 t W F SW U IS AG R its parts IT M NP SC IND) as (t' & cds & AG' & U' & TC & H). exists cds. split; [exact TC|]. intros sched. destruct (H sched) as (t2 & ths & E & FI).
  exists t2, ths. split; [exact E|]. intros FT. destruct (FI FT) as [P C]. destruct AG' as [AE AV]. split; [split|].
  - intros n dims zs D I K. destruct (AE n dims zs D I K) as (b & L & B). exists b. rewrite P. split; [exact L|]. exact (eq_trans (C (Elem b (position dims zs))) B).
  - intros n L. exact (eq_trans (C (Cell n)) (AV n L)).
  - unfold unswapped. rewrite P. exact U'.
Qed.
(** The same for the loop nest which is generated, when the user wrote no OpenMP directive: the threads execute what the inserted one gives them. *)
Theorem C109_generated_partial : forall V (A : arithmetic V) (k : kernel) (env : ienv) (f : func) s t s' its n T owner,
  well_named k env -> kernel_function k = Ok f ->
  (forall a b, In (a, b) (swaps k) -> lookup a (arrays k) <> None /\ lookup b (arrays k) <> None) ->
  unswapped k t -> assigned k s -> agrees k env everywhere s t -> kernel_runs A (without_swaps k) env s s' ->
  iterations (loops k) env its -> scalars_constant k ->
  map snd (levels n) = loops k -> levels n <> [] -> (forall p, In p (pragmas n) -> ordinary p /\ is_omp p = false) ->
  (0 < T)%nat -> (forall it, In it its -> (owner it < T)%nat) ->
  exists m ast parts, get_kernel_loop_nest n = Ok (m, ast) /\ map snd (levels m) = loops k /\ map (thread_iterations m owner its) (seq 0 T) = map Some parts
  /\ (independent k parts -> exists cds, team_calls A k env f t parts cds
      /\ forall sched, exists t2 ths, interleave A sched t (start cds) = Some (t2, ths) /\ (finished ths -> agrees k env everywhere s' t2 /\ unswapped k t2)).
Proof.
  intros V A k env f s t s' its n T owner W F SW U IS AG R IT SC L NE O LT H.
  destruct (C108_partial n NE (fun p I => proj1 (O p I)) (or_introl (fun p I => proj2 (O p I)))) as (m & ast & E & EL & D). destruct (D T owner its H) as (parts & EP & M).
  exists m, ast, parts. split; [exact E|]. split; [congruence|]. split; [exact EP|]. intros IND. apply (C109_partial V A k env f s t s' its parts); try assumption.
  intros ->. apply (f_equal (@List.length _)) in EP. rewrite !map_length, seq_length in EP. cbn in EP. lia.
Qed.
(** All calls of a team have the same code. *)
Theorem C109_deterministic : forall V (A : arithmetic V) (k : kernel) (env : ienv) (f : func) t parts c1 c2, team_calls A k env f t parts c1 -> team_calls A k env f t parts c2 -> c1 = c2.
Proof. intros V A k env f t parts c1 c2. apply team_fun. Qed.

(** [for(j = 1; j < M-1; ++j) for(i = 1; i < N-1; ++i) b[j][i] = (a[j][i-1] + a[j][i+1]) * c;] by two threads, one for each j *)
Definition scaled : kernel := mkKernel (arrays stencil) [("c", None)] (constants stencil) (loops stencil) [hd (mkassign "" EOther EOther) (body stencil)] [].
Example scaled_named : well_named scaled stencil_env.
Proof. split; [cbn; nodup|]. split; [reflexivity|]. dims_fixed. Qed.
Definition row (j : Z) : list ienv := [[("i", 1); ("j", j); ("M", 4); ("N", 5)]; [("i", 2); ("j", j); ("M", 4); ("N", 5)]; [("i", 3); ("j", j); ("M", 4); ("N", 5)]].
Ltac in_cases H := repeat (destruct H as [H|H]; [subst|]); try (now destruct H).
Lemma scaled_independent : independent scaled [row 2; row 1].
Proof.
  intros i j pi pj a b p NE I J IA IB (x & r & X & Y & P) ((x' & r' & X' & Y' & P') & Q).
  cbn in X, X'. destruct X as [<-|[]]. destruct X' as [<-|[]]. cbn in Y, Y'. destruct Y as [<-|[]].
  destruct i as [|[|i]], j as [|[|j]]; try congruence; cbn in I, J; try (destruct i; discriminate); try (destruct j; discriminate); injection I as <-; injection J as <-;
    cbn in IA, IB; repeat (destruct IA as [<-|IA]; [cbn in P; injection P as <-;
      repeat (destruct IB as [<-|IB]; [repeat (destruct Y' as [<-|Y']; [cbn in P'; try discriminate P'; injection P' as <-; congruence|]); easy|]); easy|]); easy.
Qed.
Lemma stencil_agrees : agrees scaled stencil_env everywhere stencil_memory stencil_process.
Proof.
  split; [|reflexivity]. intros n dims zs D I _. exists n. unfold declared in D. cbn [scaled stencil arrays lookup] in D.
  assert (E : dims = [4; 5] /\ lookup n (pointers stencil_process) = Some n).
  { cbn [stencil_process pointers lookup]. destruct (String.eqb_spec n "a") as [->|_]; [split; [now injection D|reflexivity]|]. destruct (String.eqb_spec n "b") as [->|_]; [split; [now injection D|reflexivity]|discriminate]. }
  destruct E as [-> L]. split; [assumption|]. pose proof (position_bound _ _ I) as BO. apply inside_range in I. inversion I as [|? j ? l' J I']; subst. inversion I' as [|? i ? l'' J' I'']; subst. inversion I''; subst.
  cbn [position] in *. change (zprod [5]) with 5 in *. change (zprod []) with 1 in *. cbn [stencil_process blocks stencil_memory elements].
  replace ((0 <=? _) && (_ <? 20))%bool with true; [|symmetry; apply andb_true_iff; split; [apply Z.leb_le|apply Z.ltb_lt]; nia].
  f_equal. replace (j * 5 + (i * 1 + 0)) with (i + j * 5) by ring. rewrite Z.div_add, Z.mod_add, Z.div_small, Z.mod_small by lia. lia.
Qed.
Example C109_scaled : exists f cds, kernel_function scaled = Ok f /\ team_calls (integers 7) scaled stencil_env f stencil_process [row 2; row 1] cds
  /\ forall sched, exists t2 ths, interleave (integers 7) sched stencil_process (start cds) = Some (t2, ths) /\ (finished ths -> blocks t2 "b" 11 = Some 84 /\ blocks t2 "b" 6 = Some 44).
Proof.
  destruct (runs_compute (integers 7) (source_machine scaled stencil_env) 10 (loops scaled) (body scaled) stencil_env stencil_memory
    (fun s => elements s "b" [2; 1] = Some 84 /\ elements s "b" [1; 1] = Some 44)) as (s' & R & B & B'). { vm_compute. auto. }
  destruct (kernel_function scaled) as [f|] eqn:F; [|discriminate]. exists f.
  destruct (C109_partial _ (integers 7) scaled stencil_env f stencil_memory stencil_process s' (row 1 ++ row 2) [row 2; row 1] scaled_named F) as (cds & TC & H).
  - intros a b [].
  - reflexivity.
  - intros n _. discriminate.
  - exact stencil_agrees.
  - exists s'. split; [exact R|reflexivity].
  - apply (iterations_sound 10). vm_compute. reflexivity.
  - do 3 (eapply (merge_cons _ 1); [reflexivity|]). do 3 (eapply (merge_cons _ 0); [reflexivity|]). constructor. repeat constructor.
  - discriminate.
  - intros a r n I J E. cbn in I. destruct I as [<-|[]]. cbn in J. destruct J as [<-|[]]. discriminate E.
  - exact scaled_independent.
  - exists cds. split; [reflexivity|]. split; [exact TC|]. intros sched. destruct (H sched) as (t2 & ths & E & FI). exists t2, ths. split; [exact E|]. intros FT. destruct (FI FT) as ((AE & _) & U). split.
    + destruct (AE "b" [4; 5] [2; 1] eq_refl eq_refl Logic.I) as (b & L & Q). rewrite U in L. injection L as <-. etransitivity; [exact Q|exact B].
    + destruct (AE "b" [4; 5] [1; 1] eq_refl eq_refl Logic.I) as (b & L & Q). rewrite U in L. injection L as <-. etransitivity; [exact Q|exact B'].
Qed.

(** [for(i = 0; i < N; ++i) { s = a[i]; b[i] = s; }]: the iterations are independent, but s is a static variable of all threads. *)
Definition temporary : kernel :=
  mkKernel [("a", [EID "N"]); ("b", [EID "N"])] [("s", None)] ["N"] [mkCloop "i" (EConst (Some 0)) (EID "N") 1]
    [mkassign "=" (EID "s") (EArr (EID "a") (EID "i")); mkassign "=" (EArr (EID "b") (EID "i")) (EID "s")] [].
Definition copy_memory : @memory Z := mkMemory (fun n zs => match zs with [i] => Some (5 + 2 * i) | _ => None end) (fun _ => Some 0).
Definition copy_process (ps : list (string * string)) : @process Z := mkProcess (fun _ i => Some (5 + 2 * i)) ps (fun _ => Some 0) (fun _ => None).
Lemma interleave_compute {V} (A : arithmetic V) sched t ths (P : process -> list (list op * list V) -> Prop) :
  match interleave A sched t ths with Some (t2, ths2) => P t2 ths2 | None => False end -> exists t2 ths2, interleave A sched t ths = Some (t2, ths2) /\ P t2 ths2.
Proof. destruct (interleave A sched t ths) as [[t2 ths2]|]; [eauto|easy]. Qed.
(** At the end of the loop there is a barrier: each thread has only its copies of scalars left. *)
Theorem C109_temporary_refuted : exists (A : arithmetic Z) k env f s t s' its parts cds sched sched' t1 t2 ths1 ths2,
  well_named k env /\ swaps k = [] /\ kernel_function k = Ok f /\ unswapped k t /\ assigned k s /\ agrees k env everywhere s t /\ kernel_runs A k env s s'
  /\ iterations (loops k) env its /\ merge parts its /\ independent k parts /\ team_calls A k env f t parts cds
  /\ interleave A sched t (start cds) = Some (t1, ths1) /\ Forall (fun th => th = (copy_out_code [("s", "s")], [])) ths1
  /\ interleave A sched' t1 ths1 = Some (t2, ths2) /\ finished ths2
  /\ elements s' "b" [0] = Some 5 /\ elements s' "b" [1] = Some 7 /\ blocks t2 "b" 0 = Some 7 /\ blocks t2 "b" 1 = Some 7.
Proof.
  assert (W : well_named temporary [("N", 2)]) by (split; [cbn; nodup|]; split; [reflexivity|]; dims_fixed).
  destruct (kernel_function temporary) as [f|] eqn:F; [|discriminate].
  destruct (runs_compute (integers 0) (source_machine temporary [("N", 2)]) 10 (loops temporary) (body temporary) [("N", 2)] copy_memory
    (fun s => elements s "b" [0] = Some 5 /\ elements s "b" [1] = Some 7)) as (s' & R & B & B'); [vm_compute; auto|].
  pose (t := copy_process [("a", "a"); ("b", "b")]). pose (parts := [[[("i", 0); ("N", 2)]]; [[("i", 1); ("N", 2)]]]).
  assert (TC : exists cds, team_calls (integers 0) temporary [("N", 2)] f t parts cds /\ match interleave (integers 0) [0; 0; 0; 0; 1; 1; 1; 1; 0; 0; 1; 1]%nat t (start cds) with
    | Some (t1, ths1) => Forall (fun th => th = (copy_out_code [("s", "s")], [])) ths1
        /\ match interleave (integers 0) [0; 0; 1; 1]%nat t1 ths1 with Some (t2, ths2) => finished ths2 /\ blocks t2 "b" 0 = Some 7 /\ blocks t2 "b" 1 = Some 7 | None => False end
    | None => False end).
  { vm_compute in F. injection F as <-. eexists. split.
    - split; [cbn; nodup|]. do 2 eexists. split; [vm_compute; reflexivity|]. split; [vm_compute; reflexivity|]. constructor; [vm_compute; reflexivity|]. constructor; [vm_compute; reflexivity|]. constructor.
    - vm_compute. repeat constructor. }
  destruct TC as (cds & TC & H). apply interleave_compute in H as (t1 & ths1 & E1 & B1 & H). apply interleave_compute in H as (t2 & ths2 & E2 & FI & X & Y).
  exists (integers 0), temporary, [("N", 2)], f, copy_memory, t, s', (concat parts), parts, cds, [0; 0; 0; 0; 1; 1; 1; 1; 0; 0; 1; 1]%nat, [0; 0; 1; 1]%nat, t1, t2, ths1, ths2.
  split; [exact W|]. split; [reflexivity|]. split; [exact F|]. split; [reflexivity|]. split; [discriminate|].
  split; [|split; [exists s'; split; [exact R|reflexivity]|]].
  - split; [|intros n Hn; reflexivity]. intros n dims zs D I _. exists n. unfold declared in D. cbn [temporary arrays lookup] in D.
    assert (E : dims = [2] /\ lookup n (pointers t) = Some n).
    { cbn [t copy_process pointers lookup]. destruct (String.eqb_spec n "a") as [->|_]; [split; [now injection D|reflexivity]|]. destruct (String.eqb_spec n "b") as [->|_]; [split; [now injection D|reflexivity]|discriminate]. }
    destruct E as [-> L]. split; [exact L|]. apply inside_range in I. inversion I as [|? j ? l' J I']; subst. inversion I'; subst. cbn [position copy_memory elements t copy_process blocks]. change (zprod []) with 1. f_equal. ring.
  - split; [apply (iterations_sound 10); vm_compute; reflexivity|].
    split; [eapply (merge_cons _ 0); [reflexivity|]; eapply (merge_cons _ 1); [reflexivity|]; constructor; repeat constructor|].
    split; [|repeat (split; [assumption|]); assumption].
    intros i j pi pj a b p NE I J IA IB (x & r & K & Xr & P) ((x' & r' & K' & Xr' & P') & Q). cbn in K, K'.
    destruct i as [|[|i]], j as [|[|j]]; try congruence; cbn in I, J; try (destruct i; discriminate); try (destruct j; discriminate); injection I as <-; injection J as <-;
      cbn in IA, IB; (destruct IA as [<-|[]]); (destruct IB as [<-|[]]); (destruct K as [<-|[<-|[]]]; (destruct K' as [<-|[<-|[]]]));
      cbn in Xr, Xr'; (destruct Xr as [<-|[]]); repeat (destruct Xr' as [<-|Xr']; [cbn in P, P'; injection P as <-; try discriminate P'; cbn in Q; congruence|]); easy.
Qed.
(** [s += a[i]]: even if no two threads execute the loop at the same time, a sum is lost, because every thread resets the common variable. *)
Definition summing : kernel :=
  mkKernel [("a", [EID "N"])] [("s", None)] ["N"] [mkCloop "i" (EConst (Some 0)) (EID "N") 1] [mkassign "+=" (EID "s") (EArr (EID "a") (EID "i"))] [].
Theorem C109_sum_refuted : exists (A : arithmetic Z) k env f s t s' its parts cds t2 ths2,
  well_named k env /\ swaps k = [] /\ kernel_function k = Ok f /\ unswapped k t /\ assigned k s /\ agrees k env everywhere s t /\ kernel_runs A k env s s'
  /\ iterations (loops k) env its /\ merge parts its /\ team_calls A k env f t parts cds
  /\ map (@List.length _) cds = [8; 8]%nat /\ interleave A (List.repeat 0 6 ++ List.repeat 1 6 ++ List.repeat 0 2 ++ List.repeat 1 2)%nat t (start cds) = Some (t2, ths2) /\ finished ths2
  /\ variables s' "s" = Some 12 /\ cells t2 "s" = Some 7.
Proof.
  assert (W : well_named summing [("N", 2)]) by (split; [cbn; nodup|]; split; [reflexivity|]; dims_fixed).
  destruct (kernel_function summing) as [f|] eqn:F; [|discriminate].
  destruct (runs_compute (integers 0) (source_machine summing [("N", 2)]) 10 (loops summing) (body summing) [("N", 2)] copy_memory (fun s => variables s "s" = Some 12)) as (s' & R & B); [vm_compute; auto|].
  pose (t := copy_process [("a", "a")]). pose (parts := [[[("i", 0); ("N", 2)]]; [[("i", 1); ("N", 2)]]]).
  assert (TC : exists cds, team_calls (integers 0) summing [("N", 2)] f t parts cds /\ map (@List.length _) cds = [8; 8]%nat
    /\ match interleave (integers 0) (List.repeat 0 6 ++ List.repeat 1 6 ++ List.repeat 0 2 ++ List.repeat 1 2)%nat t (start cds) with Some (t2, ths2) => finished ths2 /\ cells t2 "s" = Some 7 | None => False end).
  { vm_compute in F. injection F as <-. eexists. split.
    - split; [cbn; nodup|]. do 2 eexists. split; [vm_compute; reflexivity|]. split; [vm_compute; reflexivity|]. constructor; [vm_compute; reflexivity|]. constructor; [vm_compute; reflexivity|]. constructor.
    - split; [reflexivity|]. vm_compute. repeat constructor. }
  destruct TC as (cds & TC & LE & H). apply interleave_compute in H as (t2 & ths2 & E2 & FI & X).
  exists (integers 0), summing, [("N", 2)], f, copy_memory, t, s', (concat parts), parts, cds, t2, ths2.
  split; [exact W|]. split; [reflexivity|]. split; [exact F|]. split; [reflexivity|]. split; [discriminate|].
  split; [|split; [exists s'; split; [exact R|reflexivity]|]].
  - split; [|intros n Hn; reflexivity]. intros n dims zs D I _. exists n. unfold declared in D. cbn [summing arrays lookup] in D.
    assert (E : dims = [2] /\ lookup n (pointers t) = Some n).
    { cbn [t copy_process pointers lookup]. destruct (String.eqb_spec n "a") as [->|_]; [split; [now injection D|reflexivity]|discriminate]. }
    destruct E as [-> L]. split; [exact L|]. apply inside_range in I. inversion I as [|? j ? l' J I']; subst. inversion I'; subst. cbn [position copy_memory elements t copy_process blocks]. change (zprod []) with 1. f_equal. ring.
  - split; [apply (iterations_sound 10); vm_compute; reflexivity|].
    split; [eapply (merge_cons _ 0); [reflexivity|]; eapply (merge_cons _ 1); [reflexivity|]; constructor; repeat constructor|]. repeat (split; [assumption|]). assumption.
Qed.

(** ** C110: the code for one thread is that for all threads without its OpenMP directives. *)
Theorem C110_serial : forall ls, Forall proper_line ls -> stored_code false (flat_map line_text ls) = flat_map kept ls /\ forall a b, stored_code false (flat_map line_text ls) <> (a ++ codes "#pragma omp" ++ b)%list.
Proof.
  intros ls F. assert (E : stored_code false (flat_map line_text ls) = flat_map kept ls) by (apply sub_lines; [assumption|reflexivity]). split; [exact E|]. rewrite E. now apply kept_free.
Qed.
Theorem C110_parallel : forall code, stored_code true code = code.
Proof. reflexivity. Qed.
(** The two versions are kept in different files. *)
Theorem C110_files : kernel_filename false = codes "kernel.c" /\ kernel_filename true = codes "kernel-omp.c".
Proof. split; reflexivity. Qed.
Example C110_lines : exists ls, Forall proper_line ls /\ flat_map line_text ls = codes "{
  #pragma omp for
  for (i = 0; i < N; ++i)
  #pragma ivdep
  a[i] = 0;
}
" /\ stored_code false (flat_map line_text ls) = codes "{
    for (i = 0; i < N; ++i)
  #pragma ivdep
  a[i] = 0;
}
".
Proof.
  exists [Plain (codes "{"); Directive 2 (codes " for"); Plain (codes "  for (i = 0; i < N; ++i)"); Plain (codes "  #pragma ivdep"); Plain (codes "  a[i] = 0;"); Plain (codes "}")].
  split; [|split; vm_compute; reflexivity].
  assert (G : forall s, existsb (N.eqb newline) s = false -> line_free s) by (intros s H I; assert (K : existsb (N.eqb newline) s = true) by (apply existsb_exists; exists newline; split; [assumption|reflexivity]); congruence).
  assert (G' : forall s, contains (codes "#pragma omp") s = false -> forall a b, s <> (a ++ codes "#pragma omp" ++ b)%list) by (intros s H a b E; rewrite (proj2 (contains_spec _ s)) in H by eauto; discriminate).
  repeat (apply Forall_cons; [cbn [proper_line]; try split; first [apply G; vm_compute; reflexivity|apply G'; vm_compute; reflexivity]|]). apply Forall_nil.
Qed.

Print Assumptions C108_partial.
Print Assumptions C108_repeated.
Print Assumptions C108_again.
Print Assumptions C108_no_loop.
Print Assumptions C108_not_divided_refuted.
Print Assumptions C109_partial.
Print Assumptions C109_generated_partial.
Print Assumptions C109_deterministic.
Print Assumptions C109_temporary_refuted.
Print Assumptions C109_sum_refuted.
Print Assumptions C110_serial.
Print Assumptions C110_parallel.
Print Assumptions C110_files.
