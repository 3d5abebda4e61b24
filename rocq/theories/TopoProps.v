(** C89 to C95: description of the current machine. *)
From Coq Require Import QArith Qreduction Lqa.
From Verif Require Import PyNumFacts PerfModel TopoSpec TopoProofs.
Local Open Scope Z_scope.
Local Open Scope list_scope.

(** ** C89: the memory hierarchy is the one of the topology *)
Theorem C89_read l topology r :
  topology_of l topology -> l <> [] -> Forall (fun s => sh_groups s <> [] /\ exists q, size_is (sh_size s) q) l ->
  exists caches mem,
    hierarchy true r topology = Ok (caches ++ [mem]) /\
    Forall2 (describes (r_cores r * r_sockets r) (r_threads r)) l caches /\
    (consecutive l -> chained caches) /\
    v_name mem = codes "MEM" /\ v_size mem = Some None /\ v_cores mem = Some (r_cores r) /\ v_threads mem = Some (r_threads r * r_cores r) /\
    exists rest, v_throughput mem = Some (codes "full socket memory bandwidth" :: rest).
Proof.
  intros T N F.
  assert (G : Forall (fun s => sh_groups s <> []) l) by (revert F; apply Forall_impl; tauto).
  destruct (sizes_exist l) as (qs & Q); [revert F; apply Forall_impl; tauto|].
  exists (cut (map (fun sq => added r (fst sq) (snd sq)) (combine l qs))), (memory true r).
  split; [now apply section_text|]. split; [now apply cut_describes|]. split; [now apply cut_chained|]. repeat (split; [reflexivity|]). eexists; reflexivity.
Qed.
Print Assumptions C89_read.
(** If all groups have the same number of cores, this is the number of cores per group. *)
Theorem C89_groups cores threads k s v :
  describes cores threads s v -> 0 < threads -> sh_groups s <> [] ->
  Forall (fun g => Z.of_nat (List.length g) = k * threads) (sh_groups s) -> Z.of_nat (List.length (concat (sh_groups s))) = cores * threads ->
  v_cores v = Some k /\ v_threads v = Some (k * threads).
Proof.
  intros (_ & _ & _ & _ & C & T) P N F S.
  assert (L : Z.of_nat (List.length (concat (sh_groups s))) = Z.of_nat (List.length (sh_groups s)) * (k * threads)).
  { clear - F. induction F as [|g gs H F IH]; [reflexivity|]. cbn [concat List.length]. rewrite app_length, Nat2Z.inj_add, IH, H. lia. }
  assert (0 < Z.of_nat (List.length (sh_groups s))) by (destruct (sh_groups s); [congruence|cbn; lia]).
  assert (E : cores = k * Z.of_nat (List.length (sh_groups s))) by nia.
  rewrite C, T, E, Z.div_mul by lia. auto.
Qed.
Print Assumptions C89_groups.

Definition text_of (l : list string) : text := join 10 (map codes l).
(** A machine with two sockets of two cores with two threads *)
Definition head_lines : list string := ["CPU name: Some CPU"; "CPU type: Intel Xeon processor  "; "***"; "Sockets:  2"; "Cores per socket: 2"; "Threads per core: 2"; "***"; ""]%string.
Definition cache_lines : list string :=
  ["Cache Topology"; "***"; "Level:   1"; "Size:    32 kB"; "Cache groups:  ( 0 4 ) ( 1 5 ) ( 2 6 ) ( 3 7 ) "; "---";
   "Level:   2"; "Type:  Unified cache"; "Size:    20 MB"; "Cache groups:  ( 0 4 1 5 ) ( 2 6 3 7 ) "; "***"; ""]%string.
Definition tail_lines : list string := ["NUMA Topology"; "***"; "NUMA domains:   2"; ""]%string.
Definition small_topology : text := text_of head_lines ++ text_of cache_lines ++ text_of tail_lines.
Definition small_caches : list shown :=
  [mkShown 1 (codes "32 kB") [[0; 4]; [1; 5]; [2; 6]; [3; 7]]; mkShown 2 (codes "20 MB") [[0; 4; 1; 5]; [2; 6; 3; 7]]].
Ltac not_in := let H := fresh in intros H; cbn in H; repeat (destruct H as [H|H]; [discriminate H|]); destruct H.
Ltac blanks_tac := unfold blanks; cbn; repeat (constructor; [lia|]); constructor.
Ltac plain_tac := split; [not_in|split; [|split]; apply starts_false; reflexivity].
Ltac plains := unfold blanks; lazymatch goal with |- Forall plain _ => repeat (apply Forall_cons; [plain_tac|]); apply Forall_nil | _ => blanks_tac end.
Lemma size_32 : size_is (codes "32 kB") (UnitModel.mkq (Fin (inject_Z 32)) "k" "B").
Proof.
  split; [not_in|]. split; [not_in|]. split; [exists 51%N, (codes "2 kB"); split; [reflexivity|unfold white; lia]|].
  split; [exists 66%N, (codes "32 k"); split; [reflexivity|unfold white; lia]|]. vm_compute. reflexivity.
Qed.
Lemma size_20 : size_is (codes "20 MB") (UnitModel.mkq (Fin (inject_Z 20)) "M" "B").
Proof.
  split; [not_in|]. split; [not_in|]. split; [exists 50%N, (codes "0 MB"); split; [reflexivity|unfold white; lia]|].
  split; [exists 66%N, (codes "20 M"); split; [reflexivity|unfold white; lia]|]. vm_compute. reflexivity.
Qed.
Example C89_example_topology : topology_of small_caches small_topology.
Proof.
  exists (text_of head_lines), (map codes cache_lines), (text_of tail_lines).
  split; [reflexivity|]. split.
  - exists (map codes ["Cache Topology"; "***"]%string), [map codes (firstn 4 (skipn 2 cache_lines)); map codes (skipn 6 cache_lines)].
    split; [reflexivity|]. split; [plains|].
    constructor; [|constructor; [|constructor]].
    + exists [], [], (map codes ["---"]%string), (codes "   "), (codes "    "), (codes "  ").
      do 6 (split; [plains|]). reflexivity.
    + exists (map codes ["Type:  Unified cache"]%string), [], (map codes ["***"; ""]%string), (codes "   "), (codes "    "), (codes "  ").
      do 6 (split; [plains|]). reflexivity.
  - assert (B1 : begins (codes "Cache Topology") (join 10 (map codes cache_lines))) by (eexists; reflexivity).
    assert (B2 : begins (codes "NUMA Topology") (text_of tail_lines)) by (eexists; reflexivity).
    split; [exact B1|]. split; [exact B2|]. split.
    + apply find_first_part; [vm_compute; reflexivity|]. destruct B1 as (t & ->). exists (t ++ text_of tail_lines). now rewrite app_assoc.
    + apply find_first_part; [vm_compute; reflexivity|exact B2].
Qed.
Definition small_readout : readout := mkReadout (codes "Intel Xeon processor") None 2 2 2 1 2 None (codes "always").
Example C89_example :
  exists caches mem, hierarchy true small_readout small_topology = Ok (caches ++ [mem]) /\ chained caches /\
    map v_name (caches ++ [mem]) = map codes ["L1"; "L2"; "MEM"]%string /\ map v_cores caches = [Some 1; Some 2] /\ map v_threads caches = [Some 2; Some 4].
Proof.
  destruct (C89_read small_caches small_topology small_readout) as (caches & mem & H & D & C & M).
  - exact C89_example_topology.
  - discriminate.
  - constructor; [split; [discriminate|eexists; exact size_32]|]. constructor; [split; [discriminate|eexists; exact size_20]|]. constructor.
  - exists caches, mem. split; [exact H|]. split; [apply C; cbn; auto|].
    inversion D as [|s1 v1 l1 c1 D1 R1]; subst. inversion R1 as [|s2 v2 l2 c2 D2 R2]; subst. inversion R2; subst.
    destruct D1 as (A1 & _ & _ & _ & A2 & A3), D2 as (B1 & _ & _ & _ & B2 & B3). cbn [map app].
    rewrite A1, A2, A3, B1, B2, B3, (proj1 M). vm_compute. auto.
Qed.
Example C89_groups_example : exists v, describes 4 2 (mkShown 2 (codes "20 MB") [[0; 4; 1; 5]; [2; 6; 3; 7]]) v /\ v_cores v = Some 2 /\ v_threads v = Some 4.
Proof.
  exists (mkLevel (codes "L2") (Some [codes "INFORMATION_REQUIRED (e.g. 24 B/cy)"]) None (Some (Some (UnitModel.mkq (Fin (inject_Z 20)) "M" "B"))) (Some 2) (Some 2) (Some 4)).
  split; [|auto]. split; [reflexivity|]. split; [eexists _, _; split; [reflexivity|]; split; discriminate|].
  split; [eexists; split; [reflexivity|apply size_20]|auto].
Qed.
(** The name of the processor is that of the first line of cpuinfo that begins with it, behind the colon and without blanks around it. *)
Theorem C89_name topology cpuinfo w r v a w0 w1 w' b : readouts topology cpuinfo w = Ok r ->
  cpuinfo = a ++ codes "model name" ++ w0 ++ 58%N :: w1 ++ v ++ w' ++ b -> first_line (codes "model name") a (codes "model name" ++ w0 ++ 58%N :: w1 ++ v ++ w' ++ b) ->
  blanks w0 -> w0 <> [] -> blanks w1 -> w1 <> [] -> blanks w' -> (b = [] \/ exists b', b = 10%N :: b') ->
  (exists c r, v = c :: r /\ ~ white c) -> (exists c r, v = r ++ [c] /\ ~ white c) -> ~ In 10%N v -> r_name r = Some v.
Proof. intros R E L B0 N0 B1 N1 B' Eb V1 V2 V3. rewrite (readouts_name _ _ _ _ R). eapply (name_shown "model name"); eassumption. Qed.
Print Assumptions C89_name.
(** Groups of different size, as on processors with two kinds of cores: no group has the number of cores that is read. Four cores have
    their own cache, four others share one. *)
Definition hybrid_topology : text :=
  text_of ["Cache Topology"; "Level: 2"; "Size: 2 MB"; "Cache groups: ( 0 ) ( 1 ) ( 2 ) ( 3 ) ( 4 5 6 7 ) "; "NUMA Topology"]%string.
Definition hybrid_readout : readout := mkReadout (codes "hybrid") None 1 1 8 1 8 None (codes "always").
Theorem C89_unequal_refuted :
  topology_of [mkShown 2 (codes "2 MB") [[0]; [1]; [2]; [3]; [4; 5; 6; 7]]] hybrid_topology /\
  exists l mem, hierarchy true hybrid_readout hybrid_topology = Ok [l; mem] /\ v_groups l = Some 5 /\ v_cores l = Some 1 /\ 5 * 1 <> 8.
Proof.
  split.
  - exists [], (map codes ["Cache Topology"; "Level: 2"; "Size: 2 MB"; "Cache groups: ( 0 ) ( 1 ) ( 2 ) ( 3 ) ( 4 5 6 7 ) "; ""]%string), (codes "NUMA Topology").
    split; [reflexivity|]. split.
    + exists [codes "Cache Topology"], [map codes ["Level: 2"; "Size: 2 MB"; "Cache groups: ( 0 ) ( 1 ) ( 2 ) ( 3 ) ( 4 5 6 7 ) "; ""]%string].
      split; [reflexivity|]. split; [plains|]. constructor; [|constructor].
      exists [], [], [[]], (codes " "), (codes " "), (codes " ").
      do 6 (split; [plains|]). reflexivity.
    + split; [eexists; reflexivity|]. split; [eexists; reflexivity|]. split; apply find_first_part; try (vm_compute; reflexivity); eexists; reflexivity.
  - eexists; eexists. split; [vm_compute; reflexivity|]. cbn. repeat split. lia.
Qed.
Print Assumptions C89_unequal_refuted.

(** ** C90: updates keep what they should keep *)
(** Updating only the readouts never touches a memory hierarchy, whatever was called before. *)
Theorem C90_readouts_keep topology cpuinfo models w l m over p j :
  let st := run topology cpuinfo (initial models w) l in
  option_map m_hier (nth_error (s_models (fst (update topology cpuinfo st m true false over p))) j) = option_map m_hier (nth_error (s_models st) j).
Proof.
  intros st. destruct (update topology cpuinfo st m true false over p) as [st' x] eqn:E.
  assert (Iv : inv topology cpuinfo (fun _ => True) st).
  { apply run_inv; [now apply initial_inv|]. apply Forall_forall. intros [ | |] _; exact Logic.I. }
  apply (update_spec _ _ _ _ _ _ _ _ _ _ _ Iv) in E. destruct E as (_ & _ & f & g & M & F & G). cbn [fst]. rewrite M.
  assert (K : nth_error (s_models st) m = None \/ forall md, m_hier (g (f md)) = m_hier md).
  { destruct F as [(w' & r & _ & _ & F)|[(w' & e & _ & _ & F & _)|F]]; [right|right|now left]; intros md; rewrite G, F; reflexivity. }
  destruct K as [K|K]; [now rewrite at_nth_none|]. clear - K. revert j. generalize (s_models st).
  induction m as [|m IH]; intros [|x0 l0] [|j]; cbn; try reflexivity; [now rewrite K|]. apply IH.
Qed.
Print Assumptions C90_readouts_keep.
(** On a machine that does not change, the models after any history are those of the updates alone, each as if it was the first. *)
Theorem C90_history topology cpuinfo models w l :
  Forall steady l -> s_models (run topology cpuinfo (initial models w) l) = fold_left (fresh_step topology cpuinfo w) l models.
Proof. intros F. rewrite (run_fresh _ _ w); [reflexivity|now apply initial_inv|exact F]. Qed.
Print Assumptions C90_history.
Theorem C90_checks topology cpuinfo models w l :
  Forall steady l ->
  s_models (run topology cpuinfo (initial models w) l) =
  s_models (run topology cpuinfo (initial models w) (filter (fun e => match e with Check _ => false | _ => true end) l)).
Proof.
  intros F. rewrite !C90_history; [|clear - F; apply Forall_forall; intros e I; apply filter_In in I as [I _]; rewrite Forall_forall in F; auto|exact F].
  clear F. revert models. induction l as [|e l IH]; intros models; [reflexivity|]. destruct e; cbn; apply IH.
Qed.
Print Assumptions C90_checks.
(** Without overwriting, the memory hierarchy cannot be updated at all: every call fails, for every machine. *)
Theorem C90_overwrite_refuted topology cpuinfo models w l m read p :
  let st := run topology cpuinfo (initial models w) l in
  (m < List.length models)%nat ->
  exists e, snd (update topology cpuinfo st m read true false p) = Err e.
Proof.
  intros st L. destruct (update topology cpuinfo st m read true false p) as [st' x] eqn:E.
  assert (Iv : inv topology cpuinfo (fun _ => True) st).
  { apply run_inv; [now apply initial_inv|]. apply Forall_forall. intros [ | |] _; exact Logic.I. }
  assert (Lst : List.length (s_models st) = List.length models).
  { unfold st. clear. change models with (s_models (initial models w)) at 2.
    assert (Ini : inv topology cpuinfo (fun _ => True) (initial models w)) by now apply initial_inv.
    revert Ini. generalize (initial models w). induction l as [|e l IH]; intros s0 Iv; [reflexivity|].
    unfold run. cbn [fold_left]. change (fold_left (step topology cpuinfo) l ?s) with (run topology cpuinfo s l).
    rewrite IH by (apply step_inv; [exact Iv|now destruct e]). destruct e as [m|m r h o p|w']; cbn [step].
    - destruct (current_system topology cpuinfo s0 m) as [s1 x] eqn:E. apply (current_system_spec _ _ _ _ _ _ _ Iv) in E. cbn. destruct E as (_ & -> & _). reflexivity.
    - destruct (update topology cpuinfo s0 m r h o p) as [s1 x] eqn:E. apply (update_spec _ _ _ _ _ _ _ _ _ _ _ Iv) in E. cbn.
      destruct E as (_ & _ & f & g & -> & _). generalize (s_models s0). induction m as [|m IHm]; intros [|a k]; cbn; auto.
    - reflexivity. }
  apply (update_spec _ _ _ _ _ _ _ _ _ _ _ Iv) in E. destruct E as (_ & _ & f & g & M & F & G). cbn [snd].
  assert (NN : nth_error (s_models st) m <> None) by (apply nth_error_Some; lia).
  destruct G as [(w' & r & h & _ & _ & H & _)|(_ & [((e & ->) & _)|X])]; [|now exists e|congruence].
  destruct (hierarchy_false r topology) as (e & H'). congruence.
Qed.
Print Assumptions C90_overwrite_refuted.
(** A machine that changes: the second update does not see it. *)
Definition no_cpuinfo : text -> res text := fun _ => Ok [].
Definition full_topology : text := small_topology.
Definition w_always : world := mkWorld None (codes "[always] madvise never").
Definition w_never : world := mkWorld None (codes "always madvise [never]").
Definition blank_model : model := mkModel (mkReadout [] None 1 1 1 1 1 None []) (Some []).
Definition proc : text := codes "/proc/cpuinfo".
Theorem C90_stale_refuted :
  let st := run full_topology no_cpuinfo (initial [blank_model] w_always) [Update 0 true false true proc; Change w_never; Update 0 true false true proc] in
  exists md r, nth_error (s_models st) 0 = Some md /\ machine full_topology no_cpuinfo (s_world st) proc = Ok r /\
    r_hugepage (m_read md) = codes "always" /\ r_hugepage r = codes "never".
Proof. cbv zeta. eexists. eexists. split; [vm_compute; reflexivity|]. split; [vm_compute; reflexivity|]. split; reflexivity. Qed.
Print Assumptions C90_stale_refuted.
(** Two checks, then an update of the readouts only *)
Example C90_example :
  let st := run full_topology no_cpuinfo (initial [blank_model] w_always) [Check 0; Check 0; Update 0 true false true proc] in
  exists md, nth_error (s_models st) 0 = Some md /\ m_hier md = Some [] /\ r_cores (m_read md) = 2 /\ r_type (m_read md) = codes "Intel Xeon processor".
Proof. cbv zeta. eexists. split; [vm_compute; reflexivity|]. vm_compute. auto. Qed.
Example C90_example_hierarchy :
  let st := run full_topology no_cpuinfo (initial [blank_model] w_always) [Update 0 true true true proc; Check 0] in
  exists md h, nth_error (s_models st) 0 = Some md /\ m_hier md = Some h /\ List.length h = 3%nat /\
  snd (update full_topology no_cpuinfo st 0 true true false proc) = Err KeyError.
Proof. cbv zeta. eexists. eexists. split; [vm_compute; reflexivity|]. split; [reflexivity|]. split; [reflexivity|vm_compute; reflexivity]. Qed.

(** ** C91: the check tells whether the machine is the described one *)
Theorem C91_exact topology cpuinfo models w l m md r h :
  Forall steady l ->
  let st := run topology cpuinfo (initial models w) l in
  nth_error (s_models st) m = Some md -> machine topology cpuinfo w proc = Ok r -> hierarchy true r topology = Ok h ->
  exists b, snd (current_system topology cpuinfo st m) = Ok b /\ (b = true <-> agrees r (m_read md)).
Proof.
  intros F st N M H. destruct (current_system topology cpuinfo st m) as [st' x] eqn:E. cbn [snd].
  assert (Iv : inv topology cpuinfo (eq w) st).
  { apply run_inv; [now apply initial_inv|]. revert F. apply Forall_impl. intros [ | |]; cbn; tauto. }
  apply (current_system_spec _ _ _ _ _ _ _ Iv) in E. destruct E as (_ & _ & _ & E). change (path_of Plain) with proc in E.
  destruct x as [b|e].
  - destruct E as (r' & w' & md' & <- & M' & N' & ->). exists (same_system r' (m_read md')). split; [reflexivity|].
    rewrite same_system_spec. replace r' with r by congruence. now replace md' with md by congruence.
  - exfalso. destruct E as [(w' & <- & [E|(r' & E & E')])|E]; congruence.
Qed.
Print Assumptions C91_exact.
Definition small_model (hugepage : string) : model :=
  mkModel (mkReadout (codes "Intel Xeon processor") None 2 2 2 1 2 None (codes hugepage)) (Some []).
Example C91_example :
  map (fun md => snd (current_system full_topology no_cpuinfo (initial [md] w_always) 0)) [small_model "always"; small_model "never"] = [Ok true; Ok false].
Proof. vm_compute. reflexivity. Qed.
(** A change between the second and the third check is not seen, one between the first and the second is. *)
Theorem C91_stale_refuted :
  let answers l := snd (current_system full_topology no_cpuinfo (run full_topology no_cpuinfo (initial [small_model "always"] w_always) l) 0) in
  answers [Check 0; Check 0; Change w_never] = Ok true /\ answers [Check 0; Change w_never] = Ok false /\
  forall r, machine full_topology no_cpuinfo w_never proc = Ok r -> ~ agrees r (m_read (small_model "always")).
Proof.
  split; [vm_compute; reflexivity|]. split; [vm_compute; reflexivity|]. intros r H. vm_compute in H. injection H as <-.
  intros (_ & _ & _ & _ & _ & _ & _ & X). vm_compute in X. discriminate X.
Qed.
Print Assumptions C91_stale_refuted.
(** Caches are not compared: a machine with other caches is taken for the described one. *)
Theorem C91_caches_refuted :
  exists h h', hierarchy true small_readout full_topology = Ok h /\ map v_size h <> map v_size h' /\
    snd (current_system full_topology no_cpuinfo (initial [mkModel small_readout (Some h')] w_always) 0) = Ok true.
Proof.
  destruct (hierarchy true small_readout full_topology) as [h|] eqn:E; [|vm_compute in E; discriminate].
  exists h, [memory true small_readout]. split; [reflexivity|]. split; [vm_compute in E; injection E as <-; vm_compute; discriminate|vm_compute; reflexivity].
Qed.
Print Assumptions C91_caches_refuted.

(** ** C92: the fastest kernel *)
Theorem C92_fastest bench kernels k :
  fastest bench kernels = Ok k ->
  exists b, In k kernels /\ measured (bench k) = Ok (Some b) /\
    forall k' b', In k' kernels -> measured (bench k') = Ok (Some b') -> (b' <= b)%Q /\ ((b' == b)%Q -> MachModel.text_leb k' k = true).
Proof.
  unfold fastest. destruct (results bench kernels) as [[|x l]|] eqn:R; try discriminate. cbn [bind]. injection 1 as <-.
  destruct (max_from_spec l x) as (A & B). destruct (max_from x l) as [b k] eqn:M. exists b. cbn [snd].
  apply (results_in _ _ _ R) in A as (A1 & A2). split; [exact A1|]. split; [exact A2|].
  intros k' b' I' M'. destruct (B (b', k')) as [X|(X & Y)]; [apply (results_in _ _ _ R); auto| |]; cbn [fst snd] in *;
    [split; [now apply Qlt_le_weak|lra]|split; [rewrite X; apply Qle_refl|now intros _]].
Qed.
Print Assumptions C92_fastest.
(** There is none exactly if no kernel gives a bandwidth; the program ends exactly if some run prints nothing. *)
Theorem C92_none bench kernels :
  fastest bench kernels = Err RuntimeError <-> forall k, In k kernels -> measured (bench k) = Ok None.
Proof.
  assert (T : forall k, (exists o, measured (bench k) = Ok o) \/ bench k = Printed []).
  { intros k. unfold measured. destruct (bench k) as [|[|]]; eauto. }
  unfold fastest. split.
  - destruct (results bench kernels) as [[|x l]|e] eqn:R; cbn [bind]; [|discriminate|].
    + intros _ k Ik. destruct (T k) as [([b|] & E)|E]; [|exact E|].
      * exfalso. assert (In (b, k) []) by (apply (results_in _ _ _ R); auto). destruct H.
      * exfalso. destruct (proj2 (results_err bench kernels)) as (e & X); [now exists k|congruence].
    + intros X; injection X as ->. apply results_exit in R. discriminate.
  - intros H. destruct (results bench kernels) as [[|(b, k) l]|e] eqn:R; [reflexivity| |]; exfalso.
    + destruct (proj1 (results_in _ _ _ R b k)) as (Ik & E); [now left|]. rewrite (H k Ik) in E. discriminate.
    + destruct (proj1 (results_err bench kernels)) as (k & Ik & E); [now exists e|]. specialize (H k Ik). rewrite E in H. discriminate.
Qed.
Print Assumptions C92_none.
Theorem C92_exit bench kernels :
  fastest bench kernels = Err SystemExit <-> exists k, In k kernels /\ bench k = Printed [].
Proof.
  rewrite <- results_err. unfold fastest. destruct (results bench kernels) as [[|x l]|e] eqn:R; cbn [bind].
  - split; [discriminate|intros (e & X); discriminate].
  - split; [discriminate|intros (e & X); discriminate].
  - apply results_exit in R as ->. split; [now exists SystemExit|reflexivity].
Qed.
Print Assumptions C92_exit.
(** The bandwidth is the one that is printed. *)
Theorem C92_read n f output :
  f <> [] -> forallb is_decimal f = true -> shows "MByte/s:" (number_text n f) output ->
  exists q, measured (Printed output) = Ok (Some q) /\ (q == number_value n f)%Q.
Proof. apply bandwidth_shown. Qed.
Print Assumptions C92_read.
Definition bench_output (bw : string) : text := text_of ["Cycles:   1234"; String.append "MByte/s:    " bw; "Cycles per update:  0.5"]%string.
Definition bench_example (k : text) : outcome :=
  if text_eqb k (codes "load") then Printed (bench_output "1500.25")
  else if text_eqb k (codes "load_avx") then Printed (bench_output "9000.50")
  else if text_eqb k (codes "load_sse") then Printed (bench_output "9000.5")
  else Failed.
Example C92_example : fastest bench_example (map codes ["load"; "load_sse"; "load_avx"; "load_avx512"]%string) = Ok (codes "load_sse").
Proof. vm_compute. reflexivity. Qed.
Example C92_example_none : fastest bench_example [codes "load_avx512"] = Err RuntimeError.
Proof. vm_compute. reflexivity. Qed.
Example C92_example_shows : shows "MByte/s:" (number_text 1500 (codes "25")) (bench_output "1500.25") /\ (number_value 1500 (codes "25") == 150025 # 100)%Q.
Proof.
  split; [|vm_compute; reflexivity].
  exists (codes "Cycles:   1234" ++ [10%N]), (codes "    "), [], (10%N :: codes "Cycles per update:  0.5").
  split; [vm_compute; reflexivity|]. split; [apply no_line_first; vm_compute; reflexivity|].
  split; [blanks_tac|]. split; [discriminate|]. split; [constructor|]. right. eexists. reflexivity.
Qed.

(** ** C93: the available kernels *)
Theorem C93_exact prefix excludes l :
  l <> [] -> Forall (fun nd => kernel_name (fst nd) /\ description (snd nd)) l ->
  exists keep, (forall n, keep n = true <-> wanted prefix excludes n) /\ available prefix excludes (listing l) = filter keep (map fst l).
Proof. intros N F. exists (wanted_b prefix excludes). split; [apply wanted_spec|now apply available_listing]. Qed.
Print Assumptions C93_exact.
Definition kernels_example : list (text * text) :=
  map (fun p => (codes (fst p), codes (snd p)))
      [("clcopy", "Double-precision cache line copy"); ("copy", "Double-precision vector copy, only scalar operations"); ("copy_avx", "AVX - optimized");
       ("copy_mem_avx", "with non-temporal stores"); ("load", "Double-precision load")]%string.
Ltac kernel_tac :=
  cbn [fst snd]; split;
  [split; [discriminate|]; cbn; repeat (apply Forall_cons; [unfold white; lia|]); apply Forall_nil
  |split; [not_in|];
   match goal with |- exists c r, ?d = r ++ [c] /\ _ => exists (last d 0%N), (removelast d) end;
   split; [vm_compute; reflexivity|match goal with |- ~ white ?c => let c' := eval vm_compute in c in change (~ white c') end; unfold white; lia]].
Example C93_example :
  available (codes "copy") (map codes ["_mem"; "_sp"; "_nt"]%string) (listing kernels_example) = map codes ["copy"; "copy_avx"]%string /\
  Forall (fun nd => kernel_name (fst nd) /\ description (snd nd)) kernels_example.
Proof.
  split; [vm_compute; reflexivity|]. cbv [kernels_example map fst snd]. repeat (apply Forall_cons; [kernel_tac|]); apply Forall_nil.
Qed.

(** ** C94: the data sets of the benchmarks *)
(** A full group of the previous level, [pc] cores or all of them, works on more than its cache holds. *)
Theorem C94_exceeds h i c l p ps pc t :
  nth_error h (Datatypes.S i) = Some l -> (exists q, v_size l = Some (Some q)) -> nth_error h i = Some p -> int_size p = Ok ps -> v_cores p = Some pc ->
  0 < ps -> 0 < pc -> 0 < c -> total_size h (Datatypes.S i) c = Ok t ->
  (inject_Z ps * (12 # 10) <= t * inject_Z (Z.min pc c) / inject_Z c)%Q.
Proof.
  intros L (q & Sq) P Is Vc Ps Pc C. unfold total_size. rewrite L, Sq.
  destruct (int_size l) as [size|]; [|discriminate]. cbn [bind]. destruct (cores_of l) as [cores|]; [|discriminate]. cbn [bind].
  destruct (share size cores c) as [own|]; [|discriminate]. cbn [bind]. rewrite P, Is. cbn [bind]. unfold cores_of. rewrite Vc. cbn [bind].
  destruct (share ps pc c) as [prev|] eqn:S'; [|discriminate]. cbn [bind]. intros X; injection X as <-.
  assert (F := share_full ps pc c prev ltac:(lia) Pc C S'). assert (Pi := inject_pos c C).
  assert (M : (0 < inject_Z (Z.min pc c))%Q) by (apply inject_pos; lia).
  destruct (qmax_spec (own * (66 # 100)) (prev * (12 # 10))) as (_ & B & _). rewrite <- F.
  setoid_replace (prev * inject_Z (Z.min pc c) / inject_Z c * (12 # 10))%Q with (prev * (12 # 10) * (inject_Z (Z.min pc c) / inject_Z c))%Q by (field; now apply inject_neq).
  setoid_replace (qmax (own * (66 # 100)) (prev * (12 # 10)) * inject_Z (Z.min pc c) / inject_Z c)%Q with (qmax (own * (66 # 100)) (prev * (12 # 10)) * (inject_Z (Z.min pc c) / inject_Z c))%Q
    by (field; now apply inject_neq).
  apply Qmult_le_compat_r; [exact B|]. apply Qlt_le_weak. apply Qlt_shift_div_l; [exact Pi|]. now rewrite Qmult_0_l.
Qed.
Print Assumptions C94_exceeds.
(** The share of a full group fits into two thirds of its cache exactly if this is more than what the previous level asks for. *)
Theorem C94_fits h i c l size g p ps pc t :
  nth_error h (Datatypes.S i) = Some l -> (exists q, v_size l = Some (Some q)) -> int_size l = Ok size -> v_cores l = Some g ->
  nth_error h i = Some p -> int_size p = Ok ps -> v_cores p = Some pc ->
  0 < size -> 0 < g -> 0 <= ps -> 0 < pc -> 0 < c -> total_size h (Datatypes.S i) c = Ok t ->
  (t * inject_Z (Z.min g c) / inject_Z c <= inject_Z size * (66 # 100) <->
   inject_Z ps * inject_Z c / inject_Z (Z.min pc c) * (12 # 10) <= inject_Z size * inject_Z c / inject_Z (Z.min g c) * (66 # 100))%Q.
Proof.
  intros L (q & Sq) Il Vl P Is Vc Hs Hg Ps Pc C. unfold total_size. rewrite L, Sq, Il. cbn [bind]. unfold cores_of at 1. rewrite Vl. cbn [bind].
  destruct (share size g c) as [own|] eqn:S1; [|discriminate]. cbn [bind]. rewrite P, Is. cbn [bind]. unfold cores_of. rewrite Vc. cbn [bind].
  destruct (share ps pc c) as [prev|] eqn:S2; [|discriminate]. cbn [bind]. intros X; injection X as <-.
  assert (F1 := share_full size g c own ltac:(lia) Hg C S1). assert (F2 := share_full ps pc c prev Ps Pc C S2).
  assert (Pi := inject_pos c C). assert (M1 : 0 < Z.min g c) by lia. assert (M2 : 0 < Z.min pc c) by lia.
  assert (P1 := inject_pos _ M1). assert (N1 := inject_neq _ M1). assert (N2 := inject_neq _ M2). assert (Nc := inject_neq c C).
  assert (E1 : (inject_Z size * inject_Z c / inject_Z (Z.min g c) == own)%Q) by (rewrite <- F1; field; auto).
  assert (E2 : (inject_Z ps * inject_Z c / inject_Z (Z.min pc c) == prev)%Q) by (rewrite <- F2; field; auto).
  rewrite E1, E2. rewrite <- F1.
  assert (K : (0 < inject_Z (Z.min g c) / inject_Z c)%Q) by (apply Qlt_shift_div_l; [exact Pi|]; now rewrite Qmult_0_l).
  setoid_replace (own * inject_Z (Z.min g c) / inject_Z c * (66 # 100))%Q with (own * (66 # 100) * (inject_Z (Z.min g c) / inject_Z c))%Q by (field; exact Nc).
  set (t := qmax (own * (66 # 100)) (prev * (12 # 10))).
  setoid_replace (t * inject_Z (Z.min g c) / inject_Z c)%Q with (t * (inject_Z (Z.min g c) / inject_Z c))%Q by (field; exact Nc).
  rewrite Qmult_le_r by exact K. unfold t. destruct (qmax_spec (own * (66 # 100)) (prev * (12 # 10))) as (A & B & [Eq|Eq]).
  - rewrite Eq in *. split; intros _; [exact B|apply Qle_refl].
  - rewrite Eq. reflexivity.
Qed.
Print Assumptions C94_fits.
(** In main memory every full group of the last cache works on more than the cache holds exactly if there are fewer than 15 of them. *)
Theorem C94_memory caches p mem c x pc t :
  int_size p = Ok x -> v_size p = Some (Some (UnitModel.mkq (Fin (inject_Z x)) "" "B")) -> v_cores p = Some pc -> v_size mem = Some None -> 0 < x -> 0 < pc -> 0 < c ->
  total_size (caches ++ [p; mem]) (Datatypes.S (List.length caches)) c = Ok t ->
  (inject_Z x < t * inject_Z (Z.min pc c) / inject_Z c)%Q <-> c < 15 * pc.
Proof.
  intros Ip Sp Vp Sm X Pc C. unfold total_size. rewrite nth_error_app2 by lia.
  replace (Datatypes.S (List.length caches) - List.length caches)%nat with 1%nat by lia. cbn [nth_error]. rewrite Sm.
  rewrite rev_app_distr. cbn [rev app nth_error]. rewrite Sp.
  assert (Bv : exists y, UnitModel.base_value (UnitModel.mkq (Fin (inject_Z x)) "" "B") = Fin y /\ (y == inject_Z x)%Q).
  { eexists. split; [reflexivity|]. change (inject_Z 1) with 1%Q. ring. }
  destruct Bv as (y & -> & Ey). intros H; injection H as <-.
  assert (Pi := inject_pos c C). assert (Nc := inject_neq c C). rewrite Ey.
  setoid_replace (inject_Z x * 15 * inject_Z (Z.min pc c) / inject_Z c)%Q with ((inject_Z x * inject_Z 15 * inject_Z (Z.min pc c)) / inject_Z c)%Q by (change (inject_Z 15) with 15%Q; field; exact Nc).
  rewrite <- !inject_Z_mult.
  split; intros H.
  - apply Qmult_lt_r with (z := inject_Z c) in H; [|exact Pi].
    setoid_replace (inject_Z (x * 15 * Z.min pc c) / inject_Z c * inject_Z c)%Q with (inject_Z (x * 15 * Z.min pc c)) in H by (field; exact Nc).
    rewrite <- inject_Z_mult, <- Zlt_Qlt in H. nia.
  - apply Qlt_shift_div_l; [exact Pi|]. rewrite <- inject_Z_mult, <- Zlt_Qlt. nia.
Qed.
Print Assumptions C94_memory.
Definition bytes (n : Z) : option (option UnitModel.quantity) := Some (Some (UnitModel.mkq (Fin (inject_Z n)) "" "B")).
Definition cache_level (n : string) (size cores : Z) : level := mkLevel (codes n) None None (bytes size) None (Some cores) None.
Definition mem_level (cores : Z) : level := mkLevel (codes "MEM") None None (Some None) None (Some cores) None.
(** 64 cores, caches of 16 MB for four cores each: 240 MB of data for 256 MB of caches *)
Definition sixteen : list level := [cache_level "L1" 32000 1; cache_level "L2" 512000 1; cache_level "L3" 16000000 4; mem_level 64].
Theorem C94_memory_refuted :
  exists t, total_size sixteen 3 64 = Ok t /\ (t == inject_Z 240000000)%Q /\ (t * inject_Z 4 / inject_Z 64 < inject_Z 16000000)%Q.
Proof. eexists. split; [vm_compute; reflexivity|]. split; vm_compute; reflexivity. Qed.
Print Assumptions C94_memory_refuted.
(** 60 cores with caches of 2 MB each before one cache of 112.5 MB: 144 MB of data *)
Definition large_second : list level := [cache_level "L1" 48000 1; cache_level "L2" 2000000 1; cache_level "L3" 112500000 60; mem_level 60].
Theorem C94_fits_refuted : exists t, total_size large_second 2 60 = Ok t /\ (inject_Z 112500000 < t)%Q.
Proof. eexists. split; [vm_compute; reflexivity|]. vm_compute. reflexivity. Qed.
Print Assumptions C94_fits_refuted.
(** Five cores, caches of 1 MB for four cores each: the fifth core works on 0.3 MB of its own cache in the benchmark of the next level. *)
Definition shared_second : list level := [cache_level "L2" 1000000 4; cache_level "L3" 2000000 8; mem_level 8].
Theorem C94_partial_group_refuted : exists t, total_size shared_second 1 5 = Ok t /\ (t * inject_Z 1 / inject_Z 5 < inject_Z 1000000)%Q.
Proof. eexists. split; [vm_compute; reflexivity|]. vm_compute. reflexivity. Qed.
Print Assumptions C94_partial_group_refuted.
Example C94_example :
  map (fun ic => match total_size sixteen (fst ic) (snd ic) with Ok t => kilobytes t | Err _ => -1 end) [(0%nat, 1); (1%nat, 4); (2%nat, 4); (2%nat, 8); (3%nat, 8)]
  = [21; 1351; 10560; 21120; 240000].
Proof. vm_compute. reflexivity. Qed.

(** ** C95: numbers of sockets, cores, threads and NUMA domains *)
Theorem C95_numbers topology cpuinfo w r type sockets cores threads domains :
  readouts topology cpuinfo w = Ok r ->
  (exists c t, type = c :: t /\ ~ white c) -> (exists c t, type = t ++ [c] /\ ~ white c) -> ~ In 10%N type ->
  shows "CPU type:" type topology -> shows "Sockets:" (show_nat sockets) topology -> shows "Cores per socket:" (show_nat cores) topology ->
  shows "Threads per core:" (show_nat threads) topology -> shows "NUMA domains:" (show_nat domains) topology ->
  r_type r = type /\ r_sockets r = Z.of_N sockets /\ r_cores r = Z.of_N cores /\ r_threads r = Z.of_N threads /\
  r_domains r = Z.max 1 (Z.of_N domains / Z.of_N sockets) /\ r_domain_cores r = Z.of_N cores / r_domains r.
Proof.
  intros R T1 T2 T3 Hy Hs Hc Ht Hd. unfold readouts in R.
  rewrite (type_shown _ _ _ T1 T2 T3 Hy) in R. cbn [found bind] in R.
  rewrite (number_shown _ _ _ Ht), (number_shown _ _ _ Hs), (number_shown _ _ _ Hc), (number_shown _ _ _ Hd) in R. cbn [bind] in R.
  destruct (Z.eqb_spec (Z.of_N sockets) 0) as [|NZ]; [discriminate|].
  destruct (match_bracket (w_hugepage w)); [|discriminate]. cbn [found bind] in R. injection R as <-. cbn.
  repeat split. destruct (Z.eqb_spec (Z.of_N domains / Z.of_N sockets) 0) as [->|N]; [reflexivity|].
  assert (0 <= Z.of_N domains / Z.of_N sockets) by (apply Z.div_pos; lia). lia.
Qed.
Print Assumptions C95_numbers.
(** With the same number of domains in each socket and of cores in each domain, nothing is lost. *)
Theorem C95_domains r sockets cores per k :
  r_domains r = Z.max 1 (sockets * per / sockets) -> r_domain_cores r = cores / r_domains r -> 0 < sockets -> 0 < per -> cores = per * k ->
  r_domains r = per /\ r_domain_cores r = k.
Proof.
  intros D C S P E. rewrite Z.mul_comm, Z.div_mul in D by lia. rewrite Z.max_r in D by lia. split; [exact D|].
  rewrite C, D, E, Z.mul_comm, Z.div_mul by lia. reflexivity.
Qed.
Print Assumptions C95_domains.
Theorem C95_missing topology cpuinfo w label :
  In label ["Sockets:"; "Cores per socket:"; "Threads per core:"; "NUMA domains:"]%string -> ~ part (codes label) topology ->
  readouts topology cpuinfo w = Err ValueError.
Proof.
  intros I N. apply number_missing in N. unfold readouts.
  assert (E : forall lab s, number_in lab s = Err ValueError \/ exists n, number_in lab s = Ok n).
  { intros lab s. unfold number_in. destruct (search_line _ true s); cbn; eauto. }
  destruct (search_line _ true topology) as [type|]; [|reflexivity]. cbn [found bind].
  destruct I as [<-|[<-|[<-|[<-|[]]]]];
    repeat (rewrite ?N; cbn [bind]; try reflexivity; match goal with |- bind (number_in ?lab ?s) _ = _ => destruct (E lab s) as [->|(? & ->)] end; cbn [bind]; try reflexivity);
    rewrite N; reflexivity.
Qed.
Print Assumptions C95_missing.
Example C95_example :
  exists r, readouts small_topology [] w_always = Ok r /\ r_type r = codes "Intel Xeon processor" /\ r_sockets r = 2 /\ r_cores r = 2 /\ r_threads r = 2 /\
  r_domains r = 1 /\ r_domain_cores r = 2 /\ r_hugepage r = codes "always".
Proof. eexists. split; [vm_compute; reflexivity|]. vm_compute. repeat split. Qed.
Example C95_example_shows : shows "Cores per socket:" (show_nat 2) small_topology.
Proof.
  exists (text_of (firstn 4 head_lines) ++ [10%N]), (codes " "), [], (10%N :: text_of (skipn 5 head_lines) ++ text_of cache_lines ++ text_of tail_lines).
  split; [vm_compute; reflexivity|]. split; [apply no_line_first; vm_compute; reflexivity|].
  split; [blanks_tac|]. split; [discriminate|]. split; [constructor|]. right. eexists. reflexivity.
Qed.
Example C89_name_example : exists r,
  readouts small_topology (text_of ["processor	: 0"; "model name	: Intel Xeon  E5"; "model		: 45"]%string) w_always = Ok r /\ r_name r = Some (codes "Intel Xeon  E5").
Proof.
  eexists. split; [vm_compute; reflexivity|].
  refine (C89_name small_topology (text_of ["processor	: 0"; "model name	: Intel Xeon  E5"; "model		: 45"]%string) w_always _ (codes "Intel Xeon  E5")
    (codes "processor	: 0" ++ [10%N]) (codes "	") (codes " ") [] (10%N :: text_of ["model		: 45"]%string) _ _ _ _ _ _ _ _ _ _ _ _);
    [vm_compute; reflexivity|vm_compute; reflexivity|apply no_line_first; vm_compute; reflexivity|blanks_tac|discriminate|blanks_tac|discriminate|constructor
    |right; eexists; reflexivity| | |].
  - exists 73%N, (codes "ntel Xeon  E5"). split; [reflexivity|]. unfold white. lia.
  - exists 53%N, (codes "Intel Xeon  E"). split; [reflexivity|]. unfold white. lia.
  - vm_compute. intuition discriminate.
Qed.
(** Domains with memory only are counted: one socket with eight cores, a domain of all cores and one without. *)
Definition memory_only : text :=
  text_of ["CPU type: x"; "Sockets: 1"; "Cores per socket: 8"; "Threads per core: 1"; "NUMA domains: 2"; "Domain: 0"; "Processors: ( 0 1 2 3 4 5 6 7 )"; "Domain: 1"; "Processors: ( )"]%string.
Theorem C95_memory_only_refuted : exists r, readouts memory_only [] w_always = Ok r /\ r_domains r = 2 /\ r_domain_cores r = 4.
Proof. eexists. split; [vm_compute; reflexivity|]. vm_compute. auto. Qed.
Print Assumptions C95_memory_only_refuted.
