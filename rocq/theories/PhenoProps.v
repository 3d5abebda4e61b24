(** Properties of the options of the stand-alone benchmark. *)
From Coq Require Import Lia String.
From Verif Require Import PyBase PyNum PyText PyInt PyFloat PyDict PyRegex BenchModel PhenoModel PhenoSpec PhenoProofs.
Local Open Scope N_scope.
Local Open Scope list_scope.

(** ** C85: loops are collected per region as they are written *)
Theorem C85_collected : forall os, Forall good_loop os ->
  exists st, fold_res append_loop no_loops (map write_loop os) = Ok st
             /\ forall r, loops_in st r = map loop_of (filter (for_region r) os).
Proof.
  intros os F. destruct (append_all os no_loops F) as (st & E & _ & L); [intros r l i; discriminate|]. exists st. split; [exact E|exact L].
Qed.
Definition example_options : list loop_option :=
  [ mkLoopOption [codes "a"; codes "b_1"] 0 (Some 2) 100 (Some (codes "N"));
    mkLoopOption [] 1 None 50 None;
    mkLoopOption [codes "a"] 5 None 7 None ].
Example C85_collected_example :
  Forall good_loop example_options
  /\ map write_loop example_options = [codes "a,b_1:0:2:100:N"; codes "1:50"; codes "a:5:7"]
  /\ map loop_of (filter (for_region (codes "a")) example_options)
     = [Loop (mkLoop 0 2 (100 # 1) (Some (codes "N")) None); Loop (mkLoop 5 1 (7 # 1) None None)].
Proof.
  split; [|split; vm_compute; reflexivity]. repeat constructor; cbn; try (intros [X|[]]; discriminate); try (intros []); auto.
Qed.
(** Whatever follows a loop without variable is ignored, unless it goes on with a digit, a dot or a colon. *)
Theorem C85_trailing_refuted : forall st o t, good_loop o -> o_variable o = None -> ends is_decimal t -> ends (N.eqb 46) t -> ends (N.eqb 58) t ->
  append_loop st (write_loop o ++ t) = append_loop st (write_loop o).
Proof.
  intros st o t G V T1 T2 T3. rewrite (append_written st o t G) by (right; repeat split; assumption).
  rewrite <- (app_nil_r (write_loop o)). now rewrite (append_written st o [] G (or_introl eq_refl)).
Qed.
Example C85_trailing_example : exists st,
  append_loop no_loops (codes "0:1e6") = Ok st /\ loops_in st [] = [Loop (mkLoop 0 1 (1 # 1) None None)].
Proof. eexists. split; vm_compute; reflexivity. Qed.
(** A number with a fraction is accepted, but the loop remains a text. *)
Theorem C85_fraction_refuted :
  ~ (forall v st r e, append_loop no_loops v = Ok st -> In e (loops_in st r) -> exists l, e = Loop l).
Proof.
  intros H. destruct (append_loop no_loops (codes "0:10.5")) as [st|] eqn:E; [|vm_compute in E; discriminate].
  destruct (H _ st [] (Raw (codes "0:10.5")) E) as (l & X); [|discriminate]. vm_compute in E. injection E as <-. vm_compute. now left.
Qed.
(** A negative start is taken for the name of a region. *)
Theorem C85_negative_refuted :
  ~ (forall v st, hd 0 v = 45 -> append_loop no_loops v = Ok st -> loops_in st [] <> []).
Proof.
  intros H. destruct (append_loop no_loops (codes "-1:0:10")) as [st|] eqn:E; [|vm_compute in E; discriminate].
  apply (H (codes "-1:0:10") st); [reflexivity|exact E|]. vm_compute in E. injection E as <-. reflexivity.
Qed.

(** ** C86: variables have the values that are written *)
Theorem C86_read : forall d name f, good_define f ->
  exists v, append_define d name (write_define f) = Ok (tset name (Some v) d) /\ variable_of f v.
Proof. exact define_reads. Qed.
Definition example_define : define_option := mkDefineOption [codes "a"; codes "b"] (codes "1.5e2") (Some (codes "10", None)).
Example C86_read_example :
  good_define example_define /\ write_define example_define = codes "a,b:1.5e2:10"
  /\ match append_define [] (codes "N") (codes "a,b:1.5e2:10") with
     | Ok [(_, Some v)] => (v_now v == 150 # 1)%Q /\ v_region v = [codes "a"; codes "b"]
                           /\ match v_adjust v with Some (q, Log) => (q == 10 # 1)%Q | _ => False end
     | _ => False
     end.
Proof.
  split; [|split; [reflexivity|vm_compute; repeat split]]. split; [repeat constructor|]. split.
  - exists (codes "1"), (codes ".5"), (codes "e2"). split; [now split|]. split; [right; exists (codes "5"); split; [now split|reflexivity]|]. split; [|reflexivity].
    right. exists 101, [], (codes "2"). repeat split; auto. discriminate.
  - exists (codes "10"), [], []. split; [now split|]. split; [now left|]. split; [now left|reflexivity].
Qed.
(** Numbers are always understood. *)
Theorem C86_numbers : forall t, number t -> exists q, py_float t = Some (Fin q).
Proof. exact number_value. Qed.
(** No text is rejected: not one without a number, ... *)
Theorem C86_malformed_refuted :
  (forall d name v, append_define d name v <> Err SystemExit)
  /\ (forall d name v, ~ In 58 v -> ends is_decimal v -> ends (N.eqb 46) v -> append_define d name v = Ok (tset name None d)).
Proof.
  split; [|exact define_garbage]. intros d name v. unfold append_define. pose proof (define_total v) as T. destruct (re_match define_rx v) as [[s g]|]; [|easy].
  destruct (group "start_var" g) as [t|]; [|discriminate].
  assert (F : forall t e, finite t = Err e -> e = ValueError) by (intros t0 e; unfold finite; destruct (py_float t0) as [[| | |]|]; congruence).
  destruct (finite t) as [q|e] eqn:E; cbn [bind]; [|apply F in E; subst e; discriminate].
  destruct (group "stop_var" g) as [u|]; cbn [bind]; [|discriminate]. destruct (finite u) as [q'|e] eqn:E'; cbn [bind]; [discriminate|apply F in E'; subst e; discriminate].
Qed.
Example C86_malformed_example :
  append_define [] (codes "N") (codes "-5") = Ok [(codes "N", None)] /\ append_define [] (codes "N") (codes "abc") = Ok [(codes "N", None)].
Proof. split; vm_compute; reflexivity. Qed.
(** ... and not a range in the notation of the help text: it is a fixed value. *)
Theorem C86_help_refuted : forall d name l a t q, Forall is_name l -> number a -> py_float a = Some (Fin q) ->
  ends is_decimal t -> ends (N.eqb 46) t -> ends is_e t -> ends (N.eqb 58) t ->
  append_define d name (write_regions l ++ a ++ t) = Ok (tset name (Some (mkVariable (meant l) q q None)) d).
Proof. intros d name l a t q F N A T1 T2 T3 T4. apply define_tail; try assumption. now repeat split. Qed.
Example C86_help_example : number (codes "10") /\
  append_define [] (codes "N") (codes "10-100:5log2") = Ok [(codes "N", Some (mkVariable [[]] (10 # 1) (10 # 1) None))].
Proof.
  split; [exists (codes "10"), [], []; split; [now split|]; split; [now left|]; split; [now left|reflexivity]|]. vm_compute. reflexivity.
Qed.
(** A range from a number without digits in front of the dot is a single value for a region. *)
Theorem C86_dot_refuted : exists v, append_define [] (codes "N") (codes ".5:10") = Ok [(codes "N", Some v)]
  /\ v_region v = [codes ".5"] /\ (v_now v == 10 # 1)%Q /\ v_adjust v = None.
Proof. eexists. split; [vm_compute; reflexivity|]. repeat split. Qed.

(** ** C87: every analysed region has its own information or that of the default region *)
Theorem C87_exact : forall a, dictionary (table (a_loops a)) ->
  (exists b, describe a = Ok b) <-> usable a /\ forall r, analysed (a_regions a) r -> known a r.
Proof.
  intros a N. split.
  - intros (b & H). destruct (describe_facts a b N H) as (U & K & _). now split.
  - intros [U K]. now apply describe_exists.
Qed.
Theorem C87_exit : forall a, dictionary (table (a_loops a)) -> usable a ->
  describe a = Err SystemExit <-> exists r, analysed (a_regions a) r /\ ~ known a r.
Proof.
  intros a N U. split; [|now apply describe_exit]. intros H.
  assert (X : exists r, In r (kept (a_regions a)) /\ ~ known a r).
  { assert (D : forall r, known a r \/ ~ known a r).
    { intros r. unfold known. destruct (chosen (table (a_loops a)) r), (chosen (a_repetitions a) r), (chosen (a_flops a) r);
        first [left; repeat split; discriminate | right; intros (A & B & C); congruence]. }
    assert (F : forall l, (exists r, In r l /\ ~ known a r) \/ forall r, In r l -> known a r).
    { induction l as [|r l IH]; [right; intros r []|]. destruct (D r) as [K|K]; [|left; exists r; split; [now left|exact K]].
      destruct IH as [(s & I & K')|K']; [left; exists s; split; [now right|exact K']|right]. intros s [<-|I]; auto. }
    destruct (F (kept (a_regions a))) as [X|X]; [exact X|]. exfalso. destruct (describe_exists a N U) as (b & B); [|congruence].
    intros r I. apply X. now apply kept_spec. }
  destruct X as (r & I & K). exists r. split; [now apply kept_spec|exact K].
Qed.
Theorem C87_information : forall a b, dictionary (table (a_loops a)) -> describe a = Ok b ->
  (forall r, In r (b_regions b) <-> analysed (a_regions a) r)
  /\ forall r, analysed (a_regions a) r ->
       loops_in (b_loops b) r = map (with_offset (a_define a)) (loops_in (a_loops a) (source_of (a_loops a) r))
       /\ tget r (b_flops b) = chosen (a_flops a) r /\ chosen (a_flops a) r <> None
       /\ exists q p, chosen (a_repetitions a) r = Some q /\ tget r (b_repetitions b) = Some p /\ repetition_of q p.
Proof.
  intros a b N H. destruct (describe_facts a b N H) as (_ & K & R & _ & _ & I & _ & _). split; [intros r; rewrite R; apply kept_spec|].
  intros r A. split; [now apply describe_loops|]. destruct (I r A) as (_ & F & Q'). split; [exact F|]. split; [now destruct (K r A) as (_ & _ & X)|exact Q'].
Qed.
(** Variables keep their values; one that may change and has no region may change in all analysed regions. *)
Theorem C87_variables : forall a b n v, dictionary (table (a_loops a)) -> describe a = Ok b -> tget n (a_define a) = Some (Some v) ->
  exists w, tget n (b_define b) = Some (Some w) /\ v_first w = v_first v /\ v_now w = v_now v /\ v_adjust w = v_adjust v
  /\ forall r, In r (v_region w) <-> In r (v_region v) \/ (v_adjust v <> None /\ v_region v = [[]] /\ analysed (a_regions a) r).
Proof. exact describe_variables. Qed.
(** The options for repetitions and operations; operations may be given once for a region. *)
Theorem C87_repetitions_read : forall d l q, Forall is_name l -> q <> [] -> forallb is_word q = true ->
  exists d', append_repetition d (write_regions l ++ q) = Ok d' /\ forall r, tget r d' = if existsb (text_eqb r) (meant l) then Some q else tget r d.
Proof. exact repetition_reads. Qed.
Theorem C87_flops_read : forall d l f, Forall is_name l -> NoDup l ->
  ((forall r, In r (meant l) -> tget r d = None) ->
   exists d', append_flops d (write_regions l ++ show_nat f) = Ok d' /\ forall r, tget r d' = if existsb (text_eqb r) (meant l) then Some (Z.of_N f) else tget r d)
  /\ ((exists r, In r (meant l) /\ tget r d <> None) -> append_flops d (write_regions l ++ show_nat f) = Err RuntimeError).
Proof.
  intros d l f F N. rewrite flops_reads by assumption. split; [|apply set_once_twice]. intros H. apply set_once_ok; [now apply meant_nodup|exact H].
Qed.
Definition loops_from (l : list text) : loops := match fold_res append_loop no_loops l with Ok st => st | Err _ => no_loops end.
Definition defines_from (l : list (text * text)) : tdict (option variable) :=
  match fold_res (fun d x => append_define d (fst x) (snd x)) [] l with Ok d => d | Err _ => [] end.
Definition example_arguments : arguments :=
  mkArguments (loops_from [codes "1:50:N"; codes "a:0:10"]) (defines_from [(codes "N", codes "100:1000")])
    [([], codes "1"); (codes "b", codes "marker")] [([], 2%Z)] true [codes "a"; codes "b"; []].
Example C87_example :
  dictionary (table (a_loops example_arguments)) /\ usable example_arguments
  /\ (forall r, analysed (a_regions example_arguments) r -> known example_arguments r)
  /\ exists b, describe example_arguments = Ok b /\ b_regions b = [codes "a"; codes "b"]
     /\ loops_in (b_loops b) (codes "b") = [Loop (mkLoop 1 1 (50 # 1) (Some (codes "N")) (Some (50 # 1)))]
     /\ tget (codes "b") (b_repetitions b) = Some (mkRep Marker None) /\ tget (codes "a") (b_repetitions b) = Some (mkRep (Fixed 1) (Some 1%Z)).
Proof.
  assert (X : exists b, describe example_arguments = Ok b /\ b_regions b = [codes "a"; codes "b"]
     /\ loops_in (b_loops b) (codes "b") = [Loop (mkLoop 1 1 (50 # 1) (Some (codes "N")) (Some (50 # 1)))]
     /\ tget (codes "b") (b_repetitions b) = Some (mkRep Marker None) /\ tget (codes "a") (b_repetitions b) = Some (mkRep (Fixed 1) (Some 1%Z))).
  { eexists. split; [vm_compute; reflexivity|]. repeat split; vm_compute; reflexivity. }
  assert (N : dictionary (table (a_loops example_arguments))).
  { change (NoDup [[]; codes "a"]). repeat constructor; cbn; [intros [E|[]]; discriminate|intros []]. }
  split; [exact N|]. destruct X as (b & B & X). destruct (proj1 (C87_exact _ N) (ex_intro _ b B)) as [U K]. split; [exact U|]. split; [exact K|]. now exists b.
Qed.

(** ** C88: the ends of loops follow the variables they depend on *)
(** Loops for the default region only *)
Theorem C88_default_partial : forall os a b (runtimes : list (text * Q)),
  Forall good_loop os -> (forall o, In o os -> o_regions o = []) -> fold_res append_loop no_loops (map write_loop os) = Ok (a_loops a) ->
  dictionary (a_define a) -> describe a = Ok b -> (forall x, In x runtimes -> analysed (a_regions a) (fst x)) ->
  follows b /\ exists b', adjust_all b runtimes = Ok b' /\ follows b'.
Proof.
  intros os a b l F O E D H R. destruct (options_fresh os _ a F E eq_refl) as [Fr N].
  assert (Ru : running b (map fst l)).
  { apply (default_running a); try assumption; [intros r; apply (options_default os (a_loops a) r F O E)|].
    intros r I. apply in_map_iff in I as (x & <- & I). now apply R. }
  split; [exact (run_follows _ _ Ru)|]. destruct (adjust_all_running l b _ Ru) as (b' & E' & R'); [intros x I; now apply in_map|].
  exists b'. split; [exact E'|exact (run_follows _ _ R')].
Qed.
(** Loops that belong to all regions where their variable is changed *)
Theorem C88_shared_partial : forall os a b (runtimes : list (text * Q)),
  Forall good_loop os -> fold_res append_loop no_loops (map write_loop os) = Ok (a_loops a) ->
  dictionary (a_define a) -> describe a = Ok b -> (forall x, In x runtimes -> analysed (a_regions a) (fst x)) ->
  shared b (map fst runtimes) -> follows b /\ exists b', adjust_all b runtimes = Ok b' /\ follows b'.
Proof.
  intros os a b l F E D H R Sh. destruct (options_fresh os _ a F E eq_refl) as [Fr N].
  assert (Ru : running b (map fst l)).
  { apply (shared_running a); try assumption. intros r I. apply in_map_iff in I as (x & <- & I). now apply R. }
  split; [exact (run_follows _ _ Ru)|]. destruct (adjust_all_running l b _ Ru) as (b' & E' & R'); [intros x I; now apply in_map|].
  exists b'. split; [exact E'|exact (run_follows _ _ R')].
Qed.
(** Every change of a variable leaves the ends of the loops of other regions behind. *)
Theorem C88_stale_refuted : forall b region t n x b' r i l o v,
  follows b -> dictionary (b_define b) -> find_adjusted region t (b_define b) = Some (n, x) -> adjust_in b region t = Ok b' ->
  tget n (b_define b) = Some (Some v) -> ~ (x == v_now v)%Q ->
  belongs (b_loops b) r i -> nth_error (heap (b_loops b)) i = Some (Loop l) -> l_var l = Some n -> l_offset l = Some o ->
  ~ belongs (b_loops b) region i -> ~ follows b'.
Proof. exact stale. Qed.
(** The values are those of the adaptation without loops, to which C60 applies. *)
Theorem C88_values : forall b (runtimes : list (text * Q)) b', dictionary (b_define b) -> (forall x, In x runtimes -> ~ (snd x == 0)%Q) ->
  adjust_all b runtimes = Ok b' ->
  exists changed, adjust_variables runtimes (variables (b_define b)) = Ok (variables (b_define b'), changed).
Proof. intros b l b' D Z' H. exact (values_all l b b' D Z' H). Qed.
(** A variable is adapted only if its definition has a range; the end of the range is the limit, and the regions and the value are those of the variable. *)
Theorem C88_adapted : forall v, v_regions (as_var v) = v_region v /\ v_value (as_var v) = v_now v /\
  match v_adjust v with Some (stop, s) => v_adjustable (as_var v) = true /\ v_stop (as_var v) = stop /\ v_scale (as_var v) = s | None => v_adjustable (as_var v) = false end.
Proof. intros v. unfold as_var. destruct (v_adjust v) as [[stop s]|]; repeat split. Qed.
Print Assumptions C88_adapted.
Definition default_arguments : arguments :=
  mkArguments (loops_from [codes "1:50:N"]) (defines_from [(codes "N", codes "100:1000")]) [([], codes "1")] [([], 2%Z)] true [codes "a"; codes "b"].
Definition two_arguments : arguments :=
  mkArguments (loops_from [codes "a:1:50:N"; codes "b:1:60:N"]) (defines_from [(codes "N", codes "100:1000")]) [([], codes "1")] [([], 2%Z)] true [codes "a"; codes "b"].
Definition ends_of (b : binary) (r : text) : list Q := flat_map (fun e => match e with Loop l => [Qred (l_end l)] | Raw _ => [] end) (loops_in (b_loops b) r).
Example C88_default_example : exists os b b',
  Forall good_loop os /\ (forall o, In o os -> o_regions o = []) /\ fold_res append_loop no_loops (map write_loop os) = Ok (a_loops default_arguments)
  /\ dictionary (a_define default_arguments) /\ describe default_arguments = Ok b
  /\ (forall x, In x [(codes "b", 1 # 2); (codes "a", 1 # 1)]%Q -> analysed (a_regions default_arguments) (fst x))
  /\ adjust_all b [(codes "b", 1 # 2); (codes "a", 1 # 1)]%Q = Ok b'
  /\ match b_define b' with [(_, Some v)] => (v_now v == 800 # 1)%Q /\ v_region v = [[]; codes "a"; codes "b"] | _ => False end
  /\ ends_of b' (codes "a") = [750 # 1]%Q /\ ends_of b' (codes "b") = [750 # 1]%Q.
Proof.
  exists [mkLoopOption [] 1 None 50 (Some (codes "N"))]. eexists. eexists.
  split; [repeat constructor|]. split; [intros o [<-|[]]; reflexivity|]. split; [vm_compute; reflexivity|].
  split; [change (NoDup [codes "N"]); repeat constructor; intros []|]. split; [vm_compute; reflexivity|].
  split; [intros x [<-|[<-|[]]]; (split; [cbn; tauto|intros X; discriminate])|]. split; [vm_compute; reflexivity|]. repeat split; vm_compute; reflexivity.
Qed.
(** The variable is 400 after the change, the loop of region b ends at 60 instead of 360. *)
Example C88_stale_example : exists b b', describe two_arguments = Ok b /\ adjust_in b (codes "a") (1 # 2) = Ok b'
  /\ ends_of b' (codes "a") = [350 # 1]%Q /\ ends_of b' (codes "b") = [60 # 1]%Q
  /\ match tget (codes "N") (b_define b') with Some (Some v) => (v_now v == 400 # 1)%Q | _ => False end.
Proof. eexists. eexists. split; [vm_compute; reflexivity|]. split; [vm_compute; reflexivity|]. repeat split; vm_compute; reflexivity. Qed.

Print Assumptions C85_collected.
Print Assumptions C85_trailing_refuted.
Print Assumptions C85_fraction_refuted.
Print Assumptions C85_negative_refuted.
Print Assumptions C86_read.
Print Assumptions C86_numbers.
Print Assumptions C86_malformed_refuted.
Print Assumptions C86_help_refuted.
Print Assumptions C86_dot_refuted.
Print Assumptions C87_exact.
Print Assumptions C87_exit.
Print Assumptions C87_information.
Print Assumptions C87_repetitions_read.
Print Assumptions C87_flops_read.
Print Assumptions C88_default_partial.
Print Assumptions C88_shared_partial.
Print Assumptions C88_stale_refuted.
Print Assumptions C88_values.
Print Assumptions C87_variables.
