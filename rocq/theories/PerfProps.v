(** C73-C77: metrics, output of likwid-perfctr, and the results of benchmarks. *)
From Verif Require Import LoopModel PerfModel CtrSpec CtrProofs LoopSpec LoopProofs PerfSpec PerfProofs.
Local Open Scope N_scope.
Local Open Scope list_scope.

(** ** C73 *)
(** A metric is read as the same sequence of names and signs with counters as symbols, and the events are those of its counters.
    Missing for the full property: counters that are part of others, differ by punctuation only, or are followed by '-', where it is
    wrong (next theorems). *)
Theorem C73_partial : forall m last, good_metric None m last -> unambiguous m ->
  exists d, parse_perfmetric (metric_text m last) = Ok (metric_tokens m last, d)
    /\ forall s e, tget s d = Some e <-> In e (refs m) /\ s = ref_text e.
Proof. exact metric_correct. Qed.
Print Assumptions C73_partial.
Definition ctr (e r : string) (ps : list string) : event := (codes e, codes r, map codes ps).
(** "2 * (L1D_REPLACEMENT:PMC[0-3] + L1D_M_EVICT:PMC[0-3]) - T_nOL" *)
Definition example_metric : list (text * atom) :=
  [([], Name (codes "2")); (codes " * (", Ref (ctr "L1D_REPLACEMENT" "PMC[0-3]" [])); (codes " + ", Ref (ctr "L1D_M_EVICT" "PMC[0-3]" ["EDGE=1"]%string));
   (codes ") - ", Name (codes "T_nOL"))].
Ltac all_chars := repeat (apply Forall_cons; [|]); try apply Forall_nil.
Ltac class := unfold separator, any_of, in_event, in_registers, in_parameter, identifier_char, letter_or_digit, upper, lower, digit, any_of; vm_compute; intuition congruence.
Lemma not_part c d : (exists x, In x c /\ ~ In x d) -> part c d -> False.
Proof. intros (x & X & N) (a & b & ->). apply N. apply in_or_app. right. apply in_or_app. now left. Qed.
(** No counter is part of another one. *)
Fixpoint partb (p s : text) : bool := starts_with p s || match s with [] => false | _ :: r => partb p r end.
Lemma partb_spec p s : part p s -> partb p s = true.
Proof.
  intros (a & b & ->). induction a as [|x a IH]; cbn [app].
  - assert (H : starts_with p (p ++ b) = true) by (apply starts_with_spec; eauto). destruct (p ++ b); cbn [partb]; now rewrite H.
  - cbn [partb]. rewrite IH. apply orb_true_r.
Qed.
Definition pairs_ok (f : text -> text -> bool) (l : list event) : bool :=
  forallb (fun c => forallb (fun d => if event_eq_dec c d then true else negb (f (ref_text c) (ref_text d))) l) l.
Lemma pairs_ok_spec f (P : text -> text -> Prop) l : (forall p s, P p s -> f p s = true) -> pairs_ok f l = true ->
  forall c d, In c l -> In d l -> P (ref_text c) (ref_text d) -> c = d.
Proof.
  intros F H c d C D Q. unfold pairs_ok in H. rewrite forallb_forall in H. specialize (H c C). rewrite forallb_forall in H. specialize (H d D).
  destruct (event_eq_dec c d); [assumption|]. apply F in Q. rewrite Q in H. discriminate.
Qed.
Example C73_example : good_metric None example_metric [] /\ unambiguous example_metric
  /\ metric_text example_metric [] = codes "2 * (L1D_REPLACEMENT:PMC[0-3] + L1D_M_EVICT:PMC[0-3]:EDGE=1) - T_nOL".
Proof.
  split; [|split].
  - cbn [good_metric example_metric]. unfold good_gap, good_atom, good_ref, ctr.
    repeat split; try discriminate; try (all_chars; class); try congruence.
    apply Forall_cons; [|apply Forall_nil]. split; [discriminate|]. all_chars; class.
  - split; [|split].
    + apply (pairs_ok_spec partb); [exact partb_spec|vm_compute; reflexivity].
    + apply (pairs_ok_spec (fun p s => text_eqb (plain p) (plain s)) (fun p s => plain p = plain s)); [intros p s E; rewrite E; apply text_eqb_refl|vm_compute; reflexivity].
    + intros g w c I J E. cbn in I. destruct I as [I|[I|[I|[I|[]]]]]; try discriminate I; injection I as <- <-; discriminate E.
  - vm_compute. reflexivity.
Qed.
(** A counter whose name ends like another one in front of it is lost. *)
Theorem C73_suffix_refuted : exists m, good_metric None m [] /\ exists e t d, In e (refs m) /\ parse_perfmetric (metric_text m []) = Ok (t, d)
  /\ forall s, tget s d <> Some e.
Proof.
  exists [([], Ref (ctr "LOADS" "PMC0" [])); (codes " + ", Ref (ctr "MEM_LOADS" "PMC0" []))]. split.
  - cbn [good_metric]. unfold good_gap, good_atom, good_ref, ctr. repeat split; try discriminate; try (all_chars; class).
  - exists (ctr "MEM_LOADS" "PMC0" []). do 2 eexists. split; [right; now left|]. split; [vm_compute; reflexivity|].
    intros s. cbn [tget]. destruct (text_eqb s _); discriminate.
Qed.
(** A difference without spaces is read as one counter with other registers and a parameter. *)
Theorem C73_difference_refuted : exists t d, parse_perfmetric (codes "LOADS:PMC0-STORES:PMC1") = Ok (t, d)
  /\ map snd d = [ctr "LOADS" "PMC0-STORES" ["PMC1"]%string].
Proof. do 2 eexists. split; vm_compute; reflexivity. Qed.
(** The same counter with a parameter is no symbol. *)
Theorem C73_parameter_refuted : exists t d, parse_perfmetric (codes "LOADS:PMC0 + LOADS:PMC0:EDGEDETECT=0x1") = Ok (t, d)
  /\ map snd d = [ctr "LOADS" "PMC0" []] /\ In (Sign 58) t.
Proof. do 2 eexists. split; [vm_compute; reflexivity|]. split; vm_compute; [reflexivity|]. intuition. Qed.
(** Counters that differ by punctuation only: the first one is no symbol. *)
Theorem C73_punctuation_refuted : exists t d, parse_perfmetric (codes "L1:D:PMC0 + L1_D:PMC0") = Ok (t, d)
  /\ map snd d = [ctr "L1_D" "PMC0" []] /\ In (Sign 58) t.
Proof. do 2 eexists. split; [vm_compute; reflexivity|]. split; vm_compute; [reflexivity|]. intuition. Qed.
Print Assumptions C73_suffix_refuted.
Print Assumptions C73_difference_refuted.
Print Assumptions C73_parameter_refuted.
Print Assumptions C73_punctuation_refuted.

(** ** C74 *)
(** A metric has the number of the last line with its name. *)
Theorem C74_metric : forall text before line after k v x results, split 10 text = before ++ line :: after ->
  begins_with [k; v] line -> py_float v = Some x -> (forall l, In l after -> ~ begins_with [k] l) ->
  read_output text = Ok results -> tget k results = Some (Number x).
Proof. exact read_metric. Qed.
(** A counter has the number of the last line with its event and register. Missing for the full property: registers with options
    that are not of the form NAME=number, and the counts of other threads, which are not read (see below). *)
Theorem C74_counter_partial : forall text before line after e r s n results, split 10 text = before ++ line :: after ->
  begins_with [e; r; s] line -> good_event e -> good_register r -> py_float r = None -> count_of_field s n ->
  (forall l, In l after -> ~ begins_with [e; r] l) -> (forall l v, In l after -> begins_with [e; v] l -> py_float v = None) ->
  read_output text = Ok results -> exists d, tget e results = Some (Counts d) /\ tget r d = Some n.
Proof. exact read_counter. Qed.
(** Registers are no numbers, apart perhaps from those that begin like infinity or nan. *)
Theorem C74_registers : forall r c, good_register r -> hd_error r = Some c -> c <> 73 -> c <> 78 -> py_float r = None.
Proof. exact register_no_number. Qed.
(** Every number in the results was printed. *)
Theorem C74_sound : forall text results, read_output text = Ok results ->
  (forall k x, tget k results = Some (Number x) -> exists l v, In l (split 10 text) /\ begins_with [k; v] l /\ py_float v = Some x)
  /\ (forall e d r n, tget e results = Some (Counts d) -> tget r d = Some n ->
       exists l s, In l (split 10 text) /\ begins_with [e; r; s] l /\ count_of_field s n).
Proof. exact read_sound. Qed.
(** Reading succeeds unless a name is printed with a number and with a count. *)
Theorem C74_defined : forall text,
  (forall e l v x l' w s n, In l (split 10 text) -> In l' (split 10 text) -> good_event e -> begins_with [e; v] l -> py_float v = Some x ->
     begins_with [e; w; s] l' -> py_float w = None -> count_of_field s n -> False) ->
  exists results, read_output text = Ok results.
Proof. exact read_defined. Qed.
Definition newline : string := String (ascii_of_nat 10) EmptyString.
Definition example_output : text := codes ("CPU clock:,2.7 GHz," ++ newline ++ "L1D_REPLACEMENT,PMC0,120" ++ newline
  ++ "Runtime (RDTSC) [s],0.5," ++ newline ++ "L1D_REPLACEMENT,PMC1:THRESHOLD=0xa,-" ++ newline)%string.
Example C74_example : exists results, read_output example_output = Ok results
  /\ tget (codes "L1D_REPLACEMENT") results = Some (Counts [(codes "PMC0", 120%Z); (codes "PMC1:THRESHOLD=0xa", 0%Z)])
  /\ tget (codes "CPU clock:") results = Some (Label (codes "2.7 GHz"))
  /\ good_event (codes "L1D_REPLACEMENT") /\ good_register (codes "PMC1:THRESHOLD=0xa").
Proof.
  eexists. split; [vm_compute; reflexivity|]. split; [vm_compute; reflexivity|]. split; [vm_compute; reflexivity|]. split.
  - split; [discriminate|]. all_chars; class.
  - exists 80, (codes "MC1"), [codes "THRESHOLD=0xa"]. split; [reflexivity|]. split; [class|]. split; [all_chars; unfold in_name; class|].
    apply Forall_cons; [|apply Forall_nil]. exists (codes "THRESHOLD"), (codes "0xa"). split; [reflexivity|]. split; [discriminate|].
    split; [all_chars; unfold in_name; class|]. split; [discriminate|]. all_chars; unfold digit; vm_compute; intuition congruence.
Qed.
(** Options without a value, as in the documentation of eventstr, make a counter unknown. *)
Theorem C74_options_refuted : exists results, read_output (codes "MEM_UOPS_RETIRED_LOADS,PMC3:EDGEDETECT:THRESHOLD=0x926,17") = Ok results
  /\ tget (codes "MEM_UOPS_RETIRED_LOADS") results = None.
Proof. eexists. split; vm_compute; reflexivity. Qed.
(** Only the first of several hardware threads is read. *)
Theorem C74_threads_refuted : forall n m : Z, exists results,
  read_output (codes "INSTR_RETIRED_ANY,FIXC0," ++ show_int n ++ 44 :: show_int m) = Ok results
  /\ tget (codes "INSTR_RETIRED_ANY") results = Some (Counts [(codes "FIXC0", n)]).
Proof.
  intros n m. assert (C : forall z c, In c (show_int z) -> c <> 44 /\ c <> 10).
  { intros z c I. apply show_int_chars in I. lia. }
  unfold read_output. rewrite (split_single 10).
  2:{ intros I. apply in_app_or in I as [I|I]; [vm_compute in I; intuition discriminate|]. apply in_app_or in I as [I|[I|I]]; [|discriminate|]; now apply C in I. }
  cbn [read_lines]. unfold read_line. change (codes "INSTR_RETIRED_ANY,FIXC0,") with (codes "INSTR_RETIRED_ANY" ++ 44 :: codes "FIXC0" ++ [44]).
  rewrite <- app_assoc, <- app_comm_cons, <- app_assoc. cbn [app]. rewrite split_app by (vm_compute; intuition discriminate).
  rewrite split_app by (vm_compute; intuition discriminate). rewrite split_app by (intros I; now apply C in I).
  change (py_float (codes "FIXC0")) with (@None num). cbv beta iota zeta.
  rewrite (proj2 (counter_value_spec (show_int n) n)) by (right; right; apply show_int_read).
  change (is_event_name (codes "INSTR_RETIRED_ANY") && is_register_name (codes "FIXC0")) with true.
  eexists. split; [reflexivity|]. reflexivity.
Qed.
(** An event name that was a metric before ends the analysis with an exception. *)
Theorem C74_name_refuted : read_output (codes ("CYCLES,1.5" ++ newline ++ "CYCLES,PMC0,7")%string) = Err TypeError.
Proof. vm_compute. reflexivity. Qed.
Print Assumptions C74_metric.
Print Assumptions C74_counter_partial.
Print Assumptions C74_registers.
Print Assumptions C74_sound.
Print Assumptions C74_defined.
Print Assumptions C74_options_refuted.
Print Assumptions C74_threads_refuted.
Print Assumptions C74_name_refuted.

(** ** C75 *)
(** A value of a symbol is a count of its event, with its parameters, in one of its registers. *)
Theorem C75_sound : forall fuel events runs counts results e n, build_minimal_runs fuel events = Ok runs -> Forall clean_event events ->
  measurement events runs counts results -> In e events -> match_symbol (merge_results results) e = Ok (Some n) -> genuine runs counts e n.
Proof. exact match_sound. Qed.
(** Every symbol has a value, if every event name is measured in one run only. Missing for the full property: events that are measured
    in several runs with different registers or parameters, where counts get lost (next theorem). *)
Theorem C75_partial : forall fuel events runs counts results e, build_minimal_runs fuel events = Ok runs -> Forall clean_event events ->
  (forall e, In e events -> usable e) -> measurement events runs counts results -> one_run_each runs -> In e events ->
  exists n, match_symbol (merge_results results) e = Ok (Some n) /\ genuine runs counts e n.
Proof. exact match_complete. Qed.
(** That is so if the names of the events are different. *)
Theorem C75_distinct : forall fuel events runs, build_minimal_runs fuel events = Ok runs ->
  (forall e r1 ps1 r2 ps2, In (e, r1, ps1) events -> In (e, r2, ps2) events -> r1 = r2 /\ ps1 = ps2) -> one_run_each runs.
Proof. exact distinct_names. Qed.
(** The same for all symbols of a metric: the values are genuine counts of the counters of the symbols, and every symbol has a value if every
    event name is measured in one run only. *)
Theorem C75_symbols : forall fuel events runs counts results symbols, build_minimal_runs fuel events = Ok runs -> Forall clean_event events ->
  measurement events runs counts results -> NoDup (map fst symbols) -> incl (map snd symbols) events ->
  (forall values s n, match_symbols (merge_results results) symbols = Ok values -> tget s values = Some n ->
     exists e, In (s, e) symbols /\ genuine runs counts e n)
  /\ ((forall e, In e events -> usable e) -> one_run_each runs ->
     exists values, match_symbols (merge_results results) symbols = Ok values /\ forall s e, In (s, e) symbols -> exists n, tget s values = Some n).
Proof.
  intros fuel events runs counts results symbols B C M N I. split.
  - intros values s n H T. apply (proj1 (symbols_values _ _ _ H N s n)) in T as (e & IE & E). exists e. split; [exact IE|].
    refine (match_sound fuel events runs counts results e n B C M _ E). apply I. apply (in_map snd) in IE. exact IE.
  - intros U O. assert (X : forall s e, In (s, e) symbols -> exists n, match_symbol (merge_results results) e = Ok (Some n)).
    { intros s e IE. destruct (match_complete fuel events runs counts results e B C U M O) as (n & E & _); [apply I; apply (in_map snd) in IE; exact IE|]. eauto. }
    destruct (symbols_defined (merge_results results) symbols) as [values H]; [intros s e IE; destruct (X s e IE) as [n ?]; eauto|].
    exists values. split; [exact H|]. intros s e IE. destruct (X s e IE) as [n E]. exists n. apply (symbols_values _ _ _ H N). eauto.
Qed.
(** The output of a run that has a line for each of its counters is read as such results. *)
Theorem C75_output : forall names count run output, prints names count run output ->
  exists results, read_output output = Ok results /\ reports names count run results.
Proof. exact printed_reports. Qed.
(** The same event with and without a parameter in the same register: the first count is lost, whatever is measured. *)
Definition twice : list event := [ctr "CAS_COUNT_RD" "MBOX0C0" []; ctr "CAS_COUNT_RD" "MBOX0C0" ["THRESHOLD=0x2"]%string].
Theorem C75_refuted : exists events runs e, build_minimal_runs 2 events = Ok runs /\ Forall clean_event events /\ (forall e, In e events -> usable e)
  /\ In e events /\ forall counts results, measurement events runs counts results -> match_symbol (merge_results results) e = Ok None.
Proof.
  exists twice. eexists. exists (ctr "CAS_COUNT_RD" "MBOX0C0" []). split; [vm_compute; reflexivity|].
  split; [|split; [|split; [now left|]]].
  - assert (K : forall s : string, forallb (fun c => negb (c =? 58)) (codes s) = true -> colon_free (codes s)).
    { intros s H I. rewrite forallb_forall in H. now apply H in I. }
    apply Forall_cons; [|apply Forall_cons; [|apply Forall_nil]]; (split; [apply K; reflexivity|]; split; [|discriminate]); [apply Forall_nil|].
    apply Forall_cons; [apply K; reflexivity|apply Forall_nil].
  - intros e [<-|[<-|[]]]; (split; [vm_compute; discriminate|reflexivity]).
  - intros counts results [F L]. destruct counts as [|c1 [|c2 [|? ?]]]; try discriminate L. cbn [combine] in F.
    inversion F as [|? x ? xs R1 F']; subst. inversion F' as [|? y ? ys R2 F'']; subst. inversion F''; subst. clear F F' F'' L R1.
    cbn [fst snd] in R2. destruct R2 as (ND & R & _). destruct (R (codes "CAS_COUNT_RD")) as (d & D & K); [do 2 eexists; left; reflexivity|].
    assert (G : tget (codes "CAS_COUNT_RD") (merge_results [x; y]) = Some (Counts d)).
    { unfold merge_results. cbn [fold_left]. rewrite tget_tupdate by exact ND. match goal with |- match ?t with _ => _ end = _ => replace t with (Some (Counts d)) by (symmetry; exact D) end. reflexivity. }
    unfold match_symbol. change (ctr "CAS_COUNT_RD" "MBOX0C0" []) with (codes "CAS_COUNT_RD", codes "MBOX0C0", @nil text).
    change (register_options (codes "MBOX0C0")) with ([Some (codes "MBOX0C0")], @None exn). cbn [fst snd last_match].
    assert (E : measured_value (merge_results [x; y]) (codes "CAS_COUNT_RD") (Some (codes "MBOX0C0")) = Ok None).
    { unfold measured_value. match goal with |- match ?t with _ => _ end = _ => replace t with (Some (Counts d)) by (symmetry; exact G) end. f_equal.
      destruct (tget (codes "MBOX0C0") d) as [n|] eqn:T; [|reflexivity]. apply K in T as (r & ps & [I|[]] & LB & _). injection I as <- <-. discriminate LB. }
    change (fst (register_options (codes "MBOX0C0"))) with [Some (codes "MBOX0C0")]. change (snd (register_options (codes "MBOX0C0"))) with (@None exn). cbn [last_match].
    match goal with |- context [measured_value ?a ?b ?c] => replace (measured_value a b c) with (@Ok (option Z) None) by (symmetry; exact E) end. reflexivity.
Qed.
Print Assumptions C75_sound.
Print Assumptions C75_partial.
Print Assumptions C75_distinct.
Print Assumptions C75_symbols.
Print Assumptions C75_output.
Print Assumptions C75_refuted.
(** Two events that need two runs, and results of LIKWID *)
Definition two_events : list event := [ctr "L1D_REPLACEMENT" "PMC0" []; ctr "L1D_M_EVICT" "PMC0" []].
Example C75_example : exists runs, build_minimal_runs 2 two_events = Ok runs /\ length runs = 2%nat /\ Forall clean_event two_events
  /\ (forall e, In e two_events -> usable e)
  /\ (forall e r1 ps1 r2 ps2, In (e, r1, ps1) two_events -> In (e, r2, ps2) two_events -> r1 = r2 /\ ps1 = ps2)
  /\ measurement two_events runs [(fun _ => 12%Z); (fun _ => 7%Z)]
       [[(codes "raw output", Raw []); (codes "L1D_REPLACEMENT", Counts [(codes "PMC0", 12%Z)])];
        [(codes "raw output", Raw []); (codes "L1D_M_EVICT", Counts [(codes "PMC0", 7%Z)])]].
Proof.
  assert (K : forall s : string, forallb (fun c => negb (c =? 58)) (codes s) = true -> colon_free (codes s)).
  { intros s H I. rewrite forallb_forall in H. now apply H in I. }
  eexists. split; [vm_compute; reflexivity|]. split; [reflexivity|]. split; [|split; [|split]].
  - apply Forall_cons; [|apply Forall_cons; [|apply Forall_nil]]; (split; [apply K; reflexivity|]; split; [apply Forall_nil|discriminate]).
  - intros e [<-|[<-|[]]]; (split; [vm_compute; discriminate|reflexivity]).
  - intros e r1 ps1 r2 ps2 [A|[A|[]]] [B|[B|[]]]; injection A as <- <- <-; try discriminate B; injection B as <- <-; auto.
  - split; [|reflexivity]. cbn [combine]. apply Forall2_cons; [|apply Forall2_cons; [|apply Forall2_nil]]; cbn [fst snd].
    all: split; [repeat constructor; vm_compute; intuition discriminate|]; split.
    1,3: intros e (r & ps & [I|[]]); injection I as <- <- <-; eexists; split; [reflexivity|]; intros label n; cbn [tget];
      destruct (text_eqb_spec label (codes "PMC0")) as [->|N]; split;
      [intros [= <-]; exists (codes "PMC0"), []; repeat split; now left|intros (r & ps & [I|[]] & _ & ->); reflexivity
      |discriminate|intros (r & ps & [I|[]] & -> & _); injection I as <- <-; now destruct N].
    all: intros e [<-|[<-|[]]] N; try reflexivity; exfalso; apply N; do 2 eexists; left; reflexivity.
Qed.
Example C75_symbols_example : NoDup (map fst [(codes "x", ctr "L1D_M_EVICT" "PMC0" []); (codes "y", ctr "L1D_REPLACEMENT" "PMC0" [])])
  /\ incl (map snd [(codes "x", ctr "L1D_M_EVICT" "PMC0" []); (codes "y", ctr "L1D_REPLACEMENT" "PMC0" [])]) two_events.
Proof. split; [repeat constructor; vm_compute; intuition discriminate|]. intros e [<-|[<-|[]]]; [right; now left|now left]. Qed.
(** A header, two counters in a run, and a derived metric *)
Definition printed : text := codes ("TABLE,Region loop,Group 1 Raw" ++ newline ++ "L1D_REPLACEMENT,PMC0,12" ++ newline ++ "L1D_M_EVICT,PMC1:EDGE=1,7" ++ newline
  ++ "Runtime (RDTSC) [s],0.5," ++ newline)%string.
Definition printed_run : list counter := [(codes "L1D_REPLACEMENT", Some (codes "PMC0"), []); (codes "L1D_M_EVICT", Some (codes "PMC1"), [codes "EDGE=1"])].
Definition printed_count (c : counter) : Z := if text_eqb (fst (fst c)) (codes "L1D_M_EVICT") then 7%Z else 12%Z.
Example C75_output_example : prints [codes "L1D_REPLACEMENT"; codes "L1D_M_EVICT"] printed_count printed_run printed.
Proof.
  assert (K : forall s : text, forallb (fun c => negb (c =? 58)) s = true -> colon_free s).
  { intros s H I. rewrite forallb_forall in H. now apply H in I. }
  assert (GE : good_event (codes "L1D_REPLACEMENT") /\ good_event (codes "L1D_M_EVICT")) by (split; (split; [discriminate|]); all_chars; class).
  set (ls := split 10 printed). vm_compute in ls. split; [|split; [|split; [|split]]].
  - intros e [<-|[<-|[]]]; apply GE.
  - intros e r ps [I|[I|[]]]; injection I as <- <- <-; (split; [now vm_compute; auto|]); (split; [|cbv beta iota; apply K; reflexivity]); [apply Forall_nil|].
    apply Forall_cons; [apply K; reflexivity|apply Forall_nil].
  - change (split 10 printed) with ls. intros e r ps [I|[I|[]]]; injection I as <- <- <-; (split; [|split; [vm_compute; reflexivity|]]).
    + exists 80, (codes "MC0"), []. split; [reflexivity|]. split; [class|]. split; [all_chars; unfold in_name; class|apply Forall_nil].
    + exists (codes "L1D_REPLACEMENT,PMC0,12"). split; [vm_compute; auto|]. exists []. vm_compute. reflexivity.
    + exists 80, (codes "MC1"), [codes "EDGE=1"]. split; [reflexivity|]. split; [class|]. split; [all_chars; unfold in_name; class|].
      apply Forall_cons; [|apply Forall_nil]. exists (codes "EDGE"), (codes "1"). split; [reflexivity|]. split; [discriminate|].
      split; [all_chars; unfold in_name; class|]. split; [discriminate|]. all_chars; unfold digit; vm_compute; intuition congruence.
    + exists (codes "L1D_M_EVICT,PMC1:EDGE=1,7"). split; [vm_compute; auto|]. exists []. vm_compute. reflexivity.
  - change (split 10 printed) with ls. intros e v l IE IL [rest B]. cbn [In ls] in IL.
    destruct IE as [<-|[<-|[]]]; repeat (destruct IL as [<-|IL]; [try (vm_compute in B; discriminate B)|]); try easy; vm_compute in B; injection B as <- <-.
    + exists (codes "PMC0"), []. split; [now left|]. split; [reflexivity|]. exists []. vm_compute. reflexivity.
    + exists (codes "PMC1"), [codes "EDGE=1"]. split; [right; now left|]. split; [reflexivity|]. exists []. vm_compute. reflexivity.
  - change (split 10 printed) with ls. intros e l v x l' w s n IL IL' G [a B] F [b B'] _ _. cbn [In ls] in IL.
    repeat (destruct IL as [<-|IL]; [vm_compute in B; try discriminate B; injection B as <- <- <-; try (vm_compute in F; discriminate F)|]); try easy.
    clear B' F. destruct G as [_ G]. rewrite Forall_forall in G. specialize (G 117 ltac:(vm_compute; auto)). revert G. class.
Qed.

(** ** C76 *)
(** A run at a clock frequency that differs by more than one percent from the description is rejected, others are accepted, if the
    frequency is printed in GHz. Missing for the full property: outputs without the frequency or without a number. *)
Theorem C76_partial : forall clock results t q, tget (codes "CPU clock:") results = Some (Label (t ++ codes " GHz")) -> ~ In 32 t ->
  py_float t = Some (Fin q) ->
  (Qabs (q * inject_Z 1000000000 - clock) <= clock * (1 # 100) -> check_clock clock false results = Ok results)%Q
  /\ (clock * (1 # 100) < Qabs (q * inject_Z 1000000000 - clock) -> check_clock clock false results = Err SystemExit)%Q.
Proof.
  intros clock results t q G N F. rewrite (clock_checked clock results t q G N F). split; intros H.
  - now rewrite (proj2 (Qle_bool_iff _ _) H).
  - destruct (Qle_bool _ _) eqn:E; [|reflexivity]. apply Qle_bool_iff in E. now apply Qle_not_lt in E.
Qed.
(** "2.7 GHz" for a description with 2.7 GHz and 3.5 GHz *)
Example C76_example : exists results q, read_output example_output = Ok results
  /\ tget (codes "CPU clock:") results = Some (Label (codes "2.7" ++ codes " GHz")) /\ py_float (codes "2.7") = Some (Fin q)
  /\ check_clock (2700000000 # 1) false results = Ok results /\ check_clock (3500000000 # 1) false results = Err SystemExit.
Proof. do 2 eexists. split; [vm_compute; reflexivity|]. repeat split; vm_compute; reflexivity. Qed.
(** Without the frequency in the output every run is accepted. *)
Theorem C76_missing_refuted : forall clock results, tget (codes "CPU clock:") results = None -> check_clock clock false results = Ok results.
Proof. intros clock results H. unfold check_clock. now rewrite H. Qed.
(** A frequency that is not a number is accepted for every description. *)
Theorem C76_nan_refuted : exists results, read_output (codes "CPU clock:,nan GHz,") = Ok results
  /\ forall clock, check_clock clock false results = Ok results.
Proof. eexists. split; [vm_compute; reflexivity|]. intros clock. reflexivity. Qed.
(** A frequency without its unit is an exception. *)
Theorem C76_unit_refuted : exists results, read_output (codes "CPU clock:,2.7,") = Ok results
  /\ forall clock ignore, check_clock clock ignore results = Err AttributeError.
Proof. eexists. split; [vm_compute; reflexivity|]. intros clock ignore. reflexivity. Qed.
Print Assumptions C76_partial.
Print Assumptions C76_missing_refuted.
Print Assumptions C76_nan_refuted.
Print Assumptions C76_unit_refuted.

(** ** C77 *)
(** The rates belong to the iterations of the loops in one repetition, and to each other. Missing for the full property: ranges of loops
    that are no multiples of their increments (next theorem). *)
Theorem C77_partial : forall loops its cacheline bytes clock flops time repetitions volume r,
  proper loops -> Forall (fun l => (lincr l | lend l - lstart l)%Z) loops -> executes (bounds loops) its ->
  derived loops cacheline bytes clock flops time repetitions volume = Ok r ->
  let n := inject_Z (Z.of_nat (length its)) in
  (mits r * inject_Z 1000000 * time == n /\ mlups r * inject_Z 1000000 * time == n
   /\ mflops r * inject_Z 1000000 * time == inject_Z flops * n
   /\ (~ cacheline == 0 -> cy_per_cl r * (n * bytes / cacheline) == clock * time))%Q.
Proof.
  intros loops its cacheline bytes clock flops time repetitions volume r P D E H.
  destruct (counts_agree loops its P D E) as [_ C]. apply derived_consistent in H as (A & B & F & Y & _ & T & BN & _ & _).
  cbn zeta. set (n := inject_Z (Z.of_nat (length its))) in *. rewrite C in A.
  split; [exact A|]. split; [rewrite B; exact A|]. split.
  - rewrite F. rewrite <- A. ring.
  - intros Z0. rewrite <- A. transitivity (cy_per_cl r * (mits r * inject_Z 1000000) * (time * bytes / cacheline))%Q; [field; exact Z0|].
    rewrite Y. field. auto.
Qed.
Theorem C77_consistent : forall loops cacheline bytes clock flops time repetitions volume r,
  derived loops cacheline bytes clock flops time repetitions volume = Ok r ->
  (mlups r == mits r /\ mflops r == inject_Z flops * mits r
   /\ cy_per_cl r * (mits r * inject_Z 1000000) == clock * (cacheline / bytes))%Q
  /\ mem_volume r = option_map (fun v => v * inject_Z 1000000000 / repetitions)%Q volume.
Proof. intros. apply derived_consistent in H. intuition. Qed.
(** 100 x 40 iterations, 8 bytes and 2 flops per iteration, at 2 GHz *)
Definition example_loops : list loop := [mkloop "j"%string 1 101 1; mkloop "i"%string 0 80 2].
Example C77_example : proper example_loops /\ Forall (fun l => (lincr l | lend l - lstart l)%Z) example_loops
  /\ exists r, derived example_loops 64 8 (inject_Z 2000000000) 2 (1 # 1000) 2000 None = Ok r /\ (cy_per_cl r == 4000 /\ mits r == 4 /\ mflops r == 8)%Q.
Proof.
  split; [repeat constructor; cbn; lia|]. split.
  - apply Forall_cons; [exists 100%Z; reflexivity|]. apply Forall_cons; [exists 40%Z; reflexivity|apply Forall_nil].
  - eexists. split; [vm_compute; reflexivity|]. repeat split; vm_compute; reflexivity.
Qed.
(** A loop from 0 to 5 in steps of 2 runs three times, but counts as two and a half iterations. *)
Theorem C77_refuted : exists loops its r, proper loops /\ executes (bounds loops) its
  /\ derived loops 64 8 1 1 1 1 None = Ok r /\ ~ (mits r * inject_Z 1000000 * 1 == inject_Z (Z.of_nat (length its)))%Q.
Proof.
  exists [mkloop "i"%string 0 5 2], [[0]; [2]; [4]]%Z. eexists. split; [repeat constructor; cbn; lia|]. split; [|split].
  - exists [[0; 2; 4]]%Z. split; [|reflexivity]. constructor; [|constructor]. cbn.
    repeat (apply fv_step; [lia|]; cbn [Z.add Pos.add Pos.succ]). constructor. lia.
  - vm_compute. reflexivity.
  - vm_compute. discriminate.
Qed.
Print Assumptions C77_partial.
Print Assumptions C77_consistent.
Print Assumptions C77_refuted.
