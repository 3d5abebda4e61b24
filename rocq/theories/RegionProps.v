(** C96-C101: stand-alone benchmarks, region by region. *)
From Coq Require Import Lia Lqa.
From Verif Require Import CtrModel CtrSpec LoopSpec LoopProofs PerfModel PerfSpec PerfProofs LoopModel BenchModel RegionModel RegionSpec RegionProofs.
Local Open Scope N_scope.
Local Open Scope list_scope.
Definition newline : string := String (Ascii.ascii_of_nat 10) EmptyString.
Definition sample : text := codes ("CPU clock:,2.7 GHz," ++ newline ++ "TABLE,Region init,Group 1 Raw,MEM," ++ newline ++ "L1D_REPLACEMENT,PMC0,120" ++ newline
  ++ "Runtime (RDTSC) [s],0.5" ++ newline ++ "TABLE,Region main,Group 1 Raw,MEM," ++ newline ++ "call count,4" ++ newline
  ++ "L1D_REPLACEMENT,PMC0,70" ++ newline ++ "Runtime (RDTSC) [s],2")%string.

(** ** C96 *)
(** The results of a region have the number of the last of its lines with the name of a metric. Names of metrics do not end with a colon; such
    names are kept for information in the default region. *)
Theorem C96_metric : forall clock ignore found output rs f r k x line, perfctr clock ignore found output = Ok (rs, f) ->
  last_line_of r output k line -> number_line k x line -> ~ colon_at_end k -> reported rs r k (Number x).
Proof.
  intros clock ignore found output rs f r k x line H (before & after & E & A & U) N C. apply perfctr_ok in H. destruct H as (st & H & -> & _).
  rewrite E in H. apply reported_get. apply (read_number found before line after st r k x H A N); [tauto|exact U].
Qed.
(** The same for counts of events in registers without options *)
Theorem C96_counter_partial : forall clock ignore found output rs f r k reg n before line after, perfctr clock ignore found output = Ok (rs, f) ->
  PyText.split 10 output = before ++ line :: after -> region_after (before ++ [line]) r -> count_line k reg n line ->
  (forall a l b, after = a ++ l :: b -> region_after (before ++ line :: a ++ [l]) r -> ~ begins_with [k; reg] l /\ forall x, ~ number_line k x l) ->
  counted_in rs r k reg n.
Proof.
  intros clock ignore found output rs f r k reg n before line after H E A N U. apply perfctr_ok in H. destruct H as (st & H & -> & _).
  rewrite E in H. destruct (read_count found before line after st r k reg n H A N U) as (d & D & T). exists d. split; [now apply reported_get|exact T].
Qed.
(** Information such as the frequency belongs to the default region, wherever it is printed. *)
Theorem C96_info : forall clock ignore found output rs f k v before line after, perfctr clock ignore found output = Ok (rs, f) ->
  PyText.split 10 output = before ++ line :: after -> colon_at_end k -> PyText.split 44 line = [k; v; []] -> py_float v = None ->
  (forall l, In l after -> ~ begins_with [k] l) -> reported rs [] k (Label v).
Proof.
  intros clock ignore found output rs f k v before line after H E C L F U. apply perfctr_ok in H. destruct H as (st & H & -> & _).
  rewrite E in H. apply reported_get. exact (read_info found before line after st k v H C L F U).
Qed.
(** Every number and count of a region was printed in a line of this region. *)
Theorem C96_sound : forall clock ignore found output rs f r k, perfctr clock ignore found output = Ok (rs, f) ->
  (forall x, reported rs r k (Number x) -> exists line, line_of r output line /\ number_line k x line)
  /\ (forall reg n, counted_in rs r k reg n -> exists line, line_of r output line /\ count_line k reg n line)
  /\ (forall s, reported rs r k (Label s) -> exists line, begins_with [k; s] line
       /\ (line_of r output line \/ r = [] /\ colon_at_end k /\ In line (PyText.split 10 output))).
Proof.
  intros clock ignore found output rs f r k H. apply perfctr_ok in H. destruct H as (st & H & -> & _).
  assert (J : forall e, reported (s_results st) r k e -> justified (PyText.split 10 output) r k e).
  { intros e G. apply reported_get in G. exact (read_justified _ _ _ H _ _ _ G). }
  split; [|split].
  - intros x G. apply J in G. now apply line_of_at.
  - intros reg n (d & G & T). apply J in G. destruct G as (_ & _ & G). now apply line_of_at, G.
  - intros s G. apply J in G. destruct G as [(_ & _ & G)|(R & C & l & I & G)].
    + apply line_of_at in G. destruct G as (l & L & G). exists l. auto.
    + exists l. split; [exists [[]]; exact G|auto].
Qed.
(** The regions that were found are those with a header, now or in an earlier run, or else the default region. *)
Theorem C96_found : forall clock ignore found output rs f r, perfctr clock ignore found output = Ok (rs, f) ->
  In r f <-> (In r found \/ (exists l, In l (PyText.split 10 output) /\ header r l)
              \/ r = [] /\ found = [] /\ forall r' l, In l (PyText.split 10 output) -> ~ header r' l).
Proof.
  intros clock ignore found output rs f r H. apply perfctr_ok in H. destruct H as (st & H & _ & _ & ->).
  pose proof (found_correct _ _ _ H) as F. destruct (s_found st) as [|a l] eqn:E.
  - assert (N : found = []) by (destruct found as [|x found]; [reflexivity|destruct (proj2 (F x)); left; now left]).
    assert (M : forall r' x, In x (PyText.split 10 output) -> ~ header r' x) by (intros r' x I h; apply (proj2 (F r')); right; eauto).
    split.
    + intros [<-|[]]. auto.
    + intros [I|[(x & I & h)|(-> & _)]]; [subst found; easy|now destruct (M r x I)|now left].
  - rewrite <- E in *. rewrite (F r). split; [intros [I|I]; auto|]. intros [I|[I|(-> & -> & M)]]; [auto|auto|]. exfalso.
    destruct (proj1 (F a)) as [[]|(x & I & h)]; [rewrite E; now left|]. now apply (M a x).
Qed.
(** A run is accepted exactly if the frequency is close to that of the machine, or warnings are ignored; provided that the output is not cut
    in a header and no name is used for a number and for a count. *)
Theorem C96_defined : forall clock ignore found output before line after t q,
  (forall l, In l (PyText.split 10 output) -> PyText.split 44 l <> [codes "TABLE"]) -> no_mixture output ->
  PyText.split 10 output = before ++ line :: after -> PyText.split 44 line = [codes "CPU clock:"; t ++ codes " GHz"; []] ->
  (forall l, In l after -> ~ begins_with [codes "CPU clock:"] l) -> ~ In 32 t -> py_float t = Some (Fin q) -> py_float (t ++ codes " GHz") = None ->
  if Qle_bool (Qabs (q * inject_Z 1000000000 - clock)) (clock * (1 # 100)) || ignore
  then exists rs f, perfctr clock ignore found output = Ok (rs, f)
  else perfctr clock ignore found output = Err SystemExit.
Proof.
  intros clock ignore found output before line after t q T M E L U N F G. destruct (read_succeeds found output T M) as [st H].
  assert (R : reported (s_results st) [] (codes "CPU clock:") (Label (t ++ codes " GHz"))).
  { apply reported_get. pose proof H as H1. rewrite E in H1. apply (read_info found before line after st _ _ H1); auto. now exists (codes "CPU clock"). }
  unfold perfctr. rewrite H. cbn [bind]. rewrite (clock_value clock ignore _ t q R N F).
  destruct (Qle_bool _ _ || ignore); cbn [bind]; [eauto|reflexivity].
Qed.
(** Two regions with the same metric and the same counter *)
Example C96_example : exists rs, perfctr (2700000000 # 1) false [] sample = Ok (rs, [codes "init"; codes "main"])
  /\ reported rs (codes "init") (codes "Runtime (RDTSC) [s]") (Number (Fin (5 # 10))) /\ reported rs (codes "main") (codes "Runtime (RDTSC) [s]") (Number (Fin 2))
  /\ counted_in rs (codes "init") (codes "L1D_REPLACEMENT") (codes "PMC0") 120 /\ counted_in rs (codes "main") (codes "L1D_REPLACEMENT") (codes "PMC0") 70
  /\ reported rs [] (codes "CPU clock:") (Label (codes "2.7 GHz"))
  /\ perfctr (3500000000 # 1) false [] sample = Err SystemExit.
Proof.
  eexists. split; [vm_compute; reflexivity|]. do 2 (split; [eexists; split; vm_compute; reflexivity|]).
  do 2 (split; [eexists; split; [eexists; split; vm_compute; reflexivity|vm_compute; reflexivity]|]).
  split; [eexists; split; vm_compute; reflexivity|vm_compute; reflexivity].
Qed.
(** Counters in registers with options are never in the results. *)
Theorem C96_options_refuted : forall clock ignore found output rs f r k reg n, perfctr clock ignore found output = Ok (rs, f) ->
  counted_in rs r k reg n -> ~ In 58 reg.
Proof.
  intros clock ignore found output rs f r k reg n H C I. destruct (C96_sound _ _ _ _ _ _ r k H) as (_ & S & _).
  destruct (S reg n C) as (l & _ & _ & (_ & P) & _). rewrite Forall_forall in P. apply P in I. unfold in_name, upper, digit in I. lia.
Qed.
(** Regions whose names differ only behind a comma are taken for one. *)
Theorem C96_comma_refuted : forall x y z line line', ~ In 44 x ->
  line = codes "TABLE,Region " ++ x ++ 44 :: y -> line' = codes "TABLE,Region " ++ x ++ 44 :: z -> header x line /\ header x line'.
Proof.
  assert (K : forall x y, ~ In 44 x -> header x (codes "TABLE,Region " ++ x ++ 44 :: y)).
  { intros x y N. exists (PyText.split 44 y). change (codes "TABLE,Region ") with (codes "TABLE" ++ 44 :: codes "Region "). rewrite <- app_assoc.
    cbn [app]. change (codes "TABLE" ++ 44 :: codes "Region " ++ x ++ 44 :: y) with (codes "TABLE" ++ 44 :: (codes "Region " ++ x ++ 44 :: y)).
    rewrite split_app by (vm_compute; intuition discriminate). rewrite app_assoc, split_app; [reflexivity|].
    intro I. apply in_app_or in I. destruct I as [I|I]; [vm_compute in I; intuition discriminate|now apply N]. }
  intros x y z line line' N -> ->. split; now apply K.
Qed.
(** An output that ends within a header is an exception. *)
Theorem C96_cut_refuted : perfctr (2700000000 # 1) true [] (codes ("CPU clock:,2.7 GHz," ++ newline ++ "TABLE")%string) = Err IndexError.
Proof. vm_compute. reflexivity. Qed.
Print Assumptions C96_metric.
Print Assumptions C96_counter_partial.
Print Assumptions C96_info.
Print Assumptions C96_sound.
Print Assumptions C96_found.
Print Assumptions C96_defined.
Print Assumptions C96_options_refuted.
Print Assumptions C96_comma_refuted.
Print Assumptions C96_cut_refuted.

(** ** C97 *)
(** Without a selection, all regions with results are analysed, each once; the default region only if there is no other. *)
Theorem C97_all : forall clock ignore found output rs f, perfctr clock ignore found output = Ok (rs, f) ->
  exists l, choose_regions [] rs = Ok l /\ NoDup l
    /\ forall r, In r l <-> (exists k e, reported rs r k e) /\ (r = [] -> forall r' k e, reported rs r' k e -> r' = []).
Proof. exact all_regions. Qed.
(** There is always a region to analyse. *)
Theorem C97_some : forall clock ignore found output rs f l, perfctr clock ignore found output = Ok (rs, f) -> choose_regions [] rs = Ok l -> l <> [].
Proof.
  intros clock ignore found output rs f l H L E. subst l. destruct (all_regions _ _ _ _ _ _ H) as (l & L' & _ & I). rewrite L in L'. injection L' as <-.
  pose proof H as H0. apply perfctr_ok in H0. destruct H0 as (st & _ & _ & C & _). apply clock_there in C. destruct C as [e C].
  apply (proj2 (I [])). split; [eauto|]. intros _ r k x R. destruct (text_eqb_spec r []) as [|N]; [assumption|exfalso].
  apply (proj2 (I r)). split; [eauto|]. intros ->. now destruct N.
Qed.
(** A selection is analysed as given, if all its regions have results, and refused otherwise. *)
Theorem C97_given : forall clock ignore found output rs f regions, perfctr clock ignore found output = Ok (rs, f) -> regions <> [] ->
  choose_regions regions rs = Ok regions /\ (forall r, In r regions -> exists k e, reported rs r k e)
  \/ choose_regions regions rs = Err SystemExit /\ exists r, In r regions /\ forall k e, ~ reported rs r k e.
Proof.
  intros clock ignore found output rs f regions H N. apply perfctr_ok in H. destruct H as (st & H & -> & _). apply read_tidy in H.
  destruct (given_regions regions (s_results st) N) as [[A B]|[A (r & I & B)]].
  - left. split; [exact A|]. intros r I. now apply key_reported, B.
  - right. split; [exact A|]. exists r. split; [exact I|]. intros k e R. apply B. apply (key_reported _ _ H). eauto.
Qed.
Example C97_example : exists rs f, perfctr (2700000000 # 1) false [] sample = Ok (rs, f)
  /\ choose_regions [] rs = Ok [codes "init"; codes "main"] /\ choose_regions [codes "main"] rs = Ok [codes "main"]
  /\ choose_regions [codes "main"; codes "other"] rs = Err SystemExit.
Proof. do 2 eexists. split; [vm_compute; reflexivity|]. vm_compute. auto. Qed.
Print Assumptions C97_all.
Print Assumptions C97_some.
Print Assumptions C97_given.

(** ** C98 *)
(** A value of a symbol in a region was printed in a line of this region in one of the runs, for the event in one of its registers. *)
Theorem C98_sound_partial : forall runs r e descr ps n,
  (forall rs, In rs runs -> exists clock ignore found output f, perfctr clock ignore found output = Ok (rs, f)) ->
  match_symbol (measured runs r) (e, descr, ps) = Ok (Some n) ->
  exists rs reg, In rs runs /\ In (Some reg) (fst (register_options descr)) /\ counted_in rs r e reg n
    /\ forall clock ignore found output f, perfctr clock ignore found output = Ok (rs, f) -> exists line, line_of r output line /\ count_line e reg n line.
Proof.
  intros runs r e descr ps n P H. unfold match_symbol in H. destruct (last_match (measured runs r) e (fst (register_options descr)) None) as [v|] eqn:L; [|discriminate].
  cbn [bind] in H. destruct (snd (register_options descr)); [discriminate|]. injection H as ->. apply match_from in L.
  destruct L as [L|(reg & d & I & D & T)]; [discriminate|]. unfold measured in D. apply merged_from in D.
  - destruct D as [D|(x & X & D)]; [discriminate|]. apply in_map_iff in X. destruct X as (rs & <- & X). exists rs, reg. do 2 (split; [assumption|]).
    assert (C : counted_in rs r e reg n) by (exists d; split; [now apply reported_get|exact T]). split; [exact C|].
    intros clock ignore found output f Q. destruct (C96_sound _ _ _ _ _ _ r e Q) as (_ & S & _). now apply S.
  - intros x X. apply in_map_iff in X. destruct X as (rs & <- & X). destruct (P rs X) as (c & i & fo & o & f & Q).
    apply perfctr_ok in Q. destruct Q as (st & Q & -> & _). now apply dict_nodup, (read_tidy fo (PyText.split 10 o)).
Qed.
(** The count of an event without parameters is found, if one run has results for the event in this region, in one of its registers. *)
Theorem C98_found_partial : forall runs rs r e descr reg n,
  (forall rs, In rs runs -> exists clock ignore found output f, perfctr clock ignore found output = Ok (rs, f)) ->
  In rs runs -> counted_in rs r e reg n -> snd (register_options descr) = None -> In (Some reg) (fst (register_options descr)) ->
  (forall rs' x, In rs' runs -> reported rs' r e x -> reported rs r e x) ->
  (forall reg' n', In (Some reg') (fst (register_options descr)) -> counted_in rs r e reg' n' -> reg' = reg) ->
  match_symbol (measured runs r) (e, descr, []) = Ok (Some n).
Proof.
  intros runs rs r e descr reg n P I (d & D & T) O R U V. unfold match_symbol. rewrite (match_only (measured runs r) e d (fst (register_options descr)) reg n).
  - cbn [bind]. now rewrite O.
  - unfold measured. apply merged_has.
    + intros x X. apply in_map_iff in X. destruct X as (y & <- & X). destruct (P y X) as (c & i & fo & o & f & Q).
      apply perfctr_ok in Q. destruct Q as (st & Q & -> & _). now apply dict_nodup, (read_tidy fo (PyText.split 10 o)).
    + intros x w X W. apply in_map_iff in X. destruct X as (y & <- & X). apply reported_get in W. apply (U y w X) in W. apply reported_get in D, W. congruence.
    + left. exists (dict_of r rs). split; [now apply in_map|now apply reported_get].
  - exact T.
  - intros x z X Z. apply (V x z X). now exists d.
  - now left.
  - now left.
Qed.
Example C98_example : exists rs f, perfctr (2700000000 # 1) false [] sample = Ok (rs, f)
  /\ match_symbol (measured [rs] (codes "init")) (codes "L1D_REPLACEMENT", codes "PMC[0-3]", []) = Ok (Some 120%Z)
  /\ match_symbol (measured [rs] (codes "main")) (codes "L1D_REPLACEMENT", codes "PMC[0-3]", []) = Ok (Some 70%Z).
Proof. do 2 eexists. split; [vm_compute; reflexivity|]. vm_compute. auto. Qed.
(** Parameters of events are not used: the event with a parameter gets the count of the event without one. *)
Definition two_events : text := codes ("CPU clock:,2.7 GHz," ++ newline ++ "TABLE,Region main,Group 1 Raw,X," ++ newline
  ++ "CAS_COUNT_RD,MBOX0C0,90" ++ newline ++ "CAS_COUNT_RD,MBOX0C1:THRESHOLD=0x2,3" ++ newline ++ "Runtime (RDTSC) [s],2")%string.
Theorem C98_parameters_refuted : exists rs f, perfctr (2700000000 # 1) false [] two_events = Ok (rs, f)
  /\ match_symbol (measured [rs] (codes "main")) (codes "CAS_COUNT_RD", codes "MBOX0C[01]", [codes "THRESHOLD=0x2"]) = Ok (Some 90%Z).
Proof. do 2 eexists. split; vm_compute; reflexivity. Qed.
(** An event of which all counts have parameters in the output is an exception. *)
Definition with_options : text := codes ("CPU clock:,2.7 GHz," ++ newline ++ "TABLE,Region main,Group 1 Raw,X," ++ newline
  ++ "LLC_LOOKUP_ANY,CBOX0C0:STATE=0xF0,17" ++ newline ++ "Runtime (RDTSC) [s],2")%string.
Theorem C98_options_refuted : exists rs f, perfctr (2700000000 # 1) false [] with_options = Ok (rs, f)
  /\ match_symbol (measured [rs] (codes "main")) (codes "LLC_LOOKUP_ANY", codes "CBOX0C[0-3]", [codes "STATE=0xF0"]) = Err KeyError.
Proof. do 2 eexists. split; vm_compute; reflexivity. Qed.
Print Assumptions C98_sound_partial.
Print Assumptions C98_found_partial.
Print Assumptions C98_parameters_refuted.
Print Assumptions C98_options_refuted.

(** ** C99 *)
Local Open Scope Q_scope.
(** The contributions of both benchmarks are the amounts of cache lines between neighbouring levels, per cache line of work, at the bandwidths
    of the machine. This needs levels L1, L2, L3 and MEM with all the metrics. Missing for the full property: other machines (below). *)
Theorem C99_benchmark_partial : forall levels cl clock total bandwidth loads stores miss evict l2 s2 l3 s3 lm sm b a1 t1 a2 t2,
  distinct_levels levels -> (forall l, In l levels -> l_metrics l <> None) -> ~ total == 0 ->
  value_at levels "L1" "loads" loads -> value_at levels "L1" "stores" stores ->
  value_at levels "L3" "misses" miss -> value_at levels "L3" "evicts" evict -> bandwidth miss evict = Ok b -> ~ b == 0 ->
  value_at levels "L2" "loads" l2 -> value_at levels "L2" "stores" s2 -> nth_error levels 1 = Some a1 -> l_throughput a1 = Rate t1 -> ~ t1 == 0 ->
  value_at levels "L3" "loads" l3 -> value_at levels "L3" "stores" s3 -> nth_error levels 2 = Some a2 -> l_throughput a2 = Rate t2 -> ~ t2 == 0 ->
  value_at levels "MEM" "loads" lm -> value_at levels "MEM" "stores" sm ->
  exists r, benchmark_ecm levels cl clock total bandwidth = Ok r
    /\ t_nol r == loads / total / 2 /\ t_l1l2 r == transfer (l2 + s2) total cl t1 /\ t_l2l3 r == transfer (l3 + s3) total cl t2
    /\ (~ clock == 0 -> t_mem r == transfer (lm + sm) total cl (b / clock)).
Proof.
  intros levels cl clock total bandwidth loads stores miss evict l2 s2 l3 s3 lm sm b a1 t1 a2 t2 D M T V1 V2 V3 V4 B Nb V5 V6 A1 R1 N1 V7 V8 A2 R2 N2 V9 V10.
  unfold benchmark_ecm, memory_bandwidth. rewrite (metrics_all levels M), (zero_test total T). cbn [negb].
  rewrite (metric_value _ _ _ _ D V1), (metric_value _ _ _ _ D V2), (metric_value _ _ _ _ D V3), (metric_value _ _ _ _ D V4), (metric_value _ _ _ _ D V5),
    (metric_value _ _ _ _ D V6), (metric_value _ _ _ _ D V7), (metric_value _ _ _ _ D V8), (metric_value _ _ _ _ D V9), (metric_value _ _ _ _ D V10).
  rewrite (rate_value _ _ _ _ A1 R1 N1), (rate_value _ _ _ _ A2 R2 N2). cbn [bind]. rewrite B. cbn [bind]. rewrite (zero_test b Nb). cbn [bind].
  eexists. split; [reflexivity|]. cbn [t_nol t_l1l2 t_l2l3 t_mem]. unfold transfer. split; [|split; [|split]].
  - field. exact T.
  - field. auto.
  - field. auto.
  - intro C. field. auto.
Qed.
Theorem C99_standalone_partial : forall levels cl clock total bandwidth accesses m1 e1 m2 e2 m3 e3 b a1 t1 a2 t2,
  distinct_levels (removelast levels) -> (forall l, In l (removelast levels) -> l_metrics l <> None) -> ~ total == 0 ->
  value_at (removelast levels) "L1" "accesses" accesses ->
  value_at (removelast levels) "L3" "misses" m3 -> value_at (removelast levels) "L3" "evicts" e3 -> bandwidth m3 e3 = Ok b -> ~ b == 0 ->
  value_at (removelast levels) "L1" "misses" m1 -> value_at (removelast levels) "L1" "evicts" e1 ->
  nth_error levels 1 = Some a1 -> l_throughput a1 = Rate t1 -> ~ t1 == 0 ->
  value_at (removelast levels) "L2" "misses" m2 -> value_at (removelast levels) "L2" "evicts" e2 ->
  nth_error levels 2 = Some a2 -> l_throughput a2 = Rate t2 -> ~ t2 == 0 ->
  exists r, standalone_ecm levels cl clock total bandwidth = Ok r
    /\ t_nol r == accesses / total / 2 /\ t_l1l2 r == transfer (m1 + e1) total cl t1 /\ t_l2l3 r == transfer (m2 + e2) total cl t2
    /\ (~ clock == 0 -> t_mem r == transfer (m3 + e3) total cl (b / clock)).
Proof.
  intros levels cl clock total bandwidth accesses m1 e1 m2 e2 m3 e3 b a1 t1 a2 t2 D M T V1 V3 V4 B Nb V5 V6 A1 R1 N1 V7 V8 A2 R2 N2.
  unfold standalone_ecm, memory_bandwidth. cbv zeta. rewrite (metrics_all _ M), (zero_test total T). cbn [negb].
  rewrite (metric_value _ _ _ _ D V1), (metric_value _ _ _ _ D V3), (metric_value _ _ _ _ D V4), (metric_value _ _ _ _ D V5),
    (metric_value _ _ _ _ D V6), (metric_value _ _ _ _ D V7), (metric_value _ _ _ _ D V8).
  rewrite (rate_value _ _ _ _ A1 R1 N1), (rate_value _ _ _ _ A2 R2 N2). cbn [bind]. rewrite B. cbn [bind]. rewrite (zero_test b Nb). cbn [bind].
  eexists. split; [reflexivity|]. cbn [t_nol t_l1l2 t_l2l3 t_mem]. unfold transfer. split; [|split; [|split]].
  - field. exact T.
  - field. auto.
  - field. auto.
  - intro C. field. auto.
Qed.
(** A machine on which both benchmarks work, and agree: what a level misses or evicts is loaded from or stored in the next one. *)
Definition metrics (l : list (string * Q)) : option (tdict Q) := Some (map (fun x => (codes (fst x), snd x)) l).
Definition memory_words : throughput := Words (codes "full socket memory bandwidth").
Definition machine : list level :=
  [mkLevel (codes "L1") (metrics [("accesses", 900#1); ("loads", 900#1); ("stores", 300#1); ("misses", 200#1); ("evicts", 100#1)]%string) (Words (codes "architecture code analyzer"));
   mkLevel (codes "L2") (metrics [("loads", 200#1); ("stores", 100#1); ("misses", 160#1); ("evicts", 80#1)]%string) (Rate (64#1));
   mkLevel (codes "L3") (metrics [("loads", 160#1); ("stores", 80#1); ("misses", 120#1); ("evicts", 60#1)]%string) (Rate (16#1));
   mkLevel (codes "MEM") (metrics [("loads", 120#1); ("stores", 60#1)]%string) memory_words].
Definition constant_bandwidth (_ _ : Q) : res Q := Ok (27000000000 # 1).
Example C99_example : exists r s, benchmark_ecm machine (64#1) (2700000000#1) (100#1) constant_bandwidth = Ok r
  /\ standalone_ecm machine (64#1) (2700000000#1) (100#1) constant_bandwidth = Ok s
  /\ t_nol r == 9#2 /\ t_l1l2 r == 3 /\ t_l2l3 r == 96#10 /\ t_mem r == 1152#100
  /\ t_nol r == t_nol s /\ t_l1l2 r == t_l1l2 s /\ t_l2l3 r == t_l2l3 s /\ t_mem r == t_mem s.
Proof. do 2 eexists. split; [vm_compute; reflexivity|]. split; [vm_compute; reflexivity|]. repeat (split; [vm_compute; reflexivity|]). vm_compute. reflexivity. Qed.
(** Without a level L3 there is no model, whatever is measured: a KeyError. This is so for A64FX_qpace4.yml. *)
Theorem C99_levels_refuted : forall levels cl clock total bandwidth, ~ In (codes "L3") (map l_name levels) -> ~ total == 0 ->
  benchmark_ecm levels cl clock total bandwidth = Err KeyError /\ standalone_ecm levels cl clock total bandwidth = Err KeyError.
Proof.
  intros levels cl clock total bandwidth N T.
  assert (X : forall ls, incl ls levels -> get ls "L3" "misses" = Err KeyError).
  { intros ls I. apply get_absent. intros q (l & d & L & C & _). apply N. rewrite <- C. apply in_map, I, L. }
  assert (Y : incl (removelast levels) levels).
  { intros l L. destruct levels as [|a levels]; [easy|]. rewrite (app_removelast_last a) by discriminate. apply in_or_app. now left. }
  unfold benchmark_ecm, standalone_ecm, memory_bandwidth. cbv zeta. rewrite (zero_test total T), (X levels (incl_refl _)), (X _ Y). split.
  - destruct (forallb has_metrics levels); [|reflexivity]. cbn [negb]. destruct (get levels "L1" "loads") as [q|e] eqn:E1; [|apply get_error in E1; now subst e].
    cbn [bind]. destruct (get levels "L1" "stores") as [q'|e] eqn:E2; [reflexivity|apply get_error in E2; now subst e].
  - destruct (forallb has_metrics (removelast levels)); [|reflexivity]. cbn [negb].
    destruct (get (removelast levels) "L1" "accesses") as [q|e] eqn:E1; [reflexivity|apply get_error in E1; now subst e].
Qed.
(** The stand-alone benchmark needs a metric "accesses" of L1, which no example of a machine file has. *)
Theorem C99_accesses_refuted : forall levels cl clock total bandwidth, (forall q, ~ value_at (removelast levels) "L1" "accesses" q) -> ~ total == 0 ->
  standalone_ecm levels cl clock total bandwidth = Err KeyError.
Proof.
  intros levels cl clock total bandwidth N T. unfold standalone_ecm. cbv zeta. rewrite (zero_test total T), (get_absent _ _ _ N).
  now destruct (forallb has_metrics (removelast levels)).
Qed.
(** The other benchmark needs metrics of the memory, which SandyBridgeEP_E5-2680.yml has not. *)
Theorem C99_memory_refuted : forall levels cl clock total bandwidth l, In l levels -> l_metrics l = None ->
  benchmark_ecm levels cl clock total bandwidth = Err KeyError.
Proof.
  intros levels cl clock total bandwidth l I M. unfold benchmark_ecm. destruct (forallb has_metrics levels) eqn:E; [|reflexivity].
  rewrite forallb_forall in E. specialize (E l I). unfold has_metrics in E. now rewrite M in E.
Qed.
(** Loads and stores of a full-duplex level, such as L3 of CascadelakeSP_Gold-6248_SNC.yml, overlap, but are summed here: the kind of the
    throughput is not read. *)
Theorem C99_duplex_refuted : exists r, benchmark_ecm machine (64#1) (2700000000#1) (100#1) constant_bandwidth = Ok r
  /\ value_at machine "L3" "loads" (160#1) /\ value_at machine "L3" "stores" (80#1)
  /\ ~ t_l2l3 r == transfer (qmax (160#1) (80#1)) (100#1) (64#1) (16#1).
Proof.
  eexists. split; [vm_compute; reflexivity|].
  do 2 (split; [do 2 eexists; split; [right; right; left; reflexivity|]; do 2 (split; [reflexivity|]); reflexivity|]). vm_compute. discriminate.
Qed.
Print Assumptions C99_duplex_refuted.
Print Assumptions C99_benchmark_partial.
Print Assumptions C99_standalone_partial.
Print Assumptions C99_levels_refuted.
Print Assumptions C99_accesses_refuted.
Print Assumptions C99_memory_refuted.

(** ** C100 *)
(** The rates of a region belong to the iterations of its loops in one repetition, and to each other. Missing for the full property: ranges
    that are no multiples of their increments (next theorem). *)
Theorem C100_partial : forall loops its cacheline bytes clock flops time repetitions volume r,
  proper loops -> Forall (fun l => (lincr l | lend l - lstart l)%Z) loops -> executes (bounds loops) its ->
  region_rates loops cacheline bytes clock flops time repetitions volume = Ok r ->
  let n := inject_Z (Z.of_nat (length its)) in
  mits r * inject_Z 1000000 * time == n /\ mlups r == mits r /\ mflops r == inject_Z flops * mits r
  /\ cy_per_cl r * n == time * clock * (cacheline / bytes)
  /\ mem_volume r = option_map (fun v => v * inject_Z 1000000000 / inject_Z repetitions) volume.
Proof.
  intros loops its cacheline bytes clock flops time repetitions volume r P D X H n.
  assert (E : region_iterations loops = Z.of_nat (length its)) by (now apply (counts_agree loops its)).
  unfold region_rates in H. rewrite E in H. fold n in H. destruct (Qeq_bool bytes 0) eqn:B; [discriminate|]. destruct (Qeq_bool n 0) eqn:N; [discriminate|].
  destruct (Qeq_bool time 0) eqn:T; [discriminate|]. destruct (repetitions =? 0)%Z; [discriminate|]. cbn [orb] in H.
  assert (R : r = _) by (symmetry; injection H as H; exact H). subst r. cbn [mits mlups mflops cy_per_cl mem_volume]. apply Qeqb_false in B, N, T.
  clearbody n. split; [field; repeat split; auto; discriminate|]. split; [reflexivity|].
  split; [field; repeat split; auto; discriminate|]. split; [field; repeat split; auto|]. now destruct volume.
Qed.
(** One loop with 100 iterations in a second, 2 flops each, at 2 GHz *)
Example C100_example : exists r, region_rates [mkloop "i" 0 200 2] (64#1) (16#1) (2000000000#1) 2 1 10 (Some (1#1000)) = Ok r
  /\ proper [mkloop "i" 0 200 2] /\ Forall (fun l => (lincr l | lend l - lstart l)%Z) [mkloop "i" 0 200 2]
  /\ mits r == 1#10000 /\ mflops r == 2#10000 /\ cy_per_cl r == 80000000#1.
Proof.
  eexists. split; [vm_compute; reflexivity|]. split; [apply Forall_cons; [cbn; lia|apply Forall_nil]|].
  split; [apply Forall_cons; [exists 100%Z; reflexivity|apply Forall_nil]|]. repeat (split; [vm_compute; reflexivity|]). vm_compute. reflexivity.
Qed.
(** The remainder of a range is dropped: three iterations are executed, two are counted. *)
Theorem C100_refuted : exists loops its r, proper loops /\ executes (bounds loops) its
  /\ region_rates loops (64#1) (16#1) (2000000000#1) 2 1 1 None = Ok r /\ ~ mits r * inject_Z 1000000 * 1 == inject_Z (Z.of_nat (length its)).
Proof.
  exists [mkloop "i" 0 5 2], [[0]; [2]; [4]]%Z. eexists. split; [apply Forall_cons; [cbn; lia|apply Forall_nil]|]. split; [|split; [vm_compute; reflexivity|vm_compute; discriminate]].
  exists [[0; 2; 4]]%Z. split; [|reflexivity]. constructor; [|constructor]. cbn. repeat (apply fv_step; [lia|]; cbn [Z.add Pos.add Pos.succ]). constructor. lia.
Qed.
Print Assumptions C100_partial.
Print Assumptions C100_refuted.

(** ** C101 *)
(** The first run has the values given by the user. The reported values of the variables are the arguments of the last run, which gave the reported
    runtimes, and all runs for the counters have the same arguments. *)
Theorem C101_arguments : forall run fuel vars counter_runs vars' runtimes done counters,
  analyze run fuel vars counter_runs = Ok (vars', runtimes, done, counters) ->
  exists earlier, done = earlier ++ [map v_value vars'] /\ hd [] done = map v_value vars
    /\ runtimes = run (map v_value vars') (length earlier)
    /\ length counters = counter_runs /\ forall args, In args counters -> args = map v_value vars'.
Proof.
  intros run fuel vars n vars' rts done counters H. unfold analyze in H. destruct (session run fuel 0 [([], 0)] vars []) as [[[v t] d]|] eqn:E; [|discriminate].
  cbn [bind] in H. injection H as <- <- <- <-. apply session_last in E; [|left; auto]. destruct E as (N & L & R & F).
  exists (removelast d). pose proof (app_removelast_last [] N) as A. rewrite L in A. split; [exact A|]. split; [exact F|]. split.
  - rewrite R, L. f_equal. rewrite A at 1. rewrite app_length. cbn [length]. lia.
  - split; [apply repeat_length|]. intros args I. apply repeat_spec in I. now rewrite I.
Qed.
(** The runtime is a quarter of the variable: a run with 1 is too short, the next one with 8 is long enough. *)
Definition quarter (args : list Q) (_ : nat) : list (text * Q) := [(codes "main", hd 0 args * (1#4))].
Example C101_example : exists v t, analyze quarter 5 [mkVar true [codes "main"] Lin 1 (8#1)] 2 = Ok (v, t, [[1]; [8#1]], [[8#1]; [8#1]])
  /\ map v_value v = [8#1].
Proof. do 2 eexists. split; [vm_compute; reflexivity|reflexivity]. Qed.
Print Assumptions C101_arguments.
