(** C28-C32: names of symbols and performance counters. *)
From Coq Require Import Permutation.
From Verif Require Import CtrModel CtrSpec CtrProofs.
Local Open Scope N_scope.
Local Open Scope list_scope.

(** ** C28 *)
Theorem C28_length : forall s, length (sanitize_symbolname s) = length s.
Proof. exact sanitize_length. Qed.
Theorem C28_identifier : forall s, identifier (sanitize_symbolname s).
Proof. exact sanitize_identifier. Qed.
Theorem C28_unchanged : forall s, identifier s -> sanitize_symbolname s = s.
Proof. exact sanitize_fixed. Qed.
Theorem C28_idempotent : forall s, sanitize_symbolname (sanitize_symbolname s) = sanitize_symbolname s.
Proof. exact sanitize_idempotent. Qed.
(** Characters are only replaced where they have to be. *)
Theorem C28_characters : forall s i c, nth_error s i = Some c ->
  nth_error (sanitize_symbolname s) i = Some c
  \/ nth_error (sanitize_symbolname s) i = Some 95 /\ (~ identifier_char c \/ i = O /\ digit c).
Proof. exact sanitize_chars. Qed.
Print Assumptions C28_length.
Print Assumptions C28_identifier.
Print Assumptions C28_unchanged.
Print Assumptions C28_idempotent.
Print Assumptions C28_characters.
Example C28_example : sanitize_symbolname (codes "1a-b 2:C_") = codes "_a_b_2_C_" /\ identifier (codes "L1_x9").
Proof.
  split; [reflexivity|]. exact (sanitize_identifier (codes "L1_x9")).
Qed.

(** ** C29 *)
(** Parsing fails for texts without a colon only, and printing gives the text back. *)
Theorem C29_parse_print : forall s e, parse_perfctr_event s = Ok e ->
  let '(ev, r, ps) := e in eventstr (Triple ev r (Some ps)) None = Ok s.
Proof. exact parse_print. Qed.
Theorem C29_parse_defined : forall s, (exists e, parse_perfctr_event s = Ok e) <-> In 58 s.
Proof. exact parse_defined. Qed.
(** Tuples whose parts have no colon, as all that come from parsing, survive printing. *)
Theorem C29_print_parse : forall ev r ps kw s, ~ In 58 ev -> ~ In 58 r -> (forall p, In p ps -> ~ In 58 p) ->
  eventstr (Triple ev r (Some ps)) kw = Ok s -> parse_perfctr_event s = Ok (ev, r, ps).
Proof. exact print_parse. Qed.
Theorem C29_parsed_parts : forall s ev r ps, parse_perfctr_event s = Ok (ev, r, ps) ->
  ~ In 58 ev /\ ~ In 58 r /\ forall p, In p ps -> ~ In 58 p.
Proof. exact parse_parts. Qed.
(** Parts with colons are read differently, and the documented call with keywords only fails. *)
Theorem C29_colon_refuted : exists ev r ps s, eventstr (Triple ev r (Some ps)) None = Ok s /\ parse_perfctr_event s <> Ok (ev, r, ps).
Proof. exists (codes "A:B"), (codes "PMC0"), [], (codes "A:B:PMC0"). split; [reflexivity|discriminate]. Qed.
Theorem C29_keywords_refuted : forall ps, eventstr NoTuple ps = Err TypeError.
Proof. exact (fun ps => eq_refl). Qed.
Print Assumptions C29_parse_print.
Print Assumptions C29_parse_defined.
Print Assumptions C29_print_parse.
Print Assumptions C29_parsed_parts.
Print Assumptions C29_colon_refuted.
Print Assumptions C29_keywords_refuted.
Example C29_example : parse_perfctr_event (codes "PERF_EVENT:REG[0-3]:STAY:FOO=23:BAR=0x23")
    = Ok (codes "PERF_EVENT", codes "REG[0-3]", [codes "STAY"; codes "FOO=23"; codes "BAR=0x23"])
  /\ eventstr (Pair (codes "L1D_RE") (codes "PMC0")) None = Ok (codes "L1D_RE:PMC0") /\ parse_perfctr_event (codes "L1D") = Err AssertionError.
Proof. repeat split; reflexivity. Qed.

(** ** C30 *)
Theorem C30_exact : forall d, good d -> exists ys, register_options (description_text d) = (map Some ys, None) /\ forall w, In w ys <-> describes d w.
Proof. exact register_exact. Qed.
Print Assumptions C30_exact.
(** "CBOX[0-2]C[01]|X[7a-c]" *)
Definition example_description : description :=
  [[Lit 67; Lit 66; Lit 79; Lit 88; Grp [Range 48 50]; Lit 67; Grp [One 48; One 49]]; [Lit 88; Grp [One 55; Range 97 99]]].
Example C30_example : good example_description /\ description_text example_description = codes "CBOX[0-2]C[01]|X[7a-c]"
  /\ register_options (codes "CBOX[0-2]C[01]|X[7a-c]") = (map (fun s => Some (codes s))
       ["CBOX0C0"; "CBOX0C1"; "CBOX1C0"; "CBOX1C1"; "CBOX2C0"; "CBOX2C1"; "X7"; "Xa"; "Xb"; "Xc"]%string, None).
Proof.
  split; [|split; reflexivity]. split; [discriminate|].
  constructor; [split; [discriminate|]|constructor; [split; [discriminate|]|constructor]]; repeat constructor; cbn; try discriminate;
    unfold letter_or_digit, lower, upper, digit; try lia; intros H; repeat (destruct H as [H|H]; [discriminate|]); exact H.
Qed.
(** Other texts: empty alternatives end the enumeration with an exception, and a bar in a group is an alternative, too. *)
Example C30_others : register_options (codes "A||B") = ([Some (codes "A")], Some AttributeError)
  /\ register_options (codes "") = ([None], Some AttributeError)
  /\ register_options (codes "A[0|1]") = ([Some (codes "A[0"); Some (codes "1]")], None)
  /\ register_options (codes "A[9-0]") = ([], None) /\ register_options (codes "A[Z-a]B") = ([], None).
Proof. repeat split; reflexivity. Qed.

(** ** C31 *)
(** What is returned is a schedule: every distinct event once on one of its registers, no register twice in a run. *)
Theorem C31_schedule : forall fuel events runs, build_minimal_runs fuel events = Ok runs -> is_schedule events runs /\ ~ In [] runs.
Proof. exact runs_correct. Qed.
(** It is returned after at most one pass per event, if every event has a register. *)
Theorem C31_terminates : forall events, (forall e, In e events -> usable e) ->
  forall fuel, (length events <= fuel)%nat -> exists runs, build_minimal_runs fuel events = Ok runs.
Proof. exact runs_terminate. Qed.
(** An event whose range of registers is empty keeps it going forever. *)
Theorem C31_empty_range_refuted : exists e, forall fuel, build_minimal_runs fuel [e] = Err OutOfFuel.
Proof. exists backwards. exact backwards_loops. Qed.
(** Two events without register descriptions end it with an exception. *)
Theorem C31_no_register_refuted : exists events, forall fuel, build_minimal_runs (S fuel) events = Err AttributeError.
Proof. exists without_register. exact without_register_fails. Qed.
Print Assumptions C31_schedule.
Print Assumptions C31_terminates.
Print Assumptions C31_empty_range_refuted.
Print Assumptions C31_no_register_refuted.
Definition example_events : list event :=
  [(codes "A", codes "PMC[0-1]", []); (codes "B", codes "PMC[0-1]", [codes "STAY"]); (codes "C", codes "PMC[0-1]", []);
   (codes "A", codes "PMC[0-1]", []); (codes "D", codes "MBOX0", []); (codes "E", codes "MBOX0", [])].
Example C31_example : (forall e, In e example_events -> usable e)
  /\ build_minimal_runs 6 example_events = Ok
    [[(codes "A", Some (codes "PMC0"), []); (codes "B", Some (codes "PMC1"), [codes "STAY"]); (codes "D", Some (codes "MBOX0"), [])];
     [(codes "C", Some (codes "PMC0"), []); (codes "E", Some (codes "MBOX0"), [])]].
Proof.
  split; [|vm_compute; reflexivity]. intros e H. repeat (destruct H as [<-|H]; [split; [discriminate|reflexivity]|]). destruct H.
Qed.

(** ** C32 *)
(** Minimal if the sets of registers of any two events are equal or disjoint; missing: overlapping sets, for which it is false. *)
Theorem C32_partial : forall events fuel out other,
  (forall e1 e2, In e1 events -> In e2 events -> (exists r, In r (registers_of e1) /\ In r (registers_of e2)) ->
    forall r, In r (registers_of e1) <-> In r (registers_of e2)) ->
  build_minimal_runs fuel events = Ok out -> is_schedule events other -> (length out <= length other)%nat.
Proof. exact minimal. Qed.
Theorem C32_refuted : exists events out other, build_minimal_runs 2 events = Ok out /\ is_schedule events other /\ (length other < length out)%nat.
Proof. exists greedy. exact greedy_not_minimal. Qed.
Print Assumptions C32_partial.
Print Assumptions C32_refuted.
(** The hypothesis holds of [example_events]. *)
Example C32_example : forall e1 e2, In e1 example_events -> In e2 example_events -> (exists r, In r (registers_of e1) /\ In r (registers_of e2)) ->
    forall r, In r (registers_of e1) <-> In r (registers_of e2).
Proof.
  assert (K : forall e, In e example_events -> registers_of e = [Some (codes "PMC0"); Some (codes "PMC1")] \/ registers_of e = [Some (codes "MBOX0")]).
  { intros e H. repeat (destruct H as [<-|H]; [vm_compute; tauto|]). destruct H. }
  intros e1 e2 H1 H2. destruct (K e1 H1) as [E1|E1], (K e2 H2) as [E2|E2]; rewrite E1, E2; try reflexivity; intros (r & Ha & Hb); exfalso;
    cbn [In] in Ha, Hb; repeat (destruct Ha as [Ha|Ha]; [subst r; repeat (destruct Hb as [Hb|Hb]; [discriminate|]); exact Hb|]); exact Ha.
Qed.
