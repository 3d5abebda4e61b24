(** Lemmas for C83 and C84. *)
From Coq Require Import String Lia.
From Verif Require Import PyBase PyText MarkModel PathModel PathSpec PathProofs PathProps PipeModel PipeSpec.
Local Open Scope list_scope.

Lemma same_path_spec a b : reflect (a = b) (same_path a b).
Proof. unfold same_path. destruct (list_eq_dec string_dec a b); now constructor. Qed.
Lemma usual_openmp b r : usual_request r -> usual_request (set_openmp b r).
Proof. exact (fun H => H). Qed.

Section W.
Context (w : world) (env : option text) (P : request -> Prop).
Context (PU : forall r, P r -> usual_request r).
Context (PO : forall b r, P r -> P (set_openmp b r)).
Context (PI : forall a b, P a -> P b -> machine_file a = machine_file b -> isa w (machine_dir a) (machine_file a) = isa w (machine_dir b) (machine_file b)).
Context (PB : forall a b, P a -> P b -> kernel_of a = kernel_of b -> same_compilation a b -> asm_block a = asm_block b /\ pointer_increment a = pointer_increment b).
Context (PM : forall r, P r -> markable w r).

(** What a file of a request holds *)
Definition holds (k : content) (r : request) (d : data) : Prop :=
  match k with
  | KernelH => d = Text (header w (dir r) (kernel_file r))
  | KernelC => d = Text (code w (dir r) (kernel_file r) (openmp r))
  | MainC => d = Text (main w (dir r) (kernel_file r))
  | KernelS => exists t, compiled w true (openmp r) r = Ok t /\ d = Text t
  | KernelO => exists t, compiled w false (openmp r) r = Ok t /\ d = Text t
  | MarkedS => exists t z, marked w r = Ok (t, z) /\ d = Text t
  | MarkedO => exists t z o, marked w r = Ok (t, z) /\ assemble w (compiler r) (flags r) t = Some o /\ d = Text o
  | IncoreAnalysis => exists t z a, marked w r = Ok (t, z) /\ analysed w r t = Ok a /\ d = Pickle a z
  | Executable => exists t, built w env (openmp r) r = Ok t /\ d = Text t
  | LCAnalysis | CSIMAnalysis => False
  end.
Definition good (st : store) : Prop := forall l d, st l = Some d -> exists k r, P r /\ l = location k r /\ holds k r d.

Lemma compiled_same asm omp a b : kernel_of a = kernel_of b -> same_compilation a b -> compiled w asm omp a = compiled w asm omp b.
Proof. intros K (_ & C & F). unfold compiled. now rewrite K, C, F. Qed.
Lemma marked_same a b : P a -> P b -> kernel_of a = kernel_of b -> same_compilation a b -> marked w a = marked w b.
Proof.
  intros A B K C. unfold marked. rewrite (compiled_same true false a b K C). destruct (PB a b A B K C) as [-> ->].
  rewrite (PI a b A B); [reflexivity|]. apply C.
Qed.
Lemma known st k r d : good st -> P r -> st (location k r) = Some d -> holds k r d.
Proof.
  intros G R E. destruct (G _ _ E) as (k' & a & A & L & H).
  destruct (C19_same_file_partial k k' r a (PU _ R) (PU _ A) L) as (<- & D & F & V).
  assert (K : kernel_of a = kernel_of r) by (unfold kernel_of; congruence).
  assert (S : forall x y, same_compilation x y -> same_compilation y x) by (unfold same_compilation; intuition).
  destruct k; cbn [holds same_visible] in *; unfold dir in *.
  - now rewrite D, F.
  - now rewrite D, F, V.
  - now rewrite D, F.
  - destruct V as [V O]. destruct H as (t & H & ->). exists t. split; [|reflexivity]. rewrite O. now rewrite (compiled_same _ _ r a (eq_sym K) V).
  - destruct V as [V O]. destruct H as (t & H & ->). exists t. split; [|reflexivity]. rewrite O. now rewrite (compiled_same _ _ r a (eq_sym K) V).
  - destruct V as (V & _). destruct H as (t & z & H & ->). exists t, z. split; [|reflexivity]. now rewrite (marked_same r a R A (eq_sym K) V).
  - destruct H as (t & z & o & H & O & ->). exists t, z, o. rewrite (marked_same r a R A (eq_sym K) V). destruct V as (_ & C & FL). now rewrite C, FL.
  - destruct V as (V & MO & PA). destruct H as (t & z & x & H & X & ->). exists t, z, x. rewrite (marked_same r a R A (eq_sym K) V).
    split; [exact H|]. split; [|reflexivity]. rewrite <- X. unfold analysed. rewrite MO, PA, (PI r a R A) by apply V. destruct V as (_ & C & FL). now rewrite C, FL.
  - destruct V as [V O]. destruct H as (t & H & ->). exists t. split; [|reflexivity]. rewrite <- H. assert (Q := compiled_same false (openmp a) r a (eq_sym K) V). unfold built. rewrite K, O.
    destruct (kernel_of r). destruct env; [|reflexivity]. rewrite Q. destruct V as (_ & C & FL). now rewrite C, FL.
  - destruct H.
  - destruct H.
Qed.
Lemma good_put st k r d : good st -> P r -> holds k r d -> good (put (location k r) d st).
Proof.
  intros G R H l x. unfold put. destruct (same_path_spec l (location k r)) as [->|N]; [|apply G].
  intros [= <-]. now exists k, r.
Qed.

(** A call gives this answer, whatever good files there are, and leaves good files. *)
Definition gives {A} (m : M A) (v : res A) : Prop := forall st, good st -> exists st', m st = (st', v) /\ good st'.
Lemma gives_ret {A} (a : A) : gives (ret a) (Ok a).
Proof. intros st G. now exists st. Qed.
Lemma gives_lift {A} (v : res A) : gives (lift v) v.
Proof. intros st G. now exists st. Qed.
Lemma gives_then {A B} (m : M A) (f : A -> M B) v g : gives m v -> (forall a, v = Ok a -> gives (f a) (g a)) -> gives (andthen m f) (bind v g).
Proof.
  intros H F st G. destruct (H st G) as (st1 & E & G1). unfold andthen. rewrite E. destruct v as [a|e]; [|now exists st1]. exact (F a eq_refl st1 G1).
Qed.
Lemma gives_cached k r m v : P r -> (forall t, v = Ok t -> holds k r (Text t)) -> (forall d, holds k r d -> exists t, d = Text t /\ v = Ok t) ->
  gives m v -> gives (cached k r m) v.
Proof.
  intros R W K H st G. unfold cached. destruct (st (location k r)) as [d|] eqn:E.
  - destruct (K d (known st k r d G R E)) as (t & -> & ->). now exists st.
  - destruct (H st G) as (st1 & E1 & G1). rewrite E1. destruct v as [t|e]; [|now exists st1].
    eexists. split; [reflexivity|]. apply good_put; auto.
Qed.
Lemma gives_header r : P r -> gives (get_header w r) (Ok (header w (dir r) (kernel_file r))).
Proof. intros R. apply gives_cached; [exact R| | |apply gives_ret]; cbn; [intros t [= <-]; reflexivity|intros d ->; eauto]. Qed.
Lemma gives_code omp r : P r -> gives (get_code w omp r) (Ok (code w (dir r) (kernel_file r) omp)).
Proof. intros R. apply gives_cached; [now apply PO| | |apply gives_ret]; cbn; [intros t [= <-]; reflexivity|intros d ->; eauto]. Qed.
Lemma gives_main r : P r -> gives (get_main w r) (Ok (main w (dir r) (kernel_file r))).
Proof. intros R. apply gives_cached; [exact R| | |apply gives_ret]; cbn; [intros t [= <-]; reflexivity|intros d ->; eauto]. Qed.
Lemma gives_compile asm omp r : P r -> gives (compile_kernel w asm omp r) (compiled w asm omp r).
Proof.
  intros R. unfold compile_kernel. assert (RO := PO omp r R).
  assert (H : gives (andthen (get_header w (set_openmp omp r)) (fun h => andthen (get_code w omp (set_openmp omp r)) (fun c =>
     lift (of_option (compile w (compiler (set_openmp omp r)) (flags (set_openmp omp r)) asm h c))))) (compiled w asm omp r)).
  { exact (gives_then _ _ _ (fun h => bind (Ok (code w (dir r) (kernel_file r) omp)) (fun c => of_option (compile w (compiler r) (flags r) asm h c)))
      (gives_header _ RO) (fun h _ => gives_then _ _ _ (fun c => of_option (compile w (compiler r) (flags r) asm h c)) (gives_code omp _ RO) (fun c _ => gives_lift _))). }
  destruct asm; apply gives_cached; try exact RO; try exact H; cbn [holds];
    try (intros t E; exists t; split; [exact E|reflexivity]); intros d (t & E & ->); exists t; (split; [reflexivity|exact E]).
Qed.
Lemma gives_marked r : P r -> gives (get_marked w r) (marked w r).
Proof.
  intros R st G. unfold get_marked. destruct (st (location MarkedS r)) as [d|] eqn:E.
  - destruct (known st MarkedS r d G R E) as (t & z & M & ->). exists st. split; [|exact G]. assert (S := PM r R). unfold marked in *.
    destruct (compiled w true false r) as [s|] eqn:C; [|discriminate]. specialize (S s C). cbn [bind] in *.
    destruct (instrument w _ _ _ s) as [[t' z']|[e b]]; [|discriminate]. injection M as -> ->. now rewrite S.
  - destruct (gives_compile true false r R st G) as (st1 & E1 & G1). rewrite E1. assert (S := PM r R). unfold marked. destruct (compiled w true false r) as [s|e] eqn:C; [|now exists st1].
    specialize (S s C). cbn [bind]. destruct (instrument w _ _ _ s) as [[t z]|[e b]] eqn:N.
    + eexists. split; [reflexivity|]. apply good_put; [exact G1|exact R|]. exists t, z. split; [|reflexivity]. unfold marked. rewrite C. cbn [bind]. now rewrite N.
    + rewrite S. now exists st1.
Qed.
Lemma gives_model r t z : P r -> marked w r = Ok (t, z) -> gives (run_model w r t) (analysed w r t).
Proof.
  intros R E. unfold run_model, analysed. destruct (String.eqb (incore_model r) "OSACA" || String.eqb (incore_model r) "LLVM-MCA"); [apply gives_lift|].
  destruct (String.eqb (incore_model r) "IACA"); [|intros st G; now exists st].
  apply gives_then; [|intros o _; apply gives_lift]. apply gives_cached; [exact R| | |apply gives_lift].
  - intros o O. unfold of_option in O. destruct (assemble w (compiler r) (flags r) t) as [x|] eqn:A; [|discriminate]. injection O as ->.
    exists t, z, o. auto.
  - intros d (t' & z' & o & E' & A & ->). rewrite E in E'. injection E' as <- <-. exists o. split; [reflexivity|]. now rewrite A.
Qed.
Lemma gives_incore r : P r -> gives (incore_analysis w r) (do x <- marked w r; do a <- analysed w r (fst x); Ok (a, snd x)).
Proof.
  intros R st G. unfold incore_analysis. destruct (st (location IncoreAnalysis r)) as [d|] eqn:E.
  - destruct (known st IncoreAnalysis r d G R E) as (t & z & a & M & A & ->). exists st. split; [|exact G]. rewrite M. cbn [bind fst snd]. now rewrite A.
  - revert st G E. intros st G _. revert st G.
    change (gives (andthen (get_marked w r) (fun x => andthen (run_model w r (fst x)) (fun a st => (put (location IncoreAnalysis r) (Pickle a (snd x)) st, Ok (a, snd x)))))
      (do x <- marked w r; do a <- analysed w r (fst x); Ok (a, snd x))).
    apply gives_then; [now apply gives_marked|]. intros [t z] M. cbn [fst snd]. apply gives_then; [exact (gives_model r t z R M)|].
    intros a A st G. eexists. split; [reflexivity|]. apply good_put; [exact G|exact R|]. exists t, z, a. auto.
Qed.
Lemma gives_build omp r : P r -> gives (build_executable w env omp r) (built w env omp r).
Proof.
  intros R. unfold build_executable. assert (RO := PO omp r R). apply gives_cached; [exact RO| | |].
  - intros t E. exists t. split; [exact E|reflexivity].
  - intros d (t & E & ->). exists t. split; [reflexivity|exact E].
  - destruct env as [e|]; [|intros st G; now exists st].
    exact (gives_then _ _ _ (fun m => do o <- compiled w false omp r; of_option (link w (compiler r) (flags r) e o m)) (gives_main _ RO)
      (fun m _ => gives_then _ _ _ (fun o => of_option (link w (compiler r) (flags r) e o m)) (gives_compile false omp _ RO) (fun o _ => gives_lift _))).
Qed.
Lemma gives_perform c r : P r -> (forall e o, c = Build e o -> e = env) -> gives (perform w c r) (answer w c r).
Proof.
  intros R E. destruct c as [omp|omp| |e omp]; cbn [perform answer].
  - apply gives_then; [now apply gives_compile|]. intros t _. apply gives_ret.
  - apply gives_then; [now apply gives_compile|]. intros t _. apply gives_ret.
  - intros st G. destruct (gives_incore r R st G) as (st1 & E1 & G1). exists st1. split; [|exact G1]. unfold andthen. rewrite E1.
    destruct (marked w r) as [[t z]|]; cbn [bind fst snd]; [|reflexivity]. now destruct (analysed w r t).
  - rewrite (E e omp eq_refl). apply gives_then; [now apply gives_build|]. intros t _. apply gives_ret.
Qed.
Lemma gives_all h : (forall c r, In (c, r) h -> P r /\ forall e o, c = Build e o -> e = env) ->
  forall st, good st -> snd (perform_all w h st) = map (fun x => answer w (fst x) (snd x)) h.
Proof.
  induction h as [|[c r] h IH]; intros H st G; [reflexivity|]. destruct (H c r (or_introl eq_refl)) as [R E].
  destruct (gives_perform c r R E st G) as (st1 & E1 & G1). cbn [perform_all]. rewrite E1.
  specialize (IH (fun c' r' I => H c' r' (or_intror I)) st1 G1). destruct (perform_all w h st1) as [st2 xs]. cbn [snd map fst] in *. now rewrite IH.
Qed.
End W.

Lemma history_answers w h : (forall c r, In (c, r) h -> usual_request r /\ markable w r) -> consistent w h ->
  snd (perform_all w h empty) = map (fun x => answer w (fst x) (snd x)) h.
Proof.
  intros H (CI & CB & CE).
  set (env := match find (fun x => match fst x with Build _ _ => true | _ => false end) h with Some (Build e _, _) => e | _ => None end).
  set (P := fun r => exists c r0, In (c, r0) h /\ (r = r0 \/ exists b, r = set_openmp b r0)).
  apply (gives_all w env P).
  - intros r (c & r0 & I & [->|(b & ->)]); apply (H c r0 I).
  - intros b r (c & r0 & I & [->|(b' & ->)]); exists c, r0; (split; [exact I|]); right; now exists b.
  - intros a b (c & a0 & I & [->|(x & ->)]) (c' & b0 & J & [->|(y & ->)]); exact (CI c a0 c' b0 I J).
  - intros a b (c & a0 & I & [->|(x & ->)]) (c' & b0 & J & [->|(y & ->)]); exact (CB c a0 c' b0 I J).
  - intros r (c & r0 & I & [->|(b & ->)]); apply (H c r0 I).
  - intros c r I. split; [exists c, r; auto|]. intros e o ->. unfold env.
    destruct (find (fun x => match fst x with Build _ _ => true | _ => false end) h) as [[c' r']|] eqn:F.
    + apply find_some in F as [J B]. destruct c' as [| | |e' o']; try discriminate. exact (CE e e' o o' r r' I J).
    + apply (find_none _ _ F) in I. discriminate.
  - intros l d D. discriminate.
Qed.

(** ** The first analysis stays *)
Lemma location_last k r : last (location k r) ""%string = file_name k r.
Proof. unfold location. rewrite !app_assoc. apply last_last. Qed.
Lemma other_kind k r : k <> IncoreAnalysis -> k <> LCAnalysis -> k <> CSIMAnalysis -> forall a, location k r <> location IncoreAnalysis a.
Proof.
  intros N1 N2 N3 a E. assert (L := location_last k r). rewrite E, location_last in L. destruct k; cbn in L; try congruence; unfold omp in L; destruct (openmp r); discriminate.
Qed.
Section Keep.
Context (w : world) (a : request) (d : data).
Definition keeps {A} (m : M A) : Prop := forall st, st (location IncoreAnalysis a) = Some d -> fst (m st) (location IncoreAnalysis a) = Some d.
Lemma keeps_then {A B} (m : M A) (f : A -> M B) : keeps m -> (forall x, keeps (f x)) -> keeps (andthen m f).
Proof. intros H F st E. specialize (H st E). unfold andthen. destruct (m st) as [st' [x|e]]; [now apply F|exact H]. Qed.
Lemma keeps_lift {A} (v : res A) : keeps (lift v).
Proof. intros st E. exact E. Qed.
Lemma keeps_put k r x st : k <> IncoreAnalysis -> k <> LCAnalysis -> k <> CSIMAnalysis ->
  st (location IncoreAnalysis a) = Some d -> put (location k r) x st (location IncoreAnalysis a) = Some d.
Proof. intros N1 N2 N3 E. unfold put. destruct (same_path_spec (location IncoreAnalysis a) (location k r)) as [L|L]; [|exact E]. symmetry in L. now apply other_kind in L. Qed.
Lemma keeps_cached k r m : k <> IncoreAnalysis -> k <> LCAnalysis -> k <> CSIMAnalysis -> keeps m -> keeps (cached k r m).
Proof.
  intros N1 N2 N3 H st E. unfold cached. destruct (st (location k r)) as [[t|x z]|]; [exact E|exact E|]. specialize (H st E). destruct (m st) as [st' [t|e]]; [|exact H].
  now apply keeps_put.
Qed.
Lemma keeps_header r : keeps (get_header w r).
Proof. apply keeps_cached; try discriminate. apply (keeps_lift (Ok _)). Qed.
Lemma keeps_code omp r : keeps (get_code w omp r).
Proof. apply keeps_cached; try discriminate. apply (keeps_lift (Ok _)). Qed.
Lemma keeps_main r : keeps (get_main w r).
Proof. apply keeps_cached; try discriminate. apply (keeps_lift (Ok _)). Qed.
Lemma keeps_compile asm omp r : keeps (compile_kernel w asm omp r).
Proof.
  apply keeps_cached; try (destruct asm; discriminate). apply keeps_then; [apply keeps_header|]. intros h. apply keeps_then; [apply keeps_code|]. intros c. apply keeps_lift.
Qed.
Lemma keeps_marked r : keeps (get_marked w r).
Proof.
  intros st E. unfold get_marked. destruct (st (location MarkedS r)) as [[t|x z]|]; [|exact E|].
  - destruct (search_increment t); [exact E|]. cbn [fst]. unfold unlink. destruct (same_path_spec (location IncoreAnalysis a) (location MarkedS r)) as [L|L]; [|exact E].
    symmetry in L. now apply other_kind in L.
  - assert (H := keeps_compile true false r st E). destruct (compile_kernel w true false r st) as [st' [s|e]]; [|exact H]. cbn [fst] in H.
    destruct (instrument w _ _ _ s) as [[t z]|[e [|]]]; cbn [fst]; [now apply keeps_put|exact H|now apply keeps_put].
Qed.
Lemma keeps_model r t : keeps (run_model w r t).
Proof.
  unfold run_model. destruct (String.eqb (incore_model r) "OSACA" || String.eqb (incore_model r) "LLVM-MCA"); [apply keeps_lift|].
  destruct (String.eqb (incore_model r) "IACA"); [|apply (keeps_lift (Err ValueError))].
  apply keeps_then; [|intros o; apply keeps_lift]. apply keeps_cached; try discriminate. apply keeps_lift.
Qed.
Lemma keeps_incore r : keeps (incore_analysis w r).
Proof.
  intros st E. unfold incore_analysis. destruct (st (location IncoreAnalysis r)) as [[t|x z]|] eqn:F; [exact E|exact E|].
  apply keeps_then; [apply keeps_marked| |exact E]. intros x. apply keeps_then; [apply keeps_model|]. intros y st' E'. cbn [fst]. unfold put.
  destruct (same_path_spec (location IncoreAnalysis a) (location IncoreAnalysis r)) as [L|L]; [|exact E']. rewrite L in E. congruence.
Qed.
Lemma keeps_build env omp r : keeps (build_executable w env omp r).
Proof.
  apply keeps_cached; try discriminate. destruct env; [|apply (keeps_lift (Err SystemExit))]. apply keeps_then; [apply keeps_main|]. intros m.
  apply keeps_then; [apply keeps_compile|]. intros o. apply keeps_lift.
Qed.
Lemma keeps_all h : forall st, st (location IncoreAnalysis a) = Some d -> fst (perform_all w h st) (location IncoreAnalysis a) = Some d.
Proof.
  induction h as [|[c r] h IH]; intros st E; [exact E|]. cbn [perform_all].
  assert (K : keeps (perform w c r)).
  { destruct c; cbn [perform]; (apply keeps_then; [|intros x; apply (keeps_lift (Ok _))]); [apply keeps_compile|apply keeps_compile|apply keeps_incore|apply keeps_build]. }
  specialize (K st E). destruct (perform w c r st) as [st1 x]. specialize (IH st1 K). destruct (perform_all w h st1) as [st2 xs]. exact IH.
Qed.
End Keep.
Lemma incore_stored w r st st' x z : incore_analysis w r st = (st', Ok (x, z)) -> st' (location IncoreAnalysis r) = Some (Pickle x z).
Proof.
  unfold incore_analysis. destruct (st (location IncoreAnalysis r)) as [[t|y z']|] eqn:F; [discriminate|intros [= <- <- <-]; exact F|].
  unfold andthen. destruct (get_marked w r st) as [st1 [[t z1]|e]]; [|discriminate]. cbn [fst snd]. destruct (run_model w r t st1) as [st2 [y|e]]; [|discriminate].
  intros [= <- <- <-]. unfold put. now destruct (same_path_spec (location IncoreAnalysis r) (location IncoreAnalysis r)).
Qed.

(** ** Marking that fails and leaves an empty file *)
Lemma put_same l d st : put l d st l = Some d.
Proof. unfold put. destruct (same_path_spec l l); [reflexivity|congruence]. Qed.
Lemma put_other l l' d st : l <> l' -> put l' d st l = st l.
Proof. intros N. unfold put. destruct (same_path_spec l l'); [congruence|reflexivity]. Qed.
Lemma unlink_same l st : unlink l st l = None.
Proof. unfold unlink. destruct (same_path_spec l l); [reflexivity|congruence]. Qed.
Lemma unlink_other l l' st : l <> l' -> unlink l' st l = st l.
Proof. intros N. unfold unlink. destruct (same_path_spec l l'); [congruence|reflexivity]. Qed.
Lemma kinds_differ k k' a b : usual_request a -> usual_request b -> k <> k' -> location k a <> location k' b.
Proof. intros A B N E. apply (location_injective k k' a b A B) in E. tauto. Qed.
Lemma marking_fails w r s e : usual_request r -> compiled w true false r = Ok s ->
  instrument w (asm_block r) (pointer_increment r) (isa w (machine_dir r) (machine_file r)) s = inr (e, false) ->
  snd (perform_all w [(Incore, r); (Incore, r); (Incore, r)] empty) = [Err e; Err SystemExit; Err e].
Proof.
  intros U C I. assert (V := usual_openmp false r U).
  assert (K : exists st, compile_kernel w true false r empty = (st, Ok s) /\ st (location KernelS (set_openmp false r)) = Some (Text s)
                /\ st (location MarkedS r) = None /\ st (location IncoreAnalysis r) = None).
  { unfold compile_kernel, cached at 1. unfold empty at 1. unfold andthen, get_header, get_code, cached, ret, lift. unfold empty at 1.
    change (set_openmp false (set_openmp false r)) with (set_openmp false r).
    rewrite put_other by (now apply kinds_differ). unfold empty at 1. unfold compiled, kernel_of in C.
    cbn [compiler flags dir kernel_dir kernel_file set_openmp] in *. unfold dir in *. cbn [kernel_dir set_openmp] in *. rewrite C. eexists. split; [reflexivity|].
    split; [apply put_same|]. split; rewrite !put_other by (now apply kinds_differ); reflexivity. }
  destruct K as (st & E & S1 & M1 & I1). set (st2 := put (location MarkedS r) (Text []) st).
  assert (S2 : st2 (location KernelS (set_openmp false r)) = Some (Text s)) by (unfold st2; rewrite put_other by (now apply kinds_differ); exact S1).
  assert (I2 : st2 (location IncoreAnalysis r) = None) by (unfold st2; rewrite put_other by (now apply kinds_differ); exact I1).
  assert (M2 : st2 (location MarkedS r) = Some (Text [])) by apply put_same.
  assert (R1 : perform w Incore r empty = (st2, Err e)).
  { cbn [perform]. unfold andthen, incore_analysis, get_marked. unfold empty at 1 2. unfold andthen. rewrite E, I. reflexivity. }
  set (st3 := unlink (location MarkedS r) st2).
  assert (R2 : perform w Incore r st2 = (st3, Err SystemExit)).
  { cbn [perform]. unfold andthen, incore_analysis, get_marked. rewrite I2. unfold andthen. rewrite M2. reflexivity. }
  assert (S3 : st3 (location KernelS (set_openmp false r)) = Some (Text s)) by (unfold st3; rewrite unlink_other by (now apply kinds_differ); exact S2).
  assert (R3 : snd (perform w Incore r st3) = Err e).
  { cbn [perform]. unfold andthen, incore_analysis, get_marked. unfold st3 at 1. rewrite unlink_other by (now apply kinds_differ). rewrite I2. unfold andthen.
    unfold st3 at 1. rewrite unlink_same. unfold compile_kernel, cached. rewrite S3, I. reflexivity. }
  cbn [perform_all]. rewrite R1, R2. destruct (perform w Incore r st3) as [st4 x]. cbn [snd] in R3 |- *. now rewrite R3.
Qed.
