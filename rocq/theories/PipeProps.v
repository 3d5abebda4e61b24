(** C83, C84: histories of calls that share intermediate files. *)
From Coq Require Import String Lia.
From Verif Require Import PyBase PyText MarkModel PathModel PathSpec PathProps PipeModel PipeSpec PipeProofs.
Local Open Scope list_scope.

(** ** C83: every call answers what it would answer without any earlier calls and files: [answer] computes everything anew.
    What is missing: requests that differ only in what is not part of the file names (refuted below), and failed marking (C84). *)
Theorem C83_partial : forall w h, (forall c r, In (c, r) h -> usual_request r /\ markable w r) -> consistent w h ->
  snd (perform_all w h empty) = map (fun x => answer w (fst x) (snd x)) h.
Proof. exact history_answers. Qed.
Print Assumptions C83_partial.

(** For all histories and all requests: an analysis that succeeded once is the answer to all later requests with the same file, whatever happens
    in between. *)
Theorem C83_first : forall w r a st st' x h,
  location IncoreAnalysis a = location IncoreAnalysis r -> perform w Incore r st = (st', Ok x) ->
  snd (perform w Incore a (fst (perform_all w h st'))) = Ok x.
Proof.
  intros w r a st st' x h L. cbn [perform]. unfold andthen at 1. destruct (incore_analysis w r st) as [st1 [[y z]|e]] eqn:E; [|discriminate].
  unfold ret at 1. cbn [fst snd]. intros [= <- <-]. apply incore_stored in E. assert (K := keeps_all w r (Pickle y z) h st1 E). unfold andthen, incore_analysis. rewrite L, K. reflexivity.
Qed.
Print Assumptions C83_first.

(** A world: texts are numbers of steps; marking appends the increment. *)
Definition some_marked (block inc : string) (s : text) : text := s ++ codes block ++ codes " pointer_increment=" ++ codes inc.
Definition sample : world :=
  mkWorld (fun _ f => codes "header of " ++ codes f) (fun _ f (o : bool) => codes "code of " ++ codes f ++ if o then codes " (omp)" else [])
    (fun _ f => codes "main of " ++ codes f) (fun _ _ => codes "x86")
    (fun c _ a h t => if text_eqb t (codes "code of broken.c") then None else Some (codes c ++ (if a : bool then codes " -S " else codes " ") ++ t))
    (fun c _ t => Some (codes "object of " ++ t))
    (fun c _ e o m => Some (e ++ o ++ m))
    (fun b i isa s => if String.eqb b "9" then inr (KeyError, false) else
       match search_increment (some_marked b i s) with Some z => inl (some_marked b i s, z) | None => inr (RuntimeError, true) end)
    (fun m p isa t => Ok (codes m ++ codes ":" ++ t)).
Definition ask (kernel model block inc : string) : request :=
  mkRequest "kernels" kernel "machines" "SNB.yml" "icc" ["-O3"; "-xAVX"]%string 1 [] model "SNB" block inc false.
Lemma ask_usual kernel model block inc : usual model -> usual block -> usual inc -> usual_request (ask kernel model block inc).
Proof.
  intros M B I. assert (U : forall s, In s ["SNB.yml"; "icc"; "-O3"; "-xAVX"; "SNB"]%string -> usual s /\ ~ contains "_"%char s).
  { intros s H. repeat destruct H as [H|H]; try easy; subst s; (split; [split; [discriminate|split; [|discriminate]]|]);
      cbn; intros K; repeat destruct K as [K|K]; try discriminate K; easy. }
  unfold usual_request. cbn [machine_file compiler flags PathModel.incore_model model_parameter asm_block PathModel.pointer_increment constants ask].
  split; [apply U; cbn; auto|]. split; [apply U; cbn; auto|]. split; [discriminate|]. split.
  { intros f H. apply U. cbn in *. tauto. }
  split; [exact M|]. split; [apply U; cbn; tauto|]. split; [exact B|]. split; [exact I|]. intros n v [].
Qed.
Ltac is_usual := split; [discriminate|split; [cbn; intros K; repeat destruct K as [K|K]; try discriminate K; easy|discriminate]].
Lemma ask_markable kernel model block inc : String.eqb block "9" = false -> markable sample (ask kernel model block inc).
Proof.
  intros B s _. cbn [instrument sample asm_block PathModel.pointer_increment ask]. rewrite B. destruct (search_increment (some_marked block inc s)) eqn:E; [exact E|reflexivity].
Qed.
(** Two kernels, one of which cannot be compiled, with all kinds of calls; the increment of the third kernel cannot be detected. *)
Definition some_history : list (call * request) :=
  [(Incore, ask "a.c" "OSACA" "auto" "8"); (Build (Some (codes "likwid ")) true, ask "a.c" "OSACA" "auto" "8"); (Assembly false, ask "broken.c" "IACA" "auto" "8");
   (Incore, ask "b.c" "OSACA" "auto" "none"); (Incore, ask "a.c" "IACA" "auto" "8"); (Incore, ask "b.c" "IACA" "auto" "none"); (Object true, ask "a.c" "IACA" "auto" "8")]%string.
Example C83_example_case : (forall c r, In (c, r) some_history -> usual_request r /\ markable sample r) /\ consistent sample some_history.
Proof.
  split.
  - intros c r H. unfold some_history in H. repeat destruct H as [H|H]; try easy; injection H as <- <-;
      (split; [apply ask_usual; is_usual|now apply ask_markable]).
  - split; [reflexivity|]. split.
    + intros c a c' b I J. unfold some_history in I, J. repeat destruct I as [I|I]; try easy; injection I as <- <-;
        repeat destruct J as [J|J]; try easy; injection J as <- <-; intros K _; cbn in K |- *; try discriminate K; auto.
    + intros e e' o o' a b I J. unfold some_history in I, J. repeat destruct I as [I|I]; try easy; injection I as <- <-;
        repeat destruct J as [J|J]; try easy; injection J as <- <-; intros; auto.
Qed.
Example C83_example : snd (perform_all sample some_history empty) =
  [Ok (codes "OSACA:icc -S code of a.cauto pointer_increment=8", Some 8%Z); Ok (codes "likwid icc code of a.c (omp)main of a.c", None); Err SystemExit;
   Err RuntimeError; Ok (codes "IACA:object of icc -S code of a.cauto pointer_increment=8", Some 8%Z); Err RuntimeError; Ok (codes "icc code of a.c (omp)", None)].
Proof. vm_compute. reflexivity. Qed.

(** Refuted: another block or increment gets the old answer, for all worlds and requests; there are cases in which it is wrong. *)
Theorem C83_block_refuted :
  (forall w r b i st st' x, perform w Incore r st = (st', Ok x) -> snd (perform w Incore (with_block b i r) st') = Ok x)
  /\ exists w r b i x, snd (perform w Incore r empty) = Ok x /\ snd (perform w Incore (with_block b i r) (fst (perform w Incore r empty))) = Ok x
     /\ usual_request r /\ usual_request (with_block b i r) /\ markable w r /\ markable w (with_block b i r)
     /\ answer w Incore (with_block b i r) <> Ok x.
Proof.
  split.
  - intros w r b i st st' x E. exact (C83_first w r (with_block b i r) st st' x [] eq_refl E).
  - exists sample, (ask "a.c" "OSACA" "auto" "8")%string, "auto"%string, "64"%string. eexists. split; [vm_compute; reflexivity|].
    split; [vm_compute; reflexivity|]. change (with_block "auto" "64" (ask "a.c" "OSACA" "auto" "8")) with (ask "a.c" "OSACA" "auto" "64").
    split; [apply ask_usual; is_usual|]. split; [apply ask_usual; is_usual|]. split; [now apply ask_markable|]. split; [now apply ask_markable|]. vm_compute. discriminate.
Qed.
Print Assumptions C83_block_refuted.
(** Refuted: an executable is not linked again with other likwid libraries. *)
Theorem C83_environment_refuted : exists w r e e' x, usual_request r /\ markable w r /\
  snd (perform_all w [(Build (Some e) false, r); (Build (Some e') false, r)] empty) = [Ok x; Ok x] /\ answer w (Build (Some e') false) r <> Ok x.
Proof.
  exists sample, (ask "a.c" "OSACA" "auto" "8")%string, (codes "likwid 4"), (codes "likwid 5"). eexists. split; [apply ask_usual; is_usual|]. split; [now apply ask_markable|].
  split; [vm_compute; reflexivity|]. vm_compute. discriminate.
Qed.
Print Assumptions C83_environment_refuted.

(** ** C84: a call that fails has no effect on the answers to later calls.
    What is missing: marking that fails and leaves its file (refuted below). *)
Theorem C84_partial : forall w h1 c r h2 e, (forall c' r', In (c', r') (h1 ++ (c, r) :: h2) -> usual_request r' /\ markable w r') -> consistent w (h1 ++ (c, r) :: h2) ->
  nth_error (snd (perform_all w (h1 ++ (c, r) :: h2) empty)) (List.length h1) = Some (Err e) ->
  snd (perform_all w (h1 ++ (c, r) :: h2) empty) = firstn (List.length h1) (snd (perform_all w (h1 ++ h2) empty)) ++ Err e :: skipn (List.length h1) (snd (perform_all w (h1 ++ h2) empty)).
Proof.
  intros w h1 c r h2 e H C N. assert (J : forall x, In x (h1 ++ h2) -> In x (h1 ++ (c, r) :: h2)) by (intros x; rewrite !in_app_iff; cbn; tauto).
  assert (C' : consistent w (h1 ++ h2)).
  { destruct C as (CI & CB & CE). split; [|split].
    - intros k a k' b I I'. exact (CI _ _ _ _ (J _ I) (J _ I')).
    - intros k a k' b I I'. exact (CB _ _ _ _ (J _ I) (J _ I')).
    - intros k k' o o' a b I I'. exact (CE _ _ _ _ _ _ (J _ I) (J _ I')). }
  rewrite (history_answers w (h1 ++ h2) (fun c' r' I => H c' r' (J _ I)) C'). rewrite (history_answers w _ H C) in N |- *.
  rewrite !map_app in *. cbn [map fst snd] in *. rewrite nth_error_app2 in N by (rewrite map_length; lia). rewrite map_length, Nat.sub_diag in N. cbn in N. injection N as ->.
  rewrite firstn_app, skipn_app, map_length, Nat.sub_diag. cbn [firstn skipn]. rewrite app_nil_r.
  rewrite <- (map_length (fun x => answer w (fst x) (snd x)) h1) at 1 2. rewrite firstn_all, skipn_all. reflexivity.
Qed.
Print Assumptions C84_partial.
Example C84_example : nth_error (snd (perform_all sample some_history empty)) 2 = Some (Err SystemExit) /\ nth_error (snd (perform_all sample some_history empty)) 3 = Some (Err RuntimeError).
Proof. split; vm_compute; reflexivity. Qed.

(** Refuted: after marking has failed for another reason than an undetected increment, the same request ends the program instead, and then
    alternates between both. For all worlds and requests. *)
Theorem C84_marking_refuted : forall w r s e, usual_request r ->
  compiled w true false r = Ok s ->
  instrument w (asm_block r) (PathModel.pointer_increment r) (isa w (machine_dir r) (machine_file r)) s = inr (e, false) ->
  snd (perform_all w [(Incore, r); (Incore, r); (Incore, r)] empty) = [Err e; Err SystemExit; Err e].
Proof. exact marking_fails. Qed.
Print Assumptions C84_marking_refuted.
Example C84_marking_case : usual_request (ask "a.c" "OSACA" "9" "8") /\ compiled sample true false (ask "a.c" "OSACA" "9" "8") = Ok (codes "icc -S code of a.c")
  /\ snd (perform_all sample [(Incore, ask "a.c" "OSACA" "9" "8"); (Incore, ask "a.c" "OSACA" "9" "8"); (Incore, ask "a.c" "OSACA" "9" "8")] empty) = [Err KeyError; Err SystemExit; Err KeyError].
Proof. split; [apply ask_usual; is_usual|]. split; vm_compute; reflexivity. Qed.
