(** C35, C36, C63, C64: the cache of pointer increments and marked assembly. *)
From Coq Require Import Lia.
From Verif Require Import IncModel MarkModel MarkSpec MarkProofs.
Local Open Scope N_scope.
Local Open Scope list_scope.

(** ** C35 *)
(** Starting without entry for a block (in particular without file), after any history of stores with any comments the increment that was
    stored first for the block is found, and none if there is none. *)
Theorem C35_first : forall h hist z f, ~ mentions h (content f) -> ended (content f) -> wellformed hist -> first_stored h hist z ->
  find_increment h (stores hist f) = Some z.
Proof. intros h hist z f. exact (stores_first h hist z f). Qed.
Theorem C35_never : forall h hist f, ~ mentions h (content f) -> ended (content f) -> wellformed hist -> never_stored h hist ->
  find_increment h (stores hist f) = None.
Proof. intros h hist f. exact (stores_never h hist f). Qed.
(** An entry that is there stays as it is. *)
Theorem C35_kept : forall h hist f, mentions h (content f) -> ended (content f) -> wellformed hist ->
  find_increment h (stores hist f) = find_increment h f.
Proof. intros h hist f. exact (stores_mentioned h hist f). Qed.
Theorem C35_no_file : forall h, ~ mentions h (content None) /\ ended (content None) /\ find_increment h None = None.
Proof. intros h. split; [apply absent_mentions|]. split; [now left|easy]. Qed.
(** Increments entered by the user, if not 0, are found the next time. *)
Theorem C35_user_partial : forall hash default comment cache answers z cache',
  userselect_increment hash default comment cache answers = Ok (z, cache') -> z <> 0%Z ->
  ~ mentions hash (content cache) -> ended (content cache) -> word hash -> (forall t, comment = Some t -> ~ In 10 t) ->
  find_increment hash cache' = Some z.
Proof. exact userselect_stored. Qed.
(** What is in the cache is used where detection fails. *)
Theorem C35_used : forall {L} (line_text : L -> text) detect md5 cache block z,
  detect block = Ok None -> find_increment (hashblock line_text md5 block) cache = Some z ->
  forall comment answers, choose_increment line_text detect md5 IncAuto comment cache block answers = ((Ok z, cache), false)
    /\ choose_increment line_text detect md5 IncFallback comment cache block answers = ((Ok z, cache), false).
Proof. exact @increment_found. Qed.
Print Assumptions C35_used.
Print Assumptions C35_first.
Print Assumptions C35_never.
Print Assumptions C35_kept.
Print Assumptions C35_no_file.
Print Assumptions C35_user_partial.
(** Refuted: a corrected value is stored, but the first one is found. *)
Theorem C35_latest_refuted : forall h z1 z2 c1 c2, word h -> (forall t, c1 = Some t -> ~ In 10 t) -> (forall t, c2 = Some t -> ~ In 10 t) -> z1 <> z2 ->
  let hist := [(h, z1, c1); (h, z2, c2)] in
  last_stored h hist z2 /\ find_increment h (stores hist None) = Some z1.
Proof.
  intros h z1 z2 c1 c2 W C1 C2 N hist. split; [exists [(h, z1, c1)], c2, []; easy|]. apply C35_first; [apply absent_mentions|now left| |].
  - intros h' z' c' [E|[E|[]]]; assert (h' = h) as -> by congruence; (split; [easy|]); intros t -> I; [apply (C1 t)|apply (C2 t)]; try easy; exact (f_equal snd E).
  - exists [], c1, [(h, z2, c2)]. easy.
Qed.
(** Refuted: a file whose last line was entered by hand without line feed swallows the next entry. *)
Theorem C35_unended_refuted :
  let f := Some (codes "aaaa 8") in
  find_increment (codes "bbbb") (store_increment (codes "bbbb") 16 None f) = None
  /\ find_increment (codes "aaaa") (store_increment (codes "bbbb") 16 None f) = None.
Proof. split; vm_compute; reflexivity. Qed.
(** Refuted: 0 entered by the user is not stored, so the question is asked again. *)
Theorem C35_zero_refuted : forall hash default comment cache rest,
  userselect_increment hash default comment cache (codes "0" :: rest) = Ok (0%Z, cache).
Proof. reflexivity. Qed.
Print Assumptions C35_latest_refuted.
Print Assumptions C35_unended_refuted.
Print Assumptions C35_zero_refuted.
Definition some_history : history := [(codes "0f", 32%Z, Some (codes "<file a.s>")); (codes "a1", (-8)%Z, None); (codes "0f", 64%Z, None)].
Example C35_example : wellformed some_history /\ first_stored (codes "0f") some_history 32 /\ first_stored (codes "a1") some_history (-8)
  /\ stores some_history None = Some (codes "0f 32 #<file a.s>" ++ [10] ++ codes "a1 -8" ++ [10] ++ codes "0f 64" ++ [10])
  /\ find_increment (codes "0f") (stores some_history None) = Some 32%Z /\ find_increment (codes "a1") (stores some_history None) = Some (-8)%Z
  /\ find_increment (codes "ff") (stores some_history None) = None
  /\ userselect_increment (codes "ff") None None (Some []) [codes "x"; codes " 24 "] = Ok (24%Z, Some (codes "ff 24" ++ [10])).
Proof.
  assert (W : forall h, In h [codes "0f"; codes "a1"] -> word h).
  { intros h [<-|[<-|[]]]; (split; [easy|]); intros c [<-|[<-|[]]]; unfold white; cbn; lia. }
  repeat split; try (vm_compute; reflexivity).
  - apply (W h). destruct H as [E|[E|[E|[]]]]; assert (X := f_equal (fun e => fst (fst e)) E); cbn [fst] in X; rewrite <- X; first [now left|now right; left].
  - apply (W h). destruct H as [E|[E|[E|[]]]]; assert (X := f_equal (fun e => fst (fst e)) E); cbn [fst] in X; rewrite <- X; first [now left|now right; left].
  - intros t ->. destruct H as [E|[E|[E|[]]]]; assert (X := f_equal snd E); cbn [snd] in X; try discriminate.
    assert (t = codes "<file a.s>") as -> by congruence. cbn. lia.
  - exists [], (Some (codes "<file a.s>")), (tl some_history). split; [easy|]. easy.
  - exists [(codes "0f", 32%Z, Some (codes "<file a.s>"))], None, [(codes "0f", 64%Z, None)]. split; [easy|]. intros z' c' [E|[]]. discriminate.
Qed.

(** ** C36 *)
(** If marking succeeds, the output consists of the lines of the assembly with the start marker directly before and the stop marker
    directly after the returned block, which is one of the loops; whatever the parser, the loops, the metric, the detection, the hash and the
    markers are, as long as lines are distinct and loops are contiguous. *)
Theorem C36_only_markers : forall {L} line_eqb line_text parse find_loops metric detect md5 (marker : text -> list L * list L),
  (forall x y, reflect (x = y) (line_eqb x y)) ->
  forall same debug sel c comment cache output code answers lines block inc,
  parse code = Ok lines -> NoDup lines -> (forall label b, In (label, b) (find_loops lines) -> part_of b lines) ->
  let o := asm_instrumentation line_eqb line_text parse find_loops metric detect md5 marker same debug sel c comment cache output code answers in
  result o = Ok (block, inc) ->
  exists label pre post start stop, In (label, block) (find_loops lines) /\ lines = pre ++ block ++ post /\
    marker (comment_text inc (hashblock line_text md5 block)) = (start, stop) /\
    output_after o = match (if same then Some [] else output) with
                     | Some before => Some (before ++ flat_map (fun l => line_text l ++ [10]) (pre ++ start ++ block ++ stop ++ post))
                     | None => None
                     end.
Proof. exact @mark_spec. Qed.
(** With automatic selection the block is the one of [select_best_block] (C33). *)
Theorem C36_auto : forall {L} line_eqb line_text parse find_loops metric detect md5 (marker : text -> list L * list L)
  c comment cache output code answers lines block inc same,
  parse code = Ok lines ->
  result (asm_instrumentation line_eqb line_text parse find_loops metric detect md5 marker same false SelAuto c comment cache output code answers) = Ok (block, inc) ->
  exists label, select_best_block metric (find_loops lines) = Ok label /\ assoc label (find_loops lines) = Some block.
Proof. exact @mark_auto. Qed.
(** With manual selection (or debugging) it is the block of the first answer that is a label, where an empty answer means the best block. *)
Theorem C36_manual : forall {L} line_eqb line_text parse find_loops metric detect md5 (marker : text -> list L * list L)
  debug sel c comment cache output code answers lines block inc same,
  debug = true \/ sel = SelManual -> parse code = Ok lines ->
  result (asm_instrumentation line_eqb line_text parse find_loops metric detect md5 marker same debug sel c comment cache output code answers) = Ok (block, inc) ->
  exists best before a rest, select_best_block metric (find_loops lines) = Ok best /\ answers = before ++ a :: rest /\
    assoc (match a with [] => best | _ => a end) (find_loops lines) = Some block /\
    (forall b, In b before -> assoc (match b with [] => best | _ => b end) (find_loops lines) = None).
Proof. exact @mark_manual. Qed.
(** Refuted: selecting a block by number, as documented, never works. *)
Theorem C36_number_refuted : forall {L} line_eqb line_text parse find_loops metric detect md5 (marker : text -> list L * list L)
  z c comment cache output code answers lines same,
  parse code = Ok lines ->
  result (asm_instrumentation line_eqb line_text parse find_loops metric detect md5 marker same false (SelNumber z) c comment cache output code answers) = Err KeyError.
Proof. exact @mark_number. Qed.
Print Assumptions C36_only_markers.
Print Assumptions C36_auto.
Print Assumptions C36_manual.
Print Assumptions C36_number_refuted.

(** Lines with numbers, a loop of two lines, and markers *)
Definition numbered := (N * text)%type.
Definition numbered_eqb (a b : numbered) : bool := (fst a =? fst b) && text_eqb (snd a) (snd b).
Lemma numbered_eqb_spec x y : reflect (x = y) (numbered_eqb x y).
Proof.
  unfold numbered_eqb. destruct x as [i a], y as [j b]. cbn [fst snd]. destruct (N.eqb_spec i j) as [->|N]; [|right; congruence].
  destruct (text_eqb_spec a b) as [->|N]; constructor; congruence.
Qed.
Fixpoint number (i : N) (l : list text) : list numbered := match l with [] => [] | s :: l' => (i, s) :: number (i + 1) l' end.
Definition some_parse (s : text) : res (list numbered) := Ok (number 1 (split 10 s)).
Definition some_loops (l : list numbered) : list (text * list numbered) := [(codes "L2", firstn 2 (skipn 1 l))].
Definition some_marker (c : text) : list numbered * list numbered :=
  ([(0, codes "movl $111, %ebx"); (0, codes "# " ++ c)], [(0, codes "movl $222, %ebx")]).
Definition some_code : text := join 10 [codes "nop"; codes "inc %rax"; codes "jne L2"; codes "inc %rax"; codes "ret"].
Definition some_md5 (_ : text) : text := codes "d41d".
Example C36_manual_example : result (asm_instrumentation numbered_eqb snd some_parse some_loops (fun _ => []) (fun _ => Ok None) some_md5 some_marker
    false false SelManual IncManual None None (Some []) some_code [codes "L1"; []; codes "?"; codes "16"]) = Ok ([(2, codes "inc %rax"); (3, codes "jne L2")], 16%Z).
Proof. vm_compute. reflexivity. Qed.
Definition run (same : bool) (sel : selection) (c : choice) (detected : option Z) (cache output : file) :=
  asm_instrumentation numbered_eqb snd some_parse some_loops (fun _ => []) (fun _ => Ok detected) some_md5 some_marker
    same false sel c None cache output some_code [codes "8"].
Example C36_example : result (run false SelAuto IncAuto (Some 8%Z) None (Some [])) = Ok ([(2, codes "inc %rax"); (3, codes "jne L2")], 8%Z) /\
  output_after (run false SelAuto IncAuto (Some 8%Z) None (Some [])) = Some (join 10
    [codes "nop"; codes "movl $111, %ebx"; codes "# pointer_increment=8 d41d"; codes "inc %rax"; codes "jne L2"; codes "movl $222, %ebx"; codes "inc %rax"; codes "ret"; []]).
Proof. split; vm_compute; reflexivity. Qed.
Example C36_hypotheses : exists lines, some_parse some_code = Ok lines /\ NoDup lines /\ (forall label b, In (label, b) (some_loops lines) -> part_of b lines).
Proof.
  eexists. split; [vm_compute; reflexivity|]. split.
  - repeat (constructor; [cbn; intuition congruence|]). constructor.
  - intros label b [E|[]]. assert (b = [(2, codes "inc %rax"); (3, codes "jne L2")]) as -> by (vm_compute in E; vm_compute; congruence). split; [easy|].
    exists [(1, codes "nop")], [(4, codes "inc %rax"); (5, codes "ret")]. reflexivity.
Qed.

(** ** C63 *)
(** If marking fails, the cache is as before, and the output file as well if the assembly could not be parsed. *)
Theorem C63_partial : forall {L} line_eqb line_text parse find_loops metric detect md5 (marker : text -> list L * list L)
  same debug sel c comment cache output code answers e,
  let o := asm_instrumentation line_eqb line_text parse find_loops metric detect md5 marker same debug sel c comment cache output code answers in
  result o = Err e ->
  cache_after o = cache /\
  match parse code with
  | Err _ => output_after o = output
  | Ok _ => output_after o = None \/ output_after o = (if same then Some [] else output)
  end.
Proof. exact @mark_failure. Qed.
(** Refuted: when marking in place, the assembly is removed if the increment cannot be detected. *)
Theorem C63_removed_refuted : forall {L} line_eqb line_text parse find_loops metric detect md5 (marker : text -> list L * list L)
  debug sel comment cache code answers lines block rest s e,
  parse code = Ok lines -> choose_block metric debug sel (find_loops lines) answers = Ok (block, rest) -> bounds line_eqb lines block = Ok (s, e) ->
  detect block = Ok None -> find_increment (hashblock line_text md5 block) cache = None ->
  let o := asm_instrumentation line_eqb line_text parse find_loops metric detect md5 marker true debug sel IncAuto comment cache (Some code) code answers in
  result o = Err RuntimeError /\ output_after o = None.
Proof. exact @mark_undetected. Qed.
(** Refuted: it is emptied if marking fails for other reasons. *)
Theorem C63_emptied_refuted : forall z, let o := run true (SelNumber z) IncAuto None None (Some some_code) in
  result o = Err KeyError /\ output_after o = Some [].
Proof. intros z. split; reflexivity. Qed.
Print Assumptions C63_partial.
Print Assumptions C63_removed_refuted.
Print Assumptions C63_emptied_refuted.
Example C63_example : result (run true SelAuto IncAuto None None (Some some_code)) = Err RuntimeError
  /\ output_after (run true SelAuto IncAuto None None (Some some_code)) = None
  /\ result (run true SelAuto IncFallback None None (Some some_code)) = Ok ([(2, codes "inc %rax"); (3, codes "jne L2")], 8%Z)
  /\ cache_after (run true SelAuto IncFallback None None (Some some_code)) = Some (codes "d41d 8" ++ [10]).
Proof. repeat split; vm_compute; reflexivity. Qed.

(** ** C64 *)
(** Marked assembly that is used again yields the increment it was marked with, if that is not negative; for any parser, markers... such that
    the marker contains the comment and the assembly itself does not contain "pointer_increment=". *)
Theorem C64_partial : forall {L} line_eqb line_text parse find_loops metric detect md5 (marker : text -> list L * list L)
  debug sel c comment cache code answers lines block inc,
  (forall x y, reflect (x = y) (line_eqb x y)) -> parse code = Ok lines -> NoDup lines ->
  (forall label b, In (label, b) (find_loops lines) -> part_of b lines) ->
  (forall cmt, exists a b, flat_map (fun l => line_text l ++ [10]) (fst (marker cmt)) = a ++ cmt ++ b /\ ~ In 112 a) ->
  ~ occurs (codes "pointer_increment=") (flat_map (fun l => line_text l ++ [10]) lines) ->
  let o := asm_instrumentation line_eqb line_text parse find_loops metric detect md5 marker false debug sel c comment cache (Some []) code answers in
  result o = Ok (block, inc) -> (0 <= inc)%Z ->
  exists f, output_after o = Some f /\ cached_increment f = (Ok inc, Some f).
Proof. exact @endtoend. Qed.
(** Whatever follows the number, and whatever text without the key is before *)
Theorem C64_roundtrip : forall pre z post, ~ occurs (codes "pointer_increment=") pre -> (0 <= z)%Z -> (forall c r, post = c :: r -> ~ 48 <= c <= 57) ->
  let f := pre ++ codes "pointer_increment=" ++ show_int z ++ post in cached_increment f = (Ok z, Some f).
Proof. exact roundtrip. Qed.
(** Refuted: with a negative increment the program ends and the marked assembly is removed. *)
Theorem C64_negative_refuted : forall pre z post, ~ occurs (codes "pointer_increment=") pre -> (z < 0)%Z -> ~ occurs (codes "pointer_increment=") post ->
  cached_increment (pre ++ codes "pointer_increment=" ++ show_int z ++ post) = (Err SystemExit, None).
Proof. exact negative_lost. Qed.
Print Assumptions C64_partial.
Print Assumptions C64_roundtrip.
Print Assumptions C64_negative_refuted.
Example C64_example : exists f, output_after (run false SelAuto (IncNumber 64) None None (Some [])) = Some f /\ cached_increment f = (Ok 64%Z, Some f).
Proof. eexists. split; vm_compute; reflexivity. Qed.
Example C64_negative : exists f, output_after (run false SelAuto (IncNumber (-64)) None None (Some [])) = Some f /\ cached_increment f = (Err SystemExit, None).
Proof. eexists. split; vm_compute; reflexivity. Qed.
Example C64_hypotheses : (forall cmt, exists a b, flat_map (fun l => snd l ++ [10]) (fst (some_marker cmt)) = a ++ cmt ++ b /\ ~ In 112 a).
Proof.
  intros cmt. exists (codes "movl $111, %ebx" ++ [10] ++ codes "# "), [10]. split; [|cbn; intuition congruence].
  cbn [some_marker fst flat_map snd]. rewrite app_nil_r, <- !app_assoc. reflexivity.
Qed.
