(** C141 and C142: syntax of assembly code and the tool for marking. *)
From Coq Require Import Lia.
From Verif Require Import PyBase PyText PyDict PyInt PyFloat IncModel MarkModel MarkSpec MarkProofs MarkProps SynModel SynSpec SynProofs.
Local Open Scope N_scope.
Local Open Scope list_scope.

(** ** C141 *)
(** For version numbers of any number of parts the interface of OSACA is chosen by comparison with 0.7.0. *)
Theorem C141_versions : forall parts, parts <> [] -> (forall z, In z parts -> (0 <= z)%Z) ->
  exists b, recent (written_version parts) = Ok b /\ (b = true <-> not_before parts [0; 7; 0]%Z).
Proof. exact recent_spec. Qed.
(** x86 code that is parsed gets markers of the syntax it was parsed with; before version 0.7.0 parser and markers are used without syntax. *)
Theorem C141_same_syntax : forall {L} (parser : text -> option text -> text -> res (list L)) process version code lines,
  parse_asm parser process version (codes "x86") code = Ok lines ->
  exists s, marker_syntax parser version (codes "x86") code = Ok s /\
    match s with
    | Some m => exists n l, same_name n m /\ parser (codes "x86") (Some n) code = Ok l /\ process (codes "x86") (Some n) l = Ok lines
    | None => exists l, parser (codes "x86") None code = Ok l /\ process (codes "x86") None l = Ok lines
    end.
Proof. exact @same_syntax. Qed.
(** This is what is written around the block. *)
Theorem C141_written : forall {L} (parser : text -> option text -> text -> res (list L)) process get_marker line_eqb line_text find_loops metric detect md5,
  (forall x y, reflect (x = y) (line_eqb x y)) ->
  forall version isa same debug sel c comment cache output code answers lines block inc syntax,
  parse_asm parser process version isa code = Ok lines -> marker_syntax parser version isa code = Ok syntax ->
  NoDup lines -> (forall label b, In (label, b) (find_loops lines) -> part_of b lines) ->
  let o := instrument parser process get_marker line_eqb line_text find_loops metric detect md5 version isa same debug sel c comment cache output code answers in
  result o = Ok (block, inc) ->
  exists pre post start stop, lines = pre ++ block ++ post /\ get_marker isa syntax (comment_text inc (hashblock line_text md5 block)) = (start, stop) /\
    output_after o = match (if same then Some [] else output) with
                     | Some before => Some (before ++ flat_map (fun l => line_text l ++ [10]) (pre ++ start ++ block ++ stop ++ post))
                     | None => None
                     end.
Proof.
  intros L parser process get_marker line_eqb line_text find_loops metric detect md5 R version isa same debug sel c comment cache output code answers lines block inc syntax P M N F o E.
  destruct (C36_only_markers line_eqb line_text (parse_asm parser process version isa) find_loops metric detect md5
    (fun cmt => match marker_syntax parser version isa code with Ok s => get_marker isa s cmt | Err _ => ([], []) end) R same debug sel c comment cache output code answers lines block inc P N F E)
    as (label & pre & post & start & stop & _ & E1 & E2 & E3).
  exists pre, post, start, stop. split; [exact E1|]. split; [|exact E3]. revert E2. now rewrite M.
Qed.
(** AArch64 has one syntax; its markers get an empty name. *)
Theorem C141_aarch64 : forall {L} (parser : text -> option text -> text -> res (list L)) version code b, recent version = Ok b ->
  marker_syntax parser version (codes "aarch64") code = Ok (if b then Some [] else None).
Proof. intros L parser version code b R. unfold marker_syntax. cbn. rewrite R. reflexivity. Qed.
(** Refuted: AT&T code has AT&T markers. What Intel's parser accepts as well is taken as Intel code. *)
Theorem C141_both_refuted : forall {L} (parser : text -> option text -> text -> res (list L)) code l l',
  parser (codes "x86") (Some (codes "att")) code = Ok l -> parser (codes "x86") (Some (codes "intel")) code = Ok l' ->
  marker_syntax parser (codes "0.7.0") (codes "x86") code = Ok (Some (codes "INTEL")).
Proof. intros L parser code l l' _ E. unfold marker_syntax, detect_x86_syntax, either_syntax. rewrite E. reflexivity. Qed.
(** AT&T is tried for any other exception. *)
Theorem C141_att : forall {L} (parser : text -> option text -> text -> res (list L)) process code l e,
  parser (codes "x86") (Some (codes "intel")) code = Err e -> e <> SystemExit -> parser (codes "x86") (Some (codes "att")) code = Ok l ->
  parse_asm parser process (codes "0.7.0") (codes "x86") code = process (codes "x86") (Some (codes "att")) l /\
  marker_syntax parser (codes "0.7.0") (codes "x86") code = Ok (Some (codes "ATT")).
Proof.
  intros L parser process code l e E N A. assert (H : either_syntax parser (codes "x86") code = Ok (codes "att", l)) by (unfold either_syntax; rewrite E, A; destruct e; (reflexivity || contradiction)).
  unfold marker_syntax, detect_x86_syntax, parse_asm. change (recent (codes "0.7.0")) with (Ok true : res bool). rewrite text_eqb_refl. cbn [bind negb]. rewrite H. split; reflexivity.
Qed.
(** Refuted: any version of OSACA can be used. With versions that are not numbers only, no code can be analysed; a version with fewer parts counts as older. *)
Theorem C141_development_refuted : (forall {L} (parser : text -> option text -> text -> res (list L)) process isa code, parse_asm parser process (codes "0.7.0.dev1") isa code = Err ValueError)
  /\ recent (codes "0.7") = Ok false /\ recent (codes "0.7.0") = Ok true.
Proof. split; [intros; reflexivity|]. split; vm_compute; reflexivity. Qed.
Print Assumptions C141_versions.
Print Assumptions C141_same_syntax.
Print Assumptions C141_written.
Print Assumptions C141_aarch64.
Print Assumptions C141_both_refuted.
Print Assumptions C141_att.
Print Assumptions C141_development_refuted.

(** A parser for which % makes AT&T code *)
Definition toy_parser (isa : text) (syntax : option text) (code : text) : res (list numbered) :=
  if existsb (N.eqb 37) code && (match syntax with Some s => text_eqb s (codes "intel") | None => false end) then Err RuntimeError else some_parse code.
Definition toy_process (isa : text) (syntax : option text) (l : list numbered) : res (list numbered) := Ok l.
Definition toy_marker (isa : text) (syntax : option text) (c : text) : list numbered * list numbered :=
  ([(0, (match syntax with Some s => s | None => codes "-" end) ++ codes " # " ++ c)], [(0, codes "end")]).
Definition toy (use_cache : bool) (version : text) (cache : file) (answers : list text) :=
  marking_tool toy_parser toy_process toy_marker numbered_eqb snd some_loops (fun _ => []) (fun _ => Ok None) some_md5 use_cache version (codes "x86") false None cache (Some []) some_code answers.
Example C141_example : written_version [0; 10; 2]%Z = codes "0.10.2" /\ recent (codes "0.10.2") = Ok true /\ recent (codes "0.6.9") = Ok false /\ recent (codes "1.0") = Ok true
  /\ marker_syntax toy_parser (codes "0.7.1") (codes "x86") some_code = Ok (Some (codes "ATT")) /\ marker_syntax toy_parser (codes "0.7.1") (codes "x86") (codes "inc rax") = Ok (Some (codes "INTEL"))
  /\ marker_syntax toy_parser (codes "0.5.0") (codes "x86") (codes "inc rax") = Ok None
  /\ parse_asm toy_parser toy_process (codes "0.7.1") (codes "x86") some_code = some_parse some_code
  /\ output_after (toy true (codes "0.7.1") None [[]; codes "16"]) = Some (join 10
    [codes "nop"; codes "ATT # pointer_increment=16 d41d"; codes "inc %rax"; codes "jne L2"; codes "end"; codes "inc %rax"; codes "ret"; []]).
Proof. repeat split; vm_compute; reflexivity. Qed.

(** ** C142 *)
(** An increment entered by the user is not asked for again when the same block of the same code is marked again. *)
Theorem C142_again : forall {L} (parser : text -> option text -> text -> res (list L)) process get_marker line_eqb line_text find_loops metric detect md5
  use_cache use_cache' version isa debug comment comment' cache output output' code answers answers' rest lines block z,
  let tool := marking_tool parser process get_marker line_eqb line_text find_loops metric detect md5 in
  let first := tool use_cache version isa debug comment cache output code answers in
  parse_asm parser process version isa code = Ok lines -> result first = Ok (block, z) -> z <> 0%Z ->
  ~ mentions (hashblock line_text md5 block) (content cache) -> ended (content cache) -> word (hashblock line_text md5 block) -> (forall t, comment = Some t -> ~ In 10 t) ->
  choose_block metric debug SelManual (find_loops lines) answers' = Ok (block, rest) ->
  let again := tool use_cache' version isa debug comment' (cache_after first) output' code answers' in
  result again = Ok (block, z) /\ cache_after again = cache_after first.
Proof. intros L parser process get_marker line_eqb line_text find_loops metric detect md5. intros. now apply tool_again with (lines := lines) (rest := rest). Qed.
(** Refuted: without --cache, the cache is neither looked at nor changed. *)
Theorem C142_cache_refuted : exists cache, cache_after (toy false (codes "0.7.1") None [[]; codes "16"]) = Some cache
  /\ find_increment (codes "d41d") (Some cache) = Some 16%Z
  /\ result (toy false (codes "0.7.1") (Some cache) [[]]) = Ok ([(2, codes "inc %rax"); (3, codes "jne L2")], 16%Z).
Proof. eexists. split; [vm_compute; reflexivity|]. split; vm_compute; reflexivity. Qed.
Print Assumptions C142_again.
Print Assumptions C142_cache_refuted.
Example C142_example : exists lines rest, parse_asm toy_parser toy_process (codes "0.7.1") (codes "x86") some_code = Ok lines
  /\ result (toy true (codes "0.7.1") None [[]; codes "16"]) = Ok ([(2, codes "inc %rax"); (3, codes "jne L2")], 16%Z)
  /\ choose_block (fun _ => []) false SelManual (some_loops lines) [codes "L2"] = Ok ([(2, codes "inc %rax"); (3, codes "jne L2")], rest)
  /\ ~ mentions (codes "d41d") (content None) /\ ended (content None) /\ word (codes "d41d").
Proof.
  do 2 eexists. split; [vm_compute; reflexivity|]. split; [vm_compute; reflexivity|]. split; [vm_compute; reflexivity|]. split; [apply absent_mentions|]. split; [now left|].
  split; [easy|]. intros c [<-|[<-|[<-|[<-|[]]]]]; unfold white; cbn; lia.
Qed.
