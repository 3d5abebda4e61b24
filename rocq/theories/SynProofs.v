(** Proofs for C141 and C142. *)
From Coq Require Import Lia.
From Verif Require Import PyBase PyText PyDict PyInt PyFloat IncModel MarkModel MarkSpec MarkProofs SynModel SynSpec.
Local Open Scope N_scope.
Local Open Scope list_scope.

Lemma digits_no_dot z : (0 <= z)%Z -> ~ In 46 (show_int z).
Proof.
  intros H I. assert (J : In 46 (show_nat (Z.to_N z))) by (destruct z; [exact I|exact I|lia]). destruct (show_nat_spec (Z.to_N z)) as (_ & D & _). rewrite forallb_forall in D. apply D in J. discriminate.
Qed.
Lemma version_read parts : parts <> [] -> (forall z, In z parts -> (0 <= z)%Z) -> version_tuple (written_version parts) = Ok parts.
Proof.
  intros N P. unfold version_tuple, written_version. rewrite split_join.
  - clear N P. induction parts as [|z l IH]; [reflexivity|]. cbn [map mapM]. rewrite show_int_read. cbn [bind]. rewrite IH. reflexivity.
  - destruct parts; [contradiction|discriminate].
  - intros p I. apply in_map_iff in I as (z & <- & I). now apply digits_no_dot, P.
Qed.
Lemma geb_spec a b : tuple_geb a b = true <-> not_before a b.
Proof.
  revert b. induction a as [|x a IH]; intros [|y b]; cbn [tuple_geb].
  - split; [intros _ k y _ E; destruct k; discriminate|reflexivity].
  - split; [discriminate|]. intros H. destruct (H O y) as (x & E & _); [lia|reflexivity|]. discriminate.
  - split; [intros _ k z _ E; destruct k; discriminate|reflexivity].
  - destruct (Z.eqb_spec x y) as [->|N].
    + rewrite IH. split; intros H.
      * intros [|k] z P E; [cbn in *; exists y; split; [reflexivity|]; injection E as <-; lia|]. apply (H k z); [|exact E]. intros j J. apply (P (S j)). lia.
      * intros k z P E. apply (H (S k) z); [|exact E]. intros [|j] J; [reflexivity|]. apply P. lia.
    + rewrite Z.ltb_lt. split; intros H.
      * intros [|k] z P E; [cbn in *; exists x; split; [reflexivity|]; injection E as <-; lia|]. assert (C := P O ltac:(lia)). cbn in C. congruence.
      * destruct (H O y) as (x' & E & L); [lia|reflexivity|]. injection E as <-. lia.
Qed.
Lemma recent_spec parts : parts <> [] -> (forall z, In z parts -> (0 <= z)%Z) -> exists b, recent (written_version parts) = Ok b /\ (b = true <-> not_before parts [0; 7; 0]%Z).
Proof. intros N P. unfold recent. rewrite version_read by assumption. cbn [bind]. eexists. split; [reflexivity|]. apply geb_spec. Qed.

Section Syntax.
  Context {L : Type}.
  Variable parser : text -> option text -> text -> res (list L).
  Variable process : text -> option text -> list L -> res (list L).
  Lemma either_ok isa code n l : either_syntax parser isa code = Ok (n, l) ->
    parser isa (Some n) code = Ok l /\ (n = codes "intel" \/ n = codes "att" /\ exists e, parser isa (Some (codes "intel")) code = Err e).
  Proof.
    unfold either_syntax. destruct (parser isa (Some (codes "intel")) code) as [l1|e] eqn:E.
    - intros [= <- <-]. auto.
    - destruct e; try discriminate; (destruct (parser isa (Some (codes "att")) code) as [l2|] eqn:F; [|discriminate]); intros [= <- <-]; (split; [assumption|right; split; [reflexivity|eauto]]).
  Qed.
  Lemma same_syntax version code lines : parse_asm parser process version (codes "x86") code = Ok lines ->
    exists s, marker_syntax parser version (codes "x86") code = Ok s /\
      match s with
      | Some m => exists n l, same_name n m /\ parser (codes "x86") (Some n) code = Ok l /\ process (codes "x86") (Some n) l = Ok lines
      | None => exists l, parser (codes "x86") None code = Ok l /\ process (codes "x86") None l = Ok lines
      end.
  Proof.
    unfold parse_asm, marker_syntax, detect_x86_syntax. rewrite (text_eqb_refl (codes "x86")). destruct (recent version) as [[|]|]; cbn [bind negb]; [| |discriminate].
    - destruct (either_syntax parser (codes "x86") code) as [[n l]|] eqn:E; [|discriminate]. cbn [bind fst snd]. intros H. apply either_ok in E as (P & N).
      destruct N as [->|[-> _]]; cbn [text_eqb]; eexists; (split; [reflexivity|]); do 2 eexists; split; [left|eauto|right|eauto]; split; reflexivity.
    - destruct (parser (codes "x86") None code) as [l|] eqn:E; [|discriminate]. cbn [bind]. intros H. eexists. split; [reflexivity|]. cbn. eauto.
  Qed.
End Syntax.

(** ** Marking *)
Section Tool.
  Context {L : Type}.
  Variable parser : text -> option text -> text -> res (list L).
  Variable process : text -> option text -> list L -> res (list L).
  Variable get_marker : text -> option text -> text -> list L * list L.
  Variable line_eqb : L -> L -> bool.
  Variable line_text : L -> text.
  Variable find_loops : list L -> list (text * list L).
  Variable metric : list L -> list Z.
  Variable detect : list L -> res (option Z).
  Variable md5 : text -> text.
  Lemma increment_again comment cache comment' b r i c' rem rest :
    choose_increment line_text detect md5 IncFallback comment cache b r = ((Ok i, c'), rem) -> i <> 0%Z ->
    ~ mentions (hashblock line_text md5 b) (content cache) -> ended (content cache) -> word (hashblock line_text md5 b) -> (forall t, comment = Some t -> ~ In 10 t) ->
    choose_increment line_text detect md5 IncFallback comment' c' b rest = ((Ok i, c'), false).
  Proof.
    unfold choose_increment, increment_of. destruct (detect b) as [[d|]|]; cbn [bind]; [intros [= <- <- <-]; reflexivity| |discriminate].
    destruct (find_increment (hashblock line_text md5 b) cache) as [z|] eqn:F; [intros [= <- <- <-]; now rewrite F|].
    destruct (userselect_increment _ None comment cache r) as [[z c]|] eqn:U; [|discriminate]. intros [= <- <- <-] Z0 M En W Cm. now rewrite (userselect_stored _ _ _ _ _ _ _ U Z0 M En W Cm).
  Qed.
  Notation tool := (marking_tool parser process get_marker line_eqb line_text find_loops metric detect md5).
  Lemma tool_again use_cache use_cache' version isa debug comment comment' cache output output' code answers answers' rest lines block z :
    parse_asm parser process version isa code = Ok lines ->
    result (tool use_cache version isa debug comment cache output code answers) = Ok (block, z) -> z <> 0%Z ->
    ~ mentions (hashblock line_text md5 block) (content cache) -> ended (content cache) -> word (hashblock line_text md5 block) -> (forall t, comment = Some t -> ~ In 10 t) ->
    choose_block metric debug SelManual (find_loops lines) answers' = Ok (block, rest) ->
    let again := tool use_cache' version isa debug comment' (cache_after (tool use_cache version isa debug comment cache output code answers)) output' code answers' in
    result again = Ok (block, z) /\ cache_after again = cache_after (tool use_cache version isa debug comment cache output code answers).
  Proof.
    unfold marking_tool, instrument, asm_instrumentation. intros P. rewrite P. cbv zeta.
    destruct (choose_block metric debug SelManual (find_loops lines) answers) as [[b r]|]; [|discriminate].
    destruct (bounds line_eqb lines b) as [[s e]|] eqn:B; [|discriminate].
    destruct (choose_increment line_text detect md5 IncFallback comment cache b r) as [[[i|x] c'] rem] eqn:CI; [|discriminate]. cbn [result cache_after].
    intros [= <- <-] Z0 M En W Cm C. rewrite C, B. rewrite (increment_again _ _ comment' _ _ _ _ _ rest CI Z0 M En W Cm). split; reflexivity.
  Qed.
End Tool.
