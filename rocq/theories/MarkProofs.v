From Coq Require Import Lia.
From Verif Require Import IncModel IncProofs.
From Verif Require Import MarkModel MarkSpec.
Local Open Scope N_scope.
Local Open Scope list_scope.

(** ** Fields *)
Lemma is_space_spec c : is_space c = true <-> white c.
Proof.
  unfold is_space, white. rewrite !orb_true_iff, !andb_true_iff, N.eqb_eq, !N.leb_le. split.
  - intros [[->|H]|H]; cbn [In]; lia.
  - cbn [In]. intros H. lia.
Qed.
Lemma space_false c : is_space c = false <-> ~ white c.
Proof. rewrite <- is_space_spec. destruct (is_space c); intuition congruence. Qed.
Lemma fields_word cur w s : (forall c, In c w -> ~ white c) -> fields_from cur (w ++ s) = fields_from (cur ++ w) s.
Proof.
  revert cur. induction w as [|c w IH]; intros cur H; [now rewrite app_nil_r|]. cbn [app fields_from].
  rewrite (proj2 (space_false c)) by (apply H; now left). rewrite IH by (intros; apply H; now right). now rewrite <- app_assoc.
Qed.
Lemma fields_spaces a s : spaces a -> fields_from [] (a ++ s) = fields_from [] s.
Proof.
  induction a as [|c a IH]; intros H; [easy|]. cbn [app fields_from]. rewrite (proj2 (is_space_spec c)) by (apply H; now left).
  apply IH. intros d I. apply H. now right.
Qed.
(** A word followed by white space or the end *)
Lemma fields_first w s : word w -> (forall c s', s = c :: s' -> white c) -> fields (w ++ s) = w :: fields s.
Proof.
  intros [N W] S. unfold fields. rewrite fields_word by easy. cbn [app]. destruct s as [|c s]; cbn [fields_from].
  - now destruct w.
  - rewrite (proj2 (is_space_spec c)) by eauto. now destruct w.
Qed.
Lemma fields_cons s : 
  (fields s = [] /\ spaces s) \/
  exists a w r, s = a ++ w ++ r /\ spaces a /\ word w /\ (forall c r', r = c :: r' -> white c) /\ fields s = w :: fields r.
Proof.
  assert (A : forall s, exists w r, s = w ++ r /\ (forall c, In c w -> ~ white c) /\ (forall c r', r = c :: r' -> white c)).
  { clear. induction s as [|c s (w & r & -> & W & R)]; [exists [], []; easy|]. destruct (is_space c) eqn:C.
    - exists [], (c :: w ++ r). repeat split; [easy|]. intros d r' E. apply is_space_spec. congruence.
    - exists (c :: w), r. repeat split; [|easy]. intros d [<-|I]; [now apply space_false|auto]. }
  assert (B : forall s, exists a r, s = a ++ r /\ spaces a /\ (forall c r', r = c :: r' -> ~ white c)).
  { clear. induction s as [|c s (a & r & -> & W & R)]; [exists [], []; easy|]. destruct (is_space c) eqn:C.
    - exists (c :: a), r. repeat split; [|easy]. intros d [<-|I]; [now apply is_space_spec|auto].
    - exists [], (c :: a ++ r). repeat split; [easy|]. intros d r' E. apply space_false. congruence. }
  destruct (B s) as (a & t & -> & SA & T). destruct (A t) as (w & r & -> & W & R). destruct w as [|x w].
  - left. destruct r as [|c r]; [|exfalso; exact (T c r eq_refl (R c r eq_refl))]. cbn [app]. rewrite app_nil_r. split; [|easy].
    unfold fields. rewrite <- (app_nil_r a). now rewrite fields_spaces.
  - right. exists a, (x :: w), r. assert (word (x :: w)) by easy. repeat split; try easy. unfold fields at 1. rewrite fields_spaces by easy.
    now apply fields_first.
Qed.
Lemma fields_entry l h v : (exists r, fields l = h :: v :: r) <-> entry l h v.
Proof.
  split.
  - intros [r F]. destruct (fields_cons l) as [[E _]|(a & w & t & -> & SA & W & T & E)]; [congruence|].
    assert (w = h) as -> by congruence. assert (F' : fields t = v :: r) by congruence.
    destruct (fields_cons t) as [[E' _]|(b & w' & t' & -> & SB & W' & T' & E')]; [congruence|].
    assert (w' = v) as -> by congruence. exists a, b, t'. repeat split; try easy; try apply W; try apply W'.
    intros ->. cbn [app] in T. destruct W' as [N W']. destruct v as [|c v]; [easy|]. apply (W' c); [now left|]. eapply T. reflexivity.
  - intros (a & b & r & -> & SA & SB & NB & W & W' & R). exists (fields r). unfold fields. rewrite fields_spaces by easy. fold (fields (h ++ b ++ v ++ r)).
    rewrite fields_first; [|easy|]. 2:{ intros c s' E. destruct b as [|d b]; [easy|]. apply SB. left. cbn in E. congruence. }
    f_equal. unfold fields. rewrite fields_spaces by easy. now apply fields_first.
Qed.

(** ** Cache of increments *)
Lemma search_app h a b : (forall l v, In l a -> ~ entry l h v) -> search_lines h (a ++ b) = search_lines h b.
Proof.
  induction a as [|l a IH]; intros H; [easy|]. cbn [app search_lines].
  assert (I : search_lines h (a ++ b) = search_lines h b) by (apply IH; intros m v I; apply H; now right).
  destruct (fields l) as [|x [|v r]] eqn:F; [easy|easy|]. destruct (text_eqb_spec x h) as [E|N]; [|easy]. subst x. exfalso.
  apply (H l v); [now left|]. apply fields_entry. now exists r.
Qed.
Lemma search_found h a b : (exists l v, In l a /\ entry l h v) -> search_lines h (a ++ b) = search_lines h a.
Proof.
  induction a as [|l a IH]; intros (m & v & I & E); [easy|]. cbn [app search_lines].
  assert (A : (forall v, ~ entry l h v) -> search_lines h (a ++ b) = search_lines h a).
  { intros N. apply IH. destruct I as [->|I]; [now apply N in E|eauto]. }
  destruct (fields l) as [|x [|w r]] eqn:F.
  - apply A. intros w W. apply fields_entry in W as [r W]. congruence.
  - apply A. intros w W. apply fields_entry in W as [r W]. congruence.
  - destruct (text_eqb_spec x h) as [Q|N]; [easy|]. apply A. intros w' W. apply fields_entry in W as [r' W]. congruence.
Qed.
Lemma split_ended s t : ended s -> exists ls, split 10 (s ++ t) = ls ++ split 10 t /\ (forall l, In l (split 10 s) <-> In l ls \/ l = []).
Proof.
  intros [->|[s' ->]].
  - exists []. split; [easy|]. cbn. intuition.
  - rewrite <- app_assoc. cbn [app]. exists (split 10 s'). assert (A : forall t, split 10 (s' ++ 10 :: t) = split 10 s' ++ split 10 t).
    { clear. intros t. induction s' as [|c s IH]; [reflexivity|]. cbn [app split]. destruct (c =? 10); [now rewrite IH|]. rewrite IH.
      destruct (split 10 s) eqn:E; [now apply split_not_nil in E|easy]. }
    split; [apply A|]. intros l. rewrite A, in_app_iff. cbn. intuition.
Qed.
Lemma empty_entry h v : ~ entry [] h v.
Proof. intros (a & b & r & E & _ & _ & _ & [N _] & _). symmetry in E. apply app_eq_nil in E as [_ E]. now apply app_eq_nil in E as [E _]. Qed.
(** The line of a store *)
Definition entry_line (h : text) (z : Z) (c : option text) : text :=
  match c with Some ((_ :: _) as c) => (h ++ codes " " ++ show_int z) ++ codes " #" ++ c | _ => h ++ codes " " ++ show_int z end.
Lemma store_line h z c f : store_increment h z c f = Some (content f ++ entry_line h z c ++ [10]).
Proof. unfold store_increment, entry_line. now destruct c as [[|x c]|]. Qed.
Lemma show_word z : word (show_int z).
Proof.
  split; [apply show_int_not_nil|]. intros c I W. apply show_int_chars in I. unfold white in W. cbn [In] in W. lia.
Qed.
Lemma entry_line_fields h z c : word h -> exists r, fields (entry_line h z c) = h :: show_int z :: r.
Proof.
  intros W. assert (A : exists r, entry_line h z c = h ++ codes " " ++ show_int z ++ r /\ (forall d r', r = d :: r' -> white d)).
  { unfold entry_line. destruct c as [[|x c]|]; [exists []; now rewrite app_nil_r| |exists []; now rewrite app_nil_r].
    exists (codes " #" ++ x :: c). split; [rewrite <- app_assoc; f_equal; now rewrite <- app_assoc|]. intros d r' E. assert (d = 32) as -> by (cbn in E; congruence). now left. }
  destruct A as (r & -> & R). exists (fields r). rewrite fields_first; [|easy|].
  2:{ intros d s' E. assert (d = 32) as -> by (cbn in E; congruence). now left. }
  f_equal. change (codes " " ++ show_int z ++ r) with (32 :: show_int z ++ r). unfold fields. cbn [fields_from is_space].
  change (is_space 32) with true. cbn iota. apply fields_first; [apply show_word|easy].
Qed.
Lemma entry_line_free h z c : word h -> (forall t, c = Some t -> ~ In 10 t) -> ~ In 10 (entry_line h z c).
Proof.
  intros [_ W] C. assert (H : ~ In 10 (h ++ codes " " ++ show_int z)).
  { rewrite !in_app_iff. intros [I|[I|I]]; [apply (W _ I); unfold white; cbn [In]; lia|cbn in I; intuition congruence|]. apply show_int_chars in I. lia. }
  unfold entry_line. destruct c as [[|x c]|]; [easy| |easy]. rewrite in_app_iff. intros [I|I]; [easy|]. apply in_app_iff in I as [I|I].
  - cbn in I. intuition congruence.
  - now apply (C (x :: c)).
Qed.
Lemma stored_ended h z c f : ended (content (store_increment h z c f)).
Proof. right. rewrite store_line. cbn [content]. rewrite app_assoc. eauto. Qed.
(** One more store *)
Lemma store_mentioned h f g z c : mentions h (content f) -> ended (content f) -> find_increment h (store_increment g z c f) = find_increment h f.
Proof.
  intros (l & v & I & E) N. unfold find_increment. rewrite store_line. cbn [content].
  destruct (split_ended (content f) (entry_line g z c ++ [10]) N) as (ls & S & P).
  destruct (split_ended (content f) [] N) as (ls' & S' & P'). rewrite app_nil_r in S'.
  assert (Q : ls' = ls).
  { clear - N S S'. destruct N as [H|[s' H]].
    - rewrite H in *. cbn [app] in *. destruct ls' as [|x ls']; [|cbn in S'; destruct ls'; discriminate].
      symmetry in S. rewrite <- (app_nil_l (split _ _)) in S at 2. now apply app_inv_tail in S.
    - rewrite H in *. clear H.
      assert (A : forall t, split 10 ((s' ++ [10]) ++ t) = split 10 s' ++ split 10 t).
      { clear. intros t. rewrite <- app_assoc. cbn [app]. induction s' as [|c s IH]; [reflexivity|]. cbn [app split]. destruct (c =? 10); [now rewrite IH|]. rewrite IH.
        destruct (split 10 s) eqn:E; [now apply split_not_nil in E|easy]. }
      rewrite A in S. specialize (A []). rewrite app_nil_r in A. rewrite A in S'. apply app_inv_tail in S, S'. congruence. }
  subst ls'. rewrite S, S'. assert (J : exists l v, In l ls /\ entry l h v).
  { exists l, v. split; [|easy]. apply P in I as [I| ->]; [easy|]. now apply empty_entry in E. }
  rewrite !search_found by easy. reflexivity.
Qed.
Lemma store_new h f z c : ~ mentions h (content f) -> ended (content f) -> word h -> (forall t, c = Some t -> ~ In 10 t) ->
  find_increment h (store_increment h z c f) = Some z.
Proof.
  intros M N W C. unfold find_increment. rewrite store_line. cbn [content].
  destruct (split_ended (content f) (entry_line h z c ++ [10]) N) as (ls & -> & P).
  rewrite search_app. 2:{ intros l v I E. apply M. exists l, v. split; [|easy]. apply P. now left. }
  rewrite split_app by now apply entry_line_free. cbn [search_lines]. destruct (entry_line_fields h z c W) as [r ->].
  rewrite teq_refl. apply show_int_parse.
Qed.
Lemma mentions_store h g f z c : ended (content f) -> word g -> (forall t, c = Some t -> ~ In 10 t) ->
  mentions h (content (store_increment g z c f)) <-> mentions h (content f) \/ h = g.
Proof.
  intros N W C. rewrite store_line. cbn [content]. unfold mentions.
  destruct (split_ended (content f) (entry_line g z c ++ [10]) N) as (ls & -> & P). rewrite split_app by now apply entry_line_free.
  destruct (entry_line_fields g z c W) as [r F]. split.
  - intros (l & v & I & E). apply in_app_iff in I as [I|[<-|[<-|[]]]].
    + left. exists l, v. split; [|easy]. apply P. now left.
    + right. apply fields_entry in E as [r' E]. congruence.
    + now apply empty_entry in E.
  - intros [(l & v & I & E)| ->].
    + exists l, v. split; [|easy]. apply in_app_iff. apply P in I as [I| ->]; [now left|now apply empty_entry in E].
    + exists (entry_line g z c), (show_int z). split; [apply in_app_iff; right; now left|]. apply fields_entry. eauto.
Qed.
Lemma none_mentioned h s : ~ mentions h s -> search_lines h (split 10 s) = None.
Proof. intros M. rewrite <- (app_nil_r (split 10 s)). rewrite search_app; [easy|]. intros l v I E. apply M. now exists l, v. Qed.

Lemma stores_mentioned h hist : forall f, mentions h (content f) -> ended (content f) -> wellformed hist ->
  find_increment h (stores hist f) = find_increment h f.
Proof.
  induction hist as [|[[g z] c] hist IH]; intros f M N W; [easy|]. cbn [stores fold_left]. fold (stores hist (store_increment g z c f)).
  destruct (W g z c ltac:(now left)) as [Wg Wc]. rewrite IH.
  - now apply store_mentioned.
  - apply mentions_store; auto.
  - apply stored_ended.
  - intros h' z' c' I. apply (W h' z' c'). now right.
Qed.
Lemma stores_first h hist z : forall f, ~ mentions h (content f) -> ended (content f) -> wellformed hist -> first_stored h hist z ->
  find_increment h (stores hist f) = Some z.
Proof.
  induction hist as [|[[g y] c] hist IH]; intros f M N W (before & d & after & E & B); [destruct before; discriminate|].
  cbn [stores fold_left]. fold (stores hist (store_increment g y c f)). destruct (W g y c ltac:(now left)) as [Wg Wc].
  assert (W' : wellformed hist) by (intros h' z' c' I; apply (W h' z' c'); now right).
  destruct before as [|e before].
  - assert (EQ : (g, y, c) = (h, z, d)) by (cbn in E; congruence). assert (g = h /\ y = z /\ c = d) as (-> & -> & ->) by (split; [|split]; congruence).
    rewrite stores_mentioned; [now apply store_new| |apply stored_ended|easy]. apply mentions_store; auto.
  - assert (EQ : hist = before ++ (h, z, d) :: after) by (cbn in E; congruence).
    assert (EE : e = (g, y, c)) by (cbn in E; congruence). subst e. apply IH; try easy.
    + rewrite mentions_store by easy. intros [|Q]; [easy|]. subst g. apply (B y c). now left.
    + apply stored_ended.
    + exists before, d, after. split; [easy|]. intros z' c' I. apply (B z' c'). now right.
Qed.
Lemma stores_never h hist : forall f, ~ mentions h (content f) -> ended (content f) -> wellformed hist -> never_stored h hist ->
  find_increment h (stores hist f) = None.
Proof.
  induction hist as [|[[g y] c] hist IH]; intros f M N W S; [now apply none_mentioned|].
  cbn [stores fold_left]. fold (stores hist (store_increment g y c f)). destruct (W g y c ltac:(now left)) as [Wg Wc]. apply IH.
  - rewrite mentions_store by easy. intros [|Q]; [easy|]. subst g. apply (S y c). now left.
  - apply stored_ended.
  - intros h' z' c' I. apply (W h' z' c'). now right.
  - intros z' c' I. apply (S z' c'). now right.
Qed.
Lemma absent_mentions h : ~ mentions h [].
Proof. intros (l & v & [<-|[]] & E). now apply empty_entry in E. Qed.

(** ** Questions *)
Lemma ask_spec default answers z rest : ask_increment default answers = Ok (z, rest) ->
  exists before a, answers = before ++ a :: rest /\ (forall b, In b before -> read_int b = None) /\ (read_int a = Some z \/ read_int a = None /\ default = Some z).
Proof.
  induction answers as [|a answers IH]; cbn [ask_increment]; [discriminate|]. destruct (read_int a) as [y|] eqn:R.
  - intros H. exists [], a. split; [cbn; congruence|]. split; [easy|]. left. congruence.
  - destruct default as [d|] eqn:D.
    + intros H. exists [], a. split; [cbn; congruence|]. split; [easy|]. right. split; [easy|congruence].
    + intros H. destruct (IH H) as (before & b & -> & B & V). exists (a :: before), b. split; [easy|]. split; [|easy]. intros c [<-|I]; auto.
Qed.
Lemma userselect_stored hash default comment cache answers z cache' :
  userselect_increment hash default comment cache answers = Ok (z, cache') -> z <> 0%Z ->
  ~ mentions hash (content cache) -> ended (content cache) -> word hash -> (forall t, comment = Some t -> ~ In 10 t) ->
  find_increment hash cache' = Some z.
Proof.
  unfold userselect_increment. destruct (ask_increment default answers) as [[y r]|] eqn:A; cbn [bind fst]; [|discriminate].
  intros H Z M N W C. assert (y = z) as -> by congruence. destruct (Z.eqb_spec z 0) as [|_]; [easy|].
  assert (cache' = store_increment hash z comment cache) as -> by congruence. now apply store_new.
Qed.

Lemma userselect_block_spec {B} (blocks : list (text * B)) default answers label rest :
  userselect_block blocks default answers = Ok (label, rest) ->
  exists before a, answers = before ++ a :: rest /\ label = (match a with [] => default | _ => a end) /\ assoc label blocks <> None /\
    (forall b, In b before -> assoc (match b with [] => default | _ => b end) blocks = None).
Proof.
  induction answers as [|a answers IH]; cbn [userselect_block]; [discriminate|].
  destruct (assoc (match a with [] => default | _ => a end) blocks) as [v|] eqn:A.
  - intros H. exists [], a. assert (E : label = match a with [] => default | _ => a end) by congruence. split; [cbn; congruence|]. split; [easy|]. split; [rewrite E, A; easy|easy].
  - intros H. destruct (IH H) as (before & b & -> & L & S & N). exists (a :: before), b. repeat split; try easy. intros c [<-|I]; auto.
Qed.
(** ** Markers *)
Section Mark.
  Context {L : Type}.
  Variable line_eqb : L -> L -> bool.
  Variable line_text : L -> text.
  Variable parse : text -> res (list L).
  Variable find_loops : list L -> list (text * list L).
  Variable metric : list L -> list Z.
  Variable detect : list L -> res (option Z).
  Variable md5 : text -> text.
  Variable marker : text -> list L * list L.
  Hypothesis eqb_spec : forall x y, reflect (x = y) (line_eqb x y).

  Lemma index_app pre x post : ~ In x pre -> index_of line_eqb x (pre ++ x :: post) = Ok (length pre).
  Proof.
    induction pre as [|y pre IH]; cbn [app index_of length]; intros H; [destruct (eqb_spec x x); [easy|congruence]|].
    destruct (eqb_spec y x) as [E|N]; [exfalso; apply H; now left|]. rewrite IH; [easy|]. intros I. apply H. now right.
  Qed.
  Lemma bounds_spec pre block post : NoDup (pre ++ block ++ post) -> block <> [] ->
    bounds line_eqb (pre ++ block ++ post) block = Ok (length pre, length pre + length block)%nat.
  Proof.
    intros N B. unfold bounds. destruct block as [|x b]; [easy|]. cbn [first_line bind].
    assert (I1 : index_of line_eqb x (pre ++ (x :: b) ++ post) = Ok (length pre)).
    { cbn [app]. apply index_app. cbn [app] in N. apply NoDup_remove_2 in N. rewrite in_app_iff in N. tauto. }
    rewrite I1. cbn [bind last_line]. 
    assert (E : exists b', x :: b = b' ++ [last b x]).
    { exists (removelast (x :: b)). assert (A := app_removelast_last x (l := x :: b) ltac:(easy)). rewrite A at 1. f_equal. f_equal.
      cbn [last]. clear. destruct b as [|y b]; [easy|]. revert y. induction b as [|z b IH]; intros y; [easy|]. cbn [last] in *. apply IH. }
    destruct E as [b' E]. rewrite E. rewrite E in N.
    assert (I2 : index_of line_eqb (last b x) (pre ++ (b' ++ [last b x]) ++ post) = Ok (length (pre ++ b'))).
    { replace (pre ++ (b' ++ [last b x]) ++ post) with ((pre ++ b') ++ last b x :: post) in * by (rewrite <- !app_assoc; reflexivity).
      apply index_app. apply NoDup_remove_2 in N. rewrite in_app_iff in N. tauto. }
    rewrite I2. cbn [bind]. do 2 f_equal. rewrite !app_length. cbn. lia.
  Qed.
  Lemma insert_spec (pre block post : list L) m :
    insert_markers (pre ++ block ++ post) (length pre) (length pre + length block) m = pre ++ fst m ++ block ++ snd m ++ post.
  Proof.
    assert (F : forall a b : list L, firstn (length a) (a ++ b) = a) by (intros a b; rewrite firstn_app, Nat.sub_diag, firstn_all; cbn; apply app_nil_r).
    assert (S : forall a b : list L, skipn (length a) (a ++ b) = b) by (intros a b; rewrite skipn_app, Nat.sub_diag, skipn_all; reflexivity).
    unfold insert_markers. rewrite F. rewrite <- app_length, (app_assoc pre block post), F, S, S. reflexivity.
  Qed.

  Let instr := asm_instrumentation line_eqb line_text parse find_loops metric detect md5 marker.
  Lemma assoc_in {B} k (d : list (text * B)) v : assoc k d = Some v -> In (k, v) d.
  Proof.
    induction d as [|[x w] d IH]; cbn [assoc]; [discriminate|]. destruct (text_eqb_spec k x) as [E|N]; intros H; [left; congruence|right; auto].
  Qed.
  Lemma choose_block_in debug sel blocks answers block rest :
    choose_block metric debug sel blocks answers = Ok (block, rest) -> exists label, In (label, block) blocks.
  Proof.
    unfold choose_block. destruct (if debug then SelManual else sel); try discriminate.
    - destruct (select_best_block metric blocks) as [l|]; cbn [bind]; [|discriminate]. destruct (assoc l blocks) eqn:A; [|discriminate].
      intros H. exists l. apply assoc_in. congruence.
    - destruct (select_best_block metric blocks) as [l|]; cbn [bind]; [|discriminate].
      destruct (userselect_block blocks l answers) as [[x r]|]; cbn [bind fst snd]; [|discriminate]. destruct (assoc x blocks) eqn:A; [|discriminate].
      intros H. exists x. apply assoc_in. congruence.
  Qed.
  Lemma mark_spec same debug sel c comment cache output code answers lines block inc :
    parse code = Ok lines -> NoDup lines -> (forall label b, In (label, b) (find_loops lines) -> part_of b lines) ->
    result (instr same debug sel c comment cache output code answers) = Ok (block, inc) ->
    exists label pre post start stop, In (label, block) (find_loops lines) /\ lines = pre ++ block ++ post /\
      marker (comment_text inc (hashblock line_text md5 block)) = (start, stop) /\
      output_after (instr same debug sel c comment cache output code answers) =
        match (if same then Some [] else output) with
        | Some o => Some (o ++ written line_text (pre ++ start ++ block ++ stop ++ post))
        | None => None
        end.
  Proof.
    intros P N F. unfold instr, asm_instrumentation. rewrite P.
    destruct (choose_block metric debug sel (find_loops lines) answers) as [[b rest]|] eqn:CB; [|discriminate].
    destruct (choose_block_in _ _ _ _ _ _ CB) as [label IN]. destruct (F _ _ IN) as (NB & pre & post & EL).
    rewrite EL in N. assert (BS := bounds_spec pre b post N NB). rewrite <- EL in BS. rewrite BS.
    destruct (choose_increment line_text detect md5 c comment cache b rest) as [[[z|e] cache'] removed]; [|discriminate].
    cbn [result output_after]. intros H. assert (b = block /\ z = inc) as [-> ->] by (split; congruence).
    destruct (marker (comment_text inc (hashblock line_text md5 block))) as [start stop] eqn:M.
    exists label, pre, post, start, stop. repeat split; try easy. cbn [fst snd]. now rewrite EL, insert_spec.
  Qed.
  Lemma mark_auto c comment cache output code answers lines block inc same :
    parse code = Ok lines -> result (instr same false SelAuto c comment cache output code answers) = Ok (block, inc) ->
    exists label, select_best_block metric (find_loops lines) = Ok label /\ assoc label (find_loops lines) = Some block.
  Proof.
    intros P. unfold instr, asm_instrumentation. rewrite P. unfold choose_block.
    destruct (select_best_block metric (find_loops lines)) as [l|]; cbn [bind]; [|discriminate].
    destruct (assoc l (find_loops lines)) as [b|] eqn:A; [|discriminate].
    destruct (bounds line_eqb lines b) as [[s e]|]; [|discriminate].
    destruct (choose_increment line_text detect md5 c comment cache b answers) as [[[z|e'] cache'] removed]; [|discriminate].
    cbn [result]. intros H. exists l. split; [easy|]. congruence.
  Qed.
  Lemma mark_manual debug sel c comment cache output code answers lines block inc same :
    debug = true \/ sel = SelManual -> parse code = Ok lines ->
    result (instr same debug sel c comment cache output code answers) = Ok (block, inc) ->
    exists best before a rest, select_best_block metric (find_loops lines) = Ok best /\ answers = before ++ a :: rest /\
      assoc (match a with [] => best | _ => a end) (find_loops lines) = Some block /\
      (forall b, In b before -> assoc (match b with [] => best | _ => b end) (find_loops lines) = None).
  Proof.
    intros DS P. unfold instr, asm_instrumentation. rewrite P. unfold choose_block.
    assert ((if debug then SelManual else sel) = SelManual) as -> by (destruct DS as [->| ->]; [easy|now destruct debug]).
    destruct (select_best_block metric (find_loops lines)) as [l|]; cbn [bind]; [|discriminate].
    destruct (userselect_block (find_loops lines) l answers) as [[x r]|] eqn:U; cbn [bind fst snd]; [|discriminate].
    destruct (userselect_block_spec _ _ _ _ _ U) as (before & a & EA & EL & S & N).
    destruct (assoc x (find_loops lines)) as [b|] eqn:A; [|discriminate].
    destruct (bounds line_eqb lines b) as [[s e]|]; [|discriminate].
    destruct (choose_increment line_text detect md5 c comment cache b r) as [[[z|e'] cache'] removed]; [|discriminate].
    cbn [result]. intros H. exists l, before, a, r. repeat split; try easy. rewrite <- EL, A. congruence.
  Qed.
  Lemma mark_number z c comment cache output code answers lines same :
    parse code = Ok lines -> result (instr same false (SelNumber z) c comment cache output code answers) = Err KeyError.
  Proof. intros P. unfold instr, asm_instrumentation. now rewrite P. Qed.
  (** Failures *)
  Lemma mark_failure same debug sel c comment cache output code answers e :
    let o := instr same debug sel c comment cache output code answers in
    result o = Err e ->
    cache_after o = cache /\
    match parse code with
    | Err _ => output_after o = output
    | Ok _ => output_after o = None \/ output_after o = (if same then Some [] else output)
    end.
  Proof.
    cbn zeta. unfold instr, asm_instrumentation. destruct (parse code) as [lines|x]; [|easy].
    destruct (choose_block metric debug sel (find_loops lines) answers) as [[b rest]|]; [|auto].
    destruct (bounds line_eqb lines b) as [[s e']|]; [|auto].
    destruct (choose_increment line_text detect md5 c comment cache b rest) as [[[z|e''] cache'] removed] eqn:CI; [discriminate|].
    cbn [result cache_after output_after]. intros _. split; [|destruct removed; auto].
    unfold choose_increment in CI. destruct c; try congruence;
      destruct (increment_of line_text detect md5 cache b) as [[y|]|]; try congruence;
      destruct (userselect_increment _ _ _ _ _) as [[u w]|]; congruence.
  Qed.
  Lemma mark_undetected debug sel comment cache code answers lines block rest s e :
    parse code = Ok lines -> choose_block metric debug sel (find_loops lines) answers = Ok (block, rest) ->
    bounds line_eqb lines block = Ok (s, e) ->
    detect block = Ok None -> find_increment (hashblock line_text md5 block) cache = None ->
    let o := instr true debug sel IncAuto comment cache (Some code) code answers in
    result o = Err RuntimeError /\ output_after o = None.
  Proof.
    intros P CB B D F. cbn zeta. unfold instr, asm_instrumentation. rewrite P, CB, B. unfold choose_increment, increment_of. rewrite D. cbn [bind].
    rewrite F. easy.
  Qed.
  (** Increments given by the user are found again. *)
  Lemma increment_found cache block z : detect block = Ok None -> find_increment (hashblock line_text md5 block) cache = Some z ->
    forall comment answers, choose_increment line_text detect md5 IncAuto comment cache block answers = ((Ok z, cache), false)
      /\ choose_increment line_text detect md5 IncFallback comment cache block answers = ((Ok z, cache), false).
  Proof. intros D F comment answers. unfold choose_increment, increment_of. rewrite D. cbn [bind]. now rewrite F. Qed.
End Mark.

(** ** Increment of marked assembly *)
Lemma key_prefix_app p r : p <> [] -> starts_with key (p ++ key ++ r) = true -> exists q, p = key ++ q.
Proof.
  intros N H. apply starts_with_spec in H as [s H].
  assert (A : forall k (x : text) m, length m = k -> firstn k (m ++ x) = m).
  { clear. intros k x m <-. rewrite firstn_app, Nat.sub_diag, firstn_all. cbn. now rewrite app_nil_r. }
  destruct (Nat.le_gt_cases (length key) (length p)) as [Le|Lt].
  - assert (F := f_equal (firstn (length key)) H). rewrite (A _ s key eq_refl) in F. rewrite firstn_app in F.
    replace (length key - length p)%nat with 0%nat in F by lia. cbn [firstn] in F. rewrite app_nil_r in F.
    exists (skipn (length key) p). rewrite <- F at 1. now rewrite firstn_skipn.
  - exfalso. assert (E : nth_error (p ++ key ++ r) 17 = Some 61) by now rewrite H.
    change (length key) with 18%nat in Lt. rewrite nth_error_app2 in E by lia.
    destruct p as [|c p]; [easy|]. cbn [length] in *. 
    assert (B : forall i, (i < 17)%nat -> nth_error (key ++ r) i <> Some 61).
    { clear. intros i Hi. do 17 (destruct i as [|i]; [cbn; discriminate|]). lia. }
    apply (B (17 - S (length p))%nat); [lia|easy].
Qed.
Lemma search_skip pre r : ~ occurs key pre -> search_increment (pre ++ key ++ r) = search_increment (key ++ r).
Proof.
  induction pre as [|c pre IH]; intros H; [easy|]. cbn [app search_increment].
  destruct (starts_with key (c :: pre ++ key ++ r)) eqn:S.
  - exfalso. apply H. change (c :: pre ++ key ++ r) with ((c :: pre) ++ key ++ r) in S. apply key_prefix_app in S as [q ->]; [|easy].
    now exists [], q.
  - apply IH. intros (a & b & ->). apply H. now exists (c :: a), b.
Qed.
Lemma digits_leading d r : forallb is_decimal d = true -> (forall c r', r = c :: r' -> is_decimal c = false) -> leading_digits (d ++ r) = d.
Proof.
  induction d as [|c d IH]; cbn [app forallb leading_digits]; intros H R.
  - destruct r as [|c r]; [easy|]. cbn [leading_digits]. now rewrite (R c r eq_refl).
  - apply andb_true_iff in H as [-> H]. now rewrite IH.
Qed.
Lemma search_key r : search_increment (key ++ r) = match leading_digits r with [] => search_increment r | d => Some (Z.of_N (value d)) end.
Proof.
  assert (S : starts_with key (key ++ r) = true) by (apply starts_with_spec; now exists r).
  assert (K : skipn (length key) (key ++ r) = r) by (rewrite skipn_app, Nat.sub_diag, skipn_all; reflexivity).
  assert (T : search_increment (skipn 1 key ++ r) = search_increment r) by reflexivity.
  change (key ++ r) with (112 :: skipn 1 key ++ r) in *. cbn [search_increment]. rewrite S, K, T. now destruct (leading_digits r).
Qed.
Lemma search_occurs s z : search_increment s = Some z -> occurs key s.
Proof.
  induction s as [|c s IH]; intros H; [discriminate|]. cbn [search_increment] in H. destruct (starts_with key (c :: s)) eqn:S.
  - apply starts_with_spec in S as [r ->]. now exists [], r.
  - destruct (IH H) as (a & b & ->). now exists (c :: a), b.
Qed.
Lemma search_none s : ~ occurs key s -> search_increment s = None.
Proof. destruct (search_increment s) eqn:S; [|easy]. intros N. apply search_occurs in S. easy. Qed.
Lemma roundtrip pre z post : ~ occurs key pre -> (0 <= z)%Z -> (forall c r, post = c :: r -> ~ 48 <= c <= 57) ->
  cached_increment (pre ++ key ++ show_int z ++ post) = (Ok z, Some (pre ++ key ++ show_int z ++ post)).
Proof.
  intros N Z P. unfold cached_increment. rewrite search_skip by easy. rewrite search_key.
  assert (D : exists d, show_int z = show_nat d /\ Z.of_N d = z).
  { destruct z as [|p|p]; [exists 0|exists (Npos p)|lia]; easy. }
  destruct D as (d & -> & <-). destruct (show_nat_spec d) as (V & A & NN). rewrite digits_leading; [|easy|].
  2:{ intros c r ->. specialize (P c r eq_refl). destruct (is_decimal c) eqn:E; [apply is_decimal_spec in E; lia|easy]. }
  destruct (show_nat d) as [|c s] eqn:E; [easy|]. now rewrite V.
Qed.
Lemma negative_lost pre z post : ~ occurs key pre -> (z < 0)%Z -> ~ occurs key post ->
  cached_increment (pre ++ key ++ show_int z ++ post) = (Err SystemExit, None).
Proof.
  intros N Z P. unfold cached_increment. rewrite search_skip by easy. rewrite search_key. destruct z as [|p|p]; try lia. cbn [show_int app leading_digits].
  change (is_decimal 45) with false. cbn iota.
  assert (A : forall d s, (forall c, In c d -> c <> 112) -> search_increment (d ++ s) = search_increment s).
  { clear. intros d s. induction d as [|c d IH]; intros H; [easy|]. cbn [app search_increment].
    assert (starts_with key (c :: d ++ s) = false) as ->.
    { change key with (112 :: skipn 1 key). cbn [starts_with]. destruct (N.eqb_spec 112 c) as [E|]; [|easy]. exfalso. apply (H c); [now left|easy]. }
    apply IH. intros c' I. apply H. now right. }
  change (45 :: show_nat (Npos p) ++ post) with ((45 :: show_nat (Npos p)) ++ post). rewrite A.
  - now rewrite search_none.
  - intros c I. apply (show_int_chars (Zneg p)) in I. lia.
Qed.

Section EndToEnd.
  Context {L : Type}.
  Variable line_eqb : L -> L -> bool.
  Variable line_text : L -> text.
  Variable parse : text -> res (list L).
  Variable find_loops : list L -> list (text * list L).
  Variable metric : list L -> list Z.
  Variable detect : list L -> res (option Z).
  Variable md5 : text -> text.
  Variable marker : text -> list L * list L.
  Lemma written_app (a b : list L) : written line_text (a ++ b) = written line_text a ++ written line_text b.
  Proof. apply flat_map_app. Qed.
  Lemma endtoend debug sel c comment cache code answers lines block inc :
    (forall x y, reflect (x = y) (line_eqb x y)) -> parse code = Ok lines -> NoDup lines ->
    (forall label b, In (label, b) (find_loops lines) -> part_of b lines) ->
    (forall cmt, exists a b, written line_text (fst (marker cmt)) = a ++ cmt ++ b /\ ~ In 112 a) ->
    ~ occurs key (written line_text lines) ->
    let o := asm_instrumentation line_eqb line_text parse find_loops metric detect md5 marker false debug sel c comment cache (Some []) code answers in
    result o = Ok (block, inc) -> (0 <= inc)%Z ->
    exists f, output_after o = Some f /\ cached_increment f = (Ok inc, Some f).
  Proof.
    intros EQ P N F M K. cbn zeta. intros R I.
    destruct (mark_spec line_eqb line_text parse find_loops metric detect md5 marker EQ false debug sel c comment cache (Some []) code answers lines block inc P N F R)
      as (label & pre & post & start & stop & IN & EL & EM & EO).
    rewrite EO. cbn [app]. eexists. split; [reflexivity|]. rewrite !written_app.
    destruct (M (comment_text inc (hashblock line_text md5 block))) as (a & b & EA & NA). rewrite EM in EA. cbn [fst] in EA. rewrite EA.
    set (rest := written line_text block ++ written line_text stop ++ written line_text post).
    unfold comment_text.
    replace (written line_text pre ++ (a ++ (codes "pointer_increment=" ++ show_int inc ++ codes " " ++ hashblock line_text md5 block) ++ b) ++ rest)
      with ((written line_text pre ++ a) ++ key ++ show_int inc ++ (codes " " ++ hashblock line_text md5 block ++ b ++ rest))
      by (unfold key; rewrite <- !app_assoc; reflexivity).
    apply roundtrip; [|easy|].
    - intros (u & v & E). apply K. rewrite EL, written_app. 
      assert (Q : exists w, written line_text pre = (u ++ key) ++ w).
      { rewrite app_assoc in E. clear - E NA.
        destruct (Nat.le_gt_cases (length (u ++ key)) (length (written line_text pre))) as [Le|Gt].
        - assert (X := f_equal (firstn (length (u ++ key))) E).
          rewrite (firstn_app (length (u ++ key)) (u ++ key) v), Nat.sub_diag, firstn_all in X. cbn [firstn] in X. rewrite app_nil_r in X.
          rewrite firstn_app in X. replace (length (u ++ key) - length (written line_text pre))%nat with 0%nat in X by lia.
          cbn [firstn] in X. rewrite app_nil_r in X. exists (skipn (length (u ++ key)) (written line_text pre)). rewrite <- X at 1. now rewrite firstn_skipn.
        - exfalso. destruct (Nat.le_gt_cases (length (written line_text pre)) (length u)) as [Le'|Lt'].
          + apply NA. assert (X := f_equal (fun s => nth_error s (length u)) E). cbn beta in X.
            rewrite (nth_error_app1 (u ++ key)) in X by (rewrite app_length; cbn; lia). rewrite (nth_error_app2 u) in X by lia. rewrite Nat.sub_diag in X.
            rewrite nth_error_app2 in X by lia. eapply nth_error_In. exact X.
          + (* the key starts in [pre], and the written lines end with a line feed *)
            destruct (written line_text pre) as [|x0 w0] eqn:W; [cbn in Lt'; lia|].
            assert (LF : exists s, written line_text pre = s ++ [10]).
            { destruct pre as [|l pre] using rev_ind; [cbn in W; congruence|]. clear. unfold written. rewrite flat_map_app. cbn [flat_map]. rewrite app_nil_r, app_assoc. eauto. }
            destruct LF as [s LF]. rewrite <- W in *. rewrite LF in *. rewrite app_length in *. cbn [length] in *. rewrite ?app_length in *. change (length key) with 18%nat in *.
            assert (X := f_equal (fun t => nth_error t (length s)) E). cbn beta in X.
            rewrite <- app_assoc in X. rewrite (nth_error_app2 s) in X by lia. rewrite Nat.sub_diag in X. cbn [app nth_error] in X.
            rewrite nth_error_app1 in X by (rewrite app_length; cbn; lia). rewrite nth_error_app2 in X by lia.
            symmetry in X. apply nth_error_In in X. cbn in X. intuition congruence. }
      destruct Q as [w ->]. exists u, (w ++ written line_text (block ++ post)). now rewrite <- !app_assoc.
    - intros x r X. assert (x = 32) as -> by (cbn in X; congruence). lia.
  Qed.
End EndToEnd.
