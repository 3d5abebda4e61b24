From Coq Require Import Lia Permutation.
From Verif Require Import PyBase PyBaseFacts PyText IncModel IncSpec.
Local Open Scope Z_scope.
Local Open Scope list_scope.

(** ** Selection *)
Lemma tuple_ltb_spec a b : tuple_ltb a b = true <-> lex_lt a b.
Proof.
  revert b. induction a as [|x a IH]; intros [|y b]; cbn.
  - split; [easy|]. intros H. inversion H.
  - split; [constructor|easy].
  - split; [easy|]. intros H. inversion H.
  - destruct (Z.eqb_spec x y) as [->|N].
    + rewrite IH. split; [now constructor|]. intros H. inversion H; [lia|easy].
    + rewrite Z.ltb_lt. split; [now constructor|]. intros H. inversion H; [easy|]. now subst.
Qed.
Lemma lex_trans a b c : lex_lt a b -> lex_lt b c -> lex_lt a c.
Proof.
  intros H. revert c. induction H; intros c K; inversion K; subst; try (apply lex_here; lia); try (apply lex_later; auto); apply lex_end.
Qed.
Lemma lex_irrefl a : ~ lex_lt a a.
Proof. induction a as [|x a IH]; intros H; inversion H; [lia|auto]. Qed.
(** A total order on scores *)
Lemma lex_total a b : lex_lt a b \/ a = b \/ lex_lt b a.
Proof.
  revert b. induction a as [|x a IH]; intros [|y b]; auto using lex_end.
  destruct (Z.lt_trichotomy x y) as [L|[->|L]]; auto using lex_here.
  destruct (IH b) as [H|[->|H]]; auto using lex_later.
Qed.

Section Select.
  Context {B : Type}.
  Variable metric : B -> list Z.
  Lemma best_of_spec rest : forall label b done,
    (exists pre post, done = pre ++ (label, b) :: post /\ (forall x, In x pre -> lex_lt (metric (snd x)) (metric b)) /\ forall x, In x post -> ~ lex_lt (metric b) (metric (snd x))) ->
    exists pre b' post, done ++ rest = pre ++ (best_of metric label (metric b) rest, b') :: post /\
      (forall x, In x pre -> lex_lt (metric (snd x)) (metric b')) /\ (forall x, In x post -> ~ lex_lt (metric b') (metric (snd x))).
  Proof.
    induction rest as [|[l c] rest IH]; intros label b done (pre & post & -> & H1 & H2); cbn [best_of].
    - exists pre, b, post. rewrite app_nil_r. auto.
    - destruct (tuple_ltb (metric b) (metric c)) eqn:E.
      + apply tuple_ltb_spec in E.
        replace ((pre ++ (label, b) :: post) ++ (l, c) :: rest) with ((pre ++ (label, b) :: post ++ [(l, c)]) ++ rest) by (rewrite <- !app_assoc; cbn; now rewrite <- app_assoc).
        apply IH. exists (pre ++ (label, b) :: post), []. split; [rewrite <- app_assoc; reflexivity|]. split; [|easy].
        intros x I. apply in_app_iff in I as [I|[<-|I]]; [eapply lex_trans; eauto|easy|].
        destruct (lex_total (metric (snd x)) (metric b)) as [L|[-> |L]]; [eapply lex_trans; eauto|easy|now apply H2 in L].
      + replace ((pre ++ (label, b) :: post) ++ (l, c) :: rest) with ((pre ++ (label, b) :: post ++ [(l, c)]) ++ rest) by (rewrite <- !app_assoc; cbn; now rewrite <- app_assoc).
        apply IH. exists pre, (post ++ [(l, c)]). split; [easy|]. split; [easy|].
        intros x I. apply in_app_iff in I as [I|[<-|[]]]; [auto|]. cbn. rewrite <- tuple_ltb_spec. congruence.
  Qed.
  Lemma select_spec blocks : blocks <> [] ->
    exists pre label b post, select_best_block metric blocks = Ok label /\ blocks = pre ++ (label, b) :: post /\
      (forall x, In x pre -> lex_lt (metric (snd x)) (metric b)) /\ (forall x, In x post -> ~ lex_lt (metric b) (metric (snd x))).
  Proof.
    destruct blocks as [|[l b] rest]; [easy|]. intros _. cbn [select_best_block].
    destruct (best_of_spec rest l b [(l, b)]) as (pre & b' & post & E & H1 & H2); [exists [], []; repeat split; easy|].
    exists pre, (best_of metric l (metric b) rest), b', post. auto.
  Qed.
End Select.

Lemma starts_with_spec p s : starts_with p s = true <-> exists r, s = p ++ r.
Proof.
  revert s. induction p as [|x p IH]; intros s; cbn; [split; eauto|]. destruct s as [|y s]; [split; [easy|intros [r E]; discriminate]|].
  rewrite andb_true_iff, IH, N.eqb_eq. split.
  - intros [-> [r ->]]. eauto.
  - intros [r E]. injection E as -> ->. eauto.
Qed.
Lemma is_packed_spec m : is_packed m = true <-> packed_name m.
Proof.
  unfold is_packed. rewrite existsb_exists. split.
  - intros (p & I & S). apply starts_with_spec in S as [r ->]. unfold packed_prefixes in I.
    apply in_flat_map in I as (v & Iv & I). apply in_flat_map in I as (o & Io & I). apply in_flat_map in I as (h & Ih & I).
    apply in_map_iff in I as (d & <- & Id). exists v, o, h, d, r. split; [now rewrite <- !app_assoc|].
    split; [destruct Iv as [<-|[<-|[]]]; auto|]. split; [destruct Ih as [<-|[<-|[]]]; auto|]. split; [destruct Id as [<-|[<-|[]]]; auto|].
    unfold tx in Io. cbn [map In] in Io |- *. tauto.
  - intros (v & o & h & d & r & -> & Hv & Hh & Hd & Ho). exists (v ++ o ++ h ++ d). split.
    + unfold packed_prefixes. apply in_flat_map. exists v. split; [destruct Hv as [->| ->]; cbn; auto|].
      apply in_flat_map. exists o. split; [unfold tx; cbn [map In] in Ho |- *; tauto|].
      apply in_flat_map. exists h. split; [destruct Hh as [->| ->]; cbn; auto|].
      apply in_map_iff. exists d. split; [reflexivity|]. destruct Hd as [->| ->]; cbn; auto.
    + apply starts_with_spec. exists r. now rewrite <- !app_assoc.
Qed.

(** ** Modifications *)
Lemma codes_app a b : codes (a ++ b) = codes a ++ codes b.
Proof. induction a as [|c a IH]; [reflexivity|]. cbn. now rewrite IH. Qed.
Lemma sized_spec n m : sized (codes n) m = true <-> with_size n (Some m).
Proof.
  unfold sized, with_size, tx. cbn [existsb]. rewrite !orb_true_iff. split.
  - intros H. assert (Y : forall x, text_eqb m x = true -> m = x) by (intros x Hx; destruct (text_eqb_spec m x); [easy|discriminate]).
    assert (X : m = codes n \/ m = codes n ++ codes "b" \/ m = codes n ++ codes "w" \/ m = codes n ++ codes "l" \/ m = codes n ++ codes "q").
    { destruct H as [H|[H|[H|[H|[H|H]]]]]; try apply Y in H; try tauto. discriminate. }
    rewrite <- !codes_app in X. destruct X as [X|[X|[X|[X|X]]]]; (eexists; split; [f_equal; exact X|cbn; tauto]).
  - intros (k & E & I). injection E as ->. cbn [In] in I. rewrite <- !codes_app.
    destruct I as [<-|[<-|[<-|[<-|[<-|[]]]]]];
      repeat match goal with |- context [text_eqb ?a ?a] => destruct (text_eqb_spec a a); [|contradiction] end; tauto.
Qed.

Ltac five I := cbn [In] in I; destruct I as [I|[I|[I|[I|[I|[]]]]]]; subst.
Lemma adds_modification l r c : adds l r c -> exists m, mnemonic l = Some m /\ modification m l = Ok (Some (r, c)).
Proof.
  assert (R : text_eqb r r = true) by (destruct (text_eqb_spec r r); [easy|contradiction]).
  intros H; inversion H as [? ? (n & E & I) O|? ? (n & E & I) O|? ? ? (n & E & I) O|? ? ? (n & E & I) O|? ? ? ? (n & E & I) O|? ? ? (n & E & I) O]; subst; exists (codes n); (split; [exact E|]);
    unfold modification, operand_at; rewrite O; five I; cbn; rewrite ?R; reflexivity.
Qed.

(** Tests of the mnemonic *)
Lemma modification_adds m l r c : mnemonic l = Some m -> shape l -> ~ scaled_lea l -> modification m l = Ok (Some (r, c)) -> adds l r c.
Proof.
  intros M (S1 & S2 & S3) NL. unfold modification, tx.
  destruct (sized (codes "inc") m) eqn:E1.
  { apply sized_spec in E1. rewrite <- M in E1. destruct S1 as [x O]; [tauto|]. unfold operand_at. rewrite O. cbn. intros E.
    assert (x = r /\ c = 1) as [<- ->] by (split; congruence). now apply adds_inc. }
  destruct (sized (codes "add") m) eqn:E2.
  { apply sized_spec in E2. rewrite <- M in E2. destruct S2 as (a & b & O); [tauto|]. unfold operand_at. rewrite O. cbn [nth_error bind].
    destruct a as [a|z|a|a]; cbn [bind];
      try (destruct (sized (codes "dec") m) eqn:E3; [apply sized_spec in E3; rewrite <- M in E3; destruct S1 as [x O']; [tauto|]; congruence|];
           destruct (sized (codes "sub") m) eqn:E4; cbn [bind];
           (destruct (sized (codes "lea") m) eqn:E5; [|easy]);
           apply sized_spec in E5; rewrite <- M in E5; destruct E2 as (n2 & N2 & I2), E5 as (n5 & N5 & I5); exfalso;
           assert (codes n2 = codes n5) by congruence; five I2; five I5; discriminate).
    destruct b as [b|b|b|b]; cbn [bind].
    - intros E. assert (b = r /\ z = c) as [<- <-] by (split; congruence). now apply adds_add.
    - destruct (sized (codes "dec") m) eqn:E3; [apply sized_spec in E3; rewrite <- M in E3; destruct S1 as [x O']; [tauto|]; congruence|].
      destruct (sized (codes "sub") m) eqn:E4; cbn [bind]; (destruct (sized (codes "lea") m) eqn:E5; [|easy]); easy.
    - destruct (sized (codes "dec") m) eqn:E3; [apply sized_spec in E3; rewrite <- M in E3; destruct S1 as [x O']; [tauto|]; congruence|].
      destruct (sized (codes "sub") m) eqn:E4; cbn [bind]; (destruct (sized (codes "lea") m) eqn:E5; [|easy]); easy.
    - destruct (sized (codes "dec") m) eqn:E3; [apply sized_spec in E3; rewrite <- M in E3; destruct S1 as [x O']; [tauto|]; congruence|].
      destruct (sized (codes "sub") m) eqn:E4; cbn [bind]; (destruct (sized (codes "lea") m) eqn:E5; [|easy]); easy. }
  cbn [bind].
  destruct (sized (codes "dec") m) eqn:E3.
  { apply sized_spec in E3. rewrite <- M in E3. destruct S1 as [x O]; [tauto|]. unfold operand_at. rewrite O. cbn. intros E.
    assert (x = r /\ c = -1) as [<- ->] by (split; congruence). now apply adds_dec. }
  destruct (sized (codes "sub") m) eqn:E4.
  { apply sized_spec in E4. rewrite <- M in E4. destruct S2 as (a & b & O); [tauto|]. unfold operand_at. rewrite O. cbn [nth_error bind].
    assert (E5 : sized (codes "lea") m = false).
    { destruct (sized (codes "lea") m) eqn:E5; [|easy]. apply sized_spec in E5. rewrite <- M in E5.
      destruct E4 as (n2 & N2 & I2), E5 as (n5 & N5 & I5). exfalso. assert (codes n2 = codes n5) by congruence. five I2; five I5; discriminate. }
    rewrite E5. destruct a as [a|z|a|a]; cbn [bind]; try easy. destruct b as [b|b|b|b]; cbn [bind]; try easy.
    intros E. assert (b = r /\ - z = c) as [<- <-] by (split; congruence). now apply adds_sub. }
  cbn [bind].
  destruct (sized (codes "lea") m) eqn:E5; [|easy]. apply sized_spec in E5. rewrite <- M in E5. destruct (S3 E5) as (a & x & O & D).
  unfold operand_at. rewrite O. cbn [nth_error bind memory_of name_of].
  destruct a as [b i sc d]. cbn [base index disp mscale] in *. destruct b as [b|], i as [i|]; try easy.
  - cbn [bind]. destruct (text_eqb_spec b x) as [E|N]; [|easy]. subst x. destruct D as [z ->]; [tauto|]. cbn [bind value_of].
    intros E. assert (b = r /\ z = c) as [<- <-] by (split; congruence). eapply adds_lea; eauto.
  - cbn [bind]. destruct (text_eqb_spec i x) as [E|N]; [|easy]. subst x. destruct D as [z ->]; [tauto|]. cbn [bind value_of].
    intros E. assert (i = r /\ z = c) as [<- <-] by (split; congruence).
    assert (sc = 1). { destruct (Z.eq_dec sc 1); [easy|]. exfalso. apply NL. split; [easy|]. eexists. eexists. split; [exact O|]. cbn. auto. }
    subst sc. eapply adds_lea_index; eauto.
Qed.
Lemma shape_ok m l : mnemonic l = Some m -> shape l -> exists x, modification m l = Ok x.
Proof.
  intros M (S1 & S2 & S3). unfold modification, tx.
  destruct (sized (codes "inc") m) eqn:E1.
  { apply sized_spec in E1. rewrite <- M in E1. destruct S1 as [x O]; [tauto|]. unfold operand_at. rewrite O. cbn. eauto. }
  assert (L : exists y, (if sized (codes "lea") m then do o <- operand_at l 0; do a <- memory_of o;
                match base a, index a with
                | Some b, None => do d <- operand_at l 1; do r <- name_of d; if text_eqb b r then do z <- value_of (disp a); Ok (Some (r, z)) else Ok None
                | None, Some i => do d <- operand_at l 1; do r <- name_of d; if text_eqb i r then do z <- value_of (disp a); Ok (Some (r, z)) else Ok None
                | _, _ => Ok None
                end else Ok None) = Ok y).
  { destruct (sized (codes "lea") m) eqn:E5; [|eauto]. apply sized_spec in E5. rewrite <- M in E5. destruct (S3 E5) as (a & x & O & D).
    unfold operand_at. rewrite O. cbn [nth_error bind memory_of name_of]. destruct a as [b i sc d]. cbn [base index disp mscale] in *.
    destruct b as [b|], i as [i|]; cbn [bind]; eauto.
    - destruct (text_eqb_spec b x) as [E|N]; eauto. subst x. destruct D as [z ->]; [tauto|]. cbn. eauto.
    - destruct (text_eqb_spec i x) as [E|N]; eauto. subst x. destruct D as [z ->]; [tauto|]. cbn. eauto. }
  destruct L as [y L].
  assert (SUB : exists y, (if sized (codes "dec") m then do o <- operand_at l 0; do r <- name_of o; Ok (Some (r, -1)) else
     do is_sub <- (if sized (codes "sub") m then do a <- operand_at l 0; match a with Imm z => do b <- operand_at l 1; Ok (match b with Reg r => Some (r, - z) | _ => None end) | _ => Ok None end else Ok None);
     match is_sub with Some x => Ok (Some x) | None => if sized (codes "lea") m then do o <- operand_at l 0; do a <- memory_of o;
                match base a, index a with
                | Some b, None => do d <- operand_at l 1; do r <- name_of d; if text_eqb b r then do z <- value_of (disp a); Ok (Some (r, z)) else Ok None
                | None, Some i => do d <- operand_at l 1; do r <- name_of d; if text_eqb i r then do z <- value_of (disp a); Ok (Some (r, z)) else Ok None
                | _, _ => Ok None
                end else Ok None end) = Ok y).
  { destruct (sized (codes "dec") m) eqn:E3.
    { apply sized_spec in E3. rewrite <- M in E3. destruct S1 as [x O]; [tauto|]. unfold operand_at. rewrite O. cbn. eauto. }
    destruct (sized (codes "sub") m) eqn:E4.
    - apply sized_spec in E4. rewrite <- M in E4. destruct S2 as (a & b & O); [tauto|].
      assert (O0 : operand_at l 0 = Ok a) by (unfold operand_at; now rewrite O). assert (O1 : operand_at l 1 = Ok b) by (unfold operand_at; now rewrite O).
      rewrite O0. cbn [bind]. destruct a as [a|z|a|a]; cbn [bind]; try (rewrite O0 in L; exists y; exact L).
      rewrite O1. cbn [bind]. destruct b as [b|b|b|b]; cbn [bind]; try (rewrite O0 in L; exists y; exact L). eauto.
    - cbn [bind]. eauto. }
  destruct (sized (codes "add") m) eqn:E2.
  - apply sized_spec in E2. rewrite <- M in E2. destruct S2 as (a & b & O); [tauto|].
    assert (O0 : operand_at l 0 = Ok a) by (unfold operand_at; now rewrite O). assert (O1 : operand_at l 1 = Ok b) by (unfold operand_at; now rewrite O).
    rewrite O0 in SUB |- *. cbn [bind] in SUB |- *. destruct a as [a|z|a|a]; cbn [bind]; try exact SUB.
    rewrite O1 in SUB |- *. cbn [bind] in SUB |- *. destruct b as [b|b|b|b]; cbn [bind]; try exact SUB. eauto.
  - cbn [bind]. exact SUB.
Qed.

(** ** The scan *)
Definition recog (l : line) : option (text * Z) :=
  match mnemonic l with Some m => match modification m l with Ok x => x | Err _ => None end | None => None end.
Definition hits (r : text) (l : line) : Prop := exists c, recog l = Some (r, c).
Definition cnt (r : text) (l : list text) : nat := length (filter (text_eqb r) l).
Lemma teq_refl r : text_eqb r r = true.
Proof. destruct (text_eqb_spec r r); [easy|contradiction]. Qed.
Lemma teq_neq r x : r <> x -> text_eqb r x = false.
Proof. intros N. destruct (text_eqb_spec r x); [contradiction|easy]. Qed.
Lemma cnt_app r a b : cnt r (a ++ b) = (cnt r a + cnt r b)%nat.
Proof. unfold cnt. rewrite filter_app. apply app_length. Qed.
Lemma dict_get_set k v d : dict_get k (dict_set k v d) = Ok v.
Proof. induction d as [|[x w] d IH]; cbn; [now rewrite teq_refl|]. destruct (text_eqb k x) eqn:E; cbn; now rewrite E. Qed.
Lemma dict_get_other k k' v d : k <> k' -> dict_get k (dict_set k' v d) = dict_get k d.
Proof.
  intros N. induction d as [|[x w] d IH]; cbn; [now rewrite (teq_neq k k' N)|].
  destruct (text_eqb_spec k' x) as [E|M]; cbn; [subst x; now rewrite (teq_neq k k' N)|]. now rewrite IH.
Qed.
Lemma dict_keys k v d x : In x (map fst (dict_set k v d)) <-> x = k \/ In x (map fst d).
Proof.
  induction d as [|[y w] d IH]; cbn; [intuition congruence|]. destruct (text_eqb_spec k y) as [->|N]; cbn; [intuition congruence|]. rewrite IH. tauto.
Qed.
Lemma dict_nodup k v d : NoDup (map fst d) -> NoDup (map fst (dict_set k v d)).
Proof.
  induction d as [|[y w] d IH]; cbn; [constructor; [easy|constructor]|]. intros H. inversion H as [|? ? H1 H2]; subst.
  destruct (text_eqb_spec k y) as [->|N]; cbn; [now constructor|]. constructor; [|auto]. rewrite dict_keys. intros [->|I]; contradiction.
Qed.
Lemma dict_get_in k d : In k (map fst d) <-> exists v, dict_get k d = Ok v.
Proof.
  induction d as [|[y w] d IH]; cbn; [split; [easy|intros [v H]; discriminate]|]. destruct (text_eqb_spec k y) as [->|N].
  - split; eauto.
  - rewrite <- IH. split; [intros [E|I]; [congruence|easy]|auto].
Qed.

Lemma scan_line_spec st l st' : scan_line st l = Ok st' ->
  match recog l with
  | Some (r, c) => modified st' = modified st ++ [r] /\ increments st' = dict_set r c (increments st)
  | None => modified st' = modified st /\ increments st' = increments st
  end.
Proof.
  unfold scan_line, recog. destruct (mnemonic l) as [m|]; [|intros E; injection E as <-; easy].
  destruct (modification m l) as [x|e]; [|easy]. cbn [bind]. intros E.
  destruct x as [[r z]|]; injection E as <-; easy.
Qed.
Lemma scan_block_spec block : forall st st', scan_block st block = Ok st' -> forall r,
  cnt r (modified st') = (cnt r (modified st) + length (filter (fun l => match recog l with Some (x, _) => text_eqb r x | None => false end) block))%nat /\
  ((forall l, In l block -> ~ hits r l) -> dict_get r (increments st') = dict_get r (increments st)) /\
  (In r (map fst (increments st')) <-> In r (map fst (increments st)) \/ exists l, In l block /\ hits r l) /\
  (NoDup (map fst (increments st)) -> NoDup (map fst (increments st'))).
Proof.
  induction block as [|l block IH]; intros st st' H r; cbn [scan_block] in H.
  - injection H as <-. cbn. repeat split; auto; try lia; try tauto. intros [I|(l & [] & _)]. easy.
  - destruct (scan_line st l) as [st1|e] eqn:E; [|easy]. cbn [bind] in H. apply scan_line_spec in E.
    destruct (IH st1 st' H r) as (I1 & I2 & I3 & I4). cbn [filter].
    assert (HH : forall x c, recog l = Some (x, c) -> hits r l <-> r = x).
    { intros x c R. unfold hits. rewrite R. split; [intros [d D]; congruence|intros ->; eauto]. }
    destruct (recog l) as [[x c]|] eqn:R.
    + destruct E as [M C]. rewrite M in I1. rewrite C in I2, I3, I4. rewrite cnt_app in I1. specialize (HH x c eq_refl).
      unfold cnt in I1 at 3. cbn [filter] in I1. repeat split.
      * rewrite I1. destruct (text_eqb r x); cbn; lia.
      * intros N. rewrite I2 by (intros l' I'; apply N; now right). apply dict_get_other. intros ->. apply (N l); [now left|]. now apply HH.
      * rewrite I3, dict_keys. intros [[->|I]|(l' & I & J)]; [right; exists l; split; [now left|now apply HH]|now left|right; exists l'; split; [now right|easy]].
      * rewrite I3, dict_keys. intros [I|(l' & [<-|I] & J)]; [auto|left; left; now apply HH|right; eauto].
      * intros ND. apply I4. now apply dict_nodup.
    + destruct E as [M C]. rewrite M in I1. rewrite C in I2, I3, I4.
      assert (NH : ~ hits r l) by (unfold hits; rewrite R; intros [d D]; discriminate). repeat split.
      * rewrite I1. lia.
      * intros N. apply I2. intros l' I'. apply N. now right.
      * rewrite I3. intros [I|(l' & I & J)]; [auto|right; exists l'; split; [now right|easy]].
      * rewrite I3. intros [I|(l' & [<-|I] & J)]; [auto|contradiction|right; eauto].
      * easy.
Qed.
Lemma scan_unique block : forall st st' r, scan_block st block = Ok st' -> cnt r (modified st') = 1%nat -> cnt r (modified st) = 0%nat ->
  exists b1 l b2 c, block = b1 ++ l :: b2 /\ recog l = Some (r, c) /\ (forall l', In l' (b1 ++ b2) -> ~ hits r l') /\ dict_get r (increments st') = Ok c.
Proof.
  induction block as [|l block IH]; intros st st' r H C1 C0; cbn [scan_block] in H.
  - injection H as <-. lia.
  - destruct (scan_line st l) as [st1|e] eqn:E; [|easy]. cbn [bind] in H. apply scan_line_spec in E.
    destruct (recog l) as [[x c]|] eqn:R.
    + destruct E as [M C]. destruct (text_dec r x) as [<-|N].
      * destruct (scan_block_spec block st1 st' H r) as (I1 & I2 & _). rewrite M, cnt_app in I1. unfold cnt at 3 in I1. cbn [filter] in I1. rewrite teq_refl in I1. cbn [length] in I1.
        assert (Z : length (filter (fun l => match recog l with Some (x, _) => text_eqb r x | None => false end) block) = 0%nat) by lia.
        assert (NH : forall l', In l' block -> ~ hits r l').
        { intros l' I' [d D]. apply length_zero_iff_nil in Z.
          assert (In l' []) as []. rewrite <- Z. apply filter_In. split; [easy|]. rewrite D. apply teq_refl. }
        exists [], l, block, c. repeat split; auto. rewrite I2 by easy. rewrite C. apply dict_get_set.
      * destruct (IH st1 st' r H C1) as (b1 & l0 & b2 & c0 & -> & J1 & J2 & J3).
        { rewrite M, cnt_app, C0. unfold cnt. cbn [filter]. now rewrite (teq_neq r x N). }
        exists (l :: b1), l0, b2, c0. repeat split; auto. intros l' [<-|I']; [|auto]. intros [d D]. congruence.
    + destruct E as [M C]. destruct (IH st1 st' r H C1) as (b1 & l0 & b2 & c0 & -> & J1 & J2 & J3); [congruence|].
      exists (l :: b1), l0, b2, c0. repeat split; auto. intros l' [<-|I']; [|auto]. intros [d D]. congruence.
Qed.

(** References *)
Definition st_of (l : line) : list mem := match mnemonic l with Some _ => stores l | None => [] end.
Definition ld_of (l : line) : list mem := match mnemonic l with Some _ => loads l | None => [] end.
Lemma scan_refs block : forall st st', scan_block st block = Ok st' ->
  references st' = (if stores_only st then references st ++ flat_map st_of block
                    else match flat_map st_of block with [] => references st ++ flat_map ld_of block | _ => flat_map st_of block end).
Proof.
  induction block as [|l block IH]; intros st st' H; cbn [scan_block] in H.
  - injection H as <-. cbn. rewrite app_nil_r. now destruct (stores_only st).
  - destruct (scan_line st l) as [st1|e] eqn:E; [|easy]. cbn [bind] in H. apply IH in H. rewrite H. clear H IH. cbn [flat_map].
    unfold scan_line, st_of, ld_of in *. destruct (mnemonic l) as [m|]; [|injection E as <-; easy].
    destruct (modification m l) as [x|e]; [|easy]. cbn [bind] in E.
    assert (S : references st1 = (if stores_only st || match stores l with [] => false | _ => true end then
        (if match stores l with [] => false | _ => true end then (if stores_only st then references st else []) ++ stores l else references st)
        else (if match stores l with [] => false | _ => true end then (if stores_only st then references st else []) ++ stores l else references st) ++ loads l)
      /\ stores_only st1 = (stores_only st || match stores l with [] => false | _ => true end)%bool) by (destruct x as [[r z]|]; injection E as <-; easy).
    clear E. destruct S as [-> ->]. destruct (stores_only st); cbn [orb].
    + destruct (stores l) as [|a s]; [easy|]. now rewrite <- app_assoc.
    + destruct (stores l) as [|a s]; cbn [app].
      * rewrite <- app_assoc. reflexivity.
      * reflexivity.
Qed.
Lemma in_mems m l : In m (mems l) <-> In (Mem m) l.
Proof.
  unfold mems. rewrite in_flat_map. split.
  - intros (o & I & J). destruct o; try easy. destruct J as [->|[]]. easy.
  - intros I. exists (Mem m). split; [easy|]. now left.
Qed.
Lemma in_stores block m : In m (flat_map st_of block) <-> is_store block m.
Proof.
  unfold is_store. rewrite in_flat_map. split.
  - intros (l & I & J). exists l. unfold st_of in J. destruct (mnemonic l); [|easy]. unfold stores in J. apply filter_In in J as [J K].
    apply in_mems in J. repeat split; auto; try discriminate. intros E. rewrite E in K. cbn in K. discriminate.
  - intros (l & I & M & J & K). exists l. split; [easy|]. unfold st_of. destruct (mnemonic l); [|contradiction]. apply filter_In. split; [now apply in_mems|].
    destruct (base m) as [b|]; [|easy]. cbn [is_name]. destruct (text_eqb_spec b (tx "rip")) as [->|]; [now exfalso; apply K|easy].
Qed.
Lemma in_refs block st' m : scan_block (mkScan [] [] false []) block = Ok st' -> In m (references st') <-> considered block m.
Proof.
  intros H. apply scan_refs in H. cbn [stores_only references app] in H. rewrite H. unfold considered.
  destruct (flat_map st_of block) as [|a s] eqn:E.
  - assert (N : forall m', ~ is_store block m') by (intros m' I; apply in_stores in I; now rewrite E in I).
    split.
    + intros I. right. split; [easy|]. apply in_flat_map in I as (l & I & J). exists l. unfold ld_of in J.
      destruct (mnemonic l); [|easy]. repeat split; auto; try discriminate. now apply in_mems.
    + intros [I|(_ & l & I & M & J)]; [now apply N in I|]. apply in_flat_map. exists l. split; [easy|]. unfold ld_of. destruct (mnemonic l); [|contradiction].
      now apply in_mems.
  - rewrite <- E, in_stores. split; [now left|]. intros [I|[N _]]; [easy|]. exfalso. apply (N a). apply in_stores. rewrite E. now left.
Qed.

(** ** The deduction *)
Lemma list_eqb_eq (a b : list Z) : list_eqb Z.eqb a b = true <-> a = b.
Proof.
  revert b. induction a as [|x a IH]; intros [|y b]; cbn; try easy. rewrite andb_true_iff, IH, Z.eqb_eq. split; [intros [-> ->]; easy|intros E; injection E; auto].
Qed.
Lemma items_equal_spec l : items_equal l = true <-> forall x y, In x l -> In y l -> x = y.
Proof.
  unfold items_equal. rewrite list_eqb_eq. induction l as [|a l IH]; [easy|]. cbn [tl]. destruct l as [|b l].
  - cbn. split; [|easy]. intros _ x y [<-|[]] [<-|[]]. easy.
  - change (removelast (a :: b :: l)) with (a :: removelast (b :: l)). split.
    + intros E. assert (E1 : b = a) by congruence. assert (E2 : l = removelast (b :: l)) by (injection E; auto). subst b.
      assert (X := proj1 IH E2). intros x y Hx Hy. cbn [In] in Hx, Hy.
      apply X; cbn [In]; tauto.
    + intros H. assert (b = a) as -> by (apply H; cbn; auto). f_equal. apply IH. intros x y Hx Hy. apply H; now right.
Qed.
Lemma fold_uses refs : forall cand r,
  In r (fold_left (fun p m => match base m, index m with Some _, Some _ => filter (fun r => uses r m) p | _, _ => p end) refs cand) <->
  In r cand /\ forall m, In m refs -> base m <> None -> index m <> None -> uses r m = true.
Proof.
  induction refs as [|m refs IH]; intros cand r; cbn [fold_left].
  - split; [|tauto]. intros I. split; [easy|]. easy.
  - rewrite IH. destruct (base m) as [b|] eqn:B, (index m) as [i|] eqn:X; try (split; (intros [I J]; split; [easy|]; intros m' [<-|M] N1 N2; [congruence|auto]) || (intros [I J]; split; [easy|]; intros m' M; apply J; now right)).
    rewrite filter_In. split.
    + intros [[I U] J]. split; [easy|]. intros m' [<-|M] N1 N2; auto.
    + intros [I J]. split; [split; [easy|apply J; [now left| |]; congruence]|]. intros m' M. apply J. now right.
Qed.
Lemma uses_spec r m : uses r m = true <-> base m = Some r \/ index m = Some r.
Proof.
  unfold uses, is_name. rewrite orb_true_iff. destruct (base m) as [b|], (index m) as [i|];
    repeat match goal with |- context [text_eqb ?a ?b] => destruct (text_eqb_spec a b) end; intuition congruence.
Qed.
Lemma in_names r refs : member r (names_of refs) = true <-> exists m, In m refs /\ uses r m = true.
Proof.
  unfold member, names_of. rewrite existsb_exists. split.
  - intros (x & I & E). destruct (text_eqb_spec r x) as [<-|]; [|easy]. apply in_app_iff in I as [I|I]; apply in_flat_map in I as (m & M & J); exists m; (split; [easy|]); apply uses_spec.
    + destruct (base m); [|easy]. destruct J as [->|[]]. now left.
    + destruct (index m); [|easy]. destruct J as [->|[]]. now right.
  - intros (m & M & U). exists r. split; [|apply teq_refl]. apply in_app_iff. apply uses_spec in U as [U|U]; [left|right]; apply in_flat_map; exists m; (split; [easy|]); rewrite U; now left.
Qed.

Lemma deduce_spec order st inc : (forall l, Permutation (order l) l) -> deduce order st = Ok (Some inc) ->
  exists r s i, (forall m, In m (references st) -> base m <> None -> index m <> None -> uses r m = true) /\
    (exists m, In m (references st) /\ uses r m = true) /\ cnt r (modified st) = 1%nat /\
    (forall m, In m (references st) -> uses r m = true -> mscale m = s) /\ dict_get r (increments st) = Ok i /\ inc = s * i.
Proof.
  intros P. unfold deduce. destruct (references st) as [|m0 refs0] eqn:R; [easy|]. rewrite <- R. clear R m0 refs0.
  set (refs := references st). set (cand := order _). set (possible := fold_left _ refs cand).
  assert (K : forall r, In r possible -> (forall m, In m refs -> base m <> None -> index m <> None -> uses r m = true) /\ exists m, In m refs /\ uses r m = true).
  { intros r I. unfold possible in I. apply fold_uses in I as [I J]. split; [easy|]. unfold cand in I.
    apply (Permutation_in _ (P _)) in I. apply filter_In in I as [_ I]. now apply in_names. }
  destruct possible as [|r rest]; [easy|]. specialize (K r (or_introl eq_refl)). destruct K as [K1 K2].
  set (idx := match rest with [] => Ok (Some r) | _ => _ end).
  assert (X : match (r :: rest) with [] => Ok None | [x] => Ok (Some x) | x :: _ => do incs <- mapM (fun p => dict_get p (increments st)) (r :: rest); Ok (if items_equal incs then Some x else None) end = idx) by (unfold idx; now destruct rest).
  rewrite X || idtac. clear X.
  assert (Y : forall x, idx = Ok (Some x) -> x = r).
  { unfold idx. intros x. destruct rest; [intros E; congruence|]. destruct (mapM _ _) as [incs|e]; [|easy]. cbn [bind]. destruct (items_equal incs); congruence. }
  destruct idx as [[x|]|e]; cbn [bind]; try easy. rewrite (Y x eq_refl). clear Y x.
  destruct (negb (text_eqb r []) && (length (filter (text_eqb r) (modified st)) =? 1)%nat)%bool eqn:C; [|easy].
  apply andb_true_iff in C as [_ C]. apply Nat.eqb_eq in C.
  destruct (items_equal (map mscale (filter (uses r) refs))) eqn:I; [|easy]. apply items_equal_spec in I || idtac.
  destruct (map mscale (filter (uses r) refs)) as [|s scales] eqn:S; [easy|].
  destruct (dict_get r (increments st)) as [i|] eqn:D; [|easy]. cbn [bind]. intros E. injection E as <-.
  exists r, s, i. repeat split; auto. intros m M U. rewrite items_equal_spec in I || idtac. apply I; [|now left].
  rewrite <- S. apply in_map, filter_In. easy.
Qed.

(** ** Execution *)
Section Exec.
  Variable step : line -> state -> state.
  Lemma run_app a b s : run step (a ++ b) s = run step b (run step a s).
  Proof. revert s. induction a as [|l a IH]; intros s; [reflexivity|]. cbn. apply IH. Qed.
  Lemma run_unchanged block r : (forall l s, In l block -> step l s r = s r) -> forall s, run step block s r = s r.
  Proof.
    induction block as [|l block IH]; intros H s; [reflexivity|]. cbn [run]. rewrite IH by (intros; apply H; now right). apply H. now left.
  Qed.
  (** The value of a register that only one instruction changes, by adding [c] *)
  Lemma run_once b1 l b2 r c : (forall x s, In x (b1 ++ b2) -> step x s r = s r) -> (forall s, step l s r = s r + c) ->
    (forall s, run step (b1 ++ l :: b2) s r = s r + c) /\
    forall pre post, b1 ++ l :: b2 = pre ++ post -> forall s s', run step pre s' r - run step pre s r = s' r - s r.
  Proof.
    intros H L. split.
    - intros s. rewrite run_app. cbn [run]. rewrite run_unchanged by (intros; apply H, in_app_iff; now right). rewrite L.
      rewrite run_unchanged by (intros; apply H, in_app_iff; now left). reflexivity.
    - intros pre post E s s'.
      assert (X : forall x, In x (b1 ++ l :: b2) -> exists d, forall s, step x s r = s r + d).
      { intros x I. apply in_app_iff in I as [I|[<-|I]]; [exists 0| exists c; exact L|exists 0]; intros u; rewrite H by (apply in_app_iff; auto); lia. }
      rewrite E in X. assert (Y : forall x, In x pre -> exists d, forall s, step x s r = s r + d) by (intros x I; apply (X x), in_app_iff; now left).
      clear - Y. revert s s'. induction pre as [|x pre IH]; intros s s'; [reflexivity|]. cbn [run].
      rewrite IH by (intros; apply Y; now right). destruct (Y x (or_introl eq_refl)) as [d D]. rewrite !D. lia.
  Qed.
  Lemma run_prefix_unchanged block pre post n : block = pre ++ post -> (forall l s, In l block -> step l s n = s n) ->
    forall s, run step pre (run step block s) n = run step pre s n.
  Proof.
    intros -> H s.
    assert (Q : forall u, run step pre u n = u n) by (intros u; apply run_unchanged; intros l v I; apply H, in_app_iff; now left).
    rewrite !Q. now apply run_unchanged.
  Qed.
End Exec.

Lemma detect_advance order block inc :
  (forall l, Permutation (order l) l) -> (forall l, In l block -> shape l) -> (forall l, In l block -> ~ scaled_lea l) ->
  detect order block = Ok (Some inc) ->
  exists r, (exists m, considered block m /\ (base m = Some r \/ index m = Some r)) /\
    (forall m, considered block m -> base m <> None -> index m <> None -> base m = Some r \/ index m = Some r) /\
    forall step m, respects_additions step block -> only_additions step block r -> considered block m ->
      index m = Some r /\ unchanged step block (base m) \/ base m = Some r /\ mscale m = 1 /\ unchanged step block (index m) ->
      forall pre post s, block = pre ++ post -> advance step block pre m s = inc.
Proof.
  intros P S NL. unfold detect. destruct (scan_block _ block) as [st|e] eqn:SC; [|easy]. cbn [bind]. intros D.
  destruct (deduce_spec order st inc P D) as (r & s & i & K1 & (m0 & K2 & K3) & K4 & K5 & K6 & ->).
  assert (CR := fun m => in_refs block st m SC). exists r. split; [|split].
  - exists m0. split; [now apply CR|]. now apply uses_spec.
  - intros m C B I. apply uses_spec. apply K1; auto. now apply CR.
  - intros step m RA OA C U pre post s0 E.
    destruct (scan_unique block _ st r SC K4 eq_refl) as (b1 & l & b2 & c & B & RL & NH & DG).
    assert (c = i) by congruence. subst i.
    assert (LI : In l block) by (rewrite B; apply in_app_iff; right; now left).
    assert (AL : forall u, step l u r = u r + c).
    { intros u. apply RA; [easy|]. unfold recog in RL. destruct (mnemonic l) as [mn|] eqn:MN; [|easy].
      destruct (modification mn l) as [x|] eqn:MO; [|easy]. subst x. eapply modification_adds; eauto. }
    assert (OTH : forall x u, In x (b1 ++ b2) -> step x u r = u r).
    { intros x u I. assert (In x block) by (rewrite B; apply in_app_iff in I as [I|I]; apply in_app_iff; [now left|right; now right]).
      destruct (OA x H) as [[c' A]|A]; [|apply A]. exfalso. apply adds_modification in A as (mn & M1 & M2). apply (NH x I).
      exists c'. unfold recog. now rewrite M1, M2. }
    destruct (run_once step b1 l b2 r c OTH AL) as [R1 R2]. rewrite <- B in R1, R2.
    assert (DR : run step pre (run step block s0) r - run step pre s0 r = c).
    { rewrite (R2 pre post E). rewrite R1. lia. }
    assert (SC2 : mscale m = s). { apply K5; [now apply CR|]. apply uses_spec. tauto. }
    unfold advance, address. destruct U as [[U1 U2]|(U1 & U2 & U3)].
    + rewrite U1. cbn [reg_value]. assert (V : reg_value (run step pre (run step block s0)) (base m) = reg_value (run step pre s0) (base m)).
      { destruct (base m) as [b|] eqn:BM; [|reflexivity]. cbn [reg_value]. apply (run_prefix_unchanged step block pre post b E). intros x u I. now apply (U2 b). }
      rewrite V, SC2. clear V. nia.
    + rewrite U1. cbn [reg_value]. assert (V : reg_value (run step pre (run step block s0)) (index m) = reg_value (run step pre s0) (index m)).
      { destruct (index m) as [b|] eqn:BM; [|reflexivity]. cbn [reg_value]. apply (run_prefix_unchanged step block pre post b E). intros x u I. now apply (U3 b). }
      rewrite V. clear V. assert (s = 1) by congruence. subst s. lia.
Qed.

(** ** When an increment is detected *)
Lemma scan_ok block : (forall l, In l block -> shape l) -> forall st, exists st', scan_block st block = Ok st'.
Proof.
  induction block as [|l block IH]; intros S st; cbn [scan_block]; [eauto|].
  assert (X : exists st1, scan_line st l = Ok st1).
  { unfold scan_line. destruct (mnemonic l) as [m|] eqn:M; [|eauto]. destruct (shape_ok m l M (S l (or_introl eq_refl))) as [x ->]. cbn [bind]. eauto. }
  destruct X as [st1 ->]. cbn [bind]. apply IH. intros x I. apply S. now right.
Qed.
Lemma adds_recog l r c : adds l r c -> recog l = Some (r, c).
Proof. intros A. apply adds_modification in A as (m & M1 & M2). unfold recog. now rewrite M1, M2. Qed.
Lemma recog_adds l r c : shape l -> ~ scaled_lea l -> recog l = Some (r, c) -> adds l r c.
Proof.
  intros S N. unfold recog. destruct (mnemonic l) as [m|] eqn:M; [|easy]. destruct (modification m l) as [x|] eqn:E; [|easy].
  intros ->. eapply modification_adds; eauto.
Qed.
Lemma detects order b1 l b2 r c s m0 :
  let block := b1 ++ l :: b2 in
  (forall l, Permutation (order l) l) -> (forall l, In l block -> shape l) -> (forall l, In l block -> ~ scaled_lea l) -> r <> [] ->
  adds l r c -> (forall x d, In x (b1 ++ b2) -> ~ adds x r d) ->
  considered block m0 -> (forall m, considered block m -> (base m = Some r \/ index m = Some r) /\ mscale m = s) ->
  (forall m n x d, considered block m -> base m = Some n \/ index m = Some n -> n <> r -> In x block -> ~ adds x n d) ->
  detect order block = Ok (Some (s * c)).
Proof.
  intros block P S NL RN A OTH C0 CM CO. destruct (scan_ok block S (mkScan [] [] false [])) as [st SC]. unfold detect. rewrite SC. cbn [bind].
  assert (CR := fun m => in_refs block st m SC).
  assert (HR : forall x n, In x block -> hits n x -> exists d, adds x n d).
  { intros x n I [d D]. exists d. apply recog_adds; auto. }
  destruct (scan_block_spec block _ st SC r) as (B1 & _ & B3 & _). cbn [modified increments cnt filter length] in B1, B3.
  destruct (scan_block_spec block _ st SC r) as (_ & _ & _ & ND). specialize (ND (NoDup_nil _)).
  assert (LI : In l block) by (apply in_app_iff; right; now left).
  assert (NH : forall x, In x (b1 ++ b2) -> ~ hits r x).
  { intros x I Hx. assert (In x block) by (apply in_app_iff in I as [I|I]; apply in_app_iff; [now left|right; now right]). destruct (HR x r H Hx) as [d D]. eapply OTH; eauto. }
  assert (CNT : cnt r (modified st) = 1%nat).
  { unfold block in B1. rewrite filter_app in B1. cbn [filter] in B1. rewrite (adds_recog l r c A), teq_refl in B1.
    assert (Z : forall b, (forall x, In x b -> ~ hits r x) -> filter (fun l => match recog l with Some (x, _) => text_eqb r x | None => false end) b = []).
    { induction b as [|x b IH]; intros H; [reflexivity|]. cbn. destruct (recog x) as [[y d]|] eqn:RX.
      - destruct (text_eqb_spec r y) as [<-|]; [exfalso; apply (H x (or_introl eq_refl)); eexists; eauto|]. apply IH. intros z I. apply H. now right.
      - apply IH. intros z I. apply H. now right. }
    rewrite (Z b1), (Z b2) in B1 by (intros x I; apply NH, in_app_iff; auto). exact B1. }
  assert (DG : dict_get r (increments st) = Ok c).
  { destruct (scan_unique block _ st r SC CNT eq_refl) as (a1 & l' & a2 & c' & E & RL & NH' & DG).
    rewrite DG. f_equal. assert (In l' block) by (rewrite E; apply in_app_iff; right; now left).
    assert (Hl : hits r l') by (eexists; eauto). assert (I : In l' (b1 ++ l :: b2)) by exact H. apply in_app_iff in I as [I|[I|I]].
    - exfalso. apply (NH l'); [apply in_app_iff; auto|easy].
    - subst l'. rewrite (adds_recog l r c A) in RL. congruence.
    - exfalso. apply (NH l'); [apply in_app_iff; auto|easy]. }
  unfold deduce. destruct (references st) as [|mm refs0] eqn:R; [exfalso; apply (proj2 (CR m0)) in C0; exact C0|].
  rewrite <- R in *. clear R mm refs0. set (refs := references st) in *. set (cand := order _). 
  assert (RI : In r (map fst (increments st))) by (apply dict_get_in; eauto).
  assert (UM : forall m, In m refs -> uses r m = true) by (intros m M; apply uses_spec; apply CM; now apply CR).
  assert (M0 : In m0 refs) by now apply CR.
  assert (F : filter (fun r => member r (names_of refs)) (map fst (increments st)) = [r]).
  { assert (F1 : forall n, In n (filter (fun r => member r (names_of refs)) (map fst (increments st))) <-> n = r).
    { intros n. rewrite filter_In. split.
      - intros [I1 I2]. destruct (text_dec n r) as [|N]; [easy|]. exfalso. apply in_names in I2 as (m & M & U). apply uses_spec in U.
        destruct (scan_block_spec block _ st SC n) as (_ & _ & B3' & _). apply B3' in I1 as [[]|(x & I & Hx)].
        destruct (HR x n I Hx) as [d D]. exact (CO m n x d (proj1 (CR m) M) U N I D).
      - intros ->. split; [easy|]. apply in_names. exists m0. auto. }
    assert (F2 : NoDup (filter (fun r => member r (names_of refs)) (map fst (increments st)))) by now apply NoDup_filter.
    revert F1 F2. generalize (filter (fun r => member r (names_of refs)) (map fst (increments st))). intros cs F1 F2. destruct cs as [|a [|b q]].
    - exfalso. now apply (F1 r).
    - f_equal. apply F1. now left.
    - exfalso. inversion F2 as [|? ? N1 N2]. apply N1. left. transitivity r; [|symmetry]; apply F1; [right; now left|now left]. }
  assert (CD : cand = [r]).
  { unfold cand. rewrite F. apply Permutation_length_1_inv. symmetry. apply P. }
  rewrite CD.
  assert (PO : fold_left (fun p m => match base m, index m with Some _, Some _ => filter (fun r => uses r m) p | _, _ => p end) refs [r] = [r]).
  { clear - UM. induction refs as [|m refs IH]; [reflexivity|]. cbn [fold_left]. cbn [filter]. rewrite (UM m (or_introl eq_refl)).
    destruct (base m), (index m); apply IH; intros x I; apply UM; now right. }
  rewrite PO. cbn [bind]. rewrite (teq_neq r [] RN). unfold cnt in CNT. rewrite CNT. cbn [negb andb Nat.eqb].
  assert (AU : filter (uses r) refs = refs).
  { clear - UM. induction refs as [|m refs IH]; [reflexivity|]. cbn. rewrite (UM m (or_introl eq_refl)), IH; [easy|]. intros x I. apply UM. now right. }
  rewrite AU.
  assert (SS : forall x, In x (map mscale refs) -> x = s).
  { intros x I. apply in_map_iff in I as (m & <- & M). apply CM. now apply CR. }
  assert (IE : items_equal (map mscale refs) = true) by (apply items_equal_spec; intros x y X Y; rewrite (SS x X), (SS y Y); reflexivity).
  rewrite IE. destruct (map mscale refs) as [|y ys] eqn:MS; [apply (in_map mscale) in M0; now rewrite MS in M0|].
  rewrite DG. cbn [bind]. rewrite (SS y (or_introl eq_refl)). reflexivity.
Qed.

(** ** Order of sets *)
Lemma detect_order o1 o2 block :
  (forall l, Permutation (o1 l) l) -> (forall l, Permutation (o2 l) l) ->
  (forall l, In l block -> shape l) -> (forall l, In l block -> ~ scaled_lea l) ->
  (forall m m' n n' x x' d d', considered block m -> considered block m' -> base m = Some n \/ index m = Some n -> base m' = Some n' \/ index m' = Some n' ->
     In x block -> In x' block -> adds x n d -> adds x' n' d' -> n = n') ->
  detect o1 block = detect o2 block.
Proof.
  intros P1 P2 S NL U. destruct (scan_ok block S (mkScan [] [] false [])) as [st SC]. unfold detect. rewrite SC. cbn [bind]. unfold deduce.
  assert (CR := fun m => in_refs block st m SC).
  assert (HR : forall x n, In x block -> hits n x -> exists d, adds x n d) by (intros x n I [d D]; exists d; apply recog_adds; auto).
  destruct (references st) as [|mm rr] eqn:RF; [reflexivity|]. rewrite <- RF. rewrite <- RF in CR. clear RF mm rr. set (refs := references st) in *. set (cs := filter (fun r => member r (names_of refs)) (map fst (increments st))).
  assert (E : o1 cs = o2 cs).
  { assert (ND : NoDup cs).
    { apply NoDup_filter. destruct (scan_block_spec block _ st SC []) as (_ & _ & _ & ND). apply ND. constructor. }
    assert (EQ : forall a b, In a cs -> In b cs -> a = b).
    { assert (K : forall a, In a cs -> exists m x d, considered block m /\ (base m = Some a \/ index m = Some a) /\ In x block /\ adds x a d).
      { intros a I. apply filter_In in I as [I1 I2]. apply in_names in I2 as (m & M & UU). apply uses_spec in UU.
        destruct (scan_block_spec block _ st SC a) as (_ & _ & B3 & _). apply B3 in I1 as [[]|(x & I & Hx)]. destruct (HR x a I Hx) as [d D].
        exists m, x, d. split; [now apply CR|]. auto. }
      intros a b A B. destruct (K a A) as (m & x & d & K1 & K2 & K3 & K4), (K b B) as (m' & x' & d' & L1 & L2 & L3 & L4). eapply (U m m' a b x x'); eauto. }
    destruct cs as [|a [|b q]].
    - assert (X := P1 []). assert (Y := P2 []). symmetry in X, Y. apply Permutation_nil in X, Y. congruence.
    - assert (X := P1 [a]). assert (Y := P2 [a]). symmetry in X, Y. apply Permutation_length_1_inv in X, Y. congruence.
    - exfalso. inversion ND as [|? ? N1 N2]. apply N1. left. apply EQ; [right; now left|now left]. }
  rewrite E. reflexivity.
Qed.
Lemma x86_step_additions block : respects_additions x86_step block.
Proof.
  assert (AS : forall s r v, assign s r v r = v) by (intros; unfold assign; now rewrite teq_refl).
  intros l r c s _ A. inversion A as [? ? (n & E & I) O|? ? (n & E & I) O|? ? ? (n & E & I) O|? ? ? (n & E & I) O|? ? ? ? (n & E & I) O|? ? ? (n & E & I) O]; subst;
    unfold x86_step; rewrite E, O; five I; cbn - [assign Z.mul Z.add address Z.sub]; rewrite AS; unfold address; cbn - [Z.mul Z.add Z.sub]; try ring; try lia.
Qed.

(** ** Scores *)
Lemma amount_count {A} (P : A -> Prop) f l : (forall x, f x = true <-> P x) -> amount P l (Z.of_nat (List.length (filter f l))).
Proof.
  intros H. induction l as [|x l IH]; [constructor|]. cbn [filter]. destruct (f x) eqn:E.
  - cbn [List.length]. rewrite Nat2Z.inj_succ. unfold Z.succ. constructor; [now apply H|exact IH].
  - constructor; [|exact IH]. intros X. apply H in X. congruence.
Qed.
Lemma amount_instructions (P : text -> Prop) block n : amount (fun i => P (fst i)) (instructions block) n -> amount (instruction_like P) block n.
Proof.
  revert n. induction block as [|l block IH]; intros n H; [inversion H; constructor|]. unfold instructions in H. cbn [flat_map] in H. fold (instructions block) in H.
  destruct (mnemonic l) as [m|] eqn:E; cbn [app] in H.
  - inversion H as [|? ? k X Y|? ? ? X Y]; subst.
    + constructor; [exists m; now split|now apply IH].
    + constructor; [|now apply IH]. intros (m' & E' & X'). rewrite E in E'. injection E' as <-. contradiction.
  - constructor; [|now apply IH]. intros (m' & E' & _). congruence.
Qed.
Lemma starts_with_iff p s : starts_with p s = true <-> exists rest, s = p ++ rest.
Proof.
  revert s. induction p as [|c p IH]; intros s; cbn [starts_with app].
  - split; [intros _; now exists s|now intros _].
  - destruct s as [|d s]; [split; [discriminate|intros (r & H); discriminate]|]. rewrite andb_true_iff, N.eqb_eq, IH. split.
    + intros (-> & r & ->). now exists r.
    + intros (r & H). injection H as -> ->. split; [reflexivity|now exists r].
Qed.
Lemma registers_used_spec prefix block : registers_used prefix block (size_of_set (registers_with prefix block)).
Proof.
  exists (nodup text_dec (registers_with prefix block)). split; [apply NoDup_nodup|]. split; [reflexivity|]. intros r. rewrite nodup_In. unfold registers_with, instructions.
  rewrite in_flat_map. split.
  - intros ((m, ops) & I & J). apply in_flat_map in I as (l & I & K). destruct (mnemonic l) as [m'|] eqn:E; [|destruct K]. destruct K as [K|[]]. injection K as -> <-.
    apply in_flat_map in J as (o & O & J). cbn [snd] in O. destruct o as [n| | |]; try (destruct J; fail). destruct (starts_with prefix n) eqn:S; [|destruct J]. destruct J as [->|[]].
    split; [now apply starts_with_iff|]. exists l, m. now split.
  - intros (S & l & m & I & E & O). exists (m, operands l). split.
    + apply in_flat_map. exists l. split; [exact I|]. rewrite E. now left.
    + apply in_flat_map. exists (Reg r). split; [exact O|]. rewrite (proj2 (starts_with_iff _ _) S). now left.
Qed.
