From Coq Require Import Ascii.
From Verif Require Import PyBase CleanModel CleanSpec.
Local Open Scope char_scope.
Local Open Scope Z_scope.

Lemma zlen_app {A} (a b : list A) : zlen (a ++ b) = zlen a + zlen b.
Proof. unfold zlen. rewrite app_length. lia. Qed.
Lemma zlen_cons {A} (x : A) l : zlen (x :: l) = 1 + zlen l.
Proof. unfold zlen. cbn [length]. lia. Qed.
Lemma zlen_nil {A} : zlen (@nil A) = 0.
Proof. reflexivity. Qed.
Lemma zlen_nonneg {A} (l : list A) : 0 <= zlen l.
Proof. unfold zlen. lia. Qed.
Lemma zlen_nat {A} (l : list A) : Z.to_nat (zlen l) = length l.
Proof. unfold zlen. lia. Qed.

Ltac zl := repeat progress (rewrite ?zlen_app, ?zlen_cons, ?zlen_nil in *).

Lemma norm_in len i : 0 <= i <= len -> norm len i = i.
Proof. intros H. unfold norm. destruct (Z.ltb_spec i 0); lia. Qed.

Lemma slice_to_at a s : slice_to (a ++ s) (zlen a) = a.
Proof.
  unfold slice_to. pose proof (zlen_nonneg a). pose proof (zlen_nonneg s).
  rewrite norm_in by (zl; lia). rewrite zlen_nat, firstn_app, firstn_all, Nat.sub_diag. cbn.
  now rewrite app_nil_r.
Qed.

Lemma slice_from_at a s i : i = zlen a -> slice_from (a ++ s) i = s.
Proof.
  intros ->. unfold slice_from. pose proof (zlen_nonneg a). pose proof (zlen_nonneg s).
  rewrite norm_in by (zl; lia). rewrite zlen_nat, skipn_app, skipn_all, Nat.sub_diag. reflexivity.
Qed.

Lemma slice_mid a m s i j : i = zlen a -> j = zlen a + zlen m -> slice (a ++ m ++ s) i j = m.
Proof.
  intros -> ->. unfold slice. pose proof (zlen_nonneg a). pose proof (zlen_nonneg m). pose proof (zlen_nonneg s).
  rewrite !norm_in by (zl; lia). rewrite zlen_nat, skipn_app, skipn_all, Nat.sub_diag. cbn [app skipn].
  replace (zlen a + zlen m - zlen a) with (zlen m) by lia. rewrite zlen_nat.
  rewrite firstn_app, firstn_all, Nat.sub_diag. cbn. now rewrite app_nil_r.
Qed.

Lemma slice_two a s i : i = zlen a -> slice (a ++ s) i (i + 2) = firstn 2 s.
Proof.
  intros ->. unfold slice. pose proof (zlen_nonneg a). pose proof (zlen_nonneg s).
  rewrite (norm_in _ (zlen a)) by (zl; lia).
  rewrite zlen_nat, skipn_app, skipn_all, Nat.sub_diag. cbn [app skipn].
  unfold norm. destruct (Z.ltb_spec (zlen a + 2) 0); [lia|]. zl.
  destruct (Z.le_gt_cases 2 (zlen s)).
  - f_equal. lia.
  - rewrite !firstn_all2; [reflexivity| |]; unfold zlen in *; lia.
Qed.

(** * Executions *)
Definition runs code idx cs r := exists n, clean_loop n code idx cs = Ok r.

Lemma clean_loop_mono n k code idx cs r :
  clean_loop n code idx cs = Ok r -> clean_loop (n + k) code idx cs = Ok r.
Proof.
  revert code idx cs. induction n as [|n IH]; intros code idx cs; cbn [clean_loop Nat.add]; [discriminate|].
  destruct (idx <? zlen code - 1); [|auto].
  destruct cs as [c|].
  - destruct (text_eqb _ _); apply IH.
  - destruct (text_eqb _ ["/"; "/"]); [apply IH|]. destruct (text_eqb _ _); apply IH.
Qed.

Lemma runs_forever code idx cs r :
  runs code idx cs r <-> exists n0, forall n, (n0 <= n)%nat -> clean_loop n code idx cs = Ok r.
Proof.
  split.
  - intros (n & H). exists n. intros m Hm. replace m with (n + (m - n))%nat by lia.
    now apply clean_loop_mono.
  - intros (n & H). exists n. now apply H.
Qed.

Lemma runs_stop code idx cs : zlen code - 1 <= idx -> runs code idx cs code.
Proof. intros H. exists 1%nat. cbn [clean_loop]. destruct (Z.ltb_spec idx (zlen code - 1)); [lia|reflexivity]. Qed.

Lemma runs_det code idx cs r r' : runs code idx cs r -> runs code idx cs r' -> r = r'.
Proof.
  intros (n & H) (m & H'). apply clean_loop_mono with (k := m) in H.
  apply clean_loop_mono with (k := n) in H'. rewrite Nat.add_comm in H'. congruence.
Qed.

Lemma text_eqb_spec a b : reflect (a = b) (text_eqb a b).
Proof.
  revert b. induction a as [|x a IH]; intros [|y b]; cbn; try (constructor; congruence).
  destruct (Ascii.eqb_spec x y) as [->|Hx]; cbn; [|constructor; congruence].
  destruct (IH b) as [->|Hb]; constructor; congruence.
Qed.

Lemma runs_line code idx r :
  idx < zlen code - 1 -> slice code idx (idx + 2) = ["/"; "/"] ->
  runs (slice_to code idx ++ slice_from code (find_nl code idx))
       (idx - (find_nl code idx - idx) + 1) None r ->
  runs code idx None r.
Proof.
  intros Hi Ht (n & H). exists (S n). cbn [clean_loop]. destruct (Z.ltb_spec idx (zlen code - 1)); [|lia].
  rewrite Ht. cbn [text_eqb]. exact H.
Qed.

Lemma runs_open code idx r :
  idx < zlen code - 1 -> slice code idx (idx + 2) = ["/"; "*"] ->
  runs code (idx + 1) (Some idx) r -> runs code idx None r.
Proof.
  intros Hi Ht (n & H). exists (S n). cbn [clean_loop]. destruct (Z.ltb_spec idx (zlen code - 1)); [|lia].
  rewrite Ht. cbn [text_eqb]. exact H.
Qed.

Lemma runs_close code idx c r :
  idx < zlen code - 1 -> slice code idx (idx + 2) = ["*"; "/"] ->
  runs (slice_to code c ++ repeat nl (count_nl (slice code c idx)) ++ slice_from code (idx + 2))
       (idx - (idx - c) + 1) None r ->
  runs code idx (Some c) r.
Proof.
  intros Hi Ht (n & H). exists (S n). cbn [clean_loop]. destruct (Z.ltb_spec idx (zlen code - 1)); [|lia].
  rewrite Ht. cbn [text_eqb]. exact H.
Qed.

Lemma runs_skip code idx cs r :
  idx < zlen code - 1 ->
  match cs with
  | None => slice code idx (idx + 2) <> ["/"; "/"] /\ slice code idx (idx + 2) <> ["/"; "*"]
  | Some _ => slice code idx (idx + 2) <> ["*"; "/"]
  end ->
  runs code (idx + 1) cs r -> runs code idx cs r.
Proof.
  intros Hi Ht (n & H). exists (S n). cbn [clean_loop]. destruct (Z.ltb_spec idx (zlen code - 1)); [|lia].
  destruct cs as [c|].
  - destruct (text_eqb_spec (slice code idx (idx + 2)) ["*"; "/"]); [contradiction|assumption].
  - destruct Ht as [H1 H2].
    destruct (text_eqb_spec (slice code idx (idx + 2)) ["/"; "/"]); [contradiction|].
    destruct (text_eqb_spec (slice code idx (idx + 2)) ["/"; "*"]); [contradiction|assumption].
Qed.

(** Scanning over characters which start nothing. *)
Lemma runs_scan m : forall a s cs r,
  (forall x y, m = x ++ y -> y <> [] ->
     match cs with
     | None => firstn 2 (y ++ s) <> ["/"; "/"] /\ firstn 2 (y ++ s) <> ["/"; "*"]
     | Some _ => firstn 2 (y ++ s) <> ["*"; "/"]
     end) ->
  runs (a ++ m ++ s) (zlen a + zlen m) cs r -> runs (a ++ m ++ s) (zlen a) cs r.
Proof.
  induction m as [|c m IH]; intros a s cs r Hm Hr.
  - zl. now rewrite Z.add_0_r in Hr.
  - destruct (Z.le_gt_cases (zlen (a ++ (c :: m) ++ s) - 1) (zlen a)) as [Hle|Hgt].
    + assert (Hr' := runs_stop (a ++ (c :: m) ++ s) (zlen a + zlen (c :: m)) cs).
      rewrite (runs_det _ _ _ _ _ Hr (Hr' ltac:(zl; pose proof (zlen_nonneg m); lia))).
      now apply runs_stop.
    + apply runs_skip; [lia| |].
      * rewrite (slice_two a ((c :: m) ++ s)) by reflexivity.
        apply (Hm [] (c :: m)); [reflexivity|discriminate].
      * replace (a ++ (c :: m) ++ s) with ((a ++ [c]) ++ m ++ s) in * by now rewrite <- app_assoc.
        replace (zlen a + 1) with (zlen (a ++ [c])) by (zl; lia).
        apply IH.
        -- intros x y Hxy. apply (Hm (c :: x) y). cbn. now rewrite Hxy.
        -- replace (zlen (a ++ [c]) + zlen m) with (zlen a + zlen (c :: m)) by (zl; lia). exact Hr.
Qed.

(** * Clean code *)
Fixpoint ct (l : text) : bool :=
  match l with
  | [] => true
  | c :: l' =>
      match l' with
      | [] => negb (Ascii.eqb c "/")
      | d :: _ => negb (Ascii.eqb c "/" && (Ascii.eqb d "/" || Ascii.eqb d "*")) && ct l'
      end%bool
  end.

Lemma code_text_ct t : code_text t -> ct t = true.
Proof.
  induction t as [|c t IH]; intros (H1 & H2 & H3); [reflexivity|].
  assert (Ht : code_text t).
  { repeat split.
    - intros a b ->. now apply (H1 (c :: a) b).
    - intros a b ->. now apply (H2 (c :: a) b).
    - intros a ->. now apply (H3 (c :: a)). }
  specialize (IH Ht). destruct t as [|d t]; cbn [ct].
  - destruct (Ascii.eqb_spec c "/") as [->|]; [|reflexivity]. now destruct (H3 []).
  - cbn [ct] in IH. rewrite IH, andb_true_r.
    destruct (Ascii.eqb_spec c "/") as [->|]; [|reflexivity].
    destruct (Ascii.eqb_spec d "/") as [->|]; [now destruct (H1 [] t)|].
    destruct (Ascii.eqb_spec d "*") as [->|]; [now destruct (H2 [] t)|reflexivity].
Qed.

Lemma ct_app a b : ct a = true -> ct b = true -> ct (a ++ b) = true.
Proof.
  intros Ha Hb. induction a as [|c a IH]; [exact Hb|]. cbn [app]. destruct a as [|d a].
  - cbn [app]. cbn [ct] in Ha. cbn [ct]. destruct b as [|e b]; [assumption|].
    rewrite Hb, andb_true_r. destruct (Ascii.eqb c "/"); [discriminate|reflexivity].
  - cbn [ct] in Ha. apply andb_true_iff in Ha as [Ha1 Ha2]. cbn [app] in *. cbn [ct].
    rewrite Ha1. apply IH. exact Ha2.
Qed.

Lemma ct_suffix a b : ct (a ++ b) = true -> ct b = true.
Proof.
  induction a as [|c a IH]; [auto|]. cbn [app]. cbn [ct]. intros H. apply IH.
  destruct (a ++ b); [reflexivity|]. now apply andb_true_iff in H.
Qed.

Lemma ct_starts y s : ct y = true -> y <> [] ->
  firstn 2 (y ++ s) <> ["/"; "/"] /\ firstn 2 (y ++ s) <> ["/"; "*"].
Proof.
  intros H Hy. destruct y as [|c [|d y]]; [congruence| |].
  - cbn in H. destruct (Ascii.eqb_spec c "/") as [->|Hc]; [discriminate|].
    destruct s; cbn; split; congruence.
  - cbn [ct] in H. apply andb_true_iff in H as [H _].
    cbn. split; intros [= -> ->]; discriminate.
Qed.

Lemma runs_code a m s r :
  ct m = true -> runs (a ++ m ++ s) (zlen a + zlen m) None r -> runs (a ++ m ++ s) (zlen a) None r.
Proof.
  intros Hm. apply runs_scan. intros x y Hxy Hy. apply ct_starts; [|assumption].
  rewrite Hxy in Hm. now apply ct_suffix in Hm.
Qed.

Lemma runs_negative code r : code <> [] -> runs code 0 None r -> runs code (-1) None r /\ runs code (-2) None r.
Proof.
  intros Hne Hr.
  assert (Hl : 1 <= zlen code) by (destruct code; [congruence|zl; pose proof (zlen_nonneg code); lia]).
  assert (H1 : runs code (-1) None r).
  { apply runs_skip; [lia| |exact Hr].
    assert (Hs : (length (slice code (-1) (-1 + 2)) < 2)%nat).
    { unfold slice. rewrite firstn_length. unfold norm. change (-1 + 2) with 1.
      change (-1 <? 0) with true. change (1 <? 0) with false. cbv iota. lia. }
    split; intros E; rewrite E in Hs; cbn in Hs; lia. }
  split; [exact H1|]. apply runs_skip; [lia| |exact H1].
  assert (Hs : (length (slice code (-2) (-2 + 2)) < 2)%nat).
  { unfold slice. rewrite firstn_length. unfold norm. change (-2 + 2) with 0.
    change (-2 <? 0) with true. change (0 <? 0) with false. cbv iota. lia. }
  split; intros E; rewrite E in Hs; cbn in Hs; lia.
Qed.

Lemma index_nl_app b r : ~ In nl b -> index_nl (b ++ nl :: r) = Some (zlen b).
Proof.
  induction b as [|c b IH]; intros H; [reflexivity|]. cbn [app index_nl].
  destruct (Ascii.eqb_spec c nl) as [->|_]; [exfalso; apply H; now left|].
  rewrite IH by (intros Hin; apply H; now right). f_equal. zl. lia.
Qed.

Lemma find_nl_at a b r i : i = zlen a -> ~ In nl b -> find_nl (a ++ b ++ nl :: r) i = zlen a + zlen b.
Proof.
  intros -> Hb. unfold find_nl. pose proof (zlen_nonneg a). pose proof (zlen_nonneg (b ++ nl :: r)).
  rewrite norm_in by (zl; lia). rewrite zlen_nat, skipn_app, skipn_all, Nat.sub_diag. cbn [app skipn].
  now rewrite index_nl_app.
Qed.

Lemma repeat_count b : repeat nl (count_nl b) = filter (Ascii.eqb nl) b.
Proof.
  unfold count_nl. induction b as [|c b IH]; [reflexivity|]. cbn [filter].
  destruct (Ascii.eqb_spec nl c) as [<-|_]; [cbn; now rewrite IH|assumption].
Qed.

Lemma kept_ct c : ct (kept c) = true.
Proof.
  destruct c as [b|b]; [reflexivity|]. cbn [kept]. induction b as [|x b IH]; [reflexivity|].
  cbn [filter]. destruct (Ascii.eqb_spec nl x) as [<-|_]; [|assumption].
  apply (ct_app [nl]); [reflexivity|assumption].
Qed.

(** From any earlier position over clean code. *)
Lemma runs_from out s i r :
  ct out = true -> out ++ s <> [] -> -2 <= i <= zlen out ->
  runs (out ++ s) (zlen out) None r -> runs (out ++ s) i None r.
Proof.
  intros Hct Hne Hi Hr.
  assert (H0 : forall j, 0 <= j <= zlen out -> runs (out ++ s) j None r).
  { intros j Hj. rewrite <- (firstn_skipn (Z.to_nat j) out) in Hr, Hct |- *.
    rewrite <- app_assoc in *. set (a := firstn _ out) in *. set (m := skipn _ out) in *.
    assert (Ha : zlen a = j) by (unfold a, zlen in *; rewrite firstn_length; lia).
    rewrite <- Ha. apply runs_code; [now apply ct_suffix in Hct|].
    replace (zlen a + zlen m) with (zlen (a ++ m)) by (zl; lia). exact Hr. }
  destruct (Z.le_gt_cases 0 i); [apply H0; lia|].
  destruct (runs_negative (out ++ s) r Hne (H0 0 ltac:(pose proof (zlen_nonneg out); lia))) as [H1 H2].
  assert (i = -1 \/ i = -2) as [->| ->] by lia; assumption.
Qed.

Lemma runs_document l : forall out,
  ct out = true -> wf_rest l -> good_rest (length out) l ->
  runs (out ++ render_rest l) (zlen out) None (out ++ kept_rest l).
Proof.
  induction l as [|[c t] l IH]; intros out Hout Hwf Hgood.
  - cbn. rewrite app_nil_r. apply runs_stop. lia.
  - cbn [wf_rest good_rest render_rest kept_rest] in *. destruct Hwf as (Hc & Ht & Hwf).
    destruct Hgood as [Hg Hgood]. apply code_text_ct in Ht.
    assert (Hnext : runs ((out ++ kept c ++ t) ++ render_rest l) (zlen (out ++ kept c ++ t)) None
                         (out ++ kept c ++ t ++ kept_rest l)).
    { replace (out ++ kept c ++ t ++ kept_rest l) with ((out ++ kept c ++ t) ++ kept_rest l)
        by now rewrite <- !app_assoc.
      apply IH; [|assumption|].
      - apply ct_app; [assumption|apply ct_app; [apply kept_ct|assumption]].
      - rewrite !app_length, Nat.add_assoc. exact Hgood. }
    assert (Hct : ct (out ++ kept c ++ t) = true)
      by (apply ct_app; [assumption|apply ct_app; [apply kept_ct|assumption]]).
    set (R := out ++ kept c ++ t ++ kept_rest l) in *.
    destruct c as [b|b]; cbn [render_comment kept wf_comment good_comment app] in *.
    + destruct Hc as [Hnl (t' & ->)]. apply runs_line.
      * zl. pose proof (zlen_nonneg b). pose proof (zlen_nonneg t'). pose proof (zlen_nonneg (render_rest l)). lia.
      * now rewrite slice_two.
      * assert (Hf : find_nl (out ++ "/" :: "/" :: b ++ (nl :: t') ++ render_rest l) (zlen out)
                     = zlen out + zlen b + 2).
        { change ("/" :: "/" :: b ++ (nl :: t') ++ render_rest l)
            with (("/" :: "/" :: b) ++ nl :: t' ++ render_rest l).
          rewrite find_nl_at; [zl; lia|reflexivity|].
          intros [E|[E|E]]; [discriminate|discriminate|contradiction]. }
        rewrite Hf, slice_to_at.
        replace (out ++ "/" :: "/" :: b ++ (nl :: t') ++ render_rest l)
          with ((out ++ "/" :: "/" :: b) ++ (nl :: t') ++ render_rest l)
          by (rewrite <- app_assoc; reflexivity).
        rewrite slice_from_at by (zl; lia). rewrite app_assoc.
        apply runs_from; [assumption| | |exact Hnext].
        -- intros E. apply (f_equal (@length _)) in E. rewrite !app_length in E. cbn in E. lia.
        -- zl. unfold zlen in *. lia.
    + destruct Hg as [Hslash Hadj].
      assert (Ecode : (out ++ "/" :: "*" :: (b ++ ["*"; "/"]) ++ t ++ render_rest l)
              = out ++ ["/"; "*"] ++ b ++ ["*"; "/"] ++ t ++ render_rest l)
        by (rewrite <- !app_assoc; reflexivity).
      rewrite Ecode. set (rest := t ++ render_rest l) in *.
      pose proof (zlen_nonneg b) as Lb. pose proof (zlen_nonneg rest) as Lr. pose proof (zlen_nonneg out) as Lo.
      apply runs_open; [zl; lia|now rewrite slice_two|].
      replace (out ++ ["/"; "*"] ++ b ++ ["*"; "/"] ++ rest)
        with ((out ++ ["/"]) ++ ("*" :: b) ++ ["*"; "/"] ++ rest) by (rewrite <- !app_assoc; reflexivity).
      replace (zlen out + 1) with (zlen (out ++ ["/"])) by (zl; lia).
      apply runs_scan.
      { intros x y Hxy Hy. destruct x as [|x0 x].
        - cbn in Hxy. subst y. destruct b as [|b0 b]; cbn; [congruence|].
          intros [= ->]. now destruct (Hslash b).
        - cbn in Hxy. injection Hxy as <- Hxy.
          destruct y as [|y0 [|y1 y]]; [congruence| |].
          + cbn. congruence.
          + cbn. intros [= -> ->]. apply (Hc x (y ++ ["*"])). rewrite Hxy, <- app_assoc. reflexivity. }
      apply runs_close; [zl; lia| |].
      { rewrite (app_assoc (out ++ ["/"])). rewrite slice_two by (zl; lia). reflexivity. }
      set (idx := zlen (out ++ ["/"]) + zlen ("*" :: b)).
      assert (Eidx : idx = zlen out + 2 + zlen b) by (unfold idx; zl; lia).
      replace (idx - (idx - zlen out) + 1) with (zlen out + 1) by lia.
      replace ((out ++ ["/"]) ++ ("*" :: b) ++ ["*"; "/"] ++ rest)
        with (out ++ ("/" :: "*" :: b) ++ ["*"; "/"] ++ rest) by (rewrite <- !app_assoc; reflexivity).
      rewrite slice_to_at, (slice_mid out ("/" :: "*" :: b)) by (zl; lia).
      replace (out ++ ("/" :: "*" :: b) ++ ["*"; "/"] ++ rest)
        with ((out ++ ("/" :: "*" :: b) ++ ["*"; "/"]) ++ rest) by (rewrite <- !app_assoc; reflexivity).
      rewrite slice_from_at by (zl; lia).
      rewrite repeat_count. cbn [filter]. change (Ascii.eqb nl "/") with false.
      change (Ascii.eqb nl "*") with false. cbv iota.
      set (k := filter (Ascii.eqb nl) b) in *.
      unfold rest. replace (out ++ k ++ t ++ render_rest l) with ((out ++ k ++ t) ++ render_rest l)
        by now rewrite <- !app_assoc.
      destruct (k ++ t) as [|z zs] eqn:Ekt.
      * apply app_eq_nil in Ekt as [Ek Et].
        assert (El : l = []).
        { destruct Hadj as [Hadj|[Hadj|Hadj]].
          - congruence.
          - exfalso. assert (In nl k) by (apply filter_In; split; [assumption|apply Ascii.eqb_refl]).
            rewrite Ek in H. destruct H.
          - destruct l; [reflexivity|discriminate]. }
        subst l. assert (ER : R = (out ++ []) ++ render_rest []).
        { unfold R. rewrite Ek, Et. cbn. now rewrite !app_nil_r. }
        rewrite ER. apply runs_stop. cbn. rewrite !app_nil_r. lia.
      * apply runs_from; [assumption| |zl; pose proof (zlen_nonneg zs); lia|exact Hnext].
        intros E. apply (f_equal (@length _)) in E. rewrite !app_length in E. cbn in E. lia.
Qed.

(** * Line comments only, of any length *)
Definition no_triple (l : text) : Prop := forall a b, l <> a ++ "/" :: "/" :: "/" :: b.
Definition no_block (l : text) : Prop := forall a b, l <> a ++ "/" :: "*" :: b.
Definition terminated (l : text) : Prop := forall a b, l = a ++ "/" :: "/" :: b -> In nl b.

Lemma drop_cut st a b d :
  no_triple (a ++ "/" :: "/" :: b ++ nl :: d) -> ~ In nl b ->
  drop_line_comments st (a ++ nl :: d) = drop_line_comments st (a ++ "/" :: "/" :: b ++ nl :: d).
Proof.
  intros Hno Hb.
  assert (Hskip : forall b', ~ In nl b' -> drop_line_comments true (b' ++ nl :: d) = nl :: drop_line_comments false d).
  { induction b' as [|c b' IH]; intros Hn; [reflexivity|]. cbn [app drop_line_comments].
    destruct (Ascii.eqb_spec c nl) as [->|_]; [exfalso; apply Hn; now left|].
    apply IH. intros Hin. apply Hn. now right. }
  revert st Hno. induction a as [|c a IH]; intros st Hno.
  - cbn [app]. change (drop_line_comments st (nl :: d)) with (nl :: drop_line_comments false d).
    assert (Hs : drop_line_comments st ("/" :: "/" :: b ++ nl :: d)
                 = drop_line_comments true ("/" :: b ++ nl :: d)) by now destruct st.
    rewrite Hs. symmetry. apply (Hskip ("/" :: b)). intros [E|E]; [discriminate|contradiction].
  - assert (Hno' : no_triple (a ++ "/" :: "/" :: b ++ nl :: d)).
    { intros x y E. apply (Hno (c :: x) y). cbn. now rewrite E. }
    cbn [app drop_line_comments]. destruct (Ascii.eqb c nl); [f_equal; now apply IH|].
    destruct st; [now apply IH|].
    destruct a as [|x a]; cbn [app].
    + destruct (Ascii.eqb_spec c "/") as [->|Hc]; [now destruct (Hno [] (b ++ nl :: d))|]. cbn [andb].
      f_equal. now apply (IH false).
    + destruct (Ascii.eqb c "/" && Ascii.eqb x "/")%bool; [|f_equal]; now apply IH.
Qed.

Lemma drop_id l : (forall a b, l <> a ++ "/" :: "/" :: b) -> drop_line_comments false l = l.
Proof.
  induction l as [|c l IH]; intros H; [reflexivity|]. cbn [drop_line_comments].
  assert (Hl : drop_line_comments false l = l).
  { apply IH. intros a b ->. now apply (H (c :: a) b). }
  destruct (Ascii.eqb_spec c nl) as [->|_]; [now rewrite Hl|].
  destruct l as [|d l]; [reflexivity|].
  destruct (Ascii.eqb_spec c "/") as [->|]; cbn [andb]; [|now rewrite Hl].
  destruct (Ascii.eqb_spec d "/") as [->|]; [now destruct (H [] l)|now rewrite Hl].
Qed.

Lemma in_split_first (b : text) : In nl b -> exists b1 b2, b = b1 ++ nl :: b2 /\ ~ In nl b1.
Proof.
  induction b as [|c b IH]; [easy|]. destruct (ascii_dec c nl) as [->|Hc].
  - intros _. exists [], b. split; [reflexivity|easy].
  - intros [E|Hin]; [congruence|]. destruct (IH Hin) as (b1 & b2 & -> & Hn).
    exists (c :: b1), b2. split; [reflexivity|]. intros [E|E]; [congruence|contradiction].
Qed.

(** A match at any (possibly negative) index is a real occurrence. *)
Lemma slice_occurrence code idx x y :
  slice code idx (idx + 2) = [x; y] ->
  exists a b, code = a ++ x :: y :: b /\ slice_to code idx = a /\ norm (zlen code) idx = zlen a.
Proof.
  unfold slice, slice_to. set (q := norm (zlen code) idx). intros H.
  assert (Hq : 0 <= q <= zlen code).
  { unfold q, norm. pose proof (zlen_nonneg code). destruct (Z.ltb_spec idx 0); lia. }
  set (n := Z.to_nat _) in H. pose proof (f_equal (@length _) H) as Hl.
  rewrite firstn_length in Hl. cbn [length] in Hl.
  exists (firstn (Z.to_nat q) code), (skipn 2 (skipn (Z.to_nat q) code)).
  split; [|split; [reflexivity|unfold zlen; rewrite firstn_length; unfold zlen in Hq; lia]].
  rewrite <- (firstn_skipn (Z.to_nat q) code) at 1. f_equal.
  destruct (skipn (Z.to_nat q) code) as [|x' [|y' l]]; cbn [length] in Hl; [lia|lia|].
  destruct n as [|[|n]]; cbn [firstn] in H; [discriminate|discriminate|].
  injection H as -> -> _. reflexivity.
Qed.

Lemma find_nl_norm code idx idx' :
  norm (zlen code) idx = norm (zlen code) idx' -> find_nl code idx = find_nl code idx'.
Proof. intros H. unfold find_nl. now rewrite H. Qed.

Lemma no_block_cut a b d :
  no_block (a ++ "/" :: "/" :: b ++ nl :: d) -> no_block (a ++ nl :: d).
Proof.
  intros H x y E.
  (* the occurrence is inside [a] or inside [nl :: d] *)
  assert (Hcase : (exists u, a = x ++ "/" :: "*" :: u) \/ (exists u, nl :: d = u ++ "/" :: "*" :: y)
                  \/ (a = x ++ ["/"] /\ nl :: d = "*" :: y)).
  { clear H. revert x E. induction a as [|c a IH]; intros x E.
    - cbn in E. right. left. exists x. exact E.
    - destruct x as [|c' x]; cbn in E.
      + injection E as -> E. destruct a as [|c'' a]; cbn in E.
        * right. right. auto.
        * injection E as -> E. left. exists a. reflexivity.
      + injection E as -> E. destruct (IH x E) as [(u & ->)|[(u & Hu)|[-> Hy]]].
        * left. exists u. reflexivity.
        * right. left. exists u. exact Hu.
        * right. right. auto. }
  destruct Hcase as [(u & ->)|[(u & Hu)|[_ Hy]]].
  - apply (H x (u ++ "/" :: "/" :: b ++ nl :: d)). now rewrite <- app_assoc.
  - apply (H (a ++ "/" :: "/" :: b ++ u) y). rewrite Hu, <- !app_assoc. cbn. now rewrite <- app_assoc.
  - discriminate.
Qed.

Lemma no_triple_cut a b d :
  no_triple (a ++ "/" :: "/" :: b ++ nl :: d) -> no_triple (a ++ nl :: d).
Proof.
  intros H x y E.
  assert (Hcase : (exists u, a = x ++ "/" :: "/" :: "/" :: u) \/ (exists u, nl :: d = u ++ "/" :: "/" :: "/" :: y)
                  \/ (exists u v, nl :: d = "/" :: v /\ a = x ++ u)).
  { clear H. revert x E. induction a as [|c a IH]; intros x E.
    - cbn in E. right. left. exists x. exact E.
    - destruct x as [|c' x]; cbn in E.
      + injection E as -> E. destruct a as [|c1 a]; cbn in E; [discriminate|].
        injection E as -> E. destruct a as [|c2 a]; cbn in E; [discriminate|].
        injection E as -> E. left. exists a. reflexivity.
      + injection E as -> E. destruct (IH x E) as [(u & ->)|[(u & Hu)|(u & v & Hv & _)]].
        * left. exists u. reflexivity.
        * right. left. exists u. exact Hu.
        * discriminate. }
  destruct Hcase as [(u & ->)|[(u & Hu)|(u & v & Hv & _)]].
  - apply (H x (u ++ "/" :: "/" :: b ++ nl :: d)). now rewrite <- app_assoc.
  - apply (H (a ++ "/" :: "/" :: b ++ u) y). rewrite Hu, <- !app_assoc. cbn. now rewrite <- app_assoc.
  - discriminate.
Qed.

Lemma terminated_cut a b d :
  terminated (a ++ "/" :: "/" :: b ++ nl :: d) -> terminated (a ++ nl :: d).
Proof.
  intros H x y E. revert x E. clear -H. revert H. induction a as [|c a IH]; intros H x E.
  - cbn in E. destruct x as [|c x]; cbn in E; [discriminate|]. injection E as <- ->.
    apply (H ("/" :: "/" :: b ++ nl :: x) y). cbn. now rewrite <- app_assoc.
  - destruct x as [|c' x]; cbn in E.
    + injection E as -> E. destruct a as [|c1 a]; cbn in E; [discriminate|].
      injection E as -> <-. apply in_or_app. right. now left.
    + injection E as -> E. apply (IH) with (x := x); [|exact E].
      intros u v Huv. apply (H (c' :: u) v). cbn. now rewrite Huv.
Qed.

Lemma runs_lines N : forall code idx,
  (length code <= N)%nat -> no_block code -> no_triple code -> terminated code ->
  (forall a b, code = a ++ "/" :: "/" :: b -> idx <= zlen a) ->
  runs code idx None (drop_line_comments false code).
Proof.
  induction N as [N IHN] using lt_wf_ind. intros code idx HN Hblk Htri Hter Hpos.
  remember (Z.to_nat (zlen code - idx)) as k eqn:Ek. revert idx Hpos Ek.
  induction k as [k IHk] using lt_wf_ind. intros idx Hpos Ek.
  destruct (Z.le_gt_cases (zlen code - 1) idx) as [Hend|Hlt].
  - rewrite drop_id; [now apply runs_stop|]. intros a b E. specialize (Hpos a b E).
    subst code. zl. pose proof (zlen_nonneg b). lia.
  - destruct (list_eq_dec ascii_dec (slice code idx (idx + 2)) ["/"; "/"]) as [E|E].
    + destruct (slice_occurrence code idx "/" "/" E) as (a & b & Hcode & Hto & Hnorm).
      destruct (in_split_first b (Hter a b Hcode)) as (b1 & d & -> & Hb1).
      assert (Hf : find_nl code idx = zlen a + zlen b1 + 2).
      { rewrite (find_nl_norm code idx (zlen a)).
        - rewrite Hcode. change ("/" :: "/" :: b1 ++ nl :: d) with (("/" :: "/" :: b1) ++ nl :: d).
          rewrite find_nl_at; [zl; lia|reflexivity|].
          intros [E'|[E'|E']]; [discriminate|discriminate|contradiction].
        - rewrite Hnorm. rewrite norm_in; [reflexivity|].
          rewrite Hcode. zl. pose proof (zlen_nonneg a). pose proof (zlen_nonneg b1). pose proof (zlen_nonneg d). lia. }
      apply runs_line; [lia|exact E|]. rewrite Hf, Hto.
      assert (Hfrom : slice_from code (zlen a + zlen b1 + 2) = nl :: d).
      { rewrite Hcode. change (a ++ "/" :: "/" :: b1 ++ nl :: d) with (a ++ ("/" :: "/" :: b1) ++ nl :: d).
        rewrite app_assoc. apply slice_from_at. zl. lia. }
      rewrite Hfrom. rewrite Hcode in Htri, Hblk, Hter |- *.
      rewrite <- (drop_cut false a b1 d Htri Hb1).
      assert (HN' : (length (a ++ nl :: d) < N)%nat).
      { rewrite Hcode in HN. rewrite !app_length in *. cbn [length] in *. rewrite app_length in HN. cbn [length] in HN. lia. }
      apply (IHN (length (a ++ nl :: d)) HN'); [lia| | | |].
      * now apply no_block_cut in Hblk.
      * now apply no_triple_cut in Htri.
      * now apply terminated_cut in Hter.
      * intros u v Euv. pose proof (zlen_nonneg a). pose proof (zlen_nonneg b1).
        destruct (Z.le_gt_cases (idx - (zlen a + zlen b1 + 2 - idx) + 1) (zlen u)) as [|Hgt]; [assumption|].
        exfalso.
        assert (Hidx : 0 <= idx) by (pose proof (zlen_nonneg u); lia).
        assert (Hia : idx = zlen a).
        { rewrite <- Hnorm, norm_in; [reflexivity|lia]. }
        (* the occurrence lies before the cut, hence in the original code *)
        assert (Hpre : exists w, code = u ++ "/" :: "/" :: w).
        { rewrite Hcode. assert (Hu : zlen u + 2 <= zlen a) by lia. clear -Euv Hu.
          revert u Euv Hu. induction a as [|c a IH]; intros u Euv Hu.
          - zl. pose proof (zlen_nonneg u). lia.
          - destruct u as [|c' u]; cbn in Euv.
            + injection Euv as -> Euv. destruct a as [|c1 a]; [zl; lia|].
              cbn in Euv. injection Euv as -> _. eexists. reflexivity.
            + injection Euv as -> Euv. destruct (IH u Euv) as (w & Hw); [zl; lia|].
              exists w. cbn. now rewrite Hw. }
        destruct Hpre as (w & Hw). specialize (Hpos u w Hw). lia.
    + apply runs_skip; [lia| |].
      * split; [exact E|]. intros E2. destruct (slice_occurrence code idx _ _ E2) as (a & b & Hcode & _).
        now apply (Hblk a b).
      * apply (IHk (Z.to_nat (zlen code - (idx + 1)))); [lia| |reflexivity].
        intros a b Hab. specialize (Hpos a b Hab).
        destruct (Z.eq_dec idx (zlen a)) as [->|]; [|lia]. exfalso. apply E.
        rewrite Hab. now rewrite slice_two.
Qed.

(** * Line structure *)
Lemma split_join l : join_nl (split_nl l) = l /\ split_nl l <> [].
Proof.
  induction l as [|c l [IH1 IH2]]; [now split|]. cbn [split_nl].
  destruct (Ascii.eqb_spec c nl) as [->|_].
  - split; [|discriminate]. destruct (split_nl l) as [|w ws]; [congruence|]. cbn [join_nl app] in *. now rewrite IH1.
  - destruct (split_nl l) as [|w ws]; [congruence|]. split; [|discriminate].
    destruct ws; cbn [join_nl app] in *; now rewrite IH1.
Qed.

Lemma split_no_nl l w : In w (split_nl l) -> ~ In nl w.
Proof.
  revert w. induction l as [|c l IH]; cbn [split_nl]; intros w.
  - intros [<-|[]] [].
  - destruct (Ascii.eqb_spec c nl) as [->|Hc].
    + intros [<-|Hin]; [intros []|now apply IH].
    + destruct (split_nl l) as [|v vs]; [intros [<-|[]] [E|[]]; congruence|].
      intros [<-|Hin]; [intros [E|Hin']; [congruence|]; now apply (IH v (or_introl eq_refl))|].
      apply IH. now right.
Qed.

Lemma split_nl_app w l : ~ In nl w -> split_nl (w ++ nl :: l) = w :: split_nl l.
Proof.
  induction w as [|c w IH]; intros H; [reflexivity|]. cbn [app split_nl].
  destruct (Ascii.eqb_spec c nl) as [->|_]; [exfalso; apply H; now left|].
  rewrite IH by (intros Hin; apply H; now right). reflexivity.
Qed.
Lemma split_nl_single w : ~ In nl w -> split_nl w = [w].
Proof.
  induction w as [|c w IH]; intros H; [reflexivity|]. cbn [split_nl].
  destruct (Ascii.eqb_spec c nl) as [->|_]; [exfalso; apply H; now left|].
  rewrite IH by (intros Hin; apply H; now right). reflexivity.
Qed.

Lemma join_split ls : ls <> [] -> Forall (fun w => ~ In nl w) ls -> split_nl (join_nl ls) = ls.
Proof.
  intros Hne H. induction ls as [|w ws IH]; [congruence|]. inversion H as [|? ? Hw Hws]; subst.
  destruct ws as [|v vs]; [now apply split_nl_single|].
  change (join_nl (w :: v :: vs)) with (w ++ nl :: join_nl (v :: vs)).
  rewrite split_nl_app by assumption. rewrite IH; [reflexivity|discriminate|assumption].
Qed.

Lemma clean_lines_length m p a b ls : length (clean_lines m p a b ls) = length ls.
Proof.
  revert a b. induction ls as [|l ls IH]; intros a b; [reflexivity|]. cbn [clean_lines length]. now rewrite IH.
Qed.

Lemma clean_lines_sub m p a b ls i w :
  nth_error (clean_lines m p a b ls) i = Some w -> w = [] \/ nth_error ls i = Some w.
Proof.
  revert a b i. induction ls as [|l ls IH]; intros a b i; cbn [clean_lines].
  - destruct i; discriminate.
  - destruct i as [|i]; cbn [nth_error]; [|apply IH].
    intros [= <-]. destruct (_ || _)%bool; auto.
Qed.

Lemma clean_lines_no_nl m p a b ls :
  Forall (fun w => ~ In nl w) ls -> Forall (fun w => ~ In nl w) (clean_lines m p a b ls).
Proof.
  intros H. revert a b. induction H as [|w ws Hw _ IH]; intros a b; cbn [clean_lines]; constructor; auto.
  destruct (_ || _)%bool; [intros []|assumption].
Qed.

(** Lines that are not directives and do not continue one are kept. *)
Lemma clean_lines_keeps m p a b ls i line :
  nth_error ls i = Some line -> startswith hash (strip_ws line) = false ->
  (i = O -> (m && a = false /\ p && b = false)%bool) ->
  (forall j prev, i = S j -> nth_error ls j = Some prev -> endswith_backslash (strip_ws prev) = false) ->
  nth_error (clean_lines m p a b ls) i = Some line.
Proof.
  revert a b i. induction ls as [|l ls IH]; intros a b i H1 H2 H3 H4; [destruct i; discriminate|].
  assert (Hpragma : startswith hash_pragma (strip_ws line) = false).
  { destruct (strip_ws line) as [|c r]; [reflexivity|].
    unfold hash, hash_pragma in *; cbn [startswith] in *; destruct (Ascii.eqb "#" c); [discriminate|reflexivity]. }
  destruct i as [|i]; cbn [nth_error clean_lines] in *.
  - injection H1 as ->. destruct (H3 eq_refl) as [Ha Hb]. rewrite H2, Hpragma. cbn [andb orb negb].
    now rewrite Ha, Hb.
  - apply IH; try assumption.
    + intros ->. specialize (H4 O l eq_refl eq_refl).
      destruct m, p, a, b; cbn; try (split; reflexivity);
        repeat match goal with |- context [if ?x then _ else _] => destruct x eqn:? end;
        try (rewrite H4); try (split; reflexivity);
        repeat match goal with H : (_ || true)%bool = false |- _ => rewrite orb_true_r in H; discriminate end.
    + intros j prev -> Hp. now apply (H4 (S j)).
Qed.

(** Directives are removed. *)
Lemma clean_lines_macro p a b ls i line :
  nth_error ls i = Some line -> startswith hash (strip_ws line) = true ->
  startswith hash_pragma (strip_ws line) = false ->
  nth_error (clean_lines true p a b ls) i = Some [].
Proof.
  revert a b i. induction ls as [|l ls IH]; intros a b i H1 H2 H3; [destruct i; discriminate|].
  destruct i as [|i]; cbn [nth_error clean_lines] in *; [|now apply IH].
  injection H1 as ->. now rewrite H2, H3.
Qed.

Lemma directives_lines fuel code m p code' :
  clean_code fuel code false m p = Ok code' -> length (split_nl code') = length (split_nl code).
Proof.
  unfold clean_code. intros [= <-]. destruct (m || p)%bool; [|reflexivity].
  rewrite join_split; [apply clean_lines_length| |].
  - intros E. apply (f_equal (@length _)) in E. rewrite clean_lines_length in E.
    destruct (split_join code) as [_ Hne]. destruct (split_nl code); [congruence|discriminate].
  - apply clean_lines_no_nl. apply Forall_forall. intros w. apply split_no_nl.
Qed.

Lemma line_breaks_app a b : line_breaks (a ++ b) = (line_breaks a + line_breaks b)%nat.
Proof. unfold line_breaks. apply count_occ_app. Qed.

Lemma line_breaks_filter b : line_breaks (filter (Ascii.eqb nl) b) = line_breaks b.
Proof.
  unfold line_breaks. induction b as [|c b IH]; [reflexivity|]. cbn [filter count_occ].
  destruct (ascii_dec c nl) as [->|Hc].
  - rewrite Ascii.eqb_refl. cbn [count_occ]. destruct (ascii_dec nl nl); [now rewrite IH|congruence].
  - destruct (Ascii.eqb_spec nl c); [congruence|assumption].
Qed.

(** Cleaned documents have the line breaks of the document. *)
Lemma cleaned_line_breaks d : wf_document d -> line_breaks (without_comments d) = line_breaks (render d).
Proof.
  destruct d as [t l]. intros [_ H]. unfold without_comments, render. cbn [fst snd] in *.
  rewrite !line_breaks_app. f_equal. induction l as [|[c u] l IH]; [reflexivity|].
  cbn [wf_rest kept_rest render_rest] in *. destruct H as (Hc & _ & H). rewrite !line_breaks_app, (IH H).
  f_equal. destruct c as [b|b]; cbn [kept render_comment].
  - destruct Hc as [Hb _]. symmetry. unfold line_breaks. apply count_occ_not_In.
    intros [E|[E|E]]; [discriminate|discriminate|contradiction].
  - rewrite line_breaks_filter.
    change ("/" :: "*" :: b ++ ["*"; "/"]) with (["/"; "*"] ++ b ++ ["*"; "/"]).
    rewrite !line_breaks_app. cbn. lia.
Qed.

Lemma clean_document d :
  wf_document d -> good_document d ->
  exists n0, forall n, (n0 <= n)%nat -> clean_code n (render d) true false false = Ok (without_comments d).
Proof.
  destruct d as [t l]. intros [Ht Hwf] Hgood. unfold clean_code. cbn [orb].
  apply runs_forever. unfold render, without_comments. cbn [fst snd] in *.
  pose proof (code_text_ct _ Ht) as Hct.
  pose proof (runs_document l t Hct Hwf Hgood) as Hr.
  destruct (t ++ render_rest l) as [|x xs] eqn:E.
  - apply app_eq_nil in E as [-> E2]. exact Hr.
  - rewrite <- E in *. apply runs_from; [assumption|now rewrite E|pose proof (zlen_nonneg t); lia|assumption].
Qed.

Lemma clean_line_comments code :
  no_block code -> no_triple code -> terminated code ->
  exists n0, forall n, (n0 <= n)%nat ->
    clean_code n code true false false = Ok (drop_line_comments false code).
Proof.
  intros H1 H2 H3. unfold clean_code. cbn [orb]. apply runs_forever.
  apply (runs_lines (length code)); auto. intros a b _. apply zlen_nonneg.
Qed.

(** [_strip_comments] *)
Lemma drop_line w l : ~ In nl w -> drop_line_comments false (w ++ nl :: l) = cut_line w ++ nl :: drop_line_comments false l.
Proof.
  assert (Hin : forall v, ~ In nl v -> drop_line_comments true (v ++ nl :: l) = nl :: drop_line_comments false l).
  { induction v as [|c v IH]; intros H; [reflexivity|]. cbn [app drop_line_comments].
    destruct (Ascii.eqb_spec c nl) as [->|_]; [exfalso; apply H; now left|]. apply IH. intros E. apply H. now right. }
  induction w as [|c w IH]; intros H; [reflexivity|].
  assert (Hw : ~ In nl w) by (intros E; apply H; now right).
  cbn [app drop_line_comments]. destruct (Ascii.eqb_spec c nl) as [->|_]; [exfalso; apply H; now left|].
  destruct w as [|d w].
  - cbn [app]. change (Ascii.eqb nl "/") with false. rewrite andb_false_r. reflexivity.
  - cbn [app cut_line]. destruct (Ascii.eqb c "/" && Ascii.eqb d "/")%bool.
    + change (d :: w ++ nl :: l) with ((d :: w) ++ nl :: l). now rewrite Hin.
    + cbn [app]. f_equal. exact (IH Hw).
Qed.

Lemma drop_last_line w : ~ In nl w -> drop_line_comments false w = cut_line w.
Proof.
  assert (Hin : forall v, ~ In nl v -> drop_line_comments true v = []).
  { induction v as [|c v IH]; intros H; [reflexivity|]. cbn [drop_line_comments].
    destruct (Ascii.eqb_spec c nl) as [->|_]; [exfalso; apply H; now left|]. apply IH. intros E. apply H. now right. }
  induction w as [|c w IH]; intros H; [reflexivity|].
  assert (Hw : ~ In nl w) by (intros E; apply H; now right).
  cbn [drop_line_comments]. destruct (Ascii.eqb_spec c nl) as [->|_]; [exfalso; apply H; now left|].
  destruct w as [|d w]; [reflexivity|]. cbn [cut_line].
  destruct (Ascii.eqb c "/" && Ascii.eqb d "/")%bool; [now apply Hin|f_equal; now apply IH].
Qed.

Lemma strip_comments_exact code : strip_comments code = drop_line_comments false code.
Proof.
  unfold strip_comments. destruct (split_join code) as [Hj Hne].
  assert (HF : Forall (fun w => ~ In nl w) (split_nl code)) by (apply Forall_forall; intros w; apply split_no_nl).
  rewrite <- Hj at 2. clear Hj. revert Hne HF. generalize (split_nl code). intros ls Hne HF. revert Hne.
  induction HF as [|w ws Hw HF IH]; intros Hne; [reflexivity|].
  destruct ws as [|v vs].
  - cbn. symmetry. now apply drop_last_line.
  - change (join_nl (map cut_line (w :: v :: vs))) with (cut_line w ++ nl :: join_nl (map cut_line (v :: vs))).
    change (join_nl (w :: v :: vs)) with (w ++ nl :: join_nl (v :: vs)).
    rewrite drop_line by assumption. rewrite IH by discriminate. reflexivity.
Qed.

Lemma drop_line_breaks st l : line_breaks (drop_line_comments st l) = line_breaks l.
Proof.
  unfold line_breaks. revert st. induction l as [|c l IH]; intros st; [reflexivity|].
  cbn [drop_line_comments count_occ]. destruct (Ascii.eqb_spec c nl) as [->|Hc].
  - cbn [count_occ]. destruct (ascii_dec nl nl); [now rewrite IH|congruence].
  - destruct (ascii_dec c nl); [congruence|]. destruct st; [apply IH|].
    destruct l as [|d l]; [cbn; now destruct (ascii_dec c nl)|].
    destruct (_ && _)%bool; [apply IH|]. cbn [count_occ].
    destruct (ascii_dec c nl); [congruence|apply IH].
Qed.

Lemma clean_lines_continued p a b ls i line next :
  nth_error ls i = Some line -> startswith hash (strip_ws line) = true ->
  startswith hash_pragma (strip_ws line) = false -> endswith_backslash (strip_ws line) = true ->
  nth_error ls (S i) = Some next ->
  nth_error (clean_lines true p a b ls) (S i) = Some [].
Proof.
  revert a b i. induction ls as [|l ls IH]; intros a b i H1 H2 H3 H4 H5; [destruct i; discriminate|].
  destruct i as [|i]; [|cbn [nth_error clean_lines] in *; now apply IH].
  cbn [nth_error] in H1, H5. injection H1 as ->. destruct ls as [|l' ls]; [discriminate|].
  injection H5 as ->. cbn [clean_lines nth_error]. rewrite H2, H3. cbn [negb andb orb].
  rewrite H4. cbn [andb]. now rewrite orb_true_r.
Qed.

Lemma clean_lines_pragma m a b ls i line :
  nth_error ls i = Some line -> startswith hash_pragma (strip_ws line) = true ->
  nth_error (clean_lines m true a b ls) i = Some [].
Proof.
  revert a b i. induction ls as [|l ls IH]; intros a b i H1 H2; [destruct i; discriminate|].
  destruct i as [|i]; [|cbn [nth_error clean_lines] in *; now apply IH].
  cbn [nth_error] in H1. injection H1 as ->. cbn [clean_lines nth_error]. rewrite H2.
  cbn [andb orb]. now rewrite orb_true_r.
Qed.

Lemma clean_lines_pragma_kept a ls i line :
  nth_error ls i = Some line -> startswith hash_pragma (strip_ws line) = true ->
  (i = O -> a = false) ->
  (forall j prev, i = S j -> nth_error ls j = Some prev -> endswith_backslash (strip_ws prev) = false) ->
  nth_error (clean_lines true false a false ls) i = Some line.
Proof.
  revert a i. induction ls as [|l ls IH]; intros a i H1 H2 H3 H4; [destruct i; discriminate|].
  destruct i as [|i].
  - cbn [nth_error] in *. injection H1 as ->. cbn [clean_lines nth_error].
    rewrite H2, (H3 eq_refl), andb_false_r. reflexivity.
  - cbn [nth_error clean_lines] in *. apply IH; try assumption.
    + intros ->. specialize (H4 0%nat l eq_refl eq_refl). rewrite H4.
      destruct (true && _)%bool eqn:E; [reflexivity|].
      cbn [andb] in E. apply orb_false_iff in E. tauto.
    + intros j prev -> H. exact (H4 (S j) prev eq_refl H).
Qed.

(** ** Stripping *)
Lemma is_ws_spec c : is_ws c = true <-> white_space c.
Proof.
  split.
  - destruct c as [[] [] [] [] [] [] [] []]; intros H; try (vm_compute in H; discriminate); cbn; tauto.
  - unfold white_space. intros H. repeat (destruct H as [<-|H]; [reflexivity|]). destruct H.
Qed.
Lemma drop_spec l : exists a, l = (a ++ drop_ws l)%list /\ Forall white_space a /\ forall c m, drop_ws l = c :: m -> ~ white_space c.
Proof.
  induction l as [|x l (a & E & F & G)]; [exists []; split; [reflexivity|split; [constructor|discriminate]]|]. cbn [drop_ws]. destruct (is_ws x) eqn:X.
  - exists (x :: a). split; [cbn [app]; now rewrite <- E|]. split; [|exact G]. constructor; [now apply is_ws_spec|exact F].
  - exists []. split; [reflexivity|]. split; [constructor|]. intros c m H. injection H as <- _. intros W. apply is_ws_spec in W. congruence.
Qed.
Lemma strip_spec l : exists a b, l = (a ++ strip_ws l ++ b)%list /\ Forall white_space a /\ Forall white_space b /\
  (forall c m, strip_ws l = c :: m -> ~ white_space c) /\ (forall c m, strip_ws l = (m ++ [c])%list -> ~ white_space c).
Proof.
  destruct (drop_spec l) as (a & E & A & G). destruct (drop_spec (rev (drop_ws l))) as (b & E' & B & G'). exists a, (rev b). unfold strip_ws.
  assert (X : drop_ws l = (rev (drop_ws (rev (drop_ws l))) ++ rev b)%list) by (rewrite <- rev_app_distr, <- E'; symmetry; apply rev_involutive).
  split; [rewrite E at 1; now rewrite X at 1|]. split; [exact A|]. split; [now apply Forall_rev|]. split.
  - intros c m H. rewrite H in X. cbn [app] in X. exact (G c _ X).
  - intros c m H. apply (f_equal (@rev _)) in H. rewrite rev_involutive, rev_app_distr in H. cbn [rev app] in H. exact (G' c _ H).
Qed.
Lemma endswith_spec l : endswith_backslash l = true <-> exists m, l = (m ++ ["\"%char])%list.
Proof.
  unfold endswith_backslash. split.
  - destruct (rev l) as [|c r] eqn:E; [discriminate|]. intros H. apply Ascii.eqb_eq in H as ->. exists (rev r). apply (f_equal (@rev _)) in E. rewrite rev_involutive in E. exact E.
  - intros (m & ->). now rewrite rev_app_distr.
Qed.
