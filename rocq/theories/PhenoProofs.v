(** Lemmas about the options of the stand-alone benchmark. *)
From Coq Require Import Lia String.
From Verif Require Import PyBase PyNum PyNumFacts PyText PyInt PyFloat PyDict PyRegex BenchModel PhenoModel PhenoSpec.
Local Open Scope N_scope.
Local Open Scope list_scope.

(** ** Matching *)
Section Rx.
Context {A : Type}.
Implicit Types (k : @cont A) (s w rest : text) (g : groups).
Lemma seq_eq a b s g k : rmatch (RSeq a b) s g k = rmatch a s g (fun s' g' => rmatch b s' g' k).
Proof. reflexivity. Qed.
Lemma opt_eq a s g k : rmatch (ropt a) s g k = orelse (rmatch a s g k) (k s g).
Proof. reflexivity. Qed.
Lemma opt_some a s g k x : rmatch a s g k = Some x -> rmatch (ropt a) s g k = Some x.
Proof. intros H. rewrite opt_eq, H. reflexivity. Qed.
Lemma opt_none a s g k : rmatch a s g k = None -> rmatch (ropt a) s g k = k s g.
Proof. intros H. rewrite opt_eq, H. reflexivity. Qed.
Lemma lit_eq c s g k : rmatch (rlit c) (c :: s) g k = k s g.
Proof. cbn. now rewrite N.eqb_refl. Qed.
Lemma lit_none c s g k : ends (N.eqb c) s -> rmatch (rlit c) s g k = None.
Proof. destruct s as [|d s]; [reflexivity|]. cbn. intros ->. reflexivity. Qed.
Lemma chr_none p s g k : ends p s -> rmatch (RChr p) s g k = None.
Proof. destruct s as [|d s]; [reflexivity|]. cbn. intros ->. reflexivity. Qed.
Lemma chr_some p c s g k : p c = true -> rmatch (RChr p) (c :: s) g k = k s g.
Proof. intros H. cbn. now rewrite H. Qed.
Lemma star_all p w g k x : forallb p w = true -> k [] g = Some x -> rmatch (RStar (RChr p)) w g k = Some x.
Proof. intros W K. rewrite <- (app_nil_r w). apply star_some; [assumption|exact Logic.I|assumption]. Qed.
Lemma plus_all p w g k x : forallb p w = true -> w <> [] -> k [] g = Some x -> rmatch (rplus (RChr p)) w g k = Some x.
Proof. intros W N K. rewrite <- (app_nil_r w). apply plus_some; [assumption..|exact Logic.I|assumption]. Qed.
Lemma group_all name r w g k x :
  rmatch r w g (fun s' g' => k s' ((name, firstn (List.length w - List.length s') w) :: g')) = Some x -> rmatch (RGroup name r) w g k = Some x.
Proof. intros H. exact H. Qed.
Lemma group_some name r w rest g k x :
  rmatch r (w ++ rest) g (fun s' g' => k s' ((name, firstn (List.length (w ++ rest) - List.length s') (w ++ rest)) :: g')) = Some x ->
  rmatch (RGroup name r) (w ++ rest) g k = Some x.
Proof. intros H. exact H. Qed.

(** Numbers of loops *)
Lemma digit_dot c : is_decimal c = true -> (46 =? c) = false.
Proof. intros H. apply is_decimal_spec in H. apply N.eqb_neq. lia. Qed.
Lemma digit_colon c : is_decimal c = true -> (58 =? c) = false.
Proof. intros H. apply is_decimal_spec in H. apply N.eqb_neq. lia. Qed.
Lemma word_comma c : is_word c = true -> (44 =? c) = false.
Proof. intros H. apply N.eqb_neq. intros <-. discriminate. Qed.
Definition after_number rest := ends is_decimal rest /\ ends (N.eqb 46) rest.
Lemma number_some d rest g k x : digits d -> after_number rest -> k rest g = Some x -> rmatch number_rx (d ++ rest) g k = Some x.
Proof.
  intros [N D] [R1 R2] K. unfold number_rx. rewrite seq_eq. apply plus_some; [assumption..|].
  rewrite seq_eq, opt_none by now apply lit_none. apply (star_some is_decimal _ [] rest); [reflexivity|assumption..].
Qed.
Lemma number_group name d rest g k x : digits d -> after_number rest -> k rest ((name, d) :: g) = Some x ->
  rmatch (RGroup name number_rx) (d ++ rest) g k = Some x.
Proof. intros D R K. apply group_some. apply number_some; [assumption..|]. now rewrite consumed. Qed.
Lemma number_none d rest g k : forallb is_decimal d = true -> after_number rest -> (forall u v g', d = u ++ v -> k (v ++ rest) g' = None) ->
  rmatch number_rx (d ++ rest) g k = None.
Proof.
  intros D [R1 R2] K. unfold number_rx. rewrite seq_eq. apply plus_none; [assumption..|]. intros u v -> _.
  rewrite forallb_app in D. apply andb_true_iff in D as [Du Dv].
  rewrite seq_eq, opt_none.
  - apply star_none; [assumption..|]. intros u' v' ->. apply (K (u ++ u')). apply app_assoc.
  - apply lit_none. destruct v as [|c v]; cbn; [exact R2|]. apply digit_dot. cbn in Dv. now apply andb_true_iff in Dv.
Qed.
Lemma number_group_none name d rest g k : forallb is_decimal d = true -> after_number rest ->
  (forall u v g', d = u ++ v -> k (v ++ rest) g' = None) -> rmatch (RGroup name number_rx) (d ++ rest) g k = None.
Proof. intros D R K. cbn [rmatch]. apply number_none; [assumption..|]. intros u v g' E. now apply (K u v). Qed.

(** Regions *)
Lemma item_fails c w rest g k : is_decimal c = false -> forallb is_word w = true -> ends is_word rest -> ends (N.eqb 44) rest ->
  rmatch item_rx (c :: w ++ rest) g k = None.
Proof.
  intros C W R1 R2. unfold item_rx. rewrite seq_eq. cbn [rmatch]. unfold not_decimal at 1. rewrite C. cbn [negb].
  fold (rmatch (A := A)). apply (star_none is_word); [assumption..|]. intros u v ->. rewrite forallb_app in W. apply andb_true_iff in W as [_ W].
  apply (lit_none 44). destruct v as [|d v]; cbn; [exact R2|]. apply word_comma. cbn in W. now apply andb_true_iff in W.
Qed.
Lemma item_some c w s g k x : is_decimal c = false -> forallb is_word w = true -> k s g = Some x ->
  rmatch item_rx (c :: w ++ 44 :: s) g k = Some x.
Proof.
  intros C W K. unfold item_rx. rewrite seq_eq. cbn [rmatch]. unfold not_decimal at 1. rewrite C. cbn [negb].
  apply (star_some is_word); [assumption|reflexivity|]. cbn. exact K.
Qed.
Lemma name_some c w rest g k x : is_decimal c = false -> forallb is_word w = true -> ends is_word rest -> k rest g = Some x ->
  rmatch name_rx (c :: w ++ rest) g k = Some x.
Proof.
  intros C W R K. unfold name_rx. rewrite seq_eq. cbn [rmatch]. unfold not_decimal at 1. rewrite C. cbn [negb].
  apply (star_some is_word); assumption.
Qed.
Lemma names_some l rest g k x : forall n, l <> [] -> Forall is_name l -> k (58 :: rest) g = Some x ->
  (List.length (join 44%N l ++ 58%N :: rest) <= n)%nat ->
  star_with (fun s g k => rmatch item_rx s g k) (fun s' g' => rmatch name_rx s' g' k) n (join 44 l ++ 58 :: rest) g = Some x.
Proof.
  induction l as [|p l IH]; [easy|]. intros n _ F K L. inversion_clear F as [|? ? P F']. destruct p as [|c w]; [easy|]. destruct P as (C1 & C2 & W).
  destruct n as [|n]; [rewrite app_length in L; cbn in L; lia|]. cbn [star_with].
  destruct l as [|q l].
  - cbn [join]. change ((c :: w) ++ 58 :: rest) with (c :: w ++ 58 :: rest). rewrite item_fails by (assumption || reflexivity). cbn [orelse].
    apply name_some; [assumption..|reflexivity|assumption].
  - rewrite join_cons by discriminate. change (((c :: w) ++ 44 :: join 44 (q :: l)) ++ 58 :: rest) with (c :: (w ++ 44 :: join 44 (q :: l)) ++ 58 :: rest).
    rewrite <- app_assoc. change ((44 :: join 44 (q :: l)) ++ 58 :: rest) with (44 :: join 44 (q :: l) ++ 58 :: rest).
    rewrite (item_some c w (join 44 (q :: l) ++ 58 :: rest) g _ x); [reflexivity|assumption..|].
    cbn [List.length]. rewrite (app_length w). cbn [List.length]. destruct (Nat.ltb_spec (List.length (join 44%N (q :: l) ++ 58%N :: rest))
      (S (List.length w + S (List.length (join 44%N (q :: l) ++ 58%N :: rest))))) as [_|X]; [|lia].
    apply IH; [discriminate|assumption..|]. rewrite join_cons in L by discriminate. rewrite app_length in L |- *. rewrite app_length in L. cbn [List.length] in L |- *. lia.
Qed.
Lemma region_some l rest g k x : l <> [] -> Forall is_name l -> k rest (("region"%string, join 44 l) :: g) = Some x ->
  rmatch region_rx (join 44 l ++ 58 :: rest) g k = Some x.
Proof.
  intros N F K. unfold region_rx. apply opt_some. rewrite seq_eq. apply group_some. rewrite seq_eq. cbn [rmatch].
  apply names_some; [assumption..| |apply Nat.le_refl]. rewrite consumed. fold (rlit 58). exact (eq_trans (lit_eq 58 rest _ k) K).
Qed.
Lemma item_digit s g k : ends not_decimal s -> rmatch item_rx s g k = None.
Proof. intros H. unfold item_rx. rewrite seq_eq. now apply chr_none. Qed.
Lemma region_digit s g k : ends not_decimal s -> rmatch region_rx s g k = k s g.
Proof.
  intros H. unfold region_rx. apply opt_none. rewrite seq_eq. cbn [rmatch].
  assert (E : forall n (k' : cont), star_with (fun s g k => rmatch item_rx s g k) (fun s' g' => rmatch name_rx s' g' k') n s g = None).
  { intros n k'. assert (X : rmatch name_rx s g k' = None) by (unfold name_rx; rewrite seq_eq; now apply chr_none).
    destruct n as [|n]; cbn [star_with]; [exact X|]. now rewrite item_digit. }
  apply E.
Qed.
Lemma region_colon s g k : ~ In 58 s -> rmatch region_rx s g k = k s g.
Proof.
  intros H. unfold region_rx. apply opt_none. rewrite seq_eq. apply match_fails. intros u s' g' ->. apply lit_none.
  destruct s' as [|c s']; [exact Logic.I|]. unfold ends. apply N.eqb_neq. intros <-. apply H, in_or_app. right. now left.
Qed.
Lemma regions_some l s g k x : Forall is_name l -> ends not_decimal s ->
  k s (match l with [] => g | _ => ("region"%string, join 44 l) :: g end) = Some x ->
  rmatch region_rx (write_regions l ++ s) g k = Some x.
Proof.
  intros F H K. destruct l as [|p l]; [cbn [write_regions app]; now rewrite region_digit|].
  unfold write_regions. rewrite <- app_assoc. cbn [app]. apply region_some; [discriminate|assumption..].
Qed.
End Rx.
Lemma name_comma p : is_name p -> ~ In 44 p.
Proof.
  destruct p as [|c w]; [easy|]. intros (C & _ & W) [E|H]; [subst c; discriminate|].
  rewrite forallb_forall in W. apply W in H. discriminate.
Qed.
Lemma regions_read l g : Forall is_name l -> group "region" g = None ->
  regions_of (match l with [] => g | _ => ("region"%string, join 44 l) :: g end) = meant l.
Proof.
  intros F G. destruct l as [|p l]; [unfold regions_of; now rewrite G|]. unfold regions_of. cbn [group String.eqb Ascii.eqb Bool.eqb].
  apply split_join; [discriminate|]. intros q H. apply name_comma. rewrite Forall_forall in F. now apply F.
Qed.

(** ** Loops *)
Lemma show_digits n : digits (show_nat n).
Proof. destruct (show_nat_spec n) as (_ & D & N). now split. Qed.
Lemma digits_head d s : digits d -> ends not_decimal (d ++ s).
Proof. intros [N D]. destruct d as [|c d]; [easy|]. cbn [forallb] in D. apply andb_true_iff in D as [D _]. unfold ends, not_decimal. cbn [app]. now rewrite D. Qed.
Lemma show_read n : py_int (show_nat n) = Some (Z.of_N n).
Proof. rewrite <- (show_int_read (Z.of_N n)). f_equal. destruct n; reflexivity. Qed.
(** What is behind the end of a loop *)
Definition written_variable (o : loop_option) : text := match o_variable o with Some v => 58 :: v | None => [] end.
Definition loop_groups (o : loop_option) : groups :=
  (match o_variable o with Some v => [("variable"%string, v)] | None => [] end)
  ++ [("end"%string, show_nat (o_end o))]
  ++ (match o_step o with Some s => [("step"%string, show_nat s)] | None => [] end)
  ++ [("start"%string, show_nat (o_start o))]
  ++ match o_regions o with [] => [] | _ => [("region"%string, join 44 (o_regions o))] end.
(** Text [t] behind a loop without variable is ignored if it does not go on with a digit, a dot or a colon. *)
Lemma loop_matches o t : good_loop o -> (t = [] \/ o_variable o = None /\ after_number t /\ ends (N.eqb 58) t) ->
  re_match loop_rx (write_loop o ++ t) = Some (t, loop_groups o).
Proof.
  intros (F & _ & V) T. unfold re_match, loop_rx, write_loop. rewrite seq_eq. rewrite <- !app_assoc.
  apply regions_some; [assumption|apply digits_head, show_digits|].
  match goal with |- rmatch _ _ ?x _ = _ => remember x as g0 eqn:G0 end.
  assert (G1 : loop_groups o = (match o_variable o with Some v => [("variable"%string, v)] | None => [] end) ++ [("end"%string, show_nat (o_end o))]
    ++ (match o_step o with Some s => [("step"%string, show_nat s)] | None => [] end) ++ [("start"%string, show_nat (o_start o))] ++ g0)
    by (unfold loop_groups; rewrite G0; destruct (o_regions o); reflexivity).
  rewrite seq_eq. apply number_group; [apply show_digits|split; reflexivity|].
  rewrite seq_eq. cbn [app]. rewrite lit_eq. rewrite seq_eq.
  (* the rest behind the step *)
  assert (R : after_number (written_variable o ++ t)).
  { unfold written_variable. destruct (o_variable o) as [v|]; [split; reflexivity|]. destruct T as [->|(_ & T & _)]; [split; exact Logic.I|exact T]. }
  assert (E : forall g, rmatch (RSeq (RGroup "end" number_rx) variable_rx) (show_nat (o_end o) ++ written_variable o ++ t) g (fun s g => Some (s, g))
              = Some (t, (match o_variable o with Some v => [("variable"%string, v)] | None => [] end) ++ ("end"%string, show_nat (o_end o)) :: g)).
  { intros g. rewrite seq_eq. apply number_group; [apply show_digits|exact R|]. unfold variable_rx, written_variable.
    destruct (o_variable o) as [v|].
    - destruct T as [->|(X & _)]; [|discriminate]. rewrite app_nil_r. apply opt_some. rewrite seq_eq, lit_eq.
      apply group_all. destruct v as [|c v]; [easy|]. destruct V as [C W].
      rewrite seq_eq, chr_some by (unfold not_decimal; now rewrite C). apply star_all; [assumption|].  rewrite Nat.sub_0_r, firstn_all. reflexivity.
    - cbn [app]. rewrite opt_none; [reflexivity|]. rewrite seq_eq. apply lit_none. destruct T as [->|(_ & _ & T)]; [exact Logic.I|exact T]. }
  fold (written_variable o). unfold step_rx. rewrite G1. clear G0 G1. destruct (o_step o) as [s|].
  - apply opt_some. rewrite seq_eq. rewrite <- !app_assoc. apply number_group; [apply show_digits|split; reflexivity|].
    cbn [app]. rewrite lit_eq. apply E.
  - cbn [app]. rewrite opt_none; [apply E|]. rewrite seq_eq. apply number_group_none; [apply show_digits|exact R|].
    intros u v g' D. destruct v as [|c v].
    + cbn [app]. unfold written_variable. destruct (o_variable o) as [[|c w]|].
      * easy.
      * cbn [app]. rewrite lit_eq. rewrite seq_eq. cbn [rmatch]. unfold number_rx, rplus. rewrite !seq_eq. unfold rdigit. cbn [rmatch].
        destruct V as [-> _]. reflexivity.
      * cbn [app]. apply lit_none. destruct T as [->|(_ & _ & T)]; [exact Logic.I|exact T].
    + apply lit_none. unfold ends. cbn [app]. apply digit_colon. destruct (show_digits (o_end o)) as [_ X]. rewrite D, forallb_app in X.
      apply andb_true_iff in X as [_ X]. cbn in X. now apply andb_true_iff in X.
Qed.
Lemma loop_groups_read o v : good_loop o ->
  read_loop v (loop_groups o) = loop_of o /\ regions_of (loop_groups o) = meant (o_regions o).
Proof.
  intros (F & _ & _). split.
  - unfold read_loop, loop_groups, loop_of. destruct (o_variable o), (o_step o); cbn [app group String.eqb Ascii.eqb Bool.eqb]; rewrite !show_read;
      try reflexivity; destruct (o_regions o); reflexivity.
  - assert (E : regions_of (loop_groups o) = regions_of (match o_regions o with [] => [] | _ => [("region"%string, join 44 (o_regions o))] end)).
    { unfold regions_of, loop_groups. destruct (o_variable o), (o_step o); reflexivity. }
    rewrite E. exact (regions_read (o_regions o) [] F eq_refl).
Qed.
Lemma append_written st o t : good_loop o -> (t = [] \/ o_variable o = None /\ after_number t /\ ends (N.eqb 58) t) ->
  append_loop st (write_loop o ++ t)
  = Ok (mkLoops (heap st ++ [loop_of o]) (fold_left (add_to (List.length (heap st))) (meant (o_regions o)) (table st))).
Proof.
  intros G T. unfold append_loop. rewrite loop_matches by assumption. destruct (loop_groups_read o (write_loop o ++ t) G) as [-> ->]. reflexivity.
Qed.
Lemma meant_nodup l : NoDup l -> NoDup (meant l).
Proof. intros H. destruct l; [repeat constructor; intros []|exact H]. Qed.
Lemma add_many i l : forall t r, NoDup l ->
  tget r (fold_left (add_to i) l t) = if existsb (text_eqb r) l then Some (match tget r t with Some x => x ++ [i] | None => [i] end) else tget r t.
Proof.
  induction l as [|p l IH]; intros t r N; [reflexivity|]. inversion_clear N as [|? ? P N']. cbn [fold_left existsb]. rewrite IH by assumption.
  assert (G : tget r (add_to i t p) = if text_eqb r p then Some (match tget r t with Some x => x ++ [i] | None => [i] end) else tget r t).
  { unfold add_to. destruct (tget p t) as [x|] eqn:E; rewrite tget_tset; (destruct (text_eqb_spec r p) as [->|M]; [now rewrite E|reflexivity]). }
  rewrite G. destruct (text_eqb_spec r p) as [->|M]; cbn [orb]; [|reflexivity].
  destruct (existsb (text_eqb p) l) eqn:E; [|reflexivity]. exfalso. apply existsb_exists in E as (q & Q & E). destruct (text_eqb_spec p q); [|discriminate].
  subst q. contradiction.
Qed.
(** Positions are within the heap. *)
Definition valid (st : loops) : Prop := forall r l i, tget r (table st) = Some l -> In i l -> (i < List.length (heap st))%nat.
Lemma flat_more (h : list entry) (e : entry) l : (forall i, In i l -> (i < List.length h)%nat) ->
  flat_map (fun i => match nth_error (h ++ [e]) i with Some e => [e] | None => [] end) l
  = flat_map (fun i => match nth_error h i with Some e => [e] | None => [] end) l.
Proof.
  induction l as [|i l IH]; intros H; [reflexivity|]. cbn [flat_map]. rewrite IH by (intros; apply H; now right).
  rewrite nth_error_app1 by (apply H; now left). reflexivity.
Qed.
Lemma append_step st o : good_loop o -> valid st ->
  exists st', append_loop st (write_loop o) = Ok st' /\ valid st'
              /\ forall r, loops_in st' r = loops_in st r ++ (if for_region r o then [loop_of o] else []).
Proof.
  intros G V. pose proof (append_written st o [] G (or_introl eq_refl)) as E. rewrite app_nil_r in E. eexists. split; [exact E|].
  pose proof G as (_ & N & _). pose proof (fun r => add_many (List.length (heap st)) (meant (o_regions o)) (table st) r (meant_nodup _ N)) as M'.
  split.
  - intros r l i. cbn [table heap]. rewrite M', app_length. cbn [List.length]. destruct (existsb _ _).
    + intros H I. injection H as <-. destruct (tget r (table st)) as [x|] eqn:X.
      * apply in_app_or in I as [I|[<-|[]]]; [|lia]. specialize (V r x i X I). lia.
      * destruct I as [<-|[]]. lia.
    + intros H I. specialize (V r l i H I). lia.
  - intros r. unfold loops_in, for_region. cbn [table heap]. rewrite M'. destruct (existsb _ _).
    + assert (L : match nth_error (heap st ++ [loop_of o]) (List.length (heap st)) with Some e => [e] | None => [] end = [loop_of o]).
      { rewrite nth_error_app2 by lia. rewrite Nat.sub_diag. reflexivity. }
      destruct (tget r (table st)) as [x|] eqn:X; cbn [flat_map].
      * rewrite flat_map_app. cbn [flat_map]. rewrite L, flat_more by (intros i I; exact (V r x i X I)). reflexivity.
      * rewrite L. reflexivity.
    + rewrite app_nil_r. destruct (tget r (table st)) as [x|] eqn:X; [|reflexivity]. apply flat_more. intros i I. exact (V r x i X I).
Qed.
Lemma append_all os : forall st, Forall good_loop os -> valid st ->
  exists st', fold_res append_loop st (map write_loop os) = Ok st' /\ valid st'
              /\ forall r, loops_in st' r = loops_in st r ++ map loop_of (filter (for_region r) os).
Proof.
  induction os as [|o os IH]; intros st F V.
  - exists st. split; [reflexivity|]. split; [exact V|]. intros r. now rewrite app_nil_r.
  - inversion_clear F as [|? ? G F']. destruct (append_step st o G V) as (st1 & E1 & V1 & L1). destruct (IH st1 F' V1) as (st2 & E2 & V2 & L2).
    exists st2. split; [cbn [map fold_res]; rewrite E1; exact E2|]. split; [exact V2|]. intros r. rewrite L2, L1, <- app_assoc. cbn [filter].
    destruct (for_region r o); reflexivity.
Qed.

(** ** Variables *)
Definition after_float (rest : text) := ends is_decimal rest /\ ends (N.eqb 46) rest /\ ends is_e rest.
Section Fl.
Context {A : Type}.
Implicit Types (k : @cont A) (s w rest : text) (g : groups).
Lemma exponent_some e rest g k x : exponent e -> after_float rest -> k rest g = Some x -> rmatch exponent_rx (e ++ rest) g k = Some x.
Proof.
  intros E (R1 & R2 & R3) K. unfold exponent_rx. destruct E as [->|(c & s & d & C & S' & D & ->)].
  - cbn [app]. rewrite opt_none; [exact K|]. rewrite seq_eq. now apply chr_none.
  - apply opt_some. rewrite seq_eq. cbn [app]. rewrite chr_some by (destruct C as [->| ->]; reflexivity). rewrite seq_eq.
    destruct D as [N D]. rewrite <- app_assoc.
    assert (P : rmatch (rplus rdigit) (d ++ rest) g k = Some x) by now apply plus_some.
    destruct S' as [->|[->| ->]]; cbn [app].
    + rewrite opt_none; [exact P|]. apply chr_none. destruct d as [|c' d]; [easy|]. cbn [forallb] in D. apply andb_true_iff in D as [D _].
      apply is_decimal_spec in D. unfold ends. cbn [app]. unfold is_sign. apply orb_false_iff. split; apply N.eqb_neq; lia.
    + apply opt_some. now rewrite chr_some.
    + apply opt_some. now rewrite chr_some.
Qed.
Lemma exponent_head e rest : exponent e -> after_float rest -> ends is_decimal (e ++ rest) /\ ends (N.eqb 46) (e ++ rest).
Proof.
  intros [->|(c & s & d & C & _ & _ & ->)] (R1 & R2 & _); [now split|]. cbn [app]. destruct C as [->| ->]; split; reflexivity.
Qed.
Lemma back_last i c rest g k x : k rest g = None -> k (c :: rest) g = Some x -> back (i ++ [c]) rest g k = Some x.
Proof. intros N K. induction i as [|d i IH]; cbn [app back]; [now rewrite N|]. now rewrite IH. Qed.
Lemma plus_nothing p rest g k : ends p rest -> rmatch (rplus (RChr p)) rest g k = None.
Proof. intros H. unfold rplus. rewrite seq_eq. now apply chr_none. Qed.
Lemma float_some t rest g k x : number t -> after_float rest -> k rest g = Some x -> rmatch float_rx (t ++ rest) g k = Some x.
Proof.
  intros (i & f & e & I & F & E & ->) R K. destruct (exponent_head e rest E R) as [H1 H2]. unfold float_rx. rewrite seq_eq. rewrite <- !app_assoc.
  destruct I as [NI DI]. destruct F as [->|(d & D & ->)].
  - cbn [app]. unfold rdigit at 1. rewrite (match_star is_decimal _ i (e ++ rest)) by assumption.
    destruct (exists_last NI) as (i' & c & ->). rewrite forallb_app in DI. apply andb_true_iff in DI as [_ DC]. cbn [forallb] in DC.
    rewrite andb_true_r in DC. apply back_last.
    + rewrite seq_eq, opt_none by now apply lit_none. rewrite seq_eq. now apply plus_nothing.
    + rewrite seq_eq, opt_none by (apply lit_none; unfold ends; now apply digit_dot). rewrite seq_eq.
      apply (plus_some is_decimal _ [c] (e ++ rest)); [cbn [forallb]; now rewrite DC|discriminate|assumption|]. now apply exponent_some.
  - unfold rdigit at 1. apply (star_some is_decimal); [assumption|reflexivity|]. rewrite seq_eq. cbn [app]. apply opt_some. rewrite lit_eq.
    rewrite seq_eq. destruct D as [ND DD]. apply (plus_some is_decimal); [assumption..|]. now apply exponent_some.
Qed.
Lemma float_group name t rest g k x : number t -> after_float rest -> k rest ((name, t) :: g) = Some x ->
  rmatch (RGroup name float_rx) (t ++ rest) g k = Some x.
Proof. intros D R K. apply group_some. apply float_some; [assumption..|]. now rewrite consumed. Qed.
Lemma float_nothing s g k : ends is_decimal s -> ends (N.eqb 46) s -> rmatch float_rx s g k = None.
Proof.
  intros H1 H2. unfold float_rx. rewrite seq_eq. unfold rdigit at 1. rewrite (match_star is_decimal _ [] s) by (reflexivity || assumption).
  cbn [back]. rewrite seq_eq, opt_none by now apply lit_none. rewrite seq_eq. now apply plus_nothing.
Qed.
Lemma opt_total a s g k : (forall s g, k s g <> None) -> rmatch (ropt a) s g k <> None.
Proof. intros H. rewrite opt_eq. specialize (H s g). now destruct (rmatch a s g k). Qed.
End Fl.
Lemma number_first t s : number t -> ends not_decimal (t ++ s).
Proof. intros (i & f & e & I & _ & _ & ->). rewrite <- app_assoc. now apply digits_head. Qed.
Definition tail_of (f : define_option) : text :=
  match f_stop f with None => [] | Some (b, None) => 58 :: b | Some (b, Some s) => 58 :: b ++ 58 :: write_scale s end.
Definition tail_groups (f : define_option) : groups :=
  match f_stop f with
  | None => []
  | Some (b, None) => [("stop_var"%string, b)]
  | Some (b, Some s) => [("scale_var"%string, write_scale s); ("stop_var"%string, b)]
  end.
Lemma scale_empty g : rmatch scale_rx [] g (fun s g => Some (s, g)) = Some ([], g).
Proof. reflexivity. Qed.
Lemma define_matches f : good_define f ->
  exists g0, re_match define_rx (write_define f) = Some ([], tail_groups f ++ ("start_var"%string, f_start f) :: g0)
             /\ regions_of g0 = meant (f_regions f) /\ group "start_var" g0 = None /\ group "stop_var" g0 = None /\ group "scale_var" g0 = None.
Proof.
  intros (F & S1 & S2). exists (match f_regions f with [] => [] | _ => [("region"%string, join 44 (f_regions f))] end).
  split; [|split; [exact (regions_read _ [] F eq_refl)|destruct (f_regions f); repeat split]].
  unfold re_match, define_rx, write_define. rewrite seq_eq. apply regions_some; [assumption|now apply number_first|].
  fold (tail_of f). rewrite !seq_eq. apply opt_some.
  assert (T : forall g, rmatch colon_rx (tail_of f) g (fun s' g' => rmatch (RSeq (ropt (RSeq (ropt (RGroup "stop_var" float_rx)) colon_rx)) scale_rx) s' g'
                          (fun s g => Some (s, g))) = Some ([], tail_groups f ++ g)).
  { intros g. unfold tail_of, tail_groups, colon_rx. destruct (f_stop f) as [[b [s|]]|].
    - apply opt_some. rewrite lit_eq. rewrite seq_eq. apply opt_some. rewrite seq_eq. apply opt_some.
      apply float_group; [assumption|repeat split|]. apply opt_some. rewrite lit_eq. destruct s; reflexivity.
    - apply opt_some. rewrite lit_eq. rewrite seq_eq. apply opt_some. rewrite seq_eq. apply opt_some. rewrite <- (app_nil_r b) at 1.
      apply float_group; [assumption|repeat split|]. rewrite opt_none by reflexivity. apply scale_empty.
    - reflexivity. }
  apply float_group; [assumption| |].
  - unfold tail_of. destruct (f_stop f) as [[b [s|]]|]; repeat split.
  - rewrite T. destruct (f_regions f); reflexivity.
Qed.
(** *** Values *)
Lemma more_digits_prefix d rest : forallb is_decimal d = true -> ends is_decimal rest -> ends (N.eqb 95) rest -> more_digits (d ++ rest) = (d, rest).
Proof.
  intros D R1 R2. induction d as [|c d IH].
  - destruct rest as [|c r]; [reflexivity|]. unfold ends in R1, R2. cbn [app more_digits]. rewrite R1. rewrite N.eqb_sym in R2. rewrite R2. cbn [andb].
    destruct r; reflexivity.
  - cbn [forallb] in D. apply andb_true_iff in D as [C D]. cbn [app more_digits]. rewrite C, IH by assumption. reflexivity.
Qed.
Lemma digit_part_prefix d rest : digits d -> ends is_decimal rest -> ends (N.eqb 95) rest -> digit_part (d ++ rest) = (d, rest).
Proof.
  intros [N D] R1 R2. destruct d as [|c d]; [easy|]. cbn [forallb] in D. apply andb_true_iff in D as [C D]. cbn [app digit_part]. rewrite C.
  now rewrite more_digits_prefix.
Qed.
Lemma digit_part_nothing rest : ends is_decimal rest -> digit_part rest = ([], rest).
Proof. destruct rest as [|c r]; [reflexivity|]. unfold ends. cbn [digit_part]. now intros ->. Qed.
Lemma exponent_reads e : exponent e -> exists z, exponent_part e = Some (z, []).
Proof.
  intros [->|(c & s & d & C & S' & D & ->)]; [eexists; reflexivity|]. cbn [exponent_part].
  assert (X : (c =? 101) || (c =? 69) = true) by (destruct C as [->| ->]; reflexivity). rewrite X.
  assert (P : digit_part d = (d, [])) by (rewrite <- (app_nil_r d) at 1; now apply digit_part_prefix).
  destruct D as [N D]. destruct d as [|c' d]; [easy|]. assert (D' := D). cbn [forallb] in D'. apply andb_true_iff in D' as [D' _]. apply is_decimal_spec in D'.
  destruct S' as [->|[->| ->]]; cbn [app].
  - rewrite sign_part_other by lia. rewrite P. eexists; reflexivity.
  - cbn [sign_part]. rewrite P. eexists; reflexivity.
  - cbn [sign_part]. rewrite P. eexists; reflexivity.
Qed.
Lemma digits_chars d c : forallb is_decimal d = true -> In c d -> is_space c = false.
Proof.
  intros D I. rewrite forallb_forall in D. apply D in I. apply is_decimal_spec in I. unfold is_space. apply orb_false_iff.
  split; apply andb_false_iff; right; apply N.leb_gt; lia.
Qed.
Lemma number_chars t c : number t -> In c t -> is_space c = false.
Proof.
  intros (i & f & e & [_ I] & F & E & ->) J. apply in_app_or in J as [J|J]; [now apply (digits_chars i)|]. apply in_app_or in J as [J|J].
  - destruct F as [->|(d & [_ D] & ->)]; [easy|]. destruct J as [<-|J]; [reflexivity|now apply (digits_chars d)].
  - destruct E as [->|(c' & s & d & C & S' & [_ D] & ->)]; [easy|]. destruct J as [<-|J]; [destruct C as [->| ->]; reflexivity|].
    apply in_app_or in J as [J|J]; [|now apply (digits_chars d)]. destruct S' as [->|[->| ->]]; [easy| |]; destruct J as [<-|[]]; reflexivity.
Qed.
Lemma number_value t : number t -> exists q, py_float t = Some (Fin q).
Proof.
  intros N. assert (W : strip t = t) by (apply strip_id; intros c; now apply number_chars). unfold py_float. rewrite W. clear W.
  destruct N as (i & f & e & I & F & E & ->). assert (I' := I). destruct I as [NI DI]. destruct i as [|c i]; [easy|].
  cbn [forallb] in DI. apply andb_true_iff in DI as [DC DI]. apply is_decimal_spec in DC.
  change ((c :: i) ++ f ++ e) with (c :: (i ++ f ++ e)) at 1. rewrite sign_part_other by lia. cbv zeta.
  assert (X : forall w, text_eqb (lower_case (c :: i ++ f ++ e)) (105 :: w) = false /\ text_eqb (lower_case (c :: i ++ f ++ e)) (110 :: w) = false).
  { intros w. unfold lower_case. cbn [map text_eqb]. replace (65 <=? c) with false by (symmetry; apply N.leb_gt; lia). cbn [andb].
    split; apply andb_false_iff; left; apply N.eqb_neq; lia. }
  change (codes "inf") with (105 :: codes "nf"). change (codes "infinity") with (105 :: codes "nfinity"). change (codes "nan") with (110 :: codes "an").
  destruct (X (codes "nf")) as [-> _]. destruct (X (codes "nfinity")) as [-> _]. destruct (X (codes "an")) as [_ ->]. cbn [orb].
  change (c :: i ++ f ++ e) with ((c :: i) ++ f ++ e). unfold unsigned. destruct (exponent_reads e E) as (z & Z').
  assert (E1 : ends is_decimal e /\ ends (N.eqb 95) e /\ ends (N.eqb 46) e).
  { destruct E as [->|(c' & s & d & C & _ & _ & ->)]; [repeat split|]. destruct C as [->| ->]; repeat split. }
  destruct E1 as (E1 & E2 & E3). destruct F as [->|(d & D & ->)].
  - cbn [app]. change (c :: i ++ e) with ((c :: i) ++ e). rewrite digit_part_prefix by assumption.
    assert (G : match e with c :: r' => if c =? 46 then digit_part r' else ([], e) | [] => ([], e) end = ([], e)).
    { destruct e as [|c' r]; [reflexivity|]. unfold ends in E3. rewrite N.eqb_sym, E3. reflexivity. }
    rewrite G. cbn [app]. rewrite Z'. eexists; reflexivity.
  - rewrite digit_part_prefix by (assumption || reflexivity). cbn [app]. rewrite N.eqb_refl. rewrite digit_part_prefix by assumption.
    rewrite Z'. eexists; reflexivity.
Qed.
Lemma finite_of t q : py_float t = Some (Fin q) -> finite t = Ok q.
Proof. intros H. unfold finite. now rewrite H. Qed.
Lemma define_reads d name f : good_define f -> exists v, append_define d name (write_define f) = Ok (tset name (Some v) d) /\ variable_of f v.
Proof.
  intros G. destruct (define_matches f G) as (g0 & M & R & G1 & G2 & G3). unfold append_define. rewrite M. destruct G as (F & S1 & S2).
  destruct (number_value _ S1) as (a & A). unfold variable_of. unfold tail_groups.
  destruct (f_stop f) as [[b [s|]]|].
  - destruct (number_value _ S2) as (q & B). cbn [app group String.eqb Ascii.eqb Bool.eqb]. rewrite (finite_of _ _ A), (finite_of _ _ B). cbn [bind].
    eexists. split; [reflexivity|]. cbn [v_region v_first v_now v_adjust]. split; [exact R|]. split; [reflexivity|]. split; [exact A|].
    exists q. split; [exact B|]. destruct s; reflexivity.
  - destruct (number_value _ S2) as (q & B). cbn [app group String.eqb Ascii.eqb Bool.eqb]. rewrite (finite_of _ _ A), (finite_of _ _ B), G3. cbn [bind].
    eexists. split; [reflexivity|]. cbn [v_region v_first v_now v_adjust]. split; [exact R|]. split; [reflexivity|]. split; [exact A|].
    exists q. split; [exact B|]. destruct (Qltb_spec a q) as [L|L].
    + left. now split.
    + right. split; [now apply Qnot_lt_le|reflexivity].
  - cbn [app group String.eqb Ascii.eqb Bool.eqb]. rewrite (finite_of _ _ A), G2. cbn [bind].
    eexists. split; [reflexivity|]. cbn [v_region v_first v_now v_adjust]. split; [exact R|]. split; [reflexivity|]. now split.
Qed.
(** Every text is accepted. *)
Lemma define_total v : re_match define_rx v <> None.
Proof.
  unfold re_match, define_rx. rewrite seq_eq. apply opt_total. intros s g. rewrite !seq_eq. apply opt_total. intros s1 g1. apply opt_total. intros s2 g2.
  rewrite seq_eq. apply opt_total. intros s3 g3. unfold scale_rx. apply opt_total. intros s4 g4. discriminate.
Qed.
Lemma scale_any s g : exists s' g', rmatch scale_rx s g (fun s g => Some (s, g)) = Some (s', g')
  /\ (g' = g \/ exists w, g' = ("scale_var"%string, w) :: g).
Proof.
  unfold scale_rx. rewrite opt_eq, opt_eq. set (r := RAlt _ _).
  assert (X : forall o, o = rmatch (RGroup "scale_var" r) s g (fun s g => Some (s, g)) ->
              o = None \/ exists s' w, o = Some (s', ("scale_var"%string, w) :: g)).
  { intros o ->. unfold r. cbn [rmatch codes rword rlit orelse].
    repeat match goal with |- context [match ?s with [] => None | c :: s' => _ end] => destruct s as [|? ?] | |- context [if ?b then _ else _] => destruct b end; cbn [orelse];
      first [now left | right; do 2 eexists; reflexivity | idtac]. }
  destruct (X _ eq_refl) as [->|(s' & w & ->)]; cbn [orelse].
  - exists s, g. split; [reflexivity|now left].
  - exists s', (("scale_var"%string, w) :: g). split; [reflexivity|right; now exists w].
Qed.
(** A text that goes on with something else than a range is taken for a fixed value. *)
Lemma define_tail d name l a t q : Forall is_name l -> number a -> py_float a = Some (Fin q) -> after_float t -> ends (N.eqb 58) t ->
  append_define d name (write_regions l ++ a ++ t) = Ok (tset name (Some (mkVariable (meant l) q q None)) d).
Proof.
  intros F N A T C.
  assert (M : exists s g, re_match define_rx (write_regions l ++ a ++ t) = Some (s, g) /\ group "start_var" g = Some a /\ group "stop_var" g = None
                          /\ regions_of g = meant l).
  { set (g0 := match l with [] => [] | _ => [("region"%string, join 44 l)] end : groups).
    destruct (scale_any t (("start_var"%string, a) :: g0)) as (s' & g' & E & G). exists s', g'. split.
    - unfold re_match, define_rx. rewrite seq_eq. apply regions_some; [assumption|now apply number_first|]. rewrite !seq_eq. apply opt_some.
      apply float_group; [assumption..|]. unfold colon_rx at 1. rewrite opt_none by now apply lit_none. rewrite seq_eq.
      apply opt_some. rewrite seq_eq. destruct T as (T1 & T2 & _). rewrite opt_none by (cbn [rmatch]; now apply float_nothing).
      unfold colon_rx. rewrite opt_none by now apply lit_none. exact E.
    - assert (R : regions_of g0 = meant l) by exact (regions_read l [] F eq_refl).
      assert (G0 : group "stop_var" g0 = None) by (unfold g0; now destruct l).
      destruct G as [->|(w & ->)]; repeat split; assumption. }
  destruct M as (s & g & E & G1 & G2 & R). unfold append_define. rewrite E, G1, (finite_of _ _ A). cbn [bind]. rewrite G2, R. reflexivity.
Qed.
(** Texts without a number *)
Lemma define_garbage d name v : ~ In 58 v -> ends is_decimal v -> ends (N.eqb 46) v -> append_define d name v = Ok (tset name None d).
Proof.
  intros C D1 D2.
  assert (M : exists s g, re_match define_rx v = Some (s, g) /\ group "start_var" g = None).
  { destruct (scale_any v []) as (s' & g' & E & G). exists s', g'. split; [|destruct G as [->|(w & ->)]; reflexivity].
    assert (X : ends (N.eqb 58) v) by (destruct v as [|c v]; [exact Logic.I|]; unfold ends; apply N.eqb_neq; intros <-; apply C; now left).
    unfold re_match, define_rx. rewrite seq_eq, region_colon by assumption. rewrite !seq_eq. rewrite opt_none by (cbn [rmatch]; now apply float_nothing).
    unfold colon_rx at 1. rewrite opt_none by now apply lit_none. rewrite seq_eq. apply opt_some. rewrite seq_eq.
    rewrite opt_none by (cbn [rmatch]; now apply float_nothing). unfold colon_rx. rewrite opt_none by now apply lit_none. exact E. }
  destruct M as (s & g & E & G). unfold append_define. rewrite E, G. reflexivity.
Qed.

(** ** Repetitions and operations *)
Lemma regions_free {A} l s g (k : @cont A) x : Forall is_name l -> ~ In 58 s ->
  k s (match l with [] => g | _ => ("region"%string, join 44 l) :: g end) = Some x ->
  rmatch region_rx (write_regions l ++ s) g k = Some x.
Proof.
  intros F H K. destruct l as [|p l]; [cbn [write_regions app]; now rewrite region_colon|].
  unfold write_regions. rewrite <- app_assoc. cbn [app]. apply region_some; [discriminate|assumption..].
Qed.
Lemma word_colon q : forallb is_word q = true -> ~ In 58 q.
Proof. intros W H. rewrite forallb_forall in W. apply W in H. discriminate. Qed.
Lemma class_matches name p l q : Forall is_name l -> (forall c, p c = true -> is_word c = true) -> q <> [] -> forallb p q = true ->
  re_match (RSeq region_rx (RSeq (RGroup name (rplus (RChr p))) REnd)) (write_regions l ++ q)
  = Some ([], (name, q) :: match l with [] => [] | _ => [("region"%string, join 44 l)] end).
Proof.
  intros F P N W. unfold re_match. rewrite seq_eq. apply regions_free; [assumption| |].
  { apply word_colon. rewrite forallb_forall in W |- *. auto. }
  rewrite seq_eq. apply group_all. apply plus_all; [assumption..|].
  cbn [rmatch List.length]. rewrite Nat.sub_0_r, firstn_all. destruct l; reflexivity.
Qed.
Lemma set_all {A} (q : A) l : forall d r, tget r (fold_left (fun d r => tset r q d) l d) = if existsb (text_eqb r) l then Some q else tget r d.
Proof.
  induction l as [|p l IH]; intros d r; [reflexivity|]. cbn [fold_left existsb]. rewrite IH, tget_tset.
  destruct (text_eqb r p), (existsb (text_eqb r) l); reflexivity.
Qed.
Lemma write_not_nil l q : q <> [] -> write_regions l ++ q <> [].
Proof. intros N E. apply app_eq_nil in E as [_ E]. contradiction. Qed.
Lemma repetition_reads d l q : Forall is_name l -> q <> [] -> forallb is_word q = true ->
  exists d', append_repetition d (write_regions l ++ q) = Ok d' /\ forall r, tget r d' = if existsb (text_eqb r) (meant l) then Some q else tget r d.
Proof.
  intros F N W. unfold append_repetition. destruct (write_regions l ++ q) as [|c t] eqn:E; [now apply write_not_nil in E|]. rewrite <- E.
  unfold repetition_rx. rewrite class_matches by auto. cbn [group String.eqb Ascii.eqb Bool.eqb].
  eexists. split; [reflexivity|]. intros r. rewrite set_all. rewrite <- (regions_read l [] F eq_refl). destruct l; reflexivity.
Qed.
Lemma set_once_ok f l : forall d, NoDup l -> (forall r, In r l -> tget r d = None) ->
  exists d', set_once f l d = Ok d' /\ forall r, tget r d' = if existsb (text_eqb r) l then Some f else tget r d.
Proof.
  induction l as [|p l IH]; intros d N H; [exists d; split; [reflexivity|intros; reflexivity]|]. inversion_clear N as [|? ? P N'].
  cbn [set_once]. rewrite H by now left. destruct (IH (tset p f d) N') as (d' & E & G).
  { intros r I. rewrite tget_tset. destruct (text_eqb_spec r p) as [->|M]; [contradiction|]. apply H. now right. }
  exists d'. split; [exact E|]. intros r. rewrite G, tget_tset. cbn [existsb]. destruct (text_eqb r p), (existsb (text_eqb r) l); reflexivity.
Qed.
Lemma set_once_twice f l : forall d, (exists r, In r l /\ tget r d <> None) -> set_once f l d = Err RuntimeError.
Proof.
  induction l as [|p l IH]; intros d (r & I & H); [easy|]. cbn [set_once]. destruct (tget p d) eqn:E; [reflexivity|]. apply IH. exists r.
  destruct I as [->|I]; [congruence|]. split; [exact I|]. rewrite tget_tset. now destruct (text_eqb r p).
Qed.
Lemma decimal_word c : is_decimal c = true -> is_word c = true.
Proof. intros H. unfold is_word. rewrite H. destruct (is_alpha c); reflexivity. Qed.
Lemma flops_reads d l f : Forall is_name l -> append_flops d (write_regions l ++ show_nat f) = set_once (Z.of_N f) (meant l) d.
Proof.
  intros F. destruct (show_digits f) as [N D]. unfold append_flops. destruct (write_regions l ++ show_nat f) as [|c t] eqn:E; [now apply write_not_nil in E|].
  rewrite <- E. unfold flops_rx, rdigit. rewrite class_matches by (assumption || exact decimal_word). cbn [group String.eqb Ascii.eqb Bool.eqb].
  rewrite show_read. rewrite <- (regions_read l [] F eq_refl). destruct l; reflexivity.
Qed.

(** ** Kernels *)
Lemma nth_set {A} (l : list A) i j a : nth_error (set_nth i a l) j = if (Nat.eqb i j && (i <? List.length l)%nat)%bool then Some a else nth_error l j.
Proof.
  revert i j. induction l as [|x l IH]; intros i j.
  - cbn [List.length]. rewrite andb_false_r. now destruct i.
  - destruct i as [|i], j as [|j]; try reflexivity. cbn [set_nth nth_error List.length]. rewrite IH. reflexivity.
Qed.
Lemma set_nth_length {A} (l : list A) i a : List.length (set_nth i a l) = List.length l.
Proof. revert i. induction l as [|x l IH]; intros [|i]; cbn; auto. Qed.
(** An offset does not depend on an earlier one. *)
Notation offset_or := with_offset.
Lemma offset_twice define e : offset_or define (offset_or define e) = offset_or define e.
Proof.
  destruct e as [l|t]; [|reflexivity]. unfold with_offset. destruct (l_var l) as [[|c n]|] eqn:E; [now rewrite E| |now rewrite E].
  destruct (tget (c :: n) define) as [[v|]|] eqn:G; cbn [l_var l_start l_step l_end]; rewrite ?E, ?G; reflexivity.
Qed.
Lemma usable_offset define e : usable_loop define (offset_or define e) <-> usable_loop define e.
Proof.
  destruct e as [l|t]; [|reflexivity]. unfold with_offset. destruct (l_var l) as [[|c n]|] eqn:E; [reflexivity| |reflexivity].
  destruct (tget (c :: n) define) as [[v|]|] eqn:G; unfold usable_loop; cbn [l_var]; rewrite E; reflexivity.
Qed.
Lemma set_offset_ok define h i : (forall e, nth_error h i = Some e -> usable_loop define e) ->
  exists h', set_offset define h i = Ok h'
             /\ List.length h' = List.length h
             /\ forall j, nth_error h' j = if Nat.eqb i j then option_map (offset_or define) (nth_error h j) else nth_error h j.
Proof.
  intros U. unfold set_offset. destruct (nth_error h i) as [[l|t]|] eqn:E.
  - specialize (U _ eq_refl). cbn [usable_loop] in U. unfold with_offset.
    assert (L : (i < List.length h)%nat) by (apply nth_error_Some; congruence).
    destruct (l_var l) as [[|c n]|] eqn:V.
    + exists h. split; [reflexivity|]. split; [reflexivity|]. intros j. destruct (Nat.eqb_spec i j) as [<-|N]; [|reflexivity]. rewrite E. cbn [option_map]. now rewrite V.
    + destruct U as (v & G). rewrite G. eexists. split; [reflexivity|]. split; [apply set_nth_length|]. intros j. rewrite nth_set.
      destruct (Nat.eqb_spec i j) as [<-|N]; [|reflexivity]. apply Nat.ltb_lt in L. rewrite L, E. cbn [andb option_map]. rewrite V, G. reflexivity.
    + exists h. split; [reflexivity|]. split; [reflexivity|]. intros j. destruct (Nat.eqb_spec i j) as [<-|N]; [|reflexivity]. rewrite E. cbn [option_map]. now rewrite V.
  - specialize (U _ eq_refl). easy.
  - exists h. split; [reflexivity|]. split; [reflexivity|]. intros j. destruct (Nat.eqb_spec i j) as [<-|N]; [|reflexivity]. now rewrite E.
Qed.
Lemma set_offset_bad define h i e : nth_error h i = Some e -> ~ usable_loop define e -> exists x, set_offset define h i = Err x.
Proof.
  intros E U. unfold set_offset. rewrite E. destruct e as [l|t]; [|eexists; reflexivity]. cbn [usable_loop] in U.
  destruct (l_var l) as [[|c n]|]; [now destruct U| |now destruct U]. destruct (tget (c :: n) define) as [[v|]|] eqn:G; [|eexists; reflexivity..].
  exfalso. apply U. now exists v.
Qed.
Lemma offsets_ok define l : forall h, (forall i e, In i l -> nth_error h i = Some e -> usable_loop define e) ->
  exists h', fold_res (set_offset define) h l = Ok h'
             /\ forall j, nth_error h' j = if existsb (Nat.eqb j) l then option_map (offset_or define) (nth_error h j) else nth_error h j.
Proof.
  induction l as [|i l IH]; intros h U; [exists h; split; [reflexivity|intros; reflexivity]|].
  destruct (set_offset_ok define h i) as (h1 & E1 & L1 & G1); [intros e H; apply (U i e); [now left|exact H]|].
  destruct (IH h1) as (h2 & E2 & G2).
  { intros j e J H. rewrite G1 in H. destruct (Nat.eqb_spec i j) as [<-|N].
    - destruct (nth_error h i) as [e0|] eqn:E0; [|discriminate]. injection H as <-. apply usable_offset. apply (U i e0); [now left|exact E0].
    - apply (U j e); [now right|exact H]. }
  exists h2. split; [cbn [fold_res]; rewrite E1; exact E2|]. intros j. rewrite G2, G1. cbn [existsb]. rewrite (Nat.eqb_sym j i).
  destruct (Nat.eqb i j), (existsb (Nat.eqb j) l); cbn [orb]; try reflexivity. destruct (nth_error h j) as [e|]; [|reflexivity]. cbn [option_map].
  now rewrite offset_twice.
Qed.
Lemma set_offset_inv define h i h' : set_offset define h i = Ok h' -> forall e, nth_error h i = Some e -> usable_loop define e.
Proof.
  unfold set_offset. destruct (nth_error h i) as [[l|t]|]; try discriminate. intros H e E. injection E as <-. cbn [usable_loop].
  destruct (l_var l) as [[|c n]|]; [exact Logic.I| |exact Logic.I]. destruct (tget (c :: n) define) as [[v|]|]; [now exists v|discriminate..].
Qed.
Lemma offsets_inv define l : forall h h', fold_res (set_offset define) h l = Ok h' -> forall i e, In i l -> nth_error h i = Some e -> usable_loop define e.
Proof.
  induction l as [|j l IH]; intros h h' H i e I E; [easy|]. cbn [fold_res] in H. destruct (set_offset define h j) as [h1|x] eqn:E1; [|discriminate].
  cbn [bind] in H. pose proof (set_offset_inv _ _ _ _ E1) as U1. destruct (set_offset_ok define h j U1) as (h1' & E1' & _ & G). rewrite E1 in E1'. injection E1' as <-.
  destruct I as [->|I]; [exact (U1 e E)|]. destruct (Nat.eqb_spec j i) as [->|N]; [exact (U1 e E)|].
  apply (IH h1 h' H i e I). rewrite G. destruct (Nat.eqb_spec j i); [contradiction|exact E].
Qed.
(** Tables with defaults *)
Lemma default_ok {A} (d : tdict A) r : chosen d r <> None ->
  exists d', default d r = Ok d' /\ (forall s, chosen d' s = chosen d s) /\ tget r d' = chosen d r /\ (forall s, tget s d <> None -> tget s d' = tget s d).
Proof.
  unfold default, chosen. destruct (tget r d) as [x|] eqn:E.
  - intros _. exists d. repeat split; auto.
  - destruct (tget [] d) as [x|] eqn:E0; [|easy]. intros _. exists (tset r x d). split; [reflexivity|].
    assert (R : r <> []) by (intros ->; congruence).
    split; [|split].
    + intros s. rewrite !tget_tset, E0. rewrite (text_eqb_neq [] r) by congruence. destruct (text_eqb_spec s r) as [->|N]; [now rewrite E|reflexivity].
    + now rewrite tget_tset, text_eqb_refl.
    + intros s S'. rewrite tget_tset. destruct (text_eqb_spec s r) as [->|N]; [congruence|reflexivity].
Qed.
Lemma default_bad {A} (d : tdict A) r : chosen d r = None -> default d r = Err SystemExit.
Proof. unfold default, chosen. destruct (tget r d); [discriminate|]. now intros ->. Qed.
Definition step3 {A B C} (x : tdict A * tdict B * tdict C) (r : text) : res (tdict A * tdict B * tdict C) :=
  do lt <- default (fst (fst x)) r; do rt <- default (snd (fst x)) r; do ft <- default (snd x) r; Ok (lt, rt, ft).
Lemma defaults_ok {A B C} l : forall (a : tdict A) (b : tdict B) (c : tdict C),
  (forall r, In r l -> chosen a r <> None /\ chosen b r <> None /\ chosen c r <> None) ->
  exists a' b' c', fold_res step3 (a, b, c) l = Ok (a', b', c')
    /\ (forall s, chosen a' s = chosen a s)
    /\ (forall s, tget s a <> None -> tget s a' = tget s a) /\ (forall s, tget s b <> None -> tget s b' = tget s b) /\ (forall s, tget s c <> None -> tget s c' = tget s c)
    /\ forall r, In r l -> tget r a' = chosen a r /\ tget r b' = chosen b r /\ tget r c' = chosen c r.
Proof.
  induction l as [|r l IH]; intros a b c H.
  - exists a, b, c. split; [reflexivity|]. repeat split; auto; contradiction.
  - destruct (H r (or_introl eq_refl)) as (Ha & Hb & Hc).
    destruct (default_ok a r Ha) as (a1 & Ea & Ca & Ga & Ka). destruct (default_ok b r Hb) as (b1 & Eb & Cb & Gb & Kb). destruct (default_ok c r Hc) as (c1 & Ec & Cc & Gc & Kc).
    destruct (IH a1 b1 c1) as (a2 & b2 & c2 & E & Qa & Pa & Pb & Pc & G).
    { intros s I. rewrite Ca, Cb, Cc. apply H. now right. }
    exists a2, b2, c2. split; [|split; [|split; [|split; [|split]]]].
    + cbn [fold_res]. unfold step3 at 1. cbn [fst snd]. rewrite Ea, Eb, Ec. exact E.
    + intros s. now rewrite Qa.
    + intros s S'. rewrite Pa; [auto|]. now rewrite Ka.
    + intros s S'. rewrite Pb; [auto|]. now rewrite Kb.
    + intros s S'. rewrite Pc; [auto|]. now rewrite Kc.
    + intros s [<-|I].
      * rewrite Pa, Pb, Pc by congruence. now repeat split.
      * destruct (G s I) as (X & Y & Z'). now rewrite Ca in X; rewrite Cb in Y; rewrite Cc in Z'.
Qed.
Lemma defaults_bad {A B C} l : forall (a : tdict A) (b : tdict B) (c : tdict C),
  (exists r, In r l /\ ~ (chosen a r <> None /\ chosen b r <> None /\ chosen c r <> None)) -> fold_res step3 (a, b, c) l = Err SystemExit.
Proof.
  induction l as [|r l IH]; intros a b c (s & I & H); [easy|]. cbn [fold_res]. unfold step3 at 1. cbn [fst snd].
  destruct (chosen a r) as [x|] eqn:Xa; [|now rewrite default_bad].
  destruct (default_ok a r) as (a1 & Ea & Ca & _); [congruence|]. rewrite Ea. cbn [bind].
  destruct (chosen b r) as [y|] eqn:Xb; [|now rewrite default_bad].
  destruct (default_ok b r) as (b1 & Eb & Cb & _); [congruence|]. rewrite Eb. cbn [bind].
  destruct (chosen c r) as [z|] eqn:Xc; [|now rewrite default_bad].
  destruct (default_ok c r) as (c1 & Ec & Cc & _); [congruence|]. rewrite Ec. cbn [bind].
  apply IH. exists s. destruct I as [->|I]; [exfalso; apply H; repeat split; congruence|]. split; [exact I|]. now rewrite Ca, Cb, Cc.
Qed.
Lemma map_res_get {A B} (f : A -> res B) d : forall d', map_res f d = Ok d' ->
  (forall k, match tget k d with Some a => exists b, f a = Ok b /\ tget k d' = Some b | None => tget k d' = None end) /\ map fst d' = map fst d.
Proof.
  induction d as [|[k a] d IH]; intros d' H.
  - injection H as <-. split; reflexivity.
  - cbn [map_res] in H. destruct (f a) as [b|x] eqn:E; [|discriminate]. cbn [bind] in H. destruct (map_res f d) as [l|x] eqn:E'; [|discriminate].
    injection H as <-. destruct (IH l eq_refl) as [G K]. split.
    + intros j. cbn [tget]. destruct (text_eqb j k); [now exists b|apply G].
    + cbn [map fst]. now rewrite K.
Qed.
Lemma map_res_ok {A B} (f : A -> res B) (d : tdict A) : (forall k a, In (k, a) d -> exists b, f a = Ok b) -> exists d', map_res f d = Ok d'.
Proof.
  induction d as [|[k a] d IH]; intros H; [now exists []|]. cbn [map_res]. destruct (H k a (or_introl eq_refl)) as (b & ->).
  destruct IH as (d' & ->); [intros; apply (H k0); now right|]. eexists; reflexivity.
Qed.
Lemma map_res_inv {A B} (f : A -> res B) (d : tdict A) : forall d', map_res f d = Ok d' -> forall k a, In (k, a) d -> exists b, f a = Ok b.
Proof.
  induction d as [|[j x] d IH]; intros d' H k a I; [easy|]. cbn [map_res] in H. destruct (f x) as [b|y] eqn:E; [|discriminate]. cbn [bind] in H.
  destruct (map_res f d) as [l|y] eqn:E'; [|discriminate]. destruct I as [X|I]; [injection X as -> ->; now exists b|]. exact (IH l eq_refl k a I).
Qed.
Lemma repetition_is marker d : repetition_table marker d = map_res (repetition marker) d.
Proof. induction d as [|[r q] d IH]; [reflexivity|]. cbn. now rewrite IH. Qed.
Lemma repetition_cases marker q : (q = codes "marker" -> marker = true) -> exists p, repetition marker q = Ok p /\ repetition_of q p.
Proof.
  intros M. unfold repetition, repetition_of. destruct (text_eqb_spec q (codes "marker")) as [E|N].
  - rewrite (M E). eexists. split; [reflexivity|]. now left.
  - destruct (py_int q) as [n|]; (eexists; split; [reflexivity|]; right; now split).
Qed.
Lemma repetition_inv marker q p : repetition marker q = Ok p -> (q = codes "marker" -> marker = true) /\ repetition_of q p.
Proof.
  intros H. assert (M : q = codes "marker" -> marker = true).
  { intros ->. unfold repetition in H. rewrite text_eqb_refl in H. now destruct marker. }
  split; [exact M|]. destruct (repetition_cases marker q M) as (p' & E & R). rewrite H in E. injection E as <-. exact R.
Qed.
(** The regions *)
Definition kept (l : list text) : list text := if (1 <? List.length l)%nat then filter (fun r => negb (text_eqb r [])) l else l.
Lemma kept_spec l r : In r (kept l) <-> analysed l r.
Proof.
  unfold kept, analysed. destruct (Nat.ltb_spec 1 (List.length l)) as [H|H].
  - rewrite filter_In. destruct (text_eqb_spec r []) as [->|N]; cbn [negb].
    + split; [now intros [_ X]|]. intros [_ X]. specialize (X eq_refl). subst l. cbn in H. lia.
    + split; [intros [I _]; now split|intros [I _]; now split].
  - destruct l as [|a [|b l]]; [now split; [|intros []]| |cbn in H; lia]. cbn. split; [intros [->|[]]; auto|tauto].
Qed.
(** All positions of the table *)
Lemma in_positions (t : tdict (list nat)) i : NoDup (map fst t) -> In i (concat (map snd t)) <-> exists r l, tget r t = Some l /\ In i l.
Proof.
  intros N. rewrite in_concat. split.
  - intros (l & L & I). apply in_map_iff in L as ([r l'] & <- & L). exists r, l'. split; [now apply tget_of_in|exact I].
  - intros (r & l & G & I). exists l. split; [|exact I]. apply in_map_iff. exists (r, l). split; [reflexivity|now apply tget_in].
Qed.
Lemma in_loops st r e : In e (loops_in st r) <-> exists i, belongs st r i /\ nth_error (heap st) i = Some e.
Proof.
  unfold loops_in, belongs. destruct (tget r (table st)) as [l|].
  - rewrite in_flat_map. split.
    + intros (i & I & H). destruct (nth_error (heap st) i) as [x|] eqn:E; [|easy]. destruct H as [<-|[]]. exists i. split; [|exact E]. now exists l.
    + intros (i & (l' & L & I) & E). injection L as <-. exists i. split; [exact I|]. rewrite E. now left.
  - split; [easy|]. intros (i & (l' & L & _) & _). discriminate.
Qed.
Lemma positions_usable a : NoDup (map fst (table (a_loops a))) ->
  (forall r e, In e (loops_in (a_loops a) r) -> usable_loop (a_define a) e)
  <-> (forall i e, In i (concat (map snd (table (a_loops a)))) -> nth_error (heap (a_loops a)) i = Some e -> usable_loop (a_define a) e).
Proof.
  intros N. split.
  - intros H i e I E. apply (in_positions _ i N) in I as (r & l & G & I). apply (H r), in_loops. exists i. split; [now exists l|exact E].
  - intros H r e I. apply in_loops in I as (i & (l & G & I) & E). apply (H i e); [|exact E]. apply in_positions; [exact N|]. now exists r, l.
Qed.
Lemma describe_eq a : describe a =
  do h <- fold_res (set_offset (a_define a)) (heap (a_loops a)) (concat (map snd (table (a_loops a))));
  do reps <- map_res (repetition (a_marker a)) (a_repetitions a);
  do x <- fold_res step3 (table (a_loops a), reps, a_flops a) (kept (a_regions a));
  do define <- map_res (all_regions (kept (a_regions a))) (a_define a);
  Ok (mkBinary (mkLoops h (fst (fst x))) define (snd (fst x)) (snd x) (kept (a_regions a))).
Proof. unfold describe. destruct (fold_res _ _ _); cbn [bind]; [|reflexivity]. rewrite repetition_is. reflexivity. Qed.
Lemma reps_chosen marker d reps : map_res (repetition marker) d = Ok reps ->
  forall r, match chosen d r with Some q => exists p, chosen reps r = Some p /\ repetition_of q p | None => chosen reps r = None end.
Proof.
  intros H r. destruct (map_res_get _ _ _ H) as [G _]. unfold chosen. pose proof (G r) as Gr. pose proof (G []) as G0.
  destruct (tget r d) as [q|].
  - destruct Gr as (p & P & ->). exists p. split; [reflexivity|]. now apply repetition_inv in P.
  - rewrite Gr. destruct (tget [] d) as [q|]; [|exact G0]. destruct G0 as (p & P & ->). exists p. split; [reflexivity|]. now apply repetition_inv in P.
Qed.
Lemma describe_facts a b : dictionary (table (a_loops a)) -> describe a = Ok b ->
  usable a /\ (forall r, analysed (a_regions a) r -> known a r) /\ b_regions b = kept (a_regions a)
  /\ (forall s, chosen (table (b_loops b)) s = chosen (table (a_loops a)) s)
  /\ (forall s, tget s (table (a_loops a)) <> None -> tget s (table (b_loops b)) = tget s (table (a_loops a)))
  /\ (forall r, analysed (a_regions a) r -> tget r (table (b_loops b)) = chosen (table (a_loops a)) r /\ tget r (b_flops b) = chosen (a_flops a) r
       /\ exists q p, chosen (a_repetitions a) r = Some q /\ tget r (b_repetitions b) = Some p /\ repetition_of q p)
  /\ (forall i, In i (concat (map snd (table (a_loops a)))) ->
        nth_error (heap (b_loops b)) i = option_map (with_offset (a_define a)) (nth_error (heap (a_loops a)) i))
  /\ map_res (all_regions (kept (a_regions a))) (a_define a) = Ok (b_define b).
Proof.
  intros N H. rewrite describe_eq in H. destruct (fold_res (set_offset _) _ _) as [h|x] eqn:E1; [|discriminate]. cbn [bind] in H.
  destruct (map_res (repetition _) _) as [reps|x] eqn:E2; [|discriminate]. cbn [bind] in H.
  destruct (fold_res step3 _ _) as [y|x] eqn:E3; [|discriminate]. cbn [bind] in H.
  destruct (map_res (all_regions _) _) as [define|x] eqn:E4; [|discriminate]. injection H as <-. cbn [b_regions b_loops b_repetitions b_flops b_define heap table].
  pose proof (offsets_inv _ _ _ _ E1) as U. destruct (offsets_ok _ _ _ U) as (h' & E1' & G). rewrite E1 in E1'. injection E1' as <-.
  assert (K : forall r, In r (kept (a_regions a)) -> chosen (table (a_loops a)) r <> None /\ chosen reps r <> None /\ chosen (a_flops a) r <> None).
  { intros r I. destruct (chosen (table (a_loops a)) r) eqn:X1, (chosen reps r) eqn:X2, (chosen (a_flops a) r) eqn:X3; try (repeat split; discriminate);
      exfalso; rewrite defaults_bad in E3; try discriminate; exists r; (split; [exact I|]); rewrite X1, X2, X3; intros (Y1 & Y2 & Y3); congruence. }
  destruct (defaults_ok (kept (a_regions a)) _ _ _ K) as (a' & b' & c' & E & Qa & Pa & _ & _ & R). rewrite E3 in E. injection E as ->. cbn [fst snd].
  pose proof (reps_chosen _ _ _ E2) as RC.
  split; [|split; [|split; [|split; [|split; [|split; [|split]]]]]].
  - split; [now apply positions_usable|]. split.
    + intros n v I ->. destruct (map_res_inv _ _ _ E4 n None I) as (z & Z'). discriminate.
    + intros r q I ->. destruct (map_res_inv _ _ _ E2 r _ I) as (z & Z'). now apply repetition_inv in Z' as [Z' _]; apply Z'.
  - intros r I. apply kept_spec in I. destruct (K r I) as (K1 & K2 & K3). repeat split; [exact K1| |exact K3]. specialize (RC r). intros X. now rewrite X in RC.
  - reflexivity.
  - exact Qa.
  - exact Pa.
  - intros r I. apply kept_spec in I. destruct (R r I) as (R1 & R2 & R3). split; [exact R1|]. split; [exact R3|].
    specialize (RC r). destruct (K r I) as (_ & K2 & _). destruct (chosen (a_repetitions a) r) as [q|] eqn:X; [|contradiction].
    destruct RC as (p & P & Q'). exists q, p. split; [reflexivity|]. split; [now rewrite R2|exact Q'].
  - intros i I. rewrite G. replace (existsb (Nat.eqb i) (concat (map snd (table (a_loops a))))) with true; [reflexivity|].
    symmetry. apply existsb_exists. exists i. split; [exact I|apply Nat.eqb_refl].
  - reflexivity.
Qed.
Lemma describe_exists a : dictionary (table (a_loops a)) -> usable a -> (forall r, analysed (a_regions a) r -> known a r) -> exists b, describe a = Ok b.
Proof.
  intros N (U1 & U2 & U3) K. rewrite describe_eq. destruct (offsets_ok _ _ _ (proj1 (positions_usable a N) U1)) as (h & -> & _). cbn [bind].
  destruct (map_res_ok (repetition (a_marker a)) (a_repetitions a)) as (reps & R).
  { intros r q I. destruct (repetition_cases (a_marker a) q (U3 r q I)) as (p & E & _). now exists p. }
  rewrite R. cbn [bind]. destruct (defaults_ok (kept (a_regions a)) (table (a_loops a)) reps (a_flops a)) as (a' & b' & c' & E & _).
  { intros r I. apply kept_spec in I. destruct (K r I) as (K1 & K2 & K3). repeat split; [exact K1| |exact K3].
    pose proof (reps_chosen _ _ _ R r) as RC. destruct (chosen (a_repetitions a) r) as [q|]; [|contradiction]. destruct RC as (p & -> & _). discriminate. }
  rewrite E. cbn [bind]. destruct (map_res_ok (all_regions (kept (a_regions a))) (a_define a)) as (d & D).
  { intros n v I. destruct v as [v|]; [eexists; reflexivity|]. exfalso. exact (U2 n None I eq_refl). }
  rewrite D. eexists; reflexivity.
Qed.
Lemma describe_exit a : dictionary (table (a_loops a)) -> usable a -> (exists r, analysed (a_regions a) r /\ ~ known a r) -> describe a = Err SystemExit.
Proof.
  intros N (U1 & U2 & U3) (r & I & K). rewrite describe_eq. destruct (offsets_ok _ _ _ (proj1 (positions_usable a N) U1)) as (h & -> & _). cbn [bind].
  destruct (map_res_ok (repetition (a_marker a)) (a_repetitions a)) as (reps & R).
  { intros s q J. destruct (repetition_cases (a_marker a) q (U3 s q J)) as (p & E & _). now exists p. }
  rewrite R. cbn [bind]. rewrite defaults_bad; [reflexivity|]. exists r. split; [now apply kept_spec|]. intros (K1 & K2 & K3). apply K.
  repeat split; [exact K1| |exact K3]. pose proof (reps_chosen _ _ _ R r) as RC. intros X. rewrite X in RC. contradiction.
Qed.
Lemma describe_loops a b r : dictionary (table (a_loops a)) -> describe a = Ok b -> analysed (a_regions a) r ->
  loops_in (b_loops b) r = map (with_offset (a_define a)) (loops_in (a_loops a) (source_of (a_loops a) r)).
Proof.
  intros N H I. destruct (describe_facts a b N H) as (_ & _ & _ & _ & _ & R & G & _). destruct (R r I) as (R1 & _).
  unfold loops_in. rewrite R1. unfold chosen, source_of.
  assert (M : forall s l, tget s (table (a_loops a)) = Some l ->
    flat_map (fun i => match nth_error (heap (b_loops b)) i with Some e => [e] | None => [] end) l
    = map (with_offset (a_define a)) (flat_map (fun i => match nth_error (heap (a_loops a)) i with Some e => [e] | None => [] end) l)).
  { intros s l L. assert (P : forall i, In i l -> In i (concat (map snd (table (a_loops a))))) by (intros i J; apply in_positions; [exact N|]; now exists s, l).
    clear L. induction l as [|i l IH]; [reflexivity|]. cbn [flat_map]. rewrite map_app, <- IH by (intros; apply P; now right).
    rewrite G by (apply P; now left). destruct (nth_error (heap (a_loops a)) i); reflexivity. }
  destruct (tget r (table (a_loops a))) as [l|] eqn:E; [rewrite E; exact (M r l E)|].
  destruct (tget [] (table (a_loops a))) as [l|] eqn:E0; [exact (M [] l E0)|reflexivity].
Qed.

(** ** Ends of loops *)
Definition moved (name : text) (value : Q) (e : entry) : entry :=
  match e with
  | Raw t => Raw t
  | Loop l => match l_var l, l_offset l with
              | Some n, Some o => if text_eqb n name then Loop (mkLoop (l_start l) (l_step l) (value - o)%Q (l_var l) (l_offset l)) else e
              | _, _ => e
              end
  end.
Definition fit (e : entry) : Prop := match e with Raw _ => False | Loop l => l_var l <> None -> l_offset l <> None end.
Lemma moved_twice n x e : moved n x (moved n x e) = moved n x e.
Proof.
  destruct e as [[a b c [m|] [o|]]|t]; cbn [moved l_var l_offset]; try reflexivity.
  destruct (text_eqb m n) eqn:E; cbn [moved l_var l_offset l_start l_step l_end]; rewrite E; reflexivity.
Qed.
Lemma fit_moved n x e : fit e -> fit (moved n x e).
Proof. destruct e as [[a b c [m|] [o|]]|t]; cbn [moved l_var l_offset]; auto. destruct (text_eqb m n); auto. Qed.
Lemma adjust_entry_ok n x h i : (forall e, nth_error h i = Some e -> fit e) ->
  exists h', adjust_entry n x h i = Ok h' /\ forall j, nth_error h' j = if Nat.eqb i j then option_map (moved n x) (nth_error h j) else nth_error h j.
Proof.
  intros F. unfold adjust_entry. destruct (nth_error h i) as [[l|t]|] eqn:E.
  - specialize (F _ eq_refl). cbn [fit] in F. assert (L : (i < List.length h)%nat) by (apply nth_error_Some; congruence). apply Nat.ltb_lt in L.
    assert (Same : moved n x (Loop l) = Loop l -> forall j, nth_error h j = if Nat.eqb i j then option_map (moved n x) (nth_error h j) else nth_error h j).
    { intros M j. destruct (Nat.eqb_spec i j) as [<-|N]; [|reflexivity]. rewrite E. cbn [option_map]. now rewrite M. }
    unfold moved in Same. destruct (l_var l) as [m|] eqn:V; [|exists h; split; [reflexivity|now apply Same]].
    destruct (l_offset l) as [o|] eqn:O; [|exfalso; now apply F].
    destruct (text_eqb m n) eqn:T; [|exists h; split; [reflexivity|now apply Same]].
    eexists. split; [reflexivity|]. intros j. rewrite nth_set, L, andb_true_r. destruct (Nat.eqb_spec i j) as [<-|N]; [|reflexivity].
    rewrite E. cbn [option_map]. unfold moved. now rewrite V, O, T.
  - specialize (F _ eq_refl). easy.
  - exists h. split; [reflexivity|]. intros j. destruct (Nat.eqb_spec i j) as [<-|N]; [|reflexivity]. now rewrite E.
Qed.
Lemma adjust_entries n x l : forall h, (forall i e, In i l -> nth_error h i = Some e -> fit e) ->
  exists h', fold_res (adjust_entry n x) h l = Ok h'
             /\ forall j, nth_error h' j = if existsb (Nat.eqb j) l then option_map (moved n x) (nth_error h j) else nth_error h j.
Proof.
  induction l as [|i l IH]; intros h F; [exists h; split; [reflexivity|intros; reflexivity]|].
  destruct (adjust_entry_ok n x h i) as (h1 & E1 & G1); [intros e H; apply (F i e); [now left|exact H]|].
  destruct (IH h1) as (h2 & E2 & G2).
  { intros j e J H. rewrite G1 in H. destruct (Nat.eqb_spec i j) as [<-|N].
    - destruct (nth_error h i) as [e0|] eqn:E0; [|discriminate]. injection H as <-. apply fit_moved. apply (F i e0); [now left|exact E0].
    - apply (F j e); [now right|exact H]. }
  exists h2. split; [cbn [fold_res]; rewrite E1; exact E2|]. intros j. rewrite G2, G1. cbn [existsb]. rewrite (Nat.eqb_sym j i).
  destruct (Nat.eqb i j), (existsb (Nat.eqb j) l); cbn [orb]; try reflexivity. destruct (nth_error h j) as [e|]; [|reflexivity]. cbn [option_map].
  now rewrite moved_twice.
Qed.
Lemma find_some region t d n x : find_adjusted region t d = Some (n, x) ->
  exists v, In (n, Some v) d /\ v_adjust v <> None /\ In region (v_region v).
Proof.
  induction d as [|[m [v|]] d IH]; cbn [find_adjusted]; [discriminate| |intros H; destruct (IH H) as (v & I & R); exists v; split; [now right|exact R]].
  destruct (v_adjustable (as_var v) && existsb (text_eqb region) (v_region v)) eqn:C.
  - destruct (adjusted t (as_var v)) as [v'|].
    + intros H. injection H as <- <-. exists v. split; [now left|]. apply andb_true_iff in C as [C1 C2]. split.
      * unfold as_var in C1. destruct (v_adjust v) as [[s c]|]; discriminate.
      * apply existsb_exists in C2 as (r & I & E). now destruct (text_eqb_spec region r) as [->|].
    + intros H. destruct (IH H) as (w & I & R). exists w. split; [now right|exact R].
  - intros H. destruct (IH H) as (w & I & R). exists w. split; [now right|exact R].
Qed.
Lemma assign_get n x d v m : tget n d = Some (Some v) -> tget m (assign n x d) = if text_eqb m n then Some (Some (set_now v x)) else tget m d.
Proof. intros G. unfold assign. rewrite G. apply tget_tset. Qed.
Lemma assign_keys n x d v : tget n d = Some (Some v) -> dictionary d -> dictionary (assign n x d).
Proof. intros G D. unfold assign. rewrite G. now apply tset_nodup. Qed.
(** What holds while variables are adapted *)
Record running (b : binary) (regions : list text) : Prop := mkRunning {
  run_dict : dictionary (b_define b);
  run_fit : forall r i e, belongs (b_loops b) r i -> nth_error (heap (b_loops b)) i = Some e -> fit e;
  run_shared : shared b regions;
  run_follows : follows b;
  run_known : forall r, In r regions -> tget r (table (b_loops b)) <> None }.
Lemma moved_var n x e l : moved n x e = Loop l -> exists l0, e = Loop l0 /\ l_var l0 = l_var l /\ l_offset l0 = l_offset l.
Proof.
  destruct e as [[a b c [m|] [o|]]|t]; cbn [moved l_var l_offset]; try discriminate; try (intros H; injection H as <-; eexists; split; [reflexivity|auto]).
  destruct (text_eqb m n); intros H; injection H as <-; eexists; (split; [reflexivity|auto]).
Qed.
Lemma adjust_in_running b regions region t : running b regions -> In region regions ->
  exists b', adjust_in b region t = Ok b' /\ running b' regions.
Proof.
  intros [D F Sh Fo Kn] I. unfold adjust_in. destruct (find_adjusted region t (b_define b)) as [[n x]|] eqn:A; [|exists b; split; [reflexivity|now constructor]].
  destruct (find_some _ _ _ _ _ A) as (v & IV & AV & RV). apply (tget_of_in n (Some v) _ D) in IV.
  unfold adjust_loop. destruct (tget region (table (b_loops b))) as [ids|] eqn:T; [|exfalso; now apply (Kn region I)].
  destruct (adjust_entries n x ids (heap (b_loops b))) as (h & E & G).
  { intros i e J H. apply (F region i e); [now exists ids|exact H]. }
  rewrite E. cbn [bind]. eexists. split; [reflexivity|].
  assert (Old : forall i l, nth_error h i = Some (Loop l) -> exists l0, nth_error (heap (b_loops b)) i = Some (Loop l0) /\ l_var l0 = l_var l /\ l_offset l0 = l_offset l).
  { intros i l H. rewrite G in H. destruct (existsb (Nat.eqb i) ids); [|exists l; auto].
    destruct (nth_error (heap (b_loops b)) i) as [e|] eqn:X; [|discriminate]. injection H as H. apply moved_var in H as (l0 & -> & V). now exists l0. }
  constructor; cbn [b_define b_loops heap table].
  - now apply (assign_keys _ _ _ v).
  - intros r i e B H. rewrite G in H. unfold belongs in B. cbn [table] in B. destruct (existsb (Nat.eqb i) ids).
    + destruct (nth_error (heap (b_loops b)) i) as [e0|] eqn:X; [|discriminate]. injection H as <-. apply fit_moved. exact (F r i e0 B X).
    + exact (F r i e B H).
  - intros region' m w r i l IR TM AM RM B H V. cbn [b_define b_loops heap table] in *. unfold belongs in B |- *. cbn [table] in B |- *.
    rewrite (assign_get n x _ v m IV) in TM. destruct (Old i l H) as (l0 & H0 & V0 & _).
    destruct (text_eqb_spec m n) as [->|M].
    + injection TM as <-. apply (Sh region' n v r i l0); try assumption; congruence.
    + apply (Sh region' m w r i l0); try assumption; congruence.
  - intros r l m o IL V O. cbn [b_define b_loops] in *. apply in_loops in IL as (i & B & H). cbn [heap] in H. unfold belongs in B. cbn [table] in B.
    destruct (Old i l H) as (l0 & H0 & V0 & O0). rewrite (assign_get n x _ v m IV). destruct (text_eqb_spec m n) as [->|M].
    + exists (set_now v x). split; [reflexivity|]. cbn [set_now v_now].
      assert (Bi : belongs (b_loops b) region i) by (apply (Sh region n v r i l0); try assumption; congruence).
      destruct Bi as (ids' & T' & J). rewrite T in T'. injection T' as <-. rewrite G in H.
      replace (existsb (Nat.eqb i) ids) with true in H by (symmetry; apply existsb_exists; exists i; split; [exact J|apply Nat.eqb_refl]).
      rewrite H0 in H. cbn [option_map] in H. unfold moved in H. rewrite V0, V, O0, O, text_eqb_refl in H. injection H as <-. cbn [l_end]. reflexivity.
    + assert (l0 = l).
      { rewrite G in H. destruct (existsb (Nat.eqb i) ids); [|congruence]. rewrite H0 in H. cbn [option_map] in H. unfold moved in H.
        rewrite V0, V, O0, O, text_eqb_neq in H by congruence. congruence. }
      subst l0. apply (Fo r l m o); [|assumption..]. apply in_loops. exists i. split; assumption.
  - exact Kn.
Qed.
Lemma adjust_all_running l : forall b regions, running b regions -> (forall x, In x l -> In (fst x) regions) ->
  exists b', adjust_all b l = Ok b' /\ running b' regions.
Proof.
  unfold adjust_all. induction l as [|[r t] l IH]; intros b regions R H; [exists b; split; [reflexivity|exact R]|]. cbn [fold_res fst snd].
  destruct (Qltb t (3 # 2)); cbn [bind].
  - destruct (adjust_in_running b regions r t R) as (b1 & E & R1); [apply (H (r, t)); now left|]. rewrite E. cbn [bind]. apply IH; [exact R1|].
    intros x I. apply H. now right.
  - apply IH; [exact R|]. intros x I. apply H. now right.
Qed.
(** Kernels start that way. *)
Definition fresh (a : arguments) : Prop :=
  forall r l, In (Loop l) (loops_in (a_loops a) r) -> l_offset l = None /\ l_var l <> Some [].
Lemma table_positions a b r i : dictionary (table (a_loops a)) -> describe a = Ok b -> belongs (b_loops b) r i -> exists s, belongs (a_loops a) s i.
Proof.
  intros N H (ids & T & J). destruct (describe_facts a b N H) as (_ & _ & _ & C & _ & _ & _ & _). specialize (C r). unfold chosen in C. rewrite T in C.
  destruct (tget r (table (a_loops a))) as [l|] eqn:E; [exists r; exists ids; split; [congruence|exact J]|]. exists []. exists ids. split; [congruence|exact J].
Qed.
Lemma define_kept a b n v : dictionary (table (a_loops a)) -> describe a = Ok b -> tget n (a_define a) = Some (Some v) ->
  exists w, tget n (b_define b) = Some (Some w) /\ v_now w = v_now v /\ v_adjust w = v_adjust v.
Proof.
  intros N H G. destruct (describe_facts a b N H) as (_ & _ & _ & _ & _ & _ & _ & D). destruct (map_res_get _ _ _ D) as [M _]. specialize (M n). rewrite G in M.
  destruct M as (z & Z' & T). cbn [all_regions] in Z'. injection Z' as <-. eexists. split; [exact T|]. destruct (v_adjust v) eqn:X; [|now rewrite X].
  destruct (list_eq_dec _ _ _); cbn [v_now v_adjust]; now rewrite ?X.
Qed.
Lemma described_entry a b r i e : dictionary (table (a_loops a)) -> describe a = Ok b -> fresh a -> belongs (b_loops b) r i ->
  nth_error (heap (b_loops b)) i = Some e ->
  exists l, nth_error (heap (a_loops a)) i = Some (Loop l) /\ e = with_offset (a_define a) (Loop l) /\ l_offset l = None /\ l_var l <> Some []
            /\ usable_loop (a_define a) (Loop l).
Proof.
  intros N H F B E. destruct (table_positions a b r i N H B) as (s & Bs). destruct (describe_facts a b N H) as ((U & _) & _ & _ & _ & _ & _ & G & _).
  rewrite G in E by (apply in_positions; [exact N|]; destruct Bs as (ids & T & J); now exists s, ids).
  destruct (nth_error (heap (a_loops a)) i) as [e0|] eqn:E0; [|discriminate]. injection E as <-.
  assert (I : In e0 (loops_in (a_loops a) s)) by (apply in_loops; exists i; now split). pose proof (U s e0 I) as U0.
  destruct e0 as [l|t]; [|easy]. destruct (F s l I) as [O V]. exists l. auto.
Qed.
Lemma describe_follows a b : dictionary (table (a_loops a)) -> fresh a -> describe a = Ok b -> follows b.
Proof.
  intros N F H r l n o I V O. apply in_loops in I as (i & B & E). destruct (described_entry a b r i _ N H F B E) as (l0 & _ & X & O0 & V0 & U).
  unfold with_offset in X. cbn [usable_loop] in U. destruct (l_var l0) as [[|c m]|] eqn:W; [congruence| |injection X as ->; congruence].
  destruct U as (v & G). rewrite G in X. injection X as ->. cbn [l_var l_offset l_end] in *. assert (n = c :: m) by congruence. subst n.
  destruct (define_kept a b _ v N H G) as (w & T & NW & _). exists w. split; [exact T|]. rewrite NW. injection O as <-. ring.
Qed.
Lemma describe_fit a b r i e : dictionary (table (a_loops a)) -> fresh a -> describe a = Ok b -> belongs (b_loops b) r i ->
  nth_error (heap (b_loops b)) i = Some e -> fit e.
Proof.
  intros N F H B E. destruct (described_entry a b r i _ N H F B E) as (l0 & _ & -> & O0 & V0 & U). unfold with_offset. cbn [usable_loop] in U.
  destruct (l_var l0) as [[|c m]|] eqn:W; [now elim V0| |cbn [fit]; intros X; congruence]. destruct U as (v & ->). cbn [fit l_var l_offset]. discriminate.
Qed.
Lemma define_dict a b : dictionary (table (a_loops a)) -> describe a = Ok b -> dictionary (a_define a) -> dictionary (b_define b).
Proof.
  intros N H D. destruct (describe_facts a b N H) as (_ & _ & _ & _ & _ & _ & _ & M). unfold dictionary. destruct (map_res_get _ _ _ M) as [_ ->]. exact D.
Qed.
Lemma default_running a b regions : dictionary (table (a_loops a)) -> dictionary (a_define a) -> fresh a -> describe a = Ok b ->
  (forall r, tget r (table (a_loops a)) <> None -> r = []) -> (forall r, In r regions -> analysed (a_regions a) r) -> running b regions.
Proof.
  intros N D F H Only An. destruct (describe_facts a b N H) as (_ & Kn & _ & C & _ & R & _ & _).
  assert (T : forall r, In r regions -> tget r (table (b_loops b)) = tget [] (table (a_loops a))).
  { intros r I. destruct (R r (An r I)) as (-> & _). unfold chosen. destruct (tget r (table (a_loops a))) as [l|] eqn:E; [|reflexivity].
    assert (r = []) by (apply Only; congruence). subst r. now rewrite E. }
  constructor.
  - exact (define_dict a b N H D).
  - intros r i e B E. exact (describe_fit a b r i e N F H B E).
  - intros region n v r i l IR _ _ _ (ids & TR & J) _ _. exists ids. split; [|exact J]. rewrite (T region IR).
    specialize (C r). unfold chosen in C. rewrite TR in C. rewrite C. destruct (tget r (table (a_loops a))) as [l'|] eqn:E; [|reflexivity].
    assert (r = []) by (apply Only; congruence). subst r. now rewrite E.
  - exact (describe_follows a b N F H).
  - intros r I. destruct (R r (An r I)) as (-> & _). now destruct (Kn r (An r I)).
Qed.
Lemma shared_running a b regions : dictionary (table (a_loops a)) -> dictionary (a_define a) -> fresh a -> describe a = Ok b ->
  (forall r, In r regions -> analysed (a_regions a) r) -> shared b regions -> running b regions.
Proof.
  intros N D F H An Sh. destruct (describe_facts a b N H) as (_ & Kn & _ & C & _ & R & _ & _). constructor.
  - exact (define_dict a b N H D).
  - intros r i e B E. exact (describe_fit a b r i e N F H B E).
  - exact Sh.
  - exact (describe_follows a b N F H).
  - intros r I. destruct (R r (An r I)) as (-> & _). now destruct (Kn r (An r I)).
Qed.
(** Options *)
Lemma add_dict i l : forall t, dictionary t -> dictionary (fold_left (add_to i) l t).
Proof.
  induction l as [|p l IH]; intros t D; [exact D|]. cbn [fold_left]. apply IH. unfold add_to. destruct (tget p t); now apply tset_nodup.
Qed.
Lemma append_dict st v st' : append_loop st v = Ok st' -> dictionary (table st) -> dictionary (table st').
Proof.
  unfold append_loop. destruct (re_match loop_rx v) as [[s g]|]; [|discriminate]. intros H D. injection H as <-. now apply add_dict.
Qed.
Lemma append_all_dict l : forall st st', fold_res append_loop st l = Ok st' -> dictionary (table st) -> dictionary (table st').
Proof.
  induction l as [|v l IH]; intros st st' H D; cbn [fold_res] in H; [now injection H as <-|]. destruct (append_loop st v) as [st1|] eqn:E; [|discriminate].
  exact (IH st1 st' H (append_dict _ _ _ E D)).
Qed.
Lemma options_fresh os st a : Forall good_loop os -> fold_res append_loop no_loops (map write_loop os) = Ok st -> a_loops a = st ->
  fresh a /\ dictionary (table st).
Proof.
  intros F E <-. split; [|apply (append_all_dict _ _ _ E); constructor]. destruct (append_all os no_loops F) as (st' & E' & _ & L); [intros r l i; discriminate|].
  rewrite E in E'. injection E' as <-. intros r l I. rewrite L in I. cbn [loops_in no_loops table tget app] in I. apply in_map_iff in I as (o & X & I).
  apply filter_In in I as [I _]. rewrite Forall_forall in F. destruct (F o I) as (_ & _ & V). unfold loop_of in X. injection X as <-. cbn [l_offset l_var].
  split; [reflexivity|]. intros Y. now rewrite Y in V.
Qed.
Lemma options_default os st r : Forall good_loop os -> (forall o, In o os -> o_regions o = []) ->
  fold_res append_loop no_loops (map write_loop os) = Ok st -> tget r (table st) <> None -> r = [].
Proof.
  intros F O E. assert (G : forall os st0, (forall o, In o os -> good_loop o /\ o_regions o = []) -> (tget r (table st0) <> None -> r = []) ->
    fold_res append_loop st0 (map write_loop os) = Ok st -> tget r (table st) <> None -> r = []).
  { clear. induction os as [|o os IH]; intros st0 H B E; cbn [map fold_res] in E; [now injection E as <-|].
    destruct (H o (or_introl eq_refl)) as [G R]. pose proof (append_written st0 o [] G (or_introl eq_refl)) as X. rewrite app_nil_r in X. rewrite X in E.
    cbn [bind] in E. revert E. apply IH; [intros; apply H; now right|]. cbn [table]. rewrite R. cbn [meant]. rewrite add_many by (repeat constructor; intros []).
    cbn [existsb]. rewrite orb_false_r. destruct (text_eqb_spec r []) as [->|N]; auto. }
  apply (G os no_loops); [|cbn; congruence|exact E]. intros o I. rewrite Forall_forall in F. auto.
Qed.
Lemma stale b region t n x b' r i l o v : follows b -> dictionary (b_define b) -> find_adjusted region t (b_define b) = Some (n, x) -> adjust_in b region t = Ok b' ->
  tget n (b_define b) = Some (Some v) -> ~ (x == v_now v)%Q ->
  belongs (b_loops b) r i -> nth_error (heap (b_loops b)) i = Some (Loop l) -> l_var l = Some n -> l_offset l = Some o ->
  ~ belongs (b_loops b) region i -> ~ follows b'.
Proof.
  intros Fo D A H G X B E V O NB Fo'. unfold adjust_in in H. rewrite A in H. unfold adjust_loop in H.
  destruct (tget region (table (b_loops b))) as [ids|] eqn:T; [|discriminate]. destruct (fold_res _ _ ids) as [h|] eqn:Fd; [|discriminate]. injection H as <-.
  assert (Eh : nth_error h i = Some (Loop l)).
  { assert (K : ~ In i ids) by (intros J; apply NB; now exists ids). clear T NB.
    assert (S1 : forall h0 h1 j, adjust_entry n x h0 j = Ok h1 -> j <> i -> nth_error h1 i = nth_error h0 i).
    { intros h0 h1 j Y N. unfold adjust_entry in Y. destruct (nth_error h0 j) as [[l0|]|]; [|discriminate|now injection Y as <-].
      destruct (l_var l0) as [m|]; [|now injection Y as <-]. destruct (text_eqb m n); [|now injection Y as <-].
      destruct (l_offset l0); [|discriminate]. injection Y as <-. rewrite nth_set. destruct (Nat.eqb_spec j i); [contradiction|reflexivity]. }
    rewrite <- E. clear E. generalize dependent (heap (b_loops b)). induction ids as [|j ids IH]; intros h0 Y; cbn [fold_res] in Y; [now injection Y as <-|].
    destruct (adjust_entry n x h0 j) as [h1|] eqn:Y1; [|discriminate]. cbn [bind] in Y. rewrite (IH (fun J => K (or_intror J)) h1 Y).
    apply (S1 _ _ j Y1). intros ->. apply K. now left. }
  destruct (Fo r l n o) as (v1 & G1 & Q1); [apply in_loops; now exists i|exact V|exact O|].
  destruct (Fo' r l n o) as (v2 & G2 & Q2); [apply in_loops; exists i; split; [exact B|exact Eh]|exact V|exact O|].
  cbn [b_define] in G2. rewrite (assign_get n x _ v n G), text_eqb_refl in G2. injection G2 as <-. cbn [set_now v_now] in Q2.
  assert (v1 = v) by congruence. subst v1. apply X. rewrite Q1 in Q2. apply (Qplus_inj_r _ _ (- o)). symmetry. exact Q2.
Qed.
(** Values of variables *)
Lemma adjusted_var t v s c v' : v_adjust v = Some (s, c) -> adjusted t (as_var v) = Some v' -> v' = as_var (set_now v (v_value v')).
Proof.
  intros A H. unfold as_var in *. cbn [set_now v_adjust v_region v_now]. rewrite A in *. unfold adjusted in H. cbn [v_scale v_value v_stop] in H.
  destruct c; destruct (Qltb _ _); try discriminate; injection H as <-; reflexivity.
Qed.
Lemma assign_cons m w n x d : m <> n -> assign n x ((m, w) :: d) = (m, w) :: assign n x d.
Proof.
  intros N. unfold assign. cbn [tget]. rewrite text_eqb_neq by congruence. destruct (tget n d) as [[v|]|]; [|reflexivity..]. cbn [tset].
  now rewrite text_eqb_neq by congruence.
Qed.
Lemma values_adjust region t d : dictionary d -> ~ (t == 0)%Q ->
  BenchModel.adjust_region region t (variables d)
  = Ok (match find_adjusted region t d with Some (n, x) => (variables (assign n x d), true) | None => (variables d, false) end).
Proof.
  intros D T. assert (T' : Qeq_bool t 0 = false) by (apply not_true_iff_false; intros X; apply T; now apply Qeq_bool_iff).
  induction d as [|[m [v|]] d IH]; [reflexivity| |].
  - inversion_clear D as [|? ? N D']. specialize (IH D'). cbn [variables flat_map snd app] in *. fold (variables d). cbn [BenchModel.adjust_region find_adjusted].
    assert (R : v_regions (as_var v) = v_region v) by (unfold as_var; now destruct (v_adjust v) as [[? ?]|]). rewrite R.
    assert (Skip : (do (l, b) <- Ok (match find_adjusted region t d with Some (n, x) => (variables (assign n x d), true) | None => (variables d, false) end);
                    Ok (as_var v :: l, b))
                   = Ok (match find_adjusted region t d with Some (n, x) => (variables (assign n x ((m, Some v) :: d)), true) | None => (variables ((m, Some v) :: d), false) end)).
    { destruct (find_adjusted region t d) as [[n x]|] eqn:F; [|reflexivity]. cbn [bind]. rewrite assign_cons; [reflexivity|]. intros ->.
      destruct (find_some _ _ _ _ _ F) as (w & I & _). apply N. apply in_map_iff. exists (n, Some w). now split. }
    destruct (v_adjustable (as_var v) && existsb (text_eqb region) (v_region v)) eqn:C.
    + rewrite T'. destruct (adjusted t (as_var v)) as [v'|] eqn:A.
      * unfold assign. cbn [tget]. rewrite text_eqb_refl. cbn [tset]. rewrite text_eqb_refl. cbn [variables flat_map snd app].
        apply andb_true_iff in C as [C _]. unfold as_var in C. destruct (v_adjust v) as [[s c]|] eqn:V; [|discriminate]. now rewrite <- (adjusted_var t v s c v' V A).
      * rewrite IH. exact Skip.
    + rewrite IH. exact Skip.
  - inversion_clear D as [|? ? N D']. specialize (IH D'). cbn [variables flat_map snd app find_adjusted]. fold (variables d). rewrite IH.
    destruct (find_adjusted region t d) as [[n x]|] eqn:F; [|reflexivity]. rewrite assign_cons; [reflexivity|]. intros ->.
    destruct (find_some _ _ _ _ _ F) as (w & I & _). apply N. apply in_map_iff. exists (n, Some w). now split.
Qed.
Lemma adjust_in_define b region t b' : adjust_in b region t = Ok b' ->
  b_define b' = match find_adjusted region t (b_define b) with Some (n, x) => assign n x (b_define b) | None => b_define b end.
Proof.
  unfold adjust_in. destruct (find_adjusted region t (b_define b)) as [[n x]|]; [|intros H; now injection H as <-].
  destruct (adjust_loop _ _ _ _); [|discriminate]. intros H. now injection H as <-.
Qed.
Lemma define_dict_after region t d : dictionary d ->
  dictionary (match find_adjusted region t d with Some (n, x) => assign n x d | None => d end).
Proof.
  intros D. destruct (find_adjusted region t d) as [[n x]|] eqn:F; [|exact D]. destruct (find_some _ _ _ _ _ F) as (v & I & _).
  apply (tget_of_in n (Some v) _ D) in I. now apply (assign_keys n x d v).
Qed.
Lemma values_all l : forall b b', dictionary (b_define b) -> (forall x, In x l -> ~ (snd x == 0)%Q) -> adjust_all b l = Ok b' ->
  exists changed, adjust_variables l (variables (b_define b)) = Ok (variables (b_define b'), changed).
Proof.
  unfold adjust_all. induction l as [|[r t] l IH]; intros b b' D Z' H; cbn [fold_res fst snd] in H; [injection H as <-; now exists false|].
  cbn [adjust_variables]. destruct (Qltb t (3 # 2)); cbn [bind] in H.
  - destruct (adjust_in b r t) as [b1|] eqn:E; [|discriminate]. cbn [bind] in H. pose proof (adjust_in_define _ _ _ _ E) as X.
    rewrite values_adjust by (assumption || exact (Z' (r, t) (or_introl eq_refl))). cbn [bind].
    destruct (IH b1 b') as (c & C); [rewrite X; now apply define_dict_after|intros x I; apply Z'; now right|exact H|].
    destruct (find_adjusted r t (b_define b)) as [[n x]|] eqn:F; rewrite <- X, C; eexists; reflexivity.
  - destruct (IH b b' D) as (c & C); [intros x I; apply Z'; now right|exact H|]. exists c. exact C.
Qed.
Lemma describe_variables a b n v : dictionary (table (a_loops a)) -> describe a = Ok b -> tget n (a_define a) = Some (Some v) ->
  exists w, tget n (b_define b) = Some (Some w) /\ v_first w = v_first v /\ v_now w = v_now v /\ v_adjust w = v_adjust v
  /\ forall r, In r (v_region w) <-> In r (v_region v) \/ (v_adjust v <> None /\ v_region v = [[]] /\ analysed (a_regions a) r).
Proof.
  intros N H G. destruct (describe_facts a b N H) as (_ & _ & _ & _ & _ & _ & _ & D). destruct (map_res_get _ _ _ D) as [M _]. specialize (M n). rewrite G in M.
  destruct M as (z & Z' & T). cbn [all_regions] in Z'. injection Z' as <-. eexists. split; [exact T|]. destruct (v_adjust v) eqn:X.
  - destruct (list_eq_dec _ _ _) as [E|E]; cbn [v_first v_now v_adjust v_region]; (split; [reflexivity|]); (split; [reflexivity|]); (split; [congruence|]); intros r.
    + rewrite in_app_iff, kept_spec. split; [intros [I|I]; [now left|right; split; [discriminate|split; [exact E|exact I]]]|tauto].
    + split; [now left|intros [I|(_ & Y & _)]; [exact I|contradiction]].
  - repeat split; try assumption; [now left|intros [I|(Y & _)]; [exact I|contradiction]].
Qed.
