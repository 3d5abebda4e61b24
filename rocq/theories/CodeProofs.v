(** Proofs about the acceptance of kernel code. *)
From Coq Require Import String Lia.
From Verif Require Import PyBase PyBaseFacts PyFloat AstModel AstSpec CodeModel CodeSpec.
Local Open Scope string_scope.
Local Open Scope list_scope.
Local Open Scope Z_scope.

Lemma names_eqb_spec a b : reflect (a = b) (names_eqb a b).
Proof.
  apply iff_reflect. revert b. induction a as [|x a IH]; intros [|y b]; cbn; try easy.
  rewrite andb_true_iff, <- IH. destruct (String.eqb_spec x y); intuition congruence.
Qed.

(** ** Literals *)
Lemma decimal_digit c d : digit_value c = Some d -> d < 10 -> is_decimal c = true /\ d = Z.of_N (c - 48).
Proof.
  unfold digit_value. intros H L. destruct ((48 <=? Z.of_N c) && (Z.of_N c <=? 57))%bool eqn:A.
  - injection H as <-. apply andb_true_iff in A as [A B]. split; [|lia]. apply is_decimal_spec. lia.
  - destruct ((97 <=? Z.of_N c) && (Z.of_N c <=? 102))%bool eqn:B; [injection H as <-; apply andb_true_iff in B as [B _]; lia|].
    destruct ((65 <=? Z.of_N c) && (Z.of_N c <=? 70))%bool eqn:C; [injection H as <-; apply andb_true_iff in C as [C _]; lia|]. discriminate.
Qed.
Lemma decimal_number t : forall acc a, number_from 10 (Z.of_N acc) t = Some a ->
  forallb is_decimal t = true /\ a = Z.of_N (fold_left (fun a c => 10 * a + (c - 48))%N t acc).
Proof.
  induction t as [|c t IH]; intros acc a; cbn [number_from forallb fold_left].
  - intros [= <-]. easy.
  - destruct (digit_value c) as [d|] eqn:D; [|discriminate]. destruct (d <? 10) eqn:L; [|discriminate]. apply Z.ltb_lt in L.
    destruct (decimal_digit c d D L) as [C ->]. intros H.
    replace (10 * Z.of_N acc + Z.of_N (c - 48)) with (Z.of_N (10 * acc + (c - 48))) in H by lia.
    apply IH in H as [F ->]. now rewrite C, F.
Qed.
Lemma number_read t a : number 10 t = Some a -> py_int t = Some a.
Proof.
  unfold number. destruct t as [|c t]; [discriminate|]. intros H. apply (decimal_number (c :: t) 0) in H as [F ->].
  unfold py_int. rewrite strip_id.
  2:{ intros x I. rewrite forallb_forall in F. apply F, is_decimal_spec in I. unfold is_space. apply orb_false_iff.
      split; apply andb_false_iff; right; apply N.leb_gt; lia. }
  assert (C : is_decimal c = true) by (cbn [forallb] in F; now apply andb_true_iff in F). apply is_decimal_spec in C.
  rewrite sign_part_other by lia. rewrite digit_part_all by exact F. reflexivity.
Qed.
Lemma plain_read t : plain t -> exists z, c_integer t = Some z /\ py_int t = Some z.
Proof.
  intros [H L]. destruct (c_integer t) as [z|] eqn:C; [|easy]. exists z. split; [reflexivity|]. clear H.
  apply number_read. unfold c_integer in C. destruct t as [|c [|x h]]; try exact C.
  - destruct c as [|p]; [exact C|]. do 6 (destruct p as [p|p|]; try exact C).
  - destruct c as [|p]; [exact C|]. do 6 (destruct p as [p|p|]; try exact C). exfalso. apply L. now exists x, h.
Qed.
Lemma plain_agrees t z : plain t -> py_int t = Some z -> c_integer t = Some z.
Proof. intros P H. destruct (plain_read t P) as (y & C & R). congruence. Qed.

(** ** Values *)
Lemma lookup_environment n e : In n (map fst e) -> lookup n e = Some (environment e n).
Proof.
  intros H. unfold environment. destruct (lookup n e) eqn:L; [reflexivity|]. exfalso. revert H L.
  induction e as [|[m y] e IH]; cbn; [easy|]. destruct (String.eqb_spec n m) as [->|D]; [discriminate|]. intros [E|H]; [congruence|auto].
Qed.
Lemma value_agree e : forall x s, conv_ast_to_sym (abstract x) = Ok s -> Forall plain (literals x) -> incl (names x) (map fst e) ->
  cvalue e x = Some (seval (environment e) s).
Proof.
  induction x as [n|t|op l IHl r IHr|op y IH|a IHa b IHb|]; intros s H P I; cbn [abstract] in H.
  - injection H as <-. apply lookup_environment, I. now left.
  - cbn [conv_ast_to_sym] in H. destruct (py_int t) as [z|] eqn:R; [|discriminate]. injection H as <-. cbn. apply plain_agrees; [|exact R].
    now inversion P.
  - cbn [literals names] in P, I. apply Forall_app in P as [Pl Pr]. apply incl_app_inv in I as [Il Ir]. cbn [conv_ast_to_sym] in H. cbn [cvalue].
    destruct (String.eqb_spec op "*") as [->|D1].
    { destruct (conv_ast_to_sym (abstract l)) as [a|] eqn:A; [|discriminate]. destruct (conv_ast_to_sym (abstract r)) as [b|] eqn:B; [|discriminate].
      injection H as <-. now rewrite (IHl _ eq_refl Pl Il), (IHr _ eq_refl Pr Ir). }
    destruct (String.eqb_spec op "+") as [->|D2].
    { destruct (conv_ast_to_sym (abstract l)) as [a|] eqn:A; [|discriminate]. destruct (conv_ast_to_sym (abstract r)) as [b|] eqn:B; [|discriminate].
      injection H as <-. now rewrite (IHl _ eq_refl Pl Il), (IHr _ eq_refl Pr Ir). }
    destruct (String.eqb_spec op "-") as [->|D3]; [|discriminate].
    destruct (conv_ast_to_sym (abstract l)) as [a|] eqn:A; [|discriminate]. destruct (conv_ast_to_sym (abstract r)) as [b|] eqn:B; [|discriminate].
    injection H as <-. now rewrite (IHl _ eq_refl Pl Il), (IHr _ eq_refl Pr Ir).
  - cbn [conv_ast_to_sym] in H. destruct (String.eqb op "*" || String.eqb op "+" || String.eqb op "-")%bool; discriminate.
  - discriminate.
  - discriminate.
Qed.
Lemma convertible x : arithmetic (fun t => py_int t <> None) x <-> exists s, conv_ast_to_sym (abstract x) = Ok s.
Proof.
  split.
  - induction 1 as [n|t P|op l r O _ (a & A) _ (b & B)]; cbn [abstract conv_ast_to_sym].
    + eauto.
    + destruct (py_int t); [eauto|easy].
    + rewrite A, B. cbn [bind]. destruct O as [<-|[<-|[<-|[]]]]; cbn; eauto.
  - induction x as [n|t|op l IHl r IHr|op y IH|a IHa b IHb|]; intros (s & H); cbn [abstract conv_ast_to_sym] in H.
    + constructor.
    + constructor. now destruct (py_int t).
    + assert (O : In op ["+"; "-"; "*"] /\ exists a b, conv_ast_to_sym (abstract l) = Ok a /\ conv_ast_to_sym (abstract r) = Ok b).
      { destruct (String.eqb_spec op "*") as [->|D1].
        { split; [cbn; tauto|]. destruct (conv_ast_to_sym (abstract l)); [|discriminate]. destruct (conv_ast_to_sym (abstract r)); [|discriminate]. eauto. }
        destruct (String.eqb_spec op "+") as [->|D2].
        { split; [cbn; tauto|]. destruct (conv_ast_to_sym (abstract l)); [|discriminate]. destruct (conv_ast_to_sym (abstract r)); [|discriminate]. eauto. }
        destruct (String.eqb_spec op "-") as [->|D3]; [|discriminate].
        split; [cbn; tauto|]. destruct (conv_ast_to_sym (abstract l)); [|discriminate]. destruct (conv_ast_to_sym (abstract r)); [|discriminate]. eauto. }
      destruct O as (O & a & b & A & B). constructor; [exact O|apply IHl; eauto|apply IHr; eauto].
    + destruct (String.eqb op "*" || String.eqb op "+" || String.eqb op "-")%bool; discriminate.
    + discriminate.
    + discriminate.
Qed.

(** ** Heads of loops *)
Definition step_read (l : cloop) (z : Z) : Prop := match increment l with None => z = 1 | Some t => py_int t = Some z end.
Definition recorded (l : cloop) (en : entry) : Prop :=
  exists mn mx z, en = (index l, mn, mx, z) /\ conv_ast_to_sym (abstract (first l)) = Ok mn /\ conv_ast_to_sym (abstract (bound l)) = Ok mx /\ step_read l z.
Lemma assertion_ok b u : assertion b = Ok u -> b = true.
Proof. destruct b; [reflexivity|discriminate]. Qed.
Lemma head_sound i c n body en : c_tree (SFor i c n body) -> head i c n body = Ok en -> exists l, loop_of l body (SFor i c n body) /\ recorded l en.
Proof.
  intros [T _] H. unfold head in H.
  destruct i as [[|d [|d' ds]]|]; try discriminate. cbn [check_init bind] in H.
  destruct c as [[x|t|op l r|op y|a b|]|]; try discriminate. cbn [check_cond] in H.
  destruct (String.eqb_spec op "<") as [->|D]; [|discriminate]. cbn [assertion bind] in H.
  destruct l as [x| | | | |]; try discriminate.
  destruct (match r with CConst _ | CId _ | CBin _ _ _ => Ok (x, r) | _ => Err AssertionError end) as [xr|] eqn:R; [|destruct r; discriminate].
  assert (xr = (x, r)) as -> by (destruct r; congruence). cbn [bind fst snd] in H.
  destruct (check_next n) as [u|] eqn:N; [|discriminate]. cbn [bind] in H. destruct (check_body body) as [u'|]; [|discriminate]. cbn [bind] in H.
  destruct (loop_max r) as [mx|] eqn:MX; [|discriminate]. cbn [bind] in H. destruct d as [x0 ty ini]. cbn [dinit dname] in H.
  destruct (convert ini) as [mn|] eqn:MN; [|discriminate]. cbn [bind] in H.
  destruct ini as [fi|]; [|discriminate]. cbn [convert] in MN.
  assert (MX' : conv_ast_to_sym (abstract r) = Ok mx).
  { unfold loop_max in MX. destruct r; try exact MX. match goal with H : bind (assertion ?b) _ = _ |- _ => destruct b; [exact H|discriminate] end. }
  destruct n as [op e|op l' r'|]; [| |discriminate].
  - cbn [loop_step] in H. destruct e as [y| | | | |]; try discriminate.
    destruct (String.eqb_spec y x) as [->|]; [|discriminate]. destruct (String.eqb_spec x x0) as [->|]; [|discriminate]. cbn [andb assertion bind] in H.
    exists (mkLoop x0 ty fi r None). split.
    + exists (NUn op (CId x0)). split; [reflexivity|]. cbn [increment index].
      destruct (String.eqb_spec op "++") as [->|D1]; [now left|]. destruct (String.eqb_spec op "p++") as [->|D2]; [now right|].
      exfalso. cbn [orb] in H. destruct (String.eqb_spec op "+=") as [->|D3]; [discriminate|]. cbn [check_next] in N.
      destruct (String.eqb_spec op "++"); [contradiction|]. destruct (String.eqb_spec op "p++"); [contradiction|]. destruct (String.eqb_spec op "+="); [contradiction|]. discriminate.
    + assert (Z1 : Ok (x0, mn, mx, 1) = Ok en).
      { destruct (String.eqb op "++" || String.eqb op "p++")%bool eqn:O; [exact H|]. cbn [check_next] in N. apply assertion_ok in N. apply orb_true_iff in N as [N|N]; [congruence|].
        apply String.eqb_eq in N as ->. discriminate. }
      injection Z1 as <-. exists mn, mx, 1. repeat split; auto.
  - cbn [loop_step] in H. destruct l' as [y| | | | |]; try discriminate. destruct r' as [|t| | | |]; try discriminate.
    destruct (String.eqb_spec y x) as [->|]; [|discriminate]. destruct (String.eqb_spec x x0) as [->|]; [|discriminate]. cbn [andb assertion bind] in H.
    destruct (py_int t) as [z|] eqn:P; [|discriminate]. cbn [bind] in H. injection H as <-.
    exists (mkLoop x0 ty fi r (Some t)). split.
    + exists (NAssign op (CId x0) (CConst t)). split; [reflexivity|]. cbn [increment index]. f_equal.
      cbn [check_next] in N. apply assertion_ok in N. apply orb_true_iff in N as [N|N].
      * exfalso. apply T. apply orb_true_iff in N as [N|N]; apply String.eqb_eq in N as ->; cbn; tauto.
      * now apply String.eqb_eq in N.
    + exists mn, mx, z. repeat split; auto.
Qed.
Lemma recorded_sym l en : recorded l en -> match bound l with CConst _ | CId _ | CBin _ _ _ => True | _ => False end.
Proof.
  intros (mn & mx & z & _ & _ & H & _). destruct (bound l) as [| | | op y| |]; auto; cbn [abstract conv_ast_to_sym] in H; try discriminate.
  destruct (String.eqb op "*" || String.eqb op "+" || String.eqb op "-")%bool; discriminate.
Qed.
Lemma head_complete l en body i c n : loop_of l body (SFor i c n body) -> recorded l en ->
  match body with SCompound _ | SAssign _ _ _ | SFor _ _ _ _ => True | _ => False end -> head i c n body = Ok en.
Proof.
  intros (n' & E & N) R B. injection E as -> -> ->. pose proof (recorded_sym l en R) as K. destruct R as (mn & mx & z & -> & MN & MX & Z1). unfold head. cbn [check_init bind check_cond].
  change (String.eqb "<" "<") with true. cbn [assertion bind].
  replace (match bound l with CConst _ | CId _ | CBin _ _ _ => Ok (index l, bound l) | _ => Err AssertionError end) with (@Ok (string * cexpr) (index l, bound l)) by (destruct (bound l); easy).
  cbn [bind fst snd dinit dname convert].
  assert (M : loop_max (bound l) = Ok mx).
  { unfold loop_max. destruct (bound l) as [x|t|op a b|op y|a b|] eqn:BL; try exact MX. cbn [convert]. rewrite MX.
    assert (O : In op ["+"; "-"; "*"]) by (assert (A : arithmetic (fun t => py_int t <> None) (CBin op a b)) by (apply convertible; eauto); now inversion A).
    destruct O as [<-|[<-|[<-|[]]]]; reflexivity. }
  assert (CB : check_body body = Ok tt) by (destruct body; easy). unfold step_read in Z1. destruct (increment l) as [t|].
  - subst n'. cbn [check_next]. change (String.eqb "+=" "++" || String.eqb "+=" "p++" || String.eqb "+=" "+=")%bool with true. cbn [assertion bind].
    rewrite CB. cbn [bind]. rewrite M, MN. cbn [bind loop_step]. rewrite String.eqb_refl. cbn [andb assertion bind]. now rewrite Z1.
  - subst z. destruct N as [->| ->]; cbn [check_next].
    + change (String.eqb "++" "++" || String.eqb "++" "p++" || String.eqb "++" "+=")%bool with true. cbn [assertion bind].
      rewrite CB. cbn [bind]. rewrite M, MN. cbn [bind loop_step]. rewrite String.eqb_refl. reflexivity.
    + change (String.eqb "p++" "++" || String.eqb "p++" "p++" || String.eqb "p++" "+=")%bool with true. cbn [assertion bind].
      rewrite CB. cbn [bind]. rewrite M, MN. cbn [bind loop_step]. rewrite String.eqb_refl. reflexivity.
Qed.
Lemma loop_is_for l body s : loop_of l body s -> exists i c n, s = SFor i c n body.
Proof. intros (n & -> & _). eauto. Qed.

(** ** Nests *)
Section Induction.
  Variable P : stmt -> Prop.
  Hypothesis Hfor : forall i c n b, P b -> P (SFor i c n b).
  Hypothesis Hempty : P (SCompound None).
  Hypothesis Hblock : forall l, Forall P l -> P (SCompound (Some l)).
  Hypothesis Hassign : forall op l r, P (SAssign op l r).
  Hypothesis Hpragma : forall c, P (SPragma c).
  Hypothesis Hdecl : forall d, P (SDecl d).
  Hypothesis Hcall : forall f args, P (SCall f args).
  Hypothesis Hother : P SOther.
  Fixpoint stmt_induction (s : stmt) : P s :=
    match s with
    | SFor i c n b => Hfor i c n b (stmt_induction b)
    | SCompound None => Hempty
    | SCompound (Some l) => Hblock l ((fix go (l : list stmt) : Forall P l := match l with [] => Forall_nil _ | x :: l' => Forall_cons _ (stmt_induction x) (go l') end) l)
    | SAssign op l r => Hassign op l r
    | SPragma c => Hpragma c
    | SDecl d => Hdecl d
    | SCall f args => Hcall f args
    | SOther => Hother
    end.
End Induction.

(** An assignment as the program reads it *)
Definition read_as (a : cassign) : assignment := assignment_of (operator a) (left_side a) (right_side a).
Section Parse.
  Variable eqb : access -> access -> bool.
  Let p_last st := (fix p_last (l : list stmt) : res parsed := match l with [] => Err IndexError | x :: l' => match l' with [] => p_for eqb x st | _ => p_last l' end end).
  Lemma p_last_snoc st before x : p_last st (before ++ [x]) = p_for eqb x st.
  Proof. induction before as [|y b IH]; [reflexivity|]. cbn [app]. rewrite <- IH. cbn. destruct (b ++ [x]) eqn:E; [destruct b; discriminate|reflexivity]. Qed.
  Lemma p_statements_sound items : forall st st', p_statements eqb items st = Ok st' ->
    exists body, assignments items body /\ stack st' = stack st /\ p_assignments eqb (map read_as body) (accesses st) = Ok (accesses st').
  Proof.
    induction items as [|s items IH]; intros st st' H; cbn [p_statements] in H.
    - injection H as <-. exists []. repeat split. constructor.
    - destruct s; try discriminate.
      + destruct (p_assignment eqb (assignment_of op l r) (accesses st)) as [k|] eqn:A; [|discriminate]. cbn [bind] in H.
        apply IH in H as (body & B & S1 & S2). exists (mkAssign op l r :: body). split; [now constructor|]. split; [exact S1|].
        cbn [map p_assignments]. unfold read_as at 1. cbn [operator left_side right_side]. now rewrite A.
      + apply IH in H as (body & B & S1 & S2). exists body. split; [now constructor|]. auto.
  Qed.
  Lemma p_statements_complete items body : assignments items body -> forall st k, p_assignments eqb (map read_as body) (accesses st) = Ok k ->
    p_statements eqb items st = Ok (mkParsed (stack st) k).
  Proof.
    induction 1 as [|c items l A IH|op x y items l A IH]; intros st k H.
    - cbn in H. injection H as <-. now destruct st.
    - cbn. auto.
    - cbn [map p_assignments] in H. unfold read_as at 1 in H. cbn [operator left_side right_side] in H. cbn [p_statements]. destruct (p_assignment eqb (assignment_of op x y) (accesses st)) as [k'|]; [|discriminate]. cbn [bind] in H |- *.
      now rewrite (IH (mkParsed (stack st) k') k H).
  Qed.
  Lemma pragmas_map before : forallb is_pragma before = true -> exists ps, before = map SPragma ps.
  Proof.
    induction before as [|s b IH]; cbn [forallb]; [now exists []|]. intros H. apply andb_true_iff in H as [S1 S2]. destruct (IH S2) as (ps & ->).
    destruct s; try discriminate. now exists (content :: ps).
  Qed.
  Definition accepts (s : stmt) : Prop := forall st st', c_tree s -> p_for eqb s st = Ok st' ->
    exists ls body es, nest s ls body /\ Forall2 recorded ls es /\ stack st' = stack st ++ es /\ p_assignments eqb (map read_as body) (accesses st) = Ok (accesses st').
  Lemma tree_block items : c_tree (SCompound (Some items)) <-> Forall c_tree items.
  Proof.
    cbn [c_tree]. induction items as [|x items IH]; [split; auto|]. rewrite IH. split; [intros []; auto|intros H; inversion H; auto].
  Qed.
  Lemma p_for_accepts s : accepts s /\ match s with SCompound (Some items) => Forall accepts items | _ => True end.
  Proof.
    induction s as [i c n b [IHb IHi]| |l F|op l r|c|d|f args|] using stmt_induction;
      try (split; [intros st st' _ H; discriminate|exact I]).
    - split; [|exact I]. intros st st' T H. cbn [p_for] in H. destruct (head i c n b) as [en|] eqn:HD; [|discriminate]. cbn [bind] in H.
      destruct (head_sound i c n b en T HD) as (l & L & R). destruct T as [_ T].
      destruct b as [i' c' n' b'|items|op x y|c'|d|f args|]; try discriminate.
      + apply (IHb _ _ T) in H as (ls & body & es & N & Rs & S1 & S2). exists (l :: ls), body, (en :: es).
        split; [eapply nest_loop; eauto|]. split; [now constructor|]. split; [|exact S2]. rewrite S1. cbn [stack]. now rewrite <- app_assoc.
      + destruct items as [items|]; [|discriminate]. destruct (rev items) as [|last before] eqn:RV; [discriminate|].
        assert (IT : items = rev before ++ [last]) by (rewrite <- (rev_involutive items), RV; reflexivity).
        destruct (is_for last && forallb is_pragma before)%bool eqn:B.
        * apply andb_true_iff in B as [B1 B2]. rewrite IT in H. change (p_last (mkParsed (stack st ++ [en]) (accesses st)) (rev before ++ [last]) = Ok st') in H. rewrite p_last_snoc in H.
          rewrite Forall_forall in IHi. assert (IL : In last items) by (rewrite IT; apply in_or_app; right; now left).
          rewrite tree_block, Forall_forall in T. apply (IHi last IL _ _ (T last IL)) in H as (ls & body & es & N & Rs & S1 & S2).
          assert (PS : forallb is_pragma (rev before) = true) by (rewrite forallb_forall in B2 |- *; intros x X; apply B2; now apply in_rev).
          destruct (pragmas_map _ PS) as (ps & PE). exists (l :: ls), body, (en :: es).
          split; [eapply (nest_loop_block l ps last); [now rewrite <- PE, <- IT|exact N]|].
          split; [now constructor|]. split; [|exact S2]. rewrite S1. cbn [stack]. now rewrite <- app_assoc.
        * apply p_statements_sound in H as (body & A & S1 & S2). exists [l], body, [en]. split; [|repeat split; auto].
          eapply nest_block; eauto. intros ->. discriminate.
      + destruct (p_assignment eqb (assignment_of op x y) (accesses st)) as [k|] eqn:A; [|cbn in H; now rewrite A in H].
        assert (E : Ok (mkParsed (stack st ++ [en]) k) = Ok st') by (rewrite <- H; cbn [accesses stack]; now rewrite A).
        injection E as <-. exists [l], [mkAssign op x y], [en]. split; [eapply nest_single; eauto|]. repeat split; auto. cbn [map p_assignments accesses]. unfold read_as. cbn [operator left_side right_side]. now rewrite A.
    - split; [intros st st' _ H; discriminate|]. eapply Forall_impl; [|exact F]. now intros a [A _].
  Qed.
  Lemma assignments_no_for items body : assignments items body -> forall x, In x items -> is_for x = false.
  Proof. induction 1; intros q I1; cbn in I1; [easy|destruct I1 as [<-|I1]; [reflexivity|auto]..]. Qed.
  Lemma nest_is_for s ls body : nest s ls body -> exists i c n b, s = SFor i c n b.
  Proof. intros H. destruct H as [? ? ? ? ? L|? ? ? ? L|? ? ? ? ? L|? ? ? ? ? ? L]; apply loop_is_for in L as (i & c & n & ->); eauto. Qed.
  Lemma p_for_complete s ls body : nest s ls body -> forall es st k, Forall2 recorded ls es -> p_assignments eqb (map read_as body) (accesses st) = Ok k ->
    p_for eqb s st = Ok (mkParsed (stack st ++ es) k).
  Proof.
    induction 1 as [l op x y s L|l items body s L NE A|l inner s ls body L N IH|l ps inner s ls body L N IH]; intros es st k R K;
      inversion R as [|? en ? es' R1 R2]; subst; pose proof (loop_is_for _ _ _ L) as (i & c & n & ->); cbn [p_for]; rewrite (head_complete _ _ _ _ _ _ L R1).
    - inversion R2; subst. cbn [bind accesses stack]. cbn [map p_assignments] in K. unfold read_as in K. cbn [operator left_side right_side] in K. destruct (p_assignment eqb (assignment_of op x y) (accesses st)) as [k'|]; [|discriminate]. cbn in K |- *. congruence.
    - exact I.
    - inversion R2; subst. cbn [bind]. destruct (rev items) as [|last before] eqn:RV.
      { exfalso. apply NE. rewrite <- (rev_involutive items), RV. reflexivity. }
      assert (IL : In last items) by (apply in_rev; rewrite RV; now left). rewrite (assignments_no_for _ _ A _ IL). cbn [andb].
      now rewrite (p_statements_complete _ _ A (mkParsed (stack st ++ [en]) (accesses st)) k K).
    - exact I.
    - pose proof (nest_is_for _ _ _ N) as (i' & c' & n' & b' & ->). cbn [bind].
      rewrite (IH es' (mkParsed (stack st ++ [en]) (accesses st)) k R2 K). cbn [stack]. now rewrite <- app_assoc.
    - pose proof (nest_is_for _ _ _ N) as (i' & c' & n' & b' & ->). exact I.
    - cbn [bind]. rewrite rev_app_distr. cbn [rev app]. pose proof (nest_is_for _ _ _ N) as (i' & c' & n' & b' & E). 
      assert (B : (is_for inner && forallb is_pragma (rev (map SPragma ps)))%bool = true).
      { rewrite E. cbn [is_for andb]. rewrite forallb_forall. intros x X. apply in_rev in X. apply in_map_iff in X as (q & <- & _). reflexivity. }
      rewrite B. change (p_last (mkParsed (stack st ++ [en]) (accesses st)) (map SPragma ps ++ [inner]) = Ok (mkParsed (stack st ++ en :: es') k)). rewrite p_last_snoc.
      rewrite (IH es' (mkParsed (stack st ++ [en]) (accesses st)) k R2 K). cbn [stack]. now rewrite <- app_assoc.
    - exact I.
  Qed.
End Parse.

(** ** Sections *)
Lemma sections_swaps items : forall ds ls ws, sections InSwaps items = Ok (ds, ls, ws) -> ds = [] /\ ls = [] /\ ws = items /\ exists args, items = map swap_call args.
Proof.
  induction items as [|s items IH]; intros ds ls ws H; cbn [sections] in H.
  - injection H as <- <- <-. repeat split. now exists [].
  - destruct s; try discriminate. destruct f; try discriminate. destruct (String.eqb_spec name "swap") as [->|]; [|discriminate].
    destruct (sections InSwaps items) as [[[ds' ls'] ws']|] eqn:E; [|discriminate]. destruct (IH _ _ _ eq_refl) as (-> & -> & -> & a & ->).
    cbn [bind] in H. injection H as <- <- <-. repeat split. now exists (args :: a).
Qed.
Lemma swaps_sections args : sections InSwaps (map swap_call args) = Ok ([], [], map swap_call args).
Proof. induction args as [|a args IH]; [reflexivity|]. cbn [map sections]. unfold swap_call at 1. rewrite String.eqb_refl, IH. reflexivity. Qed.
Lemma sections_nest items : forall ds ls ws, sections InLoopNest items = Ok (ds, ls, ws) -> ds = [] /\
  ((exists ps, ls = map SPragma ps) \/
   exists ps s args, is_for s = true /\ ls = map SPragma ps ++ [s] /\ ws = map swap_call args /\ items = map SPragma ps ++ s :: map swap_call args).
Proof.
  induction items as [|s items IH]; intros ds ls ws H; cbn [sections] in H.
  - injection H as <- <- <-. split; [reflexivity|]. left. now exists [].
  - destruct s; try discriminate.
    + destruct (sections InSwaps items) as [[[ds' ls'] ws']|] eqn:E; [|discriminate]. cbn [bind] in H. injection H as <- <- <-.
      apply sections_swaps in E as (-> & -> & -> & a & ->). split; [reflexivity|]. right. exists [], (SFor init cond next s), a. repeat split.
    + destruct (sections InLoopNest items) as [[[ds' ls'] ws']|] eqn:E; [|discriminate]. cbn [bind] in H. injection H as <- <- <-.
      destruct (IH _ _ _ eq_refl) as (-> & [(ps & ->)|(ps & s & args & F & -> & -> & ->)]); (split; [reflexivity|]).
      * left. now exists (content :: ps).
      * right. exists (content :: ps), s, args. repeat split; auto.
Qed.
Lemma sections_decls items : forall ds ls ws, sections InDeclarations items = Ok (ds, ls, ws) ->
  exists rest, items = map SDecl ds ++ rest /\ sections InLoopNest rest = Ok ([], ls, ws).
Proof.
  induction items as [|s items IH]; intros ds ls ws H; cbn [sections] in H.
  - injection H as <- <- <-. now exists [].
  - destruct s; try discriminate.
    + exists (SFor init cond next s :: items). destruct (sections InSwaps items) as [[[ds' ls'] ws']|] eqn:E; [|discriminate]. cbn [bind] in H. injection H as <- <- <-.
      destruct (sections_swaps _ _ _ _ E) as (-> & _). cbn [map app sections]. rewrite E. split; reflexivity.
    + exists (SPragma content :: items). destruct (sections InLoopNest items) as [[[ds' ls'] ws']|] eqn:E; [|discriminate]. cbn [bind] in H. injection H as <- <- <-.
      destruct (sections_nest _ _ _ _ E) as (-> & _). cbn [map app sections]. rewrite E. split; reflexivity.
    + destruct (sections InDeclarations items) as [[[ds' ls'] ws']|] eqn:E; [|discriminate]. cbn [bind] in H. injection H as <- <- <-.
      destruct (IH _ _ _ eq_refl) as (rest & -> & S1). now exists rest.
Qed.
Lemma sections_complete sec ps s args : sec <> InSwaps -> is_for s = true ->
  sections sec (map SPragma ps ++ s :: map swap_call args) = Ok ([], map SPragma ps ++ [s], map swap_call args).
Proof.
  intros N F. revert sec N. induction ps as [|p ps IH]; intros sec N; cbn [map app sections].
  - destruct s; try discriminate. destruct sec; [| |easy]; rewrite swaps_sections; reflexivity.
  - destruct sec; [| |easy]; rewrite (IH InLoopNest) by easy; reflexivity.
Qed.
Lemma sections_kernel ds ps s args : is_for s = true ->
  sections InDeclarations (map SDecl ds ++ map SPragma ps ++ s :: map swap_call args) = Ok (ds, map SPragma ps ++ [s], map swap_call args).
Proof. intros F. induction ds as [|d ds IH]; cbn [map app sections]; [now apply sections_complete|]. now rewrite IH. Qed.

(** ** The whole code *)
Theorem process_sound eqb items k : Forall c_tree items -> process_code eqb (Some items) = Ok k ->
  exists ds ls body ws, kernel_code items ds ls body ws /\ declare_all ds (mkDeclared None []) = Ok (kernel_variables k)
    /\ Forall2 recorded ls (stack (kernel_nest k)) /\ p_assignments eqb (map read_as body) empty_state = Ok (accesses (kernel_nest k))
    /\ kernel_swaps k = map swap_call ws.
Proof.
  intros T H. unfold process_code in H. destruct (sections InDeclarations items) as [[[ds ls] ws]|] eqn:E; [|discriminate]. cbn [bind] in H.
  destruct (declare_all ds (mkDeclared None [])) as [v|] eqn:D; [|discriminate]. cbn [bind] in H.
  destruct (sections_decls _ _ _ _ E) as (rest & -> & S1). destruct (sections_nest _ _ _ _ S1) as (_ & [(ps & ->)|(ps & s & args & F & -> & -> & ->)]).
  - exfalso. destruct (rev (map SPragma ps)) as [|l ?] eqn:R; [discriminate|].
    assert (I1 : In l (map SPragma ps)) by (apply in_rev; rewrite R; now left). apply in_map_iff in I1 as (q & <- & _). discriminate.
  - rewrite rev_app_distr in H. cbn [rev app] in H. destruct (p_for eqb s (mkParsed [] empty_state)) as [p|] eqn:P; [|discriminate]. cbn [bind] in H. injection H as <-.
    assert (TS : c_tree s).
    { rewrite Forall_forall in T. apply T. apply in_or_app. right. apply in_or_app. right. now left. }
    destruct (proj1 (p_for_accepts eqb s) _ _ TS P) as (ls & body & es & N & R & S2 & S3).
    exists ds, ls, body, args. split; [exists ps, s; auto|]. cbn [kernel_variables kernel_nest kernel_swaps]. cbn [stack app] in S2. rewrite S2. auto.
Qed.
Theorem process_complete eqb items ds ls body ws v es k : kernel_code items ds ls body ws -> declare_all ds (mkDeclared None []) = Ok v ->
  Forall2 recorded ls es -> p_assignments eqb (map read_as body) empty_state = Ok k ->
  process_code eqb (Some items) = Ok (mkKernel v (mkParsed es k) (map swap_call ws)).
Proof.
  intros (ps & s & -> & N) D R K. unfold process_code. pose proof (nest_is_for _ _ _ N) as (i & c & n & b & E).
  rewrite sections_kernel by (rewrite E; reflexivity). cbn [bind]. rewrite D. cbn [bind]. rewrite rev_app_distr. cbn [rev app].
  rewrite (p_for_complete eqb s ls body N es (mkParsed [] empty_state) k R K). reflexivity.
Qed.

(** ** Execution *)
Lemma ticks_end lo hi step : 0 < step -> hi <= lo -> ticks lo hi step = [].
Proof.
  intros S1 L. unfold ticks. replace (Z.to_nat ((hi - lo + step - 1) / step)) with 0%nat; [reflexivity|].
  assert ((hi - lo + step - 1) / step <= 0); [|lia].
  assert ((hi - lo + step - 1) / step < 1) by (apply Z.div_lt_upper_bound; lia). lia.
Qed.
Lemma ticks_more lo hi step : 0 < step -> lo < hi -> ticks lo hi step = lo :: ticks (lo + step) hi step.
Proof.
  intros S1 L. unfold ticks. replace (hi - (lo + step) + step - 1) with (hi - lo + step - 1 + (-1) * step) by lia. rewrite Z.div_add by lia.
  assert (0 < (hi - lo + step - 1) / step) by (apply Z.div_str_pos; lia).
  replace (Z.to_nat ((hi - lo + step - 1) / step)) with (S (Z.to_nat ((hi - lo + step - 1) / step + -1))) by lia.
  cbn [List.seq map]. f_equal; [lia|]. rewrite <- seq_shift, map_map. apply map_ext. intros i. lia.
Qed.
Lemma update_same x z z' e : update x z' ((x, z) :: e) = (x, z') :: e.
Proof. cbn. now rewrite String.eqb_refl. Qed.
Section Loop.
  Variable (F : env -> list event) (b : stmt) (x : string) (c : option cexpr) (n : cnext) (e : env) (hi step : Z).
  Hypothesis S1 : 0 < step.
  Hypothesis B : forall z evs e', exec ((x, z) :: e) b evs e' <-> e' = (x, z) :: e /\ evs = F ((x, z) :: e).
  Hypothesis C : forall z, condition ((x, z) :: e) c = Some (z <? hi).
  Hypothesis N : forall z, advance ((x, z) :: e) n = Some ((x, z + step) :: e).
  Lemma loop_executes z evs e2 : loop ((x, z) :: e) c n b evs e2 -> (exists z', e2 = (x, z') :: e) /\ evs = flat_map (fun z => F ((x, z) :: e)) (ticks z hi step).
  Proof.
    intros H. remember ((x, z) :: e) as e1 eqn:E1. revert z E1.
    induction H as [e1 c n b CF|e1 c n b evs e1' e2' evs' e3 CT X A H IH]; intros z ->.
    + rewrite C in CF. injection CF as L. apply Z.ltb_ge in L. rewrite ticks_end by lia. split; [eauto|reflexivity].
    + rewrite C in CT. injection CT as L. apply Z.ltb_lt in L. apply B in X as [-> ->]. rewrite N in A. injection A as <-.
      destruct (IH B C N _ eq_refl) as [Z1 ->]. split; [exact Z1|]. rewrite (ticks_more z) by lia. reflexivity.
  Qed.
  Lemma loop_terminates z : exists z', loop ((x, z) :: e) c n b (flat_map (fun z => F ((x, z) :: e)) (ticks z hi step)) ((x, z') :: e).
  Proof.
    assert (G : forall m y, (Z.to_nat (hi - y) <= m)%nat -> exists z'', loop ((x, y) :: e) c n b (flat_map (fun z => F ((x, z) :: e)) (ticks y hi step)) ((x, z'') :: e)).
    { induction m as [|m IH]; intros y L.
      - rewrite ticks_end by lia. exists y. apply loop_end. rewrite C. f_equal. apply Z.ltb_ge. lia.
      - destruct (Z.ltb_spec y hi) as [Y|Y].
        + rewrite (ticks_more y) by lia. cbn [flat_map]. destruct (IH (y + step)) as (z'' & IHz); [lia|]. exists z''.
          eapply loop_again; [rewrite C; f_equal; now apply Z.ltb_lt|apply B; split; reflexivity|apply N|exact IHz].
        + rewrite ticks_end by lia. exists y. apply loop_end. rewrite C. f_equal. apply Z.ltb_ge. lia. }
    exact (G _ z (le_n _)).
  Qed.
End Loop.

Lemma assigned_keeps a e e' : (forall m, In m (modified a) -> ~ In m (map fst e)) -> assigned a e e' -> e' = e.
Proof.
  intros H F. induction F as [|[m z] [m' z'] e e' [E O] F IH]; [reflexivity|]. cbn in E, O. subst m'. f_equal.
  - destruct O as [O| ->]; [|reflexivity]. exfalso. apply (H m O). now left.
  - apply IH. intros q Q I. apply (H q Q). now right.
Qed.
Lemma assigned_refl a e : assigned a e e.
Proof. induction e; constructor; auto. Qed.
Definition untouched (body : list cassign) (e : env) : Prop := forall a m, In a body -> In m (modified a) -> ~ In m (map fst e).
Lemma assignments_execute items body : assignments items body -> forall e evs e', untouched body e ->
  (exec_all e items evs e' <-> e' = e /\ evs = map (pair e) body).
Proof.
  induction 1 as [|c items l A IH|op x y items l A IH]; intros e evs e' U.
  - split; [intros H; inversion H; auto|intros [-> ->]; constructor].
  - split.
    + intros H. inversion H as [|? ? evs1 e1 ? evs2 ? H1 H2]; subst. inversion H1; subst. cbn [app]. now apply IH.
    + intros [-> ->]. change (map (pair e) l) with ([] ++ map (pair e) l). eapply exec_cons; [apply exec_pragma|]. now apply IH.
  - assert (U' : untouched l e) by (intros a m I1 I2; apply (U a m); [now right|exact I2]). split.
    + intros H. inversion H as [|? ? evs1 e1 ? evs2 ? H1 H2]; subst. inversion H1; subst.
      match goal with HA : assigned _ e e1 |- _ => apply assigned_keeps in HA; [subst e1|intros m; apply U; now left] end.
      apply IH in H2 as [-> ->]; auto.
    + intros [-> ->]. cbn [map]. change ((e, mkAssign op x y) :: map (pair e) l) with ([(e, mkAssign op x y)] ++ map (pair e) l).
      eapply exec_cons; [apply exec_assign, assigned_refl|]. now apply IH.
Qed.
Lemma environment_other x z e m : m <> x -> environment ((x, z) :: e) m = environment e m.
Proof. intros D. unfold environment. cbn. destruct (String.eqb_spec m x); [contradiction|reflexivity]. Qed.
Fixpoint sym_names (s : sym) : list string := match s with SVar n => [n] | SInt _ => [] | SMul a b | SAdd a b | SSub a b => sym_names a ++ sym_names b end.
Lemma seval_ext (f g : string -> Z) s : (forall m, In m (sym_names s) -> f m = g m) -> seval f s = seval g s.
Proof. induction s; cbn; intros H; auto; try (rewrite IHs1, IHs2; auto; intros m I; apply H, in_or_app; auto). Qed.
Lemma conv_names x : forall s, conv_ast_to_sym (abstract x) = Ok s -> sym_names s = names x.
Proof.
  induction x as [n|t|op l IHl r IHr|op y IH|a IHa b IHb|]; intros s H; cbn [abstract conv_ast_to_sym] in H; try discriminate.
  - now injection H as <-.
  - destruct (py_int t); [now injection H as <-|discriminate].
  - destruct (String.eqb op "*"); [|destruct (String.eqb op "+"); [|destruct (String.eqb op "-"); [|discriminate]]];
      (destruct (conv_ast_to_sym (abstract l)) as [a|]; [|discriminate]; destruct (conv_ast_to_sym (abstract r)) as [b|]; [|discriminate]; injection H as <-;
       cbn; now rewrite (IHl _ eq_refl), (IHr _ eq_refl)).
  - destruct (String.eqb op "*" || String.eqb op "+" || String.eqb op "-")%bool; discriminate.
Qed.
Lemma exec_loop l b s mn mx step e (F : env -> list event) : loop_of l b s -> plain_loop l -> recorded l (index l, mn, mx, step) -> 0 < step ->
  incl (names (first l) ++ names (bound l)) (map fst e) -> ~ In (index l) (names (first l) ++ names (bound l)) ->
  (forall z evs e', exec ((index l, z) :: e) b evs e' <-> e' = (index l, z) :: e /\ evs = F ((index l, z) :: e)) ->
  forall evs e', exec e s evs e' <-> e' = e /\ evs = flat_map (fun z => F ((index l, z) :: e)) (ticks (seval (environment e) mn) (seval (environment e) mx) step).
Proof.
  intros (n & -> & NX) P (mn' & mx' & z1 & E & MN & MX & ST) S1 I1 I2 B. injection E as <- <- <-.
  unfold plain_loop in P. apply Forall_app in P as [P1 P2]. apply Forall_app in P2 as [P2 P3]. apply incl_app_inv in I1 as [I1a I1b].
  assert (V1 : cvalue e (first l) = Some (seval (environment e) mn)) by (apply value_agree; auto).
  assert (V2 : forall z, cvalue ((index l, z) :: e) (bound l) = Some (seval (environment e) mx)).
  { intros z. rewrite (value_agree ((index l, z) :: e) (bound l) mx MX P2); [|intros m M; right; now apply I1b]. f_equal. apply seval_ext.
    intros m M. rewrite (conv_names _ _ MX) in M. apply environment_other. intros ->. apply I2, in_or_app. now right. }
  assert (C : forall z, condition ((index l, z) :: e) (Some (CBin "<" (CId (index l)) (bound l))) = Some (z <? seval (environment e) mx)).
  { intros z. cbn [condition]. rewrite V2. cbn [cvalue lookup]. rewrite String.eqb_refl. reflexivity. }
  assert (N : forall z, advance ((index l, z) :: e) n = Some ((index l, z + step) :: e)).
  { intros z. unfold step_read in ST. destruct (increment l) as [t|].
    - subst n. cbn [advance lookup]. rewrite String.eqb_refl. cbn [cvalue]. rewrite (plain_agrees t step); [|inversion P3; assumption|exact ST].
      change (String.eqb "+=" "+=") with true. now rewrite update_same.
    - subst step. destruct NX as [->| ->]; cbn [advance lookup]; rewrite String.eqb_refl;
        [change (String.eqb "++" "++" || String.eqb "++" "p++")%bool with true|change (String.eqb "p++" "++" || String.eqb "p++" "p++")%bool with true]; cbv iota; now rewrite update_same. }
  intros evs e'. split.
  - intros H. inversion H as [| | | |? ? ? ? z0 ? ? ? ? z' ? V0 L0]; subst. rewrite V1 in V0. injection V0 as <-.
    destruct (loop_executes F b (index l) _ n e _ step S1 B C N _ _ _ L0) as [(z'' & E) ->]. injection E as _ ->. auto.
  - intros [-> ->]. destruct (loop_terminates F b (index l) _ n e _ step S1 B C N (seval (environment e) mn)) as (z' & L0).
    eapply exec_for; eauto.
Qed.
Lemma flat_map_flat_map {A B C} (f : B -> list C) (g : A -> list B) l : flat_map f (flat_map g l) = flat_map (fun x => flat_map f (g x)) l.
Proof. induction l as [|a l IH]; [reflexivity|]. cbn. now rewrite flat_map_app, IH. Qed.
Lemma pragmas_execute ps s e evs e' : exec_all e (map SPragma ps ++ [s]) evs e' <-> exec e s evs e'.
Proof.
  revert evs. induction ps as [|p ps IH]; intros evs; cbn [map app].
  - split.
    + intros H. inversion H as [|? ? evs1 e1 ? evs2 ? H1 H2]; subst. inversion H2; subst. now rewrite app_nil_r.
    + intros H. rewrite <- (app_nil_r evs). eapply exec_cons; [exact H|constructor].
  - split.
    + intros H. inversion H as [|? ? evs1 e1 ? evs2 ? H1 H2]; subst. inversion H1; subst. now apply IH.
    + intros H. change evs with ([] ++ evs). eapply exec_cons; [apply exec_pragma|]. now apply IH.
Qed.
Lemma advances_step l en : plain_loop l -> recorded l en -> advances l -> 0 < snd en.
Proof.
  intros P (mn & mx & z & -> & _ & _ & R) A. cbn. unfold advances, step_text in A. unfold step_read in R. destruct (increment l) as [t|] eqn:I1; [|lia].
  assert (PT : plain t). { unfold plain_loop in P. rewrite I1 in P. apply Forall_app in P as [_ P]. apply Forall_app in P as [_ P]. now inversion P. }
  now rewrite (plain_agrees t z PT R) in A.
Qed.
Definition run (body : list cassign) (es : list entry) (e : env) : list event := flat_map (fun it => map (pair it) body) (iterations es e).
Theorem nest_executes s ls body : nest s ls body -> forall es e, Forall2 recorded ls es -> Forall plain_loop ls -> Forall advances ls ->
  well_scoped (map fst e) ls -> keeps_integers (map fst e) ls body ->
  forall evs e', exec e s evs e' <-> e' = e /\ evs = run body es e.
Proof.
  induction 1 as [l op x y s L|l items body s L NE A|l inner s ls body L N IH|l ps inner s ls body L N IH];
    intros es e R P AD W K; inversion R as [|? en ? es' R1 R2]; subst; inversion P as [|? ? P1 P2]; subst; inversion AD as [|? ? A1 A2]; subst;
    destruct W as (W1 & W2 & W3); pose proof (advances_step _ _ P1 R1 A1) as SP; destruct en as [[[x0 mn] mx] step];
    assert (X0 : x0 = index l) by (destruct R1 as (? & ? & ? & [= -> _ _ _] & _); reflexivity); subst x0; cbn [snd] in SP; unfold run; cbn [iterations].
  - inversion R2; subst. rewrite flat_map_flat_map.
    apply (exec_loop l _ s mn mx step e (fun it => flat_map (fun it => map (pair it) [mkAssign op x y]) (iterations [] it)) L P1 R1 SP W1 W2).
    intros z evs e'. cbn [iterations flat_map map app]. split.
    + intros H. inversion H; subst. match goal with HA : assigned _ _ e' |- _ => apply assigned_keeps in HA; [now subst e'|] end.
      intros m M I1. apply (K _ m (or_introl eq_refl) M). apply in_or_app. cbn in I1 |- *. tauto.
    + intros [-> ->]. apply exec_assign, assigned_refl.
  - inversion R2; subst. rewrite flat_map_flat_map.
    apply (exec_loop l _ s mn mx step e (fun it => flat_map (fun it => map (pair it) body) (iterations [] it)) L P1 R1 SP W1 W2).
    intros z evs e'. cbn [iterations flat_map]. rewrite app_nil_r.
    rewrite <- (assignments_execute items body A ((index l, z) :: e) evs e').
    + split; [intros H; now inversion H|apply exec_block].
    + intros a m I1 I2 I3. apply (K a m I1 I2). apply in_or_app. cbn in I3 |- *. tauto.
  - rewrite flat_map_flat_map.
    apply (exec_loop l _ s mn mx step e (run body es') L P1 R1 SP W1 W2).
    intros z. apply IH; auto. intros a m I1 I2 I3. apply (K a m I1 I2). cbn [map app] in I3 |- *. apply in_or_app. cbn. destruct I3 as [I3|I3]; [tauto|]. apply in_app_or in I3. tauto.
  - rewrite flat_map_flat_map.
    apply (exec_loop l _ s mn mx step e (run body es') L P1 R1 SP W1 W2).
    intros z evs e'. rewrite <- (IH es' ((index l, z) :: e) R2 P2 A2 W3).
    + rewrite <- (pragmas_execute ps inner). split; [intros H; now inversion H|apply exec_block].
    + intros a m I1 I2 I3. apply (K a m I1 I2). cbn [map app] in I3 |- *. apply in_or_app. cbn. destruct I3 as [I3|I3]; [tauto|]. apply in_app_or in I3. tauto.
Qed.

(** ** Elements *)
From Verif Require Import AstProofs.
Lemma abstract_meaning x : (forall t, In t (literals x) -> readable t) -> abstract x = meaning x.
Proof.
  induction x as [n|t|op l IHl r IHr|op y IH|a IHa b IHb|]; cbn [literals abstract meaning]; intros H; auto.
  - f_equal. destruct (H t (or_introl eq_refl)) as [P|[-> ->]]; [|reflexivity]. destruct (plain_read t P) as (z & -> & ->). reflexivity.
  - rewrite IHl, IHr; auto; intros t I; apply H, in_or_app; auto.
  - now rewrite IH.
  - rewrite IHa, IHb; auto; intros t I; apply H, in_or_app; auto.
Qed.
Lemma read_statement body : readable_body body -> map read_as body = map statement body.
Proof.
  intros H. apply map_ext_in. intros a I. unfold read_as, statement, assignment_of. f_equal; apply abstract_meaning; intros t T; apply (H a t I), in_or_app; auto.
Qed.
Lemma subscript_ceval e x : forall z, subscript_value e x = Some z -> ceval (environment e) x = Some z.
Proof.
  induction x as [n|v|op l IHl r IHr|op y IH|a IHa b IHb|]; intros z; cbn [subscript_value ceval]; try discriminate.
  - intros H. unfold environment. now rewrite H.
  - easy.
  - destruct (subscript_value e l) as [a|]; [|discriminate]. destruct (subscript_value e r) as [b|]; [|discriminate].
    rewrite (IHl a eq_refl), (IHr b eq_refl). destruct (String.eqb_spec op "*") as [->|]; [easy|]. easy.
Qed.
Lemma ceval_subscript e x : incl (expr_names x) (map fst e) -> forall z, ceval (environment e) x = Some z -> subscript_value e x = Some z.
Proof.
  induction x as [n|v|op l IHl r IHr|op y IH|a IHa b IHb|]; intros I z; cbn [subscript_value ceval expr_names] in *; try discriminate.
  - intros [= <-]. apply lookup_environment, I. now left.
  - easy.
  - apply incl_app_inv in I as [Il Ir]. destruct (ceval (environment e) l) as [a|]; [|discriminate]. destruct (ceval (environment e) r) as [b|]; [|discriminate].
    rewrite (IHl Il a eq_refl), (IHr Ir b eq_refl). destruct (String.eqb_spec op "*") as [->|]; [easy|]. easy.
Qed.
Lemma describes_position a subs e zs : describes a subs -> position e subs zs -> access_at a e zs.
Proof.
  intros D P. destruct a as [idx|]; cbn in *.
  - destruct D as [N F]. split; [intros ->; inversion F; congruence|]. clear N. revert zs P. induction F as [|s i ss is_ SI F IH]; intros zs P; inversion P as [|? z ? zs' V P']; subst; [reflexivity|].
    cbn. f_equal; [|auto]. apply subscript_ceval in V. rewrite SI in V. congruence.
  - subst subs. now inversion P.
Qed.
Lemma position_describes a subs e zs : (forall s, In s subs -> incl (expr_names s) (map fst e)) -> describes a subs -> access_at a e zs -> position e subs zs.
Proof.
  intros K D A. destruct a as [idx|]; cbn in *.
  - destruct D as [_ F]. destruct A as [_ ->]. unfold position. induction F as [|s i ss is_ SI F IH]; [constructor|]. cbn. constructor; [|apply IH; intros; apply K; now right].
    apply ceval_subscript; [apply K; now left|apply SI].
  - subst. constructor.
Qed.
Lemma iteration_names ls es e it : Forall2 recorded ls es -> In it (iterations es e) -> forall m, In m (map fst it) <-> In m (map fst e ++ map index ls).
Proof.
  intros F. revert e. induction F as [|l en ls es R F IH]; intros e H m.
  - cbn in H. destruct H as [<-|[]]. cbn. now rewrite app_nil_r.
  - destruct en as [[[x mn] mx] step]. assert (X0 : x = index l) by (destruct R as (? & ? & ? & [= -> _ _ _] & _); reflexivity). subst x.
    cbn [iterations] in H. apply in_flat_map in H as (z & _ & H). rewrite (IH _ H). cbn [map fst]. rewrite !in_app_iff. cbn. tauto.
Qed.
Section Elements.
  Variable eqb : access -> access -> bool.
  Hypothesis ES : eqb_sound eqb.
  Variable (ls : list cloop) (es : list entry) (body : list cassign) (k : kstate) (e : env).
  Hypothesis R : Forall2 recorded ls es.
  Hypothesis K : p_assignments eqb (map read_as body) empty_state = Ok k.
  Hypothesis RB : readable_body body.
  Hypothesis KS : known_subscripts (map fst e) ls body.
  Lemma run_in ev : In ev (run body es e) <-> In (fst ev) (iterations es e) /\ In (snd ev) body.
  Proof.
    unfold run. rewrite in_flat_map. split.
    - intros (it & I1 & I2). apply in_map_iff in I2 as (a & <- & I2). auto.
    - intros [I1 I2]. exists (fst ev). split; [exact I1|]. apply in_map_iff. exists (snd ev). now destruct ev.
  Qed.
  Lemma elements_exact n zs :
    ((exists ev, In ev (run body es e) /\ reads_element ev n zs) <-> exists it a, In it (iterations es e) /\ listed (sources k) n a /\ access_at a it zs)
    /\ ((exists ev, In ev (run body es e) /\ writes_element ev n zs) <-> exists it a, In it (iterations es e) /\ listed (destinations k) n a /\ access_at a it zs).
  Proof.
    destruct (analysis_exact eqb ES _ _ K) as (S1 & S2 & D1 & D2). rewrite (read_statement body RB) in *.
    assert (KN : forall it a n subs s, In it (iterations es e) -> In a body -> In (n, subs) (stmt_reads (statement a) ++ stmt_writes (statement a)) -> In s subs -> incl (expr_names s) (map fst it)).
    { intros it a n0 subs s I1 I2 I3 I4 m M. apply (iteration_names ls es e it R I1). exact (KS a n0 subs s I2 I3 I4 m M). }
    split; split.
    - intros (ev & IE & subs & I1 & P). apply run_in in IE as [I2 I3].
      destruct (S1 n subs) as (a & L & D). { apply in_flat_map. exists (statement (snd ev)). split; [now apply in_map|exact I1]. }
      exists (fst ev), a. repeat split; auto. eapply describes_position; eauto.
    - intros (it & a & I1 & L & A). destruct (S2 n a L) as (subs & I2 & D). apply in_flat_map in I2 as (s & I2 & I3). apply in_map_iff in I2 as (b & <- & I2).
      exists (it, b). split; [now apply run_in|]. exists subs. split; [exact I3|]. eapply position_describes; eauto. intros s I4. apply (KN it b n subs s); auto. apply in_or_app; auto.
    - intros (ev & IE & subs & I1 & P). apply run_in in IE as [I2 I3].
      destruct (D1 n subs) as (a & L & D). { apply in_flat_map. exists (statement (snd ev)). split; [now apply in_map|exact I1]. }
      exists (fst ev), a. repeat split; auto. eapply describes_position; eauto.
    - intros (it & a & I1 & L & A). destruct (D2 n a L) as (subs & I2 & D). apply in_flat_map in I2 as (s & I2 & I3). apply in_map_iff in I2 as (b & <- & I2).
      exists (it, b). split; [now apply run_in|]. exists subs. split; [exact I3|]. eapply position_describes; eauto. intros s I4. apply (KN it b n subs s); auto. apply in_or_app; auto.
  Qed.
End Elements.

(** ** Type of the indices, innermost loop *)
Lemma first_loop ps inner : is_for inner = true -> get_index_type (SCompound (Some (map SPragma ps ++ [inner]))) = get_index_type inner.
Proof. intros F. cbn [get_index_type]. induction ps as [|p ps IH]; [destruct inner; easy|exact IH]. Qed.
Lemma no_loop items : (forall x, In x items -> is_for x = false) -> get_index_type (SCompound (Some items)) = Ok None.
Proof.
  intros F. cbn [get_index_type]. induction items as [|x items IH]; [reflexivity|].
  pose proof (F x (or_introl eq_refl)) as X. destruct x; try discriminate; apply IH; intros y Y; apply F; now right.
Qed.
Lemma index_type_nest s ls body : nest s ls body -> Forall (fun l => exists t, index_type l = TBase t) ls ->
  exists t, option_map index_type (hd_error ls) = Some (TBase t) /\
  ((Forall (fun l => index_type l = TBase t) ls /\ get_index_type s = Ok (Some t)) \/
   (~ Forall (fun l => index_type l = TBase t) ls /\ get_index_type s = Err ValueError)).
Proof.
  induction 1 as [l op x y s L|l items body s L NE A|l inner s ls body L N IH|l ps inner s ls body L N IH]; intros T; inversion T as [|? ? (t & T1) T2]; subst;
    exists t; (split; [cbn; now rewrite T1|]); destruct L as (n & -> & _); cbn [get_index_type index_names dtype].
  - left. split; [constructor; auto|]. rewrite T1. reflexivity.
  - left. split; [constructor; auto|]. rewrite T1. change (bind (get_index_type (SCompound (Some items))) (fun other => bind (type_names (TBase t)) (fun ns => match other with None => Ok (Some ns) | Some o => if names_eqb ns o then Ok (Some ns) else Err ValueError end)) = Ok (Some t)).
    rewrite no_loop; [reflexivity|]. exact (assignments_no_for _ _ A).
  - destruct (IH T2) as (t' & HD & IH'). pose proof (nest_is_for _ _ _ N) as (i & c & n' & b & E). rewrite T1.
    replace (match inner with SFor _ _ _ _ | SCompound _ => get_index_type inner | _ => Ok None end) with (get_index_type inner) by (rewrite E; reflexivity).
    destruct IH' as [[F G]|[F G]]; rewrite G; cbn [bind type_names].
    + destruct (names_eqb_spec t t') as [->|D]; [left; split; [constructor; auto|reflexivity]|right; split; [|reflexivity]].
      intros F'. inversion F'; subst. destruct ls as [|l' ls]; [discriminate|]. cbn in HD. inversion F; inversion H2; congruence.
    + right. split; [|reflexivity]. intros F'. inversion F' as [|? ? F1 F2]; subst. apply F. destruct ls as [|l' ls]; [discriminate|]. cbn in HD.
      assert (t' = t) as -> by (inversion F2; congruence). exact F2.
  - destruct (IH T2) as (t' & HD & IH'). pose proof (nest_is_for _ _ _ N) as (i & c & n' & b & E). rewrite T1.
    change (match SCompound (Some (map SPragma ps ++ [inner])) with SFor _ _ _ _ | SCompound _ => get_index_type (SCompound (Some (map SPragma ps ++ [inner]))) | _ => Ok None end) with (get_index_type (SCompound (Some (map SPragma ps ++ [inner])))).
    match goal with |- context [bind ?a _] => change a with (get_index_type (SCompound (Some (map SPragma ps ++ [inner])))) end.
    rewrite first_loop by (rewrite E; reflexivity).
    destruct IH' as [[F G]|[F G]]; rewrite G; cbn [bind type_names].
    + destruct (names_eqb_spec t t') as [->|D]; [left; split; [constructor; auto|reflexivity]|right; split; [|reflexivity]].
      intros F'. inversion F'; subst. destruct ls as [|l' ls]; [discriminate|]. cbn in HD. inversion F; inversion H2; congruence.
    + right. split; [|reflexivity]. intros F'. inversion F' as [|? ? F1 F2]; subst. apply F. destruct ls as [|l' ls]; [discriminate|]. cbn in HD.
      assert (t' = t) as -> by (inversion F2; congruence). exact F2.
Qed.
Lemma index_type_kernel items ds ls body ws : kernel_code items ds ls body ws -> exists s, nest s ls body /\ get_index_type_all items = get_index_type s /\
  find_inner_most_loop items None = match find_inner s with Some f => Some f | None => Some s end.
Proof.
  intros (ps & s & -> & N). exists s. split; [exact N|]. pose proof (nest_is_for _ _ _ N) as (i & c & n & b & E). split.
  - induction ds as [|d ds IH]; [|exact IH]. cbn [map app]. induction ps as [|p ps IH]; [|exact IH]. rewrite E. reflexivity.
  - induction ds as [|d ds IH]; [|exact IH]. cbn [map app]. induction ps as [|p ps IH]; [|exact IH]. cbn [map app find_inner_most_loop]. now rewrite E.
Qed.
Lemma inner_block items body : assignments items body -> find_inner (SCompound (Some items)) = None.
Proof. intros A. cbn [find_inner]. induction A; [reflexivity|exact IHA|exact IHA]. Qed.
Lemma inner_pragmas ps inner : is_for inner = true -> find_inner (SCompound (Some (map SPragma ps ++ [inner]))) = match find_inner inner with Some f => Some f | None => Some inner end.
Proof. intros F. cbn [find_inner]. induction ps as [|p ps IH]; [cbn [map app]; now rewrite F|exact IH]. Qed.
Lemma inner_nest s ls body : nest s ls body -> exists f l, match find_inner s with Some f => Some f | None => Some s end = Some f /\ nest f [l] body /\ exists before, ls = before ++ [l].
Proof.
  induction 1 as [l op x y s L|l items body s L NE A|l inner s ls body L N IH|l ps inner s ls body L N IH].
  - exists s, l. split; [|split; [eapply nest_single; eauto|now exists []]]. destruct L as (n & -> & _). reflexivity.
  - exists s, l. split; [|split; [eapply nest_block; eauto|now exists []]]. pose proof (inner_block _ _ A) as E. destruct L as (n & -> & _). cbn [find_inner is_for]. cbn [find_inner] in E. now rewrite E.
  - destruct IH as (f & l' & F & NF & before & ->). exists f, l'. pose proof (nest_is_for _ _ _ N) as (i & c & n' & b & E). destruct L as (n & -> & _).
    split; [|split; [exact NF|now exists (l :: before)]]. cbn [find_inner]. replace (is_for inner) with true by (rewrite E; reflexivity). rewrite F. reflexivity.
  - destruct IH as (f & l' & F & NF & before & ->). exists f, l'. pose proof (nest_is_for _ _ _ N) as (i & c & n' & b & E). destruct L as (n & -> & _).
    split; [|split; [exact NF|now exists (l :: before)]]. change (match find_inner (SCompound (Some (map SPragma ps ++ [inner]))) with Some f => Some f | None => Some (SFor (IDecls [mkDecl (index l) (index_type l) (Some (first l))]) (Some (CBin "<" (CId (index l)) (bound l))) n (SCompound (Some (map SPragma ps ++ [inner])))) end = Some f).
    rewrite inner_pragmas by (rewrite E; reflexivity). rewrite F. reflexivity.
Qed.

(** ** Declarations *)
Lemma supported_spec t : existsb (names_eqb t) datatypes = true <-> supported t.
Proof.
  unfold supported. rewrite existsb_exists. split.
  - intros (x & I & E). destruct (names_eqb_spec t x) as [->|]; [|discriminate]. cbn in I |- *. tauto.
  - intros I. exists t. split; [cbn in I |- *; tauto|]. now destruct (names_eqb_spec t t).
Qed.
Lemma array_dims_sound t : forall r, CodeModel.array_dims t = Ok r -> snd r = element_type t /\ Forall2 same_dimension (dimensions t) (fst r)
  /\ Forall (fun x => exists y, x = Some y /\ arithmetic integer_text y) (dimensions t).
Proof.
  induction t as [ns|dim t IH|t IH|]; intros r H; cbn [CodeModel.array_dims] in H; try (injection H as <-; repeat split; constructor).
  destruct dim as [x|]; [|discriminate]. cbn [convert] in H. destruct (conv_ast_to_sym (abstract x)) as [s|] eqn:C; [|discriminate]. cbn [bind] in H.
  destruct (CodeModel.array_dims t) as [r'|]; [|discriminate]. destruct (IH r' eq_refl) as (E & F & G). injection H as <-. cbn [fst snd element_type dimensions]. split; [exact E|]. split; constructor; auto.
  - exists x. split; [reflexivity|]. intros P e I. now apply value_agree.
  - exists x. split; [reflexivity|]. apply convertible. eauto.
Qed.
Lemma array_dims_complete t : Forall (fun x => exists y, x = Some y /\ arithmetic integer_text y) (dimensions t) -> exists r, CodeModel.array_dims t = Ok r.
Proof.
  induction t as [ns|dim t IH|t IH|]; intros H; cbn [CodeModel.array_dims dimensions] in *; try (eexists; reflexivity).
  inversion H as [|? ? (y & -> & A) H']; subst. destruct (IH H') as (r & R). apply convertible in A as (s & S1). cbn [convert]. rewrite S1, R. cbn [bind]. eauto.
Qed.
Lemma vset_new d k v : ~ In k (map fst d) -> vset d k v = d ++ [(k, v)].
Proof.
  induction d as [|[k' v'] d IH]; cbn; [reflexivity|]. intros N. destruct (String.eqb_spec k k') as [->|]; [exfalso; tauto|]. now rewrite IH by tauto.
Qed.
Lemma declare_sound d st st' : declare d st = Ok st' -> exists t size, supported t /\ element_type (dtype d) = TBase t
  /\ Forall (fun x => exists y, x = Some y /\ arithmetic integer_text y) (dimensions (dtype d))
  /\ declares d (dname d, (t, size)) /\ datatype st' = Some t /\ (datatype st = None \/ datatype st = Some t) /\ variables st' = vset (variables st) (dname d) (t, size).
Proof.
  intros H. assert (G : exists t size, set_variable (dname d) t size st = Ok st' /\ element_type (dtype d) = TBase t
     /\ Forall (fun x => exists y, x = Some y /\ arithmetic integer_text y) (dimensions (dtype d)) /\ declares d (dname d, (t, size))).
  { unfold declare in H. destruct (dtype d) as [ns|dim t'|t'|] eqn:T; try discriminate.
    - exists ns, None. split; [exact H|]. split; [reflexivity|]. split; [constructor|]. unfold declares. rewrite T. repeat split.
    - destruct (CodeModel.array_dims (TArray dim t')) as [r|] eqn:A; [|discriminate]. cbn [bind] in H. destruct (array_dims_sound _ _ A) as (E & F & G).
      destruct (type_names (snd r)) as [t|] eqn:TN; [|discriminate]. cbn [bind] in H. rewrite E in TN. destruct (element_type (TArray dim t')) as [ns| | |] eqn:ET; try discriminate.
      injection TN as ->. exists t, (Some (fst r)). split; [exact H|]. split; [reflexivity|]. split; [exact G|]. unfold declares. rewrite T. cbn [fst snd].
      rewrite ET. repeat split; auto. discriminate. }
  destruct G as (t & size & S1 & E & F & D). exists t, size. unfold set_variable in S1. destruct (existsb (names_eqb t) datatypes) eqn:X; [|discriminate]. apply supported_spec in X.
  destruct (datatype st) as [t'|] eqn:DT.
  - destruct (names_eqb_spec t t') as [<-|]; [|discriminate]. injection S1 as <-. cbn. repeat split; auto; try apply D.
  - injection S1 as <-. cbn. repeat split; auto; apply D.
Qed.
Lemma declare_all_sound ds : forall st v, declare_all ds st = Ok v ->
  (ds = [] \/ exists t, supported t /\ datatype v = Some t /\ (datatype st = None \/ datatype st = Some t)
     /\ Forall (fun d => element_type (dtype d) = TBase t /\ Forall (fun x => exists y, x = Some y /\ arithmetic integer_text y) (dimensions (dtype d))) ds).
Proof.
  induction ds as [|d ds IH]; intros st v H; [now left|right]. cbn [declare_all] in H. destruct (declare d st) as [st1|] eqn:D; [|discriminate]. cbn [bind] in H.
  apply declare_sound in D as (t & size & S1 & E & F & _ & DT & DO & _). exists t. destruct (IH _ _ H) as [->|(t' & S2 & D2 & [N|D3] & G)].
  - cbn in H. injection H as <-. repeat split; auto.
  - congruence.
  - assert (t' = t) as -> by congruence. repeat split; auto.
Qed.
Lemma declare_all_ok ds v : declare_all ds (mkDeclared None []) = Ok v -> declarations_ok ds.
Proof.
  intros H. apply declare_all_sound in H as [->|(t & S1 & _ & _ & F)].
  - exists ["double"]. split; [now left|constructor].
  - exists t. auto.
Qed.
Lemma declare_all_variables ds : forall st v, NoDup (map dname ds) -> (forall d, In d ds -> ~ In (dname d) (map fst (variables st))) -> declare_all ds st = Ok v ->
  exists vs, variables v = variables st ++ vs /\ Forall2 declares ds vs.
Proof.
  induction ds as [|d ds IH]; intros st v ND F H.
  - cbn in H. injection H as <-. exists []. split; [now rewrite app_nil_r|constructor].
  - cbn [declare_all] in H. destruct (declare d st) as [st1|] eqn:D; [|discriminate]. cbn [bind] in H. inversion ND as [|? ? N1 N2]; subst.
    apply declare_sound in D as (t & size & _ & _ & _ & DC & _ & _ & V). rewrite vset_new in V by (apply F; now left).
    destruct (IH st1 v N2) as (vs & E & G); [|exact H|].
    + intros d' I. rewrite V, map_app, in_app_iff. cbn. intros [A|[A|[]]].
      * apply (F d'); [now right|exact A].
      * apply N1. rewrite A. now apply in_map.
    + exists ((dname d, (t, size)) :: vs). split; [rewrite E, V, <- app_assoc; reflexivity|now constructor].
Qed.
Lemma declare_complete d st t : supported t -> (datatype st = None \/ datatype st = Some t) -> element_type (dtype d) = TBase t ->
  Forall (fun x => exists y, x = Some y /\ arithmetic integer_text y) (dimensions (dtype d)) -> exists st', declare d st = Ok st' /\ datatype st' = Some t.
Proof.
  intros S1 DT E F. assert (G : forall size, exists st', set_variable (dname d) t size st = Ok st' /\ datatype st' = Some t).
  { intros size. unfold set_variable. rewrite (proj2 (supported_spec t) S1). destruct DT as [-> | ->]; [eexists; split; reflexivity|].
    destruct (names_eqb_spec t t); [|contradiction]. eexists. split; reflexivity. }
  unfold declare. destruct (dtype d) as [ns|dim t'|t'|] eqn:T; try discriminate.
  - cbn in E. injection E as ->. apply G.
  - destruct (array_dims_complete _ F) as (r & R). rewrite R. cbn [bind]. destruct (array_dims_sound _ _ R) as (ER & _). rewrite ER, E. apply G.
Qed.
Lemma declare_all_complete ds t : supported t -> forall st, (datatype st = None \/ datatype st = Some t) ->
  Forall (fun d => element_type (dtype d) = TBase t /\ Forall (fun x => exists y, x = Some y /\ arithmetic integer_text y) (dimensions (dtype d))) ds ->
  exists v, declare_all ds st = Ok v.
Proof.
  intros S1. induction ds as [|d ds IH]; intros st DT F; [eexists; reflexivity|]. inversion F as [|? ? [E G] F']; subst.
  destruct (declare_complete d st t S1 DT E G) as (st' & D & DT'). cbn [declare_all]. rewrite D. cbn [bind]. apply IH; auto.
Qed.

(** ** Assignments *)
Lemma reference_base x : reference_ok x -> exists n, get_basename (abstract x) = Ok n.
Proof.
  induction 1 as [n|a s R (n & IH) A]; cbn; [eauto|]. destruct a; inversion R; subst; cbn [abstract]; eauto.
Qed.
Lemma subscript_kind s : arithmetic integer_text s -> match abstract s with EID _ | EConst _ | EBin _ _ _ => True | _ => False end.
Proof. now inversion 1. Qed.
Lemma reference_offsets_rev a s : reference_ok (CArr a s) -> exists l, get_offsets_rev (abstract (CArr a s)) = Ok l.
Proof.
  intros H. remember (CArr a s) as x eqn:E. revert a s E. induction H as [n|a s R IH A]; intros a' s' [= <- <-]; try discriminate. cbn [abstract get_offsets_rev].
  pose proof (subscript_kind s A) as K. apply convertible in A as (sy & C).
  destruct a as [n| | | |a1 s1|]; inversion R; subst; cbn [abstract].
  - destruct (abstract s); try easy; rewrite C; cbn [bind]; eauto.
  - destruct (IH a1 s1 eq_refl) as (l & L). cbn [abstract] in L. destruct (abstract s); try easy; rewrite C; cbn [bind]; rewrite L; cbn [bind]; eauto.
Qed.
Lemma reference_offsets x : reference_ok x -> exists a, get_offsets (abstract x) = Ok a.
Proof.
  intros H. destruct x as [n| | | |a s|]; inversion H; subst; cbn [abstract]; [cbn; eauto|]. destruct (reference_offsets_rev a s H) as (l & L). cbn [abstract] in L. unfold get_offsets. rewrite L. cbn. eauto.
Qed.
Lemma offsets_reference_rev x : forall l, get_offsets_rev (abstract x) = Ok l -> reference_ok x.
Proof.
  induction x as [n|t|op l0 IHl r IHr|op y IH|a IHa b IHb|]; intros l H; try discriminate. cbn [abstract get_offsets_rev] in H.
  assert (C : exists s, conv_ast_to_sym (abstract b) = Ok s).
  { destruct (abstract a); try discriminate; destruct (abstract b); try discriminate; (destruct (conv_ast_to_sym _); [eauto|discriminate]). }
  constructor; [|now apply convertible]. destruct a as [n| | | |a1 s1|]; try discriminate; [constructor|].
  cbn [abstract] in H, IHa. destruct (abstract b); try discriminate; (destruct (conv_ast_to_sym _); [|discriminate]; cbn [bind] in H;
    destruct (get_offsets_rev (EArr (abstract a1) (abstract s1))) as [l'|]; [|discriminate]; exact (IHa l' eq_refl)).
Qed.
Lemma offsets_reference x a : get_offsets (abstract x) = Ok a -> reference_ok x.
Proof.
  intros H. destruct x as [n|t|op l r|op y|b s|]; cbn [abstract get_offsets] in H; try discriminate; [constructor|].
  destruct (get_offsets_rev (abstract (CArr b s))) as [l|] eqn:E; [|cbn [abstract] in E; rewrite E in H; discriminate]. eapply offsets_reference_rev; eauto.
Qed.
Lemma allowed_spec op : allowed_unary op = true <-> In op ["-"; "--"; "++"; "p++"; "p--"].
Proof.
  unfold allowed_unary. rewrite !orb_true_iff, !String.eqb_eq. cbn. intuition.
Qed.
Section Assignments.
  Variable eqb : access -> access -> bool.
  Lemma sources_complete x : operand_ok x -> forall st, exists st', p_sources eqb (abstract x) st = Ok st'.
  Proof.
    induction 1 as [x R|t|op l r L IHl R IHr|op x O X IH]; intros st.
    - destruct (reference_base x R) as (n & N). destruct (reference_offsets x R) as (a & A).
      destruct R; cbn [abstract p_sources] in *; rewrite N; cbn [bind]; rewrite A; cbn [bind]; eauto.
    - cbn. eauto.
    - cbn [abstract p_sources]. destruct (IHl st) as (s1 & ->). cbn [bind]. destruct (IHr s1) as (s2 & ->). cbn [bind]. eauto.
    - cbn [abstract p_sources]. rewrite (proj2 (allowed_spec op) O). destruct (IH st) as (s1 & ->). cbn [bind]. eauto.
  Qed.
  Lemma sources_sound x : forall st st', p_sources eqb (abstract x) st = Ok st' -> operand_ok x.
  Proof.
    induction x as [n|t|op l IHl r IHr|op y IH|a IHa b IHb|]; intros st st' H; cbn [abstract p_sources] in H; try discriminate.
    - apply op_ref, ref_id.
    - apply op_const.
    - destruct (p_sources eqb (abstract l) st) as [s1|] eqn:L; [|discriminate]. cbn [bind] in H. destruct (p_sources eqb (abstract r) s1) as [s2|] eqn:R; [|discriminate]. apply op_bin; eauto.
    - destruct (allowed_unary op) eqn:O; [|discriminate]. destruct (p_sources eqb (abstract y) st) as [s1|] eqn:L; [|discriminate]. apply op_un; [now apply allowed_spec|eauto].
    - apply op_ref. destruct (get_basename (EArr (abstract a) (abstract b))); [|discriminate]. cbn [bind] in H.
      destruct (get_offsets (EArr (abstract a) (abstract b))) as [o|] eqn:G; [|discriminate]. exact (offsets_reference (CArr a b) o G).
  Qed.
  Lemma assignment_accepted a st : (exists st', p_assignment eqb (read_as a) st = Ok st') <-> assignment_ok a.
  Proof.
    unfold assignment_ok, p_assignment, read_as, assignment_of. cbn [lvalue rvalue aop]. split.
    - intros (st' & H). assert (G : exists o st1, get_offsets (abstract (left_side a)) = Ok o /\ p_sources eqb (abstract (right_side a)) st1 = Ok st').
      { destruct (abstract (left_side a)) eqn:L; try discriminate; rewrite <- L in *;
          (destruct (get_basename (abstract (left_side a))) as [n|]; [|discriminate]; cbn [bind] in H;
           destruct (get_offsets (abstract (left_side a))) as [o|]; [|discriminate]; cbn [bind] in H; eauto). }
      destruct G as (o & st1 & G1 & G2). split; [eapply offsets_reference; eauto|eapply sources_sound; eauto].
    - intros [R O]. destruct (reference_base _ R) as (n & N). destruct (reference_offsets _ R) as (o & A).
      assert (G : forall st1, exists st', p_sources eqb (abstract (right_side a)) st1 = Ok st') by (intros; now apply sources_complete).
      assert (L : match abstract (left_side a) with EArr _ _ | EID _ => True | _ => False end) by (destruct R; exact I).
      destruct (abstract (left_side a)); try easy; rewrite N; cbn [bind]; rewrite A; cbn [bind]; apply G.
  Qed.
  Lemma assignments_accepted body : forall st, (exists st', p_assignments eqb (map read_as body) st = Ok st') <-> Forall assignment_ok body.
  Proof.
    induction body as [|a body IH]; intros st; cbn [map p_assignments]; [split; eauto|]. split.
    - intros (st' & H). destruct (p_assignment eqb (read_as a) st) as [s1|] eqn:A; [|discriminate]. constructor; [eapply assignment_accepted; eauto|eapply IH; eauto].
    - intros F. inversion F as [|? ? A F']; subst. apply (assignment_accepted a st) in A as (s1 & ->). cbn [bind]. now apply IH.
  Qed.
End Assignments.
Lemma loop_accepted l : (exists en, recorded l en) <-> loop_ok l.
Proof.
  unfold loop_ok. split.
  - intros (en & mn & mx & z & -> & A & B & C). split; [apply convertible; eauto|]. split; [apply convertible; eauto|]. unfold step_read in C. unfold integer_text. destruct (increment l); [congruence|exact I].
  - intros (A & B & C). apply convertible in A as (mn & A). apply convertible in B as (mx & B). destruct (increment l) as [t|] eqn:E.
    + unfold integer_text in C. destruct (py_int t) as [z|] eqn:P; [|easy]. exists (index l, mn, mx, z). exists mn, mx, z. repeat split; auto. unfold step_read. now rewrite E.
    + exists (index l, mn, mx, 1), mn, mx, 1. repeat split; auto. unfold step_read. now rewrite E.
Qed.
Theorem acceptance eqb items : Forall c_tree items ->
  ((exists k, process_code eqb (Some items) = Ok k) <->
   exists ds ls body ws, kernel_code items ds ls body ws /\ declarations_ok ds /\ Forall loop_ok ls /\ Forall assignment_ok body).
Proof.
  intros T. split.
  - intros (k & H). destruct (process_sound eqb items k T H) as (ds & ls & body & ws & C & D & R & A & _). exists ds, ls, body, ws. split; [exact C|].
    split; [eapply declare_all_ok; eauto|]. split; [|eapply assignments_accepted; eauto].
    clear - R. induction R as [|l en ls es R F IH]; constructor; auto. apply loop_accepted. eauto.
  - intros (ds & ls & body & ws & C & (t & S1 & D) & L & A). destruct (declare_all_complete ds t S1 (mkDeclared None []) (or_introl eq_refl) D) as (v & V).
    apply (assignments_accepted eqb body empty_state) in A as (st & ST).
    assert (R : exists es, Forall2 recorded ls es).
    { clear - L. induction L as [|l ls H F (es & IH)]; [now exists []|]. apply loop_accepted in H as (en & H). exists (en :: es). now constructor. }
    destruct R as (es & R). eexists. eapply process_complete; eauto.
Qed.
(** [check] never fails *)
Lemma vset_in d k v x : In x (vset d k v) -> x = (k, v) \/ In x d.
Proof.
  induction d as [|[k' v'] d IH]; cbn; [intuition congruence|]. destruct (String.eqb k k'); cbn; intros [H|H]; auto.
  apply IH in H as [H|H]; auto.
Qed.
Lemma declare_all_types ds : forall st v, (forall x, In x (variables st) -> datatype st = Some (fst (snd x))) -> declare_all ds st = Ok v ->
  forall x, In x (variables v) -> datatype v = Some (fst (snd x)).
Proof.
  induction ds as [|d ds IH]; intros st v H D; cbn [declare_all] in D; [injection D as <-; exact H|].
  destruct (declare d st) as [st1|] eqn:D1; [|discriminate]. cbn [bind] in D. apply (IH st1); [|exact D]. intros x X.
  apply declare_sound in D1 as (t & size & _ & _ & _ & _ & DT & DO & V). rewrite V in X. apply vset_in in X as [->|X]; [exact DT|].
  apply H in X. destruct DO as [DO|DO]; congruence.
Qed.
Theorem check_passes eqb items k : process_code eqb items = Ok k -> check k = Ok tt.
Proof.
  unfold process_code. destruct items as [items|]; [|discriminate]. destruct (sections InDeclarations items) as [[[ds ls] ws]|]; [|discriminate]. cbn [bind].
  destruct (declare_all ds (mkDeclared None [])) as [v|] eqn:D; [|discriminate]. cbn [bind]. destruct (rev ls) as [|l ?]; [discriminate|].
  destruct (p_for eqb l (mkParsed [] empty_state)) as [p|]; [|discriminate]. cbn [bind]. intros [= <-]. unfold check. cbn [kernel_variables].
  assert (T : forall x, In x (variables v) -> datatype v = Some (fst (snd x))) by (apply (declare_all_types ds (mkDeclared None []) v); [intros x []|exact D]).
  destruct (variables v) as [|[n [t s]] vs]; [reflexivity|]. replace (forallb _ vs) with true; [reflexivity|]. symmetry. apply forallb_forall. intros x X.
  pose proof (T _ (or_introl eq_refl)) as T1. pose proof (T x (or_intror X)) as T2. cbn [fst snd] in T1. assert (t = fst (snd x)) as E by congruence. rewrite E. exact (match names_eqb_spec (fst (snd x)) (fst (snd x)) in reflect _ b return b = true with ReflectT _ _ => eq_refl | ReflectF _ N => match N eq_refl with end end).
Qed.
