(** C33, C34, C62: blocks of assembly code. *)
From Coq Require Import Lia Permutation.
From Verif Require Import IncModel IncSpec IncProofs.
Local Open Scope Z_scope.
Local Open Scope list_scope.

(** ** C33 *)
(** The selected block is better than all before it, and no block after it is better; whatever the scores are. *)
Theorem C33_first_best : forall {B} (metric : B -> list Z) blocks, blocks <> [] ->
  exists pre label b post, select_best_block metric blocks = Ok label /\ blocks = pre ++ (label, b) :: post /\
    (forall x, In x pre -> lex_lt (metric (snd x)) (metric b)) /\ (forall x, In x post -> ~ lex_lt (metric b) (metric (snd x))).
Proof. exact @select_spec. Qed.
(** Scores are totally ordered. *)
Theorem C33_order : (forall a b c, lex_lt a b -> lex_lt b c -> lex_lt a c) /\ (forall a, ~ lex_lt a a) /\ (forall a b, lex_lt a b \/ a = b \/ lex_lt b a).
Proof. exact (conj lex_trans (conj lex_irrefl lex_total)). Qed.
Theorem C33_no_blocks : forall {B} (metric : B -> list Z), select_best_block metric [] = Err ValueError.
Proof. reflexivity. Qed.
(** The first score counts the packed instructions. *)
Theorem C33_packed : forall m, is_packed m = true <-> packed_name m.
Proof. exact is_packed_spec. Qed.
(** The six scores: packed instructions, those of AVX among them, 512, 256 and 128 bit registers, and all instructions. *)
Theorem C33_scores : forall block, exists packed avx zmm ymm xmm all, x86_metric block = [packed; avx; zmm; ymm; xmm; all] /\
  amount (instruction_like packed_name) block packed /\ amount (instruction_like (fun m => packed_name m /\ exists rest, m = codes "v" ++ rest)) block avx /\
  registers_used (codes "zmm") block zmm /\ registers_used (codes "ymm") block ymm /\ registers_used (codes "xmm") block xmm /\
  amount (fun l => mnemonic l <> None) block all.
Proof.
  intros block. unfold x86_metric. do 6 eexists. split; [reflexivity|]. split; [|split; [|split; [|split; [|split]]]].
  - apply amount_instructions. apply amount_count. intros x. apply is_packed_spec.
  - apply amount_instructions. apply amount_count. intros x. rewrite andb_true_iff, is_packed_spec. unfold is_avx. rewrite starts_with_iff. reflexivity.
  - apply registers_used_spec.
  - apply registers_used_spec.
  - apply registers_used_spec.
  - induction block as [|l block IH]; [constructor|]. unfold instructions. cbn [flat_map]. fold (instructions block). destruct (mnemonic l) eqn:E; cbn [app List.length].
    + rewrite Nat2Z.inj_succ. unfold Z.succ. constructor; [congruence|exact IH].
    + constructor; [congruence|exact IH].
Qed.
Print Assumptions C33_scores.
Print Assumptions C33_first_best.
Print Assumptions C33_order.
Print Assumptions C33_no_blocks.
Print Assumptions C33_packed.

Definition ins (m : string) (ops src dst : list operand) : line := mkLine (Some (codes m)) ops src dst.
Definition reg (n : string) : operand := Reg (codes n).
Definition at_ (b i : option string) (s : Z) (d : offset) : mem := mkMem (option_map codes b) (option_map codes i) s d.
(** A scalar remainder loop, the vectorized loop, and a copy of it. *)
Definition scalar_block : list line := [ins "vmulsd" [reg "xmm0"; reg "xmm1"; reg "xmm2"] [] []; ins "incq" [reg "rax"] [] []; mkLine None [] [] []].
Definition vector_block : list line := [ins "vmulpd" [reg "ymm0"; reg "ymm1"; reg "ymm2"] [] []; ins "incq" [reg "rax"] [] []].
Example C33_example : select_best_block x86_metric [(codes "L1", scalar_block); (codes "L2", vector_block); (codes "L3", vector_block)] = Ok (codes "L2")
  /\ x86_metric vector_block = [1; 1; 0; 3; 0; 2] /\ x86_metric scalar_block = [0; 0; 0; 0; 3; 2].
Proof. repeat split; vm_compute; reflexivity. Qed.

(** ** C34 *)
(** If an increment is detected, there is a register in the considered references, part of all of them that have two registers, such that
    each reference which is only moved by it - as index, or as base with scale 1 - advances by that increment, at any place in the block and
    for any contents of the registers. Missing: other references, other kinds of changes (see the refutations). *)
Theorem C34_partial : forall order block inc,
  (forall l, Permutation (order l) l) -> (forall l, In l block -> shape l) -> (forall l, In l block -> ~ scaled_lea l) ->
  detect order block = Ok (Some inc) ->
  exists r, (exists m, considered block m /\ (base m = Some r \/ index m = Some r)) /\
    (forall m, considered block m -> base m <> None -> index m <> None -> base m = Some r \/ index m = Some r) /\
    forall step m, respects_additions step block -> only_additions step block r -> considered block m ->
      index m = Some r /\ unchanged step block (base m) \/ base m = Some r /\ mscale m = 1 /\ unchanged step block (index m) ->
      forall pre post s, block = pre ++ post -> advance step block pre m s = inc.
Proof. exact detect_advance. Qed.
(** One addition to one register that all considered references contain, with the same scale: it is detected. *)
Theorem C34_detects : forall order b1 l b2 r c s m0,
  let block := b1 ++ l :: b2 in
  (forall l, Permutation (order l) l) -> (forall l, In l block -> shape l) -> (forall l, In l block -> ~ scaled_lea l) -> r <> [] ->
  adds l r c -> (forall x d, In x (b1 ++ b2) -> ~ adds x r d) ->
  considered block m0 -> (forall m, considered block m -> (base m = Some r \/ index m = Some r) /\ mscale m = s) ->
  (forall m n x d, considered block m -> base m = Some n \/ index m = Some n -> n <> r -> In x block -> ~ adds x n d) ->
  detect order block = Ok (Some (s * c)).
Proof. exact detects. Qed.
Print Assumptions C34_partial.
Print Assumptions C34_detects.

(** vmovupd %ymm0, (%rdi,%rax,8); vmovupd 8(%rsi,%rax,8), %ymm0; addq $4, %rax *)
Definition m_store : mem := at_ (Some "rdi"%string) (Some "rax"%string) 8 NoOffset.
Definition m_load : mem := at_ (Some "rsi"%string) (Some "rax"%string) 8 (Displacement 8).
Definition good_block : list line :=
  [ins "vmovupd" [Mem m_load; reg "ymm0"] [Mem m_load] [reg "ymm0"]; ins "vmovupd" [reg "ymm0"; Mem m_store] [reg "ymm0"] [Mem m_store];
   ins "addq" [Imm 4; reg "rax"] [Imm 4] []].
Lemma no_size n m : sized (codes n) m = false -> ~ with_size n (Some m).
Proof. intros H W. apply sized_spec in W. congruence. Qed.
Lemma good_shape l : In l good_block -> shape l /\ ~ scaled_lea l.
Proof.
  intros I. destruct I as [<-|[<-|[<-|[]]]]; (split; [split; [|split]|intros [W _]; revert W; now apply no_size]); intros W;
    try (exfalso; destruct W as [W|W]; revert W; now apply no_size); try (exfalso; revert W; now apply no_size); cbn; eauto.
Qed.
Lemma good_store m : is_store good_block m <-> m = m_store.
Proof.
  split; [|intros ->; eexists; split; [right; left; reflexivity|]; repeat split; try discriminate; now left].
  intros (l & I & _ & J & _). destruct I as [<-|[<-|[<-|[]]]]; cbn in J; [destruct J as [J|[]]|destruct J as [J|[]]|destruct J]; [discriminate|]. congruence.
Qed.
Example C34_example : (forall l, In l good_block -> shape l) /\ (forall l, In l good_block -> ~ scaled_lea l) /\ detect (fun l => l) good_block = Ok (Some 32)
  /\ considered good_block m_store /\ respects_additions x86_step good_block /\ only_additions x86_step good_block (codes "rax")
  /\ unchanged x86_step good_block (base m_store) /\ (forall s, advance x86_step good_block (firstn 1 good_block) m_store s = 32).
Proof.
  split; [apply good_shape|]. split; [apply good_shape|]. split; [vm_compute; reflexivity|]. split; [left; now apply good_store|].
  split; [apply x86_step_additions|]. split; [|split].
  - intros l I. destruct I as [<-|[<-|[<-|[]]]]; [right; reflexivity|right; reflexivity|left]. exists 4. apply adds_add; [|reflexivity]. exists "addq"%string. split; [reflexivity|]. do 4 right. now left.
  - intros n E l s I. injection E as <-. destruct I as [<-|[<-|[<-|[]]]]; reflexivity.
  - intros s. unfold advance, address. cbn - [Z.mul Z.add]. unfold assign. cbn - [Z.mul Z.add]. lia.
Qed.

(** The base register is incremented, the index is scaled: movsd %xmm0, (%rdi,%rcx,8); addq $8, %rdi. 64 bytes are reported instead of 8. *)
Definition m_scaled : mem := at_ (Some "rdi"%string) (Some "rcx"%string) 8 NoOffset.
Definition scaled_base : list line := [ins "movsd" [reg "xmm0"; Mem m_scaled] [reg "xmm0"] [Mem m_scaled]; ins "addq" [Imm 8; reg "rdi"] [Imm 8] []].
Theorem C34_scaled_base_refuted : (forall order, (forall l, Permutation (order l) l) -> detect order scaled_base = Ok (Some 64)) /\
  considered scaled_base m_scaled /\ forall s, advance x86_step scaled_base [] m_scaled s = 8.
Proof.
  split; [|split].
  - intros order P. unfold detect, deduce. cbn. assert (X := P [codes "rdi"]). symmetry in X. apply Permutation_length_1_inv in X. cbn in X. rewrite X. reflexivity.
  - left. eexists. split; [left; reflexivity|]. repeat split; try discriminate. now left.
  - intros s. unfold advance, address. cbn - [Z.mul Z.add]. unfold assign. cbn - [Z.mul Z.add]. lia.
Qed.
(** Other changes of the register are not noticed: movsd %xmm0, (%rdi); addq $8, %rdi; addq %rax, %rdi *)
Definition m_rdi : mem := at_ (Some "rdi"%string) None 1 NoOffset.
Definition two_changes : list line :=
  [ins "movsd" [reg "xmm0"; Mem m_rdi] [reg "xmm0"] [Mem m_rdi]; ins "addq" [Imm 8; reg "rdi"] [Imm 8] []; ins "addq" [reg "rax"; reg "rdi"] [reg "rax"] []].
Theorem C34_other_changes_refuted : detect (fun l => l) two_changes = Ok (Some 8) /\ considered two_changes m_rdi /\
  forall s, advance x86_step two_changes [] m_rdi s = 8 + s (codes "rax").
Proof.
  split; [vm_compute; reflexivity|]. split.
  - left. eexists. split; [left; reflexivity|]. repeat split; try discriminate. now left.
  - intros s. unfold advance, address. cbn - [Z.mul Z.add]. unfold assign. cbn - [Z.mul Z.add]. lia.
Qed.
(** lea with a scaled register counts as an addition: leaq 1(,%r11,2), %r11 *)
Definition m_r11 : mem := at_ (Some "rdi"%string) (Some "r11"%string) 8 NoOffset.
Definition lea_block : list line :=
  [ins "movsd" [reg "xmm0"; Mem m_r11] [reg "xmm0"] [Mem m_r11]; ins "leaq" [Mem (at_ None (Some "r11"%string) 2 (Displacement 1)); reg "r11"] [] [reg "r11"]].
Theorem C34_lea_refuted : detect (fun l => l) lea_block = Ok (Some 8) /\ considered lea_block m_r11 /\
  forall s, advance x86_step lea_block [] m_r11 s = 8 * (s (codes "r11") + 1).
Proof.
  split; [vm_compute; reflexivity|]. split.
  - left. eexists. split; [left; reflexivity|]. repeat split; try discriminate. now left.
  - intros s. unfold advance, address. cbn - [Z.mul Z.add]. unfold assign. cbn - [Z.mul Z.add]. unfold address. cbn - [Z.mul Z.add]. lia.
Qed.
(** References with one register need not move: movsd %xmm0, (%rdi); movsd %xmm0, (%rsi); addq $8, %rdi *)
Definition m_rsi : mem := at_ (Some "rsi"%string) None 1 NoOffset.
Definition constant_store : list line :=
  [ins "movsd" [reg "xmm0"; Mem m_rdi] [reg "xmm0"] [Mem m_rdi]; ins "movsd" [reg "xmm0"; Mem m_rsi] [reg "xmm0"] [Mem m_rsi]; ins "addq" [Imm 8; reg "rdi"] [Imm 8] []].
Theorem C34_constant_reference_refuted : detect (fun l => l) constant_store = Ok (Some 8) /\ considered constant_store m_rsi /\
  forall s, advance x86_step constant_store [] m_rsi s = 0.
Proof.
  split; [vm_compute; reflexivity|]. split.
  - left. eexists. split; [right; left; reflexivity|]. repeat split; try discriminate. now left.
  - intros s. unfold advance, address. cbn - [Z.mul Z.add]. unfold assign. cbn - [Z.mul Z.add]. lia.
Qed.
Print Assumptions C34_scaled_base_refuted.
Print Assumptions C34_other_changes_refuted.
Print Assumptions C34_lea_refuted.
Print Assumptions C34_constant_reference_refuted.

(** ** C62 *)
(** The result does not depend on the order of the set if at most one register of the considered references is incremented. *)
Theorem C62_partial : forall o1 o2 block,
  (forall l, Permutation (o1 l) l) -> (forall l, Permutation (o2 l) l) ->
  (forall l, In l block -> shape l) -> (forall l, In l block -> ~ scaled_lea l) ->
  (forall m m' n n' x x' d d', considered block m -> considered block m' -> base m = Some n \/ index m = Some n -> base m' = Some n' \/ index m' = Some n' ->
     In x block -> In x' block -> adds x n d -> adds x' n' d' -> n = n') ->
  detect o1 block = detect o2 block.
Proof. exact detect_order. Qed.
(** Otherwise it does: movsd (,%rdi,4), %xmm0; addsd (,%rsi,8), %xmm0; incq %rdi; incq %rsi *)
Definition m_rdi4 : mem := at_ None (Some "rdi"%string) 4 NoOffset.
Definition m_rsi8 : mem := at_ None (Some "rsi"%string) 8 NoOffset.
Definition two_registers : list line :=
  [ins "movsd" [Mem m_rdi4; reg "xmm0"] [Mem m_rdi4] [reg "xmm0"]; ins "movsd" [Mem m_rsi8; reg "xmm1"] [Mem m_rsi8] [reg "xmm1"];
   ins "incq" [reg "rdi"] [] []; ins "incq" [reg "rsi"] [] []].
Theorem C62_refuted : exists o1 o2 : list text -> list text, (forall l, Permutation (o1 l) l) /\ (forall l, Permutation (o2 l) l) /\
  detect o1 two_registers = Ok (Some 4) /\ detect o2 two_registers = Ok (Some 8).
Proof.
  exists (fun l => l), (@rev text). split; [auto|]. split; [intros l; symmetry; apply Permutation_rev|]. split; vm_compute; reflexivity.
Qed.
Print Assumptions C62_partial.
Print Assumptions C62_refuted.
Example C62_example : detect (@rev text) good_block = detect (fun l => l) good_block.
Proof.
  assert (A : forall n x d, In x good_block -> adds x n d -> n = codes "rax").
  { intros n x d I A. apply adds_recog in A. destruct I as [<-|[<-|[<-|[]]]]; vm_compute in A; [discriminate|discriminate|]. vm_compute. congruence. }
  apply C62_partial; [intros l; symmetry; apply Permutation_rev|reflexivity|apply good_shape|apply good_shape|].
  intros m m' n n' x x' d d' _ _ _ _ I I' H H'. rewrite (A n x d I H), (A n' x' d' I' H'). reflexivity.
Qed.
