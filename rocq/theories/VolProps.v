(** C139: the table of transferred data of the ECM model, C140: the order of accesses in verbose output. *)
From Coq Require Import String Permutation Sorted QArith Qabs Lqa Lia.
From Verif Require Import PyBase PyNum PyNumFacts PyText PyInt PyFloat PyStr EcmModel InfoModel InfoSpec InfoProofs VolModel VolSpec VolProofs.
Local Open Scope list_scope.

(** ** C139 *)
(** There is one row for each two neighbouring levels, in their order; it gives the loads and stores between them in bytes, rounded. *)
Theorem C139_table : forall line_size hierarchy loads stores, (0 <= line_size)%Z -> Forall word hierarchy -> Forall (Qle 0) (tl loads) -> Forall (Qle 0) (tl stores) ->
  (List.length hierarchy <= List.length loads)%nat -> (List.length hierarchy <= List.length stores)%nat ->
  exists printed rows, report_data_transfers line_size hierarchy loads stores = Ok printed /\
    lines printed = codes "Data Transfers:" :: codes "Level   | Loads    | Store    |" :: rows ++ [[]] /\ List.length rows = pred (List.length hierarchy) /\
    forall i upper lower l s, nth_error hierarchy i = Some upper -> nth_error hierarchy (S i) = Some lower -> nth_error loads (S i) = Some l -> nth_error stores (S i) = Some s ->
    exists row a b, nth_error rows i = Some row /\ says row upper lower a b /\ rounded a (l * inject_Z line_size) /\ rounded b (s * inject_Z line_size).
Proof.
  intros line_size hierarchy loads stores LP W PL PS LL LS. unfold report_data_transfers. destruct hierarchy as [|first levels].
  - exists (line (codes "Data Transfers:") ++ line (codes "Level   | Loads    | Store    |")), []. split; [reflexivity|]. split; [reflexivity|]. split; [reflexivity|]. intros [|i] u d l s U; discriminate U.
  - inversion W as [|? ? WF WL]; subst. cbn [List.length] in LL, LS. destruct (rows_say line_size loads stores levels first 1 WF WL LL LS) as (rows & -> & O & LR & N). cbn [bind].
    exists ((line (codes "Data Transfers:") ++ line (codes "Level   | Loads    | Store    |")) ++ unlines rows), rows. split; [reflexivity|]. split; [|split; [exact LR|]].
    { change ((line (codes "Data Transfers:") ++ line (codes "Level   | Loads    | Store    |")) ++ unlines rows) with (unlines (codes "Data Transfers:" :: codes "Level   | Loads    | Store    |" :: rows)).
      rewrite lines_unlines; [reflexivity|]. constructor; [apply concrete_one_line; reflexivity|]. constructor; [apply concrete_one_line; reflexivity|exact O]. }
    intros i u d l s HU HD HL HS. cbn [nth_error] in HD. exists (transfer_row line_size u d l s), (round_even (l * inject_Z line_size)), (round_even (s * inject_Z line_size)).
    split; [exact (N i u d l s HU HD HL HS)|]. split; [|split; apply round_rounded].
    assert (P : forall (v : list Q) x, Forall (Qle 0) (tl v) -> nth_error v (S i) = Some x -> (0 <= x * inject_Z line_size)%Q).
    { intros v x F H. apply Qmult_le_0_compat; [|change 0%Q with (inject_Z 0); now rewrite <- Zle_Qle]. destruct v as [|y v]; [discriminate H|]. cbn [tl nth_error] in *. rewrite Forall_forall in F. exact (F x (nth_error_In _ _ H)). }
    apply transfer_says; [|rewrite Forall_forall in WL; exact (WL d (nth_error_In _ _ HD))|exact (P loads l PL HL)|exact (P stores s PS HS)].
    rewrite Forall_forall in W. exact (W u (nth_error_In _ _ HU)).
Qed.
Print Assumptions C139_table.
(** The cycles of a level are those the bytes in its row take with the throughput or the bandwidth of the level, up to the rounding of the row. *)
Theorem C139_cycles : forall line_size element clock bandwidth i lv l s cy penalty a b, (0 < line_size)%Z -> rounded a (l * inject_Z line_size) -> rounded b (s * inject_Z line_size) ->
  level_cycles line_size element clock bandwidth i lv l s = Ok (cy, penalty) ->
  match upstream lv with
  | Bytes t => (0 < t)%Q ->
      match duplexness lv with
      | Half => (inject_Z (a + b) - 1 <= cy * t <= inject_Z (a + b) + 1)%Q
      | Full => (inject_Z (Z.max a b) - (1 # 2) <= cy * t <= inject_Z (Z.max a b) + (1 # 2))%Q
      | OtherDuplex => False
      end
  | MemoryBandwidth => forall bw, (element | line_size)%Z -> (0 <= clock)%Q -> bandwidth i l s = Ok bw -> (0 < bw)%Q ->
      match duplexness lv with
      | Half => ((inject_Z (a + b) - 1) * clock <= cy * bw <= (inject_Z (a + b) + 1) * clock)%Q
      | _ => ((inject_Z (Z.max a b) - (1 # 2)) * clock <= cy * bw <= (inject_Z (Z.max a b) + (1 # 2)) * clock)%Q
      end
  end.
Proof.
  intros line_size element clock bandwidth i lv l s cy penalty a b LP RA RB H. unfold rounded in RA, RB. set (A := (l * inject_Z line_size)%Q) in *. set (B := (s * inject_Z line_size)%Q) in *.
  assert (PL : (0 < inject_Z line_size)%Q) by (change 0%Q with (inject_Z 0); now rewrite <- Zlt_Qlt).
  assert (MX : (inject_Z (Z.max a b) - (1 # 2) <= qmax2 A B <= inject_Z (Z.max a b) + (1 # 2))%Q).
  { unfold qmax2. destruct (Qltb_spec A B) as [Q|Q]; destruct (Z.max_spec a b) as [[Z1 ->]|[Z1 ->]]; try lra.
    - assert (inject_Z b <= inject_Z a)%Q by (rewrite <- Zle_Qle; exact Z1). lra.
    - assert (inject_Z a <= inject_Z b)%Q by (rewrite <- Zle_Qle; lia). lra. }
  assert (SC : (qmax2 l s * inject_Z line_size == qmax2 A B)%Q).
  { unfold qmax2, A, B. destruct (Qltb_spec l s) as [Q|Q]; destruct (Qltb_spec (l * inject_Z line_size) (s * inject_Z line_size)) as [R|R]; try reflexivity.
    - exfalso. apply (Qlt_irrefl (l * inject_Z line_size)). apply (Qlt_le_trans _ (s * inject_Z line_size)); [now apply Qmult_lt_compat_r|now apply Qnot_lt_le].
    - exfalso. apply (Qlt_irrefl (l * inject_Z line_size)). apply (Qlt_le_trans _ (s * inject_Z line_size)); [exact R|]. apply Qmult_le_compat_r; [now apply Qnot_lt_le|lra]. }
  unfold level_cycles in H. destruct (upstream lv) as [t|].
  - intros T. unfold qdiv in H at 1. destruct (Qeq_bool (inject_Z line_size) 0) eqn:E; [apply Qeq_bool_iff in E; lra|]. cbn [bind] in H.
    assert (TN : forall x : Q, (x / (t / inject_Z line_size) * t == x * inject_Z line_size)%Q) by (intros x; field; split; lra).
    assert (NZ : Qeq_bool (t / inject_Z line_size) 0 = false).
    { destruct (Qeq_bool (t / inject_Z line_size) 0) eqn:E0; [|reflexivity]. apply Qeq_bool_iff in E0. exfalso. assert (t == 0)%Q; [|lra]. rewrite <- (Qmult_div_r t (inject_Z line_size)) by lra. rewrite E0. ring. }
    destruct (duplexness lv); [| |discriminate H]; unfold qdiv in H; rewrite NZ in H; cbn [bind] in H; injection H as <- _.
    + rewrite TN. rewrite inject_Z_plus. fold A B. assert ((l + s) * inject_Z line_size == A + B)%Q by (unfold A, B; ring). lra.
    + assert (E2 : (qmax2 (l / (t / inject_Z line_size)) (s / (t / inject_Z line_size)) * t == qmax2 A B)%Q); [|rewrite E2; exact MX].
      unfold qmax2. destruct (Qltb_spec (l / (t / inject_Z line_size)) (s / (t / inject_Z line_size))) as [Q|Q]; destruct (Qltb_spec A B) as [R|R]; rewrite TN; try reflexivity.
      * exfalso. apply (Qmult_lt_compat_r _ _ t T) in Q. rewrite !TN in Q. fold A B in Q. lra.
      * exfalso. apply Qnot_lt_le in Q. apply (Qmult_le_compat_r _ _ t) in Q; [|lra]. rewrite !TN in Q. fold A B in Q. lra.
  - intros bw DV C BW BP. destruct (element =? 0)%Z eqn:E0; [discriminate|]. apply Z.eqb_neq in E0. rewrite BW in H. cbn [bind] in H.
    assert (EL : (inject_Z (line_size / element) * inject_Z element == inject_Z line_size)%Q) by (rewrite <- inject_Z_mult; destruct DV as (k & ->); now rewrite Z.div_mul by exact E0).
    unfold qdiv in H. destruct (Qeq_bool bw 0) eqn:EB; [apply Qeq_bool_iff in EB; lra|]. cbn [bind] in H. set (P := (inject_Z (line_size / element) * inject_Z element * clock)%Q) in *.
    assert (XB : forall x : Q, (x * P / bw * bw == x * inject_Z line_size * clock)%Q) by (intros x; unfold P; rewrite EL; field; lra).
    destruct (duplexness lv); injection H as <- _; rewrite XB; try (rewrite SC; split; apply Qmult_le_compat_r; lra).
    assert (S2 : ((l + s) * inject_Z line_size == A + B)%Q) by (unfold A, B; ring). rewrite S2, inject_Z_plus. split; apply Qmult_le_compat_r; lra.
Qed.
Print Assumptions C139_cycles.
(** The bars stand under those of the heading if names of transfers have at most seven and numbers at most three characters. *)
Theorem C139_aligned : forall line_size upper lower l s k, (List.length (upper ++ codes "-" ++ lower) <= 7)%nat ->
  (List.length (fixed0 (l * inject_Z line_size)) <= 3)%nat -> (List.length (fixed0 (s * inject_Z line_size)) <= 3)%nat ->
  nth_error (codes "Level   | Loads    | Store    |") k = Some 124%N -> nth_error (transfer_row line_size upper lower l s) k = Some 124%N.
Proof.
  intros line_size upper lower l s k N A B K.
  assert (J : forall n x, (List.length x <= n)%nat -> List.length (rjust n x) = n) by (intros n x H; unfold rjust; rewrite app_length, repeat_length; lia).
  assert (D : k = 8%nat \/ k = 19%nat \/ k = 30%nat) by (do 31 (destruct k as [|k]; [try discriminate K; auto|]); destruct k; discriminate K).
  unfold transfer_row. destruct D as [-> | [-> | -> ]].
  - rewrite nth_error_app2 by (rewrite J by assumption; lia). rewrite J by assumption. reflexivity.
  - rewrite nth_error_app2 by (rewrite J by assumption; lia). rewrite J by assumption. rewrite nth_error_app2 by (cbn; lia). cbn [List.length codes minus]. rewrite nth_error_app2 by (rewrite J by assumption; cbn; lia). rewrite J by assumption. reflexivity.
  - rewrite nth_error_app2 by (rewrite J by assumption; lia). rewrite J by assumption. rewrite nth_error_app2 by (cbn; lia). cbn [List.length codes minus]. rewrite nth_error_app2 by (rewrite J by assumption; cbn; lia). rewrite J by assumption.
    rewrite nth_error_app2 by (cbn; lia). cbn [List.length codes minus]. rewrite nth_error_app2 by (rewrite J by assumption; cbn; lia). rewrite J by assumption. reflexivity.
Qed.
Print Assumptions C139_aligned.

(** ** C140 *)
(** The comparison is that by the first dimension in which offsets differ, where shorter tuples have zeros in front. *)
Theorem C140_order : forall a b, (uneven_tuple_cmp a b = -1 <-> before a b)%Z /\ (uneven_tuple_cmp a b = 1 <-> before b a)%Z /\ (uneven_tuple_cmp a b = 0 <-> forall k, from_end a k = from_end b k)%Z.
Proof.
  intros a b. destruct (cmp_cases a b) as [(-> & B)|[(-> & B)|(-> & E)]]; repeat split; intros H; try reflexivity; try assumption; try discriminate H; exfalso;
    try (exact (before_not _ _ B H)); try (apply (before_differ _ _ B); intros k; now rewrite H); try (apply (before_differ _ _ H); intros k; now rewrite E).
Qed.
Print Assumptions C140_order.
(** All accesses are printed, none before one which is smaller. *)
Theorem C140_sorted : forall v, Permutation v (sorted_accesses v) /\ StronglySorted (fun a b => ~ before b a) (sorted_accesses v).
Proof.
  intros v. split; [apply sort_with_perm'|]. pose proof (sort_with_sorted _ leq_total leq_trans v) as S. fold (sorted_accesses v) in S.
  induction S as [|a l S IH F]; constructor; [exact IH|]. eapply Forall_impl; [|exact F]. intros b H. now apply leq_spec.
Qed.
Print Assumptions C140_sorted.
(** The order of accesses with the same number of dimensions, which those to one array have, does not depend on the order in which they were found. *)
Theorem C140_deterministic : forall n v v', Forall (fun a => List.length a = n) v -> Permutation v v' -> sorted_accesses v = sorted_accesses v'.
Proof.
  intros n v v' F P. apply sorted_once; [apply (sort_with_sorted _ leq_total leq_trans)|apply (sort_with_sorted _ leq_total leq_trans)| |].
  - intros a b Ia Ib. rewrite Forall_forall in F. pose proof (sort_with_perm' leq v) as Q. apply same_length_eq. rewrite !F; [reflexivity| |]; eapply Permutation_in; try (symmetry; exact Q); assumption.
  - etransitivity; [symmetry; apply sort_with_perm'|]. etransitivity; [exact P|apply sort_with_perm'].
Qed.
Print Assumptions C140_deterministic.
(** It does for tuples of different length. *)
Theorem C140_uneven_refuted : exists v v', Permutation v v' /\ sorted_accesses v <> sorted_accesses v'.
Proof. exists [[1]; [0; 1]]%Z, [[0; 1]; [1]]%Z. split; [apply perm_swap|discriminate]. Qed.
Print Assumptions C140_uneven_refuted.

(** ** Examples *)
Example C139_printed : report_data_transfers 64 [codes "L1"; codes "L2"; codes "L3"; codes "MEM"] [0; 5; 3; 9 # 4]%Q [0; 1; 1; 17 # 128]%Q
  = Ok (codes "Data Transfers:" ++ [10%N] ++ codes "Level   | Loads    | Store    |" ++ [10%N] ++ codes "  L1-L2 | 320 B/CL |  64 B/CL |" ++ [10%N] ++ codes "  L2-L3 | 192 B/CL |  64 B/CL |" ++ [10%N] ++ codes " L3-MEM | 144 B/CL |   8 B/CL |" ++ [10%N]).
Proof. vm_compute. reflexivity. Qed.
(** Five and one cache lines of 64 bytes with 32 bytes in a cycle, and the last row with a bandwidth of 16 bytes per cycle *)
Example C139_l2 : exists cy, level_cycles 64 8 2%Q (fun _ _ _ => Ok (32 # 1)) 1 (mkLevel false (Bytes 32) Half None None) 5%Q 1%Q = Ok (cy, 0%Q) /\ (inject_Z (320 + 64) - 1 <= cy * 32 <= inject_Z (320 + 64) + 1)%Q.
Proof.
  eexists. split; [vm_compute; reflexivity|]. refine (C139_cycles 64 8 2%Q (fun _ _ _ => Ok (32 # 1)) 1 (mkLevel false (Bytes 32) Half None None) 5%Q 1%Q _ 0 320 64 eq_refl _ _ eq_refl _); [split; vm_compute; discriminate|split; vm_compute; discriminate|reflexivity].
Qed.
Example C139_memory : exists cy, level_cycles 64 8 2%Q (fun _ _ _ => Ok (32 # 1)) 3 (mkLevel false MemoryBandwidth Full None None) (9 # 4) (17 # 128) = Ok (cy, 0 + 0)%Q
  /\ ((inject_Z (Z.max 144 8) - (1 # 2)) * 2 <= cy * (32 # 1) <= (inject_Z (Z.max 144 8) + (1 # 2)) * 2)%Q.
Proof.
  eexists. split; [vm_compute; reflexivity|]. refine (C139_cycles 64 8 2%Q (fun _ _ _ => Ok (32 # 1)) 3 (mkLevel false MemoryBandwidth Full None None) (9 # 4) (17 # 128) _ _ 144 8 eq_refl _ _ eq_refl (32 # 1)%Q _ _ eq_refl eq_refl);
    [split; vm_compute; discriminate|split; vm_compute; discriminate|now exists 8%Z|discriminate].
Qed.
Example C140_five_point : sorted_accesses [[0; -1]; [0; 1]; [-1; 0]; [1; 0]]%Z = [[-1; 0]; [0; -1]; [0; 1]; [1; 0]]%Z.
Proof. reflexivity. Qed.
Example C140_any : forall v, Permutation [[0; -1]; [0; 1]; [-1; 0]; [1; 0]]%Z v -> sorted_accesses v = [[-1; 0]; [0; -1]; [0; 1]; [1; 0]]%Z.
Proof. intros v P. assert (F : Forall (fun a => List.length a = 2%nat) [[0; -1]; [0; 1]; [-1; 0]; [1; 0]]%Z) by repeat constructor. rewrite <- (C140_deterministic 2 _ v F P). reflexivity. Qed.
Example C139_columns : nth_error (transfer_row 64 (codes "L3") (codes "MEM") (9 # 4) (17 # 128)) 19 = Some 124%N.
Proof. apply C139_aligned; vm_compute; try reflexivity; lia. Qed.
Example C139_read : exists printed rows, report_data_transfers 64 [codes "L1"; codes "L2"; codes "MEM"] [0; 5; 9 # 4]%Q [0; 1; 17 # 128]%Q = Ok printed
  /\ lines printed = codes "Data Transfers:" :: codes "Level   | Loads    | Store    |" :: rows ++ [[]] /\ List.length rows = 2%nat.
Proof.
  assert (W : Forall word [codes "L1"; codes "L2"; codes "MEM"]) by (repeat (apply Forall_cons; [split; [discriminate|split; vm_compute; intuition discriminate]|]); apply Forall_nil).
  assert (P : Forall (Qle 0) [5; 9 # 4]%Q /\ Forall (Qle 0) [1; 17 # 128]%Q) by (split; repeat (apply Forall_cons; [vm_compute; discriminate|]); apply Forall_nil).
  destruct (C139_table 64 [codes "L1"; codes "L2"; codes "MEM"] [0; 5; 9 # 4]%Q [0; 1; 17 # 128]%Q ltac:(lia) W (proj1 P) (proj2 P)) as (printed & rows & A & B & C & _); [cbn; lia|cbn; lia|].
  now exists printed, rows.
Qed.
