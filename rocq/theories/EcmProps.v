(** Theorems about the ECM model: C37, C38, C39 (part), C56, C65 *)
From Verif Require Import PyBase PyNum PyText UnitModel EcmModel EcmSpec EcmProofs.
From Coq Require Import Sorting.Sorted Lqa Lia.
Local Open Scope Q_scope.
Local Open Scope list_scope.

(** ** C37 *)
(** The predicted time is the largest of the overlapping contributions and the sum of those that do not overlap and the penalties;
    every level (and the transfers between registers and the first cache) enters exactly one of the two. *)
Theorem C37_composition : forall line element clock bw first levels loads stores core numa socket sockets T s,
  ecm line element clock bw first levels loads stores core numa socket sockets = Ok (T, s) ->
  exists cs, level_list line element clock bw 1 levels loads stores = Ok cs /\ levels <> [] /\
    let contributions := (first, t_regl1 core) :: combine (map overlaps levels) (map fst cs) in
    ~ back_and_forth contributions /\
    largest T ((sum_of (serial contributions) + qsum (map snd cs)) :: t_comp core :: overlapping contributions) /\
    scale T (last (map fst cs) 0) numa socket sockets = Ok s /\
    (0 <= t_regl1 core -> (forall x, In x cs -> 0 <= fst x /\ 0 <= snd x) -> last (map fst cs) 0 <= T).
Proof. exact ecm_spec. Qed.
(** An overlapping level behind one that does not overlap is refused. *)
Theorem C37_refused : forall line element clock bw first levels loads stores core numa socket sockets cs,
  level_list line element clock bw 1 levels loads stores = Ok cs -> levels <> [] ->
  back_and_forth ((first, t_regl1 core) :: combine (map overlaps levels) (map fst cs)) ->
  ecm line element clock bw first levels loads stores core numa socket sockets = Err ValueError.
Proof. exact ecm_refused. Qed.
(** Every level enters with its own loads and stores. *)
Theorem C37_levels : forall line element clock bw levels i loads stores cs,
  level_list line element clock bw i levels loads stores = Ok cs ->
  length cs = length levels /\
  forall j lv, nth_error levels j = Some lv -> exists l s x, nth_error loads (i + j) = Some l /\ nth_error stores (i + j) = Some s /\
    nth_error cs j = Some x /\ level_cycles line element clock bw (i + j) lv l s = Ok x.
Proof. exact level_list_spec. Qed.
(** Between caches: cycles times bytes per cycle is the number of bytes transferred, loads and stores together if only one is possible at a time. *)
Theorem C37_cache : forall line element clock bw i lv l s t cy pen, (0 < line)%Z -> 0 < t ->
  upstream lv = Bytes t -> level_cycles line element clock bw i lv l s = Ok (cy, pen) ->
  pen = 0 /\ duplexness lv <> OtherDuplex /\
  cy * t == (match duplexness lv with Half => l + s | _ => qmax2 l s end) * inject_Z line.
Proof. exact cache_cycles. Qed.
Theorem C37_cache_ok : forall line element clock bw i lv l s t, (0 < line)%Z -> 0 < t -> upstream lv = Bytes t -> duplexness lv <> OtherDuplex ->
  exists cy, level_cycles line element clock bw i lv l s = Ok (cy, 0).
Proof. exact cache_cycles_ok. Qed.
(** To memory: cycles times bandwidth is the number of bytes times the clock. *)
Theorem C37_memory : forall line element clock bw i lv l s b, (0 < element)%Z -> (element | line)%Z -> 0 < b ->
  upstream lv = MemoryBandwidth -> bw i l s = Ok b ->
  exists cy pen, level_cycles line element clock bw i lv l s = Ok (cy, pen) /\
  cy * b == (match duplexness lv with Half => l + s | _ => qmax2 l s end) * inject_Z line * clock /\
  pen == (match load_penalty lv with Some p => l * p | None => 0 end) + (match store_penalty lv with Some p => s * p | None => 0 end).
Proof. exact memory_cycles. Qed.
(** Refuted: an unknown duplexness is an error between caches but taken for full-duplex at the memory. *)
Theorem C37_duplex_refuted : exists line element clock bw lv lv' l s x,
  duplexness lv = OtherDuplex /\ duplexness lv' = OtherDuplex /\ level_cycles line element clock bw 1 lv l s = Err ValueError /\
  level_cycles line element clock bw 1 lv' l s = Ok x.
Proof.
  exists 64%Z, 8%Z, 1, (fun _ _ _ => Ok 1), (mkLevel false (Bytes 1) OtherDuplex None None), (mkLevel false MemoryBandwidth OtherDuplex None None), 1, 1.
  eexists. repeat split.
Qed.
(** Refuted: a description with one level only ends in KeyError. *)
Theorem C37_single_refuted : forall line element clock bw first loads stores core numa socket sockets,
  ecm line element clock bw first [] loads stores core numa socket sockets = Err KeyError.
Proof. reflexivity. Qed.
Print Assumptions C37_composition.
Print Assumptions C37_refused.
Print Assumptions C37_levels.
Print Assumptions C37_cache.
Print Assumptions C37_cache_ok.
Print Assumptions C37_memory.
Print Assumptions C37_duplex_refuted.
Print Assumptions C37_single_refuted.

(** Three levels: L1 (first), L2 with 64 bytes per cycle, L3 with 32, memory with 10 bytes per unit of time at a clock of 2 *)
Definition some_levels o2 o3 := [mkLevel o2 (Bytes 64) Half None None; mkLevel o3 (Bytes 32) Full None None; mkLevel false MemoryBandwidth Half (Some 1) None].
Definition some_ecm first o2 o3 := ecm 64 8 2 (fun _ _ _ => Ok 16) first (some_levels o2 o3) [4; 3; 3; 1] [1; 1; 2; 1] (mkIncore 5 8 8) 4 8 1.
Example C37_example : (exists T s, some_ecm false false false = Ok (T, s) /\ T == 8 + 4 + 6 + 16 + 1 /\ scaling_cores s = Some 4%nat)
  /\ (exists T s, some_ecm true true true = Ok (T, s) /\ T == 16 + 1)
  /\ some_ecm false true false = Err ValueError /\ some_ecm true false true = Err ValueError.
Proof. split; [|split; [|split; reflexivity]]; do 2 eexists; (split; [vm_compute; reflexivity|]); [split; reflexivity|reflexivity]. Qed.

(** ** C38 *)
(** For any time, any time of the memory transfers (greater than 0) and any numbers of cores: the utilizations are between 0 and 1 and never decrease,
    the times never increase, the first is the time of one core, the times agree with the utilizations, and the reported number of
    cores is the smallest with utilization 1, up to one core if utilization 1 is reached exactly. *)
Theorem C38_partial : forall T M, 0 < T -> 0 < M -> forall numa socket sockets, (1 <= numa)%nat -> (1 <= sockets)%nat ->
  exists r, scale T M numa socket sockets = Ok r /\
    length (scaling_utilization r) = numa /\ length (scaling_times r) = socket /\
    (forall u, In u (scaling_utilization r) -> 0 < u <= 1) /\ nondecreasing (scaling_utilization r) /\
    nonincreasing (scaling_times r) /\
    (M <= T -> forall x, nth_error (scaling_times r) 0 = Some x -> x == T) /\
    (forall i x u, (i < numa)%nat -> nth_error (scaling_times r) i = Some x -> nth_error (scaling_utilization r) i = Some u -> x * u == M) /\
    (forall i x u, (numa <= i)%nat -> nth_error (scaling_times r) i = Some x -> nth_error (scaling_utilization r) (numa - 1) = Some u -> x * u * q_of (S i) == M * q_of numa) /\
    match scaling_cores r with
    | Some s => (1 <= s <= numa)%nat /\ (forall i u, nth_error (scaling_utilization r) i = Some u -> (s <= S i)%nat -> u == 1) /\
                (forall i u, nth_error (scaling_utilization r) i = Some u -> (S (S i) < s)%nat -> u < 1)
    | None => forall i u, nth_error (scaling_utilization r) i = Some u -> (S i < numa)%nat -> u < 1
    end.
Proof. exact scale_spec. Qed.
(** The utilizations: the demand of the cores relative to their time, which grows by half the time of memory transfers for every other core, as far as
    they use the memory. *)
Theorem C38_steps : forall T M, 0 < T -> 0 < M -> forall numa socket sockets r, scale T M numa socket sockets = Ok r ->
  (forall u, nth_error (scaling_utilization r) 0 = Some u -> (u == 1 /\ T < M) \/ (M <= T /\ u * T == M)) /\
  (forall i p u, nth_error (scaling_utilization r) i = Some p -> nth_error (scaling_utilization r) (S i) = Some u ->
     let need := q_of (i + 2) * M in let time := T + p * q_of (i + 1) * M / 2 in
     (u == 1 /\ time < need) \/ (need <= time /\ u * time == need)).
Proof. exact scale_steps. Qed.
(** Data in caches only: perfect scaling *)
Theorem C38_incache : forall T M numa socket sockets, M == 0 ->
  exists r, scale T M numa socket sockets = Ok r /\ scaling_cores r = None /\ length (scaling_times r) = socket /\
    (forall i x, nth_error (scaling_times r) i = Some x -> x * q_of (S i) == T).
Proof. exact scale_incache. Qed.
(** Refuted: one core uses the memory fully, but two cores are reported. *)
Theorem C38_tie_refuted : exists T M numa r u, scale T M numa numa 1 = Ok r /\ nth_error (scaling_utilization r) 0 = Some u /\ u == 1 /\ scaling_cores r = Some 2%nat.
Proof. exists 1, 1, 4%nat. do 2 eexists. split; [vm_compute; reflexivity|]. split; [reflexivity|]. split; reflexivity. Qed.
Print Assumptions C38_partial.
Print Assumptions C38_steps.
Print Assumptions C38_incache.
Print Assumptions C38_tie_refuted.
Example C38_example : exists r, scale 10 4 4 6 1 = Ok r /\ scaling_cores r = Some 4%nat /\ Forall2 Qeq (scaling_utilization r) [2#5; 20#27; 162#175; 1]
  /\ Forall2 Qeq (scaling_times r) [10; 27#5; 350#81; 4; 16#5; 8#3].
Proof. eexists. split; [vm_compute; reflexivity|]. split; [reflexivity|]. split; repeat constructor. Qed.

(** ** C39 (ECM) *)
(** Contributions of data transfers: the conversions agree, for numbers and for quantities in cycles per cache line. *)
Theorem C39_data_partial : forall clock line element flops o f y,
  unit clock = "Hz"%string -> base_value clock = Fin f -> (0 < element)%Z -> (element <= line)%Z ->
  ofloat o = Fin y -> (forall q, o = OQ q -> unit q = "cy/CL"%string) -> ~ y == 0 ->
  exists r i c p t, data_conv_cy clock line element flops o = Ok r /\
    base_value (it_s r) = Fin i /\ base_value (cy_cl r) = Fin c /\ base_value (cy_it r) = Fin t /\ base_value (flop_s r) = Fin p /\
    unit (it_s r) = "It/s"%string /\ unit (cy_cl r) = "cy/CL"%string /\ unit (cy_it r) = "cy/It"%string /\ unit (flop_s r) = "FLOP/s"%string /\
    c == y /\ c == t * inject_Z (line / element) /\ i * t == f /\ p == i * inject_Z flops.
Proof. exact data_conv_ok. Qed.
(** Without transfers the rates are infinite. *)
Theorem C39_data_zero : forall clock line element flops o y,
  (0 < element)%Z -> (element <= line)%Z ->
  ofloat o = Fin y -> (forall q, o = OQ q -> unit q = "cy/CL"%string) -> y == 0 -> (0 < flops)%Z ->
  exists r t, data_conv_cy clock line element flops o = Ok r /\ base_value (it_s r) = PInf /\ base_value (flop_s r) = PInf /\ base_value (cy_it r) = Fin t /\ t == 0.
Proof. exact data_conv_zero. Qed.
(** Refuted for the in-core part and the total: the rates are as they should be, but the cycles per iteration are multiplied with the elements of a
    cache line instead of divided. *)
Theorem C39_cpu_refuted : forall clock line element flops o f y,
  unit clock = "Hz"%string -> base_value clock = Fin f -> (0 < element)%Z -> (element <= line)%Z ->
  ofloat o = Fin y -> (forall q, o = OQ q -> unit q = "cy/CL"%string) -> ~ y == 0 ->
  exists r i c p t, cpu_conv_cy clock line element flops o = Ok r /\
    base_value (it_s r) = Fin i /\ base_value (cy_cl r) = Fin c /\ base_value (cy_it r) = Fin t /\ base_value (flop_s r) = Fin p /\
    unit (it_s r) = "It/s"%string /\ unit (cy_cl r) = "cy/CL"%string /\ unit (cy_it r) = "cy/It"%string /\ unit (flop_s r) = "FLOP/s"%string /\
    c == y /\ i * c == f * inject_Z (line / element) /\ p == i * inject_Z flops /\ t == c * inject_Z (line / element).
Proof. exact cpu_conv_ok. Qed.
(** Refuted: without transfers and without floating point operations the rate of operations is not a number; and the unit of the rate of
    iterations is another one. *)
Theorem C39_nan_refuted : exists clock r, data_conv_cy clock 64 8 0 (ON (Fin 0)) = Ok r /\ base_value (flop_s r) = NaN /\ unit (it_s r) = "It/S"%string.
Proof. exists (mkq (Fin 2) "G" "Hz"). eexists. split; [vm_compute; reflexivity|]. split; reflexivity. Qed.
Print Assumptions C39_data_partial.
Print Assumptions C39_data_zero.
Print Assumptions C39_cpu_refuted.
Print Assumptions C39_nan_refuted.
(** 16 cycles per cache line of eight elements at 2 GHz, four operations per iteration: 1 G iterations, 4 G operations, 2 cycles per iteration *)
Example C39_example : let clock := mkq (Fin 2) "G" "Hz" in
  (exists r i t p, data_conv_cy clock 64 8 4 (ON (Fin 16)) = Ok r /\ base_value (it_s r) = Fin i /\ i == 1000000000 /\
     base_value (cy_it r) = Fin t /\ t == 2 /\ base_value (flop_s r) = Fin p /\ p == 4000000000)
  /\ (exists r t, cpu_conv_cy clock 64 8 4 (ON (Fin 16)) = Ok r /\ base_value (cy_it r) = Fin t /\ t == 128).
Proof.
  split.
  - do 4 eexists. split; [vm_compute; reflexivity|]. split; [vm_compute; reflexivity|]. split; [reflexivity|]. split; [vm_compute; reflexivity|]. split; [reflexivity|]. split; [vm_compute; reflexivity|reflexivity].
  - do 2 eexists. split; [vm_compute; reflexivity|]. split; [vm_compute; reflexivity|reflexivity].
Qed.

(** ** C56 *)
Theorem C56_blocking : forall indices size boundary, size <> 0%Z -> exists l, blocking indices size boundary = Ok l /\ StronglySorted Z.lt l /\
  (forall b, In b l <-> exists i, In i indices /\ b = ((i - boundary) / size)%Z).
Proof. exact blocking_spec. Qed.
Theorem C56_round : forall x base, (0 < base)%Z -> exists z, round_to_next x (inject_Z base) = Ok z /\ next_multiple x base z.
Proof. exact round_spec. Qed.
(** Refuted: with a base that is not an integer the result may be below the argument. *)
Theorem C56_fraction_refuted : exists x base, 0 < base /\ round_to_next x base = Ok 0%Z /\ 0 < x.
Proof. exists (3#10), (1#2). repeat split. Qed.
(** Refuted: the example in the documentation, whose result is said to be [0, -1] *)
Theorem C56_documentation_refuted : blocking [0; -1; -2; -3; -4; -5; -6; -7; -8; -9]%Z 8 0 = Ok [-2; -1; 0]%Z.
Proof. reflexivity. Qed.
Print Assumptions C56_blocking.
Print Assumptions C56_round.
Print Assumptions C56_fraction_refuted.
Print Assumptions C56_documentation_refuted.
Example C56_example : blocking [17; 3; -1; 9; 4; 16]%Z 8 0 = Ok [-1; 0; 1; 2]%Z /\ blocking [17; 3]%Z 8 3 = Ok [0; 1]%Z /\ round_to_next (13#2) 5 = Ok 10%Z /\ round_to_next (-13#2) 5 = Ok (-5)%Z.
Proof. repeat split. Qed.

(** ** C65 *)
(** In-core part: the cycles of a loop body are scaled to one cache line with the number of bytes the pointers advance, whatever the direction. *)
Theorem C65_partial : forall line element increment ports tp ol nol, (0 < element)%Z -> increment <> 0%Z -> (element | increment)%Z ->
  exists r, incore_part line element increment ports tp ol nol = Ok r /\
    let per := inject_Z line / inject_Z (Z.abs increment) in
    cl_throughput r == tp * per /\
    (forall m, (exists k x, In (k, x) ports /\ In k nol /\ m == x * per) -> m <= t_regl1 r) /\ 0 <= t_regl1 r /\
    (t_regl1 r == 0 \/ exists k x, In (k, x) ports /\ In k nol /\ t_regl1 r == x * per) /\
    (t_regl1 r < cl_throughput r -> t_comp r == cl_throughput r) /\
    (cl_throughput r <= t_regl1 r -> 0 <= t_comp r /\ (forall k x, In (k, x) ports -> In k ol -> x * per <= t_comp r) /\
      (t_comp r == 0 \/ exists k x, In (k, x) ports /\ In k ol /\ t_comp r == x * per)).
Proof. exact incore_spec. Qed.
(** If the throughput is at least the cycles of every port, the larger of the two parts is the throughput. *)
Theorem C65_throughput : forall line element increment ports tp ol nol r, (0 < element)%Z -> increment <> 0%Z -> (element | increment)%Z -> (0 < line)%Z ->
  0 <= tp -> (forall k x, In (k, x) ports -> x <= tp) ->
  incore_part line element increment ports tp ol nol = Ok r ->
  largest (cl_throughput r) [t_comp r; t_regl1 r].
Proof. exact incore_max. Qed.
(** Exact boundaries: the scale is right if and only if the size of an element divides the increment... *)
Theorem C65_exact : forall line element increment ports tp ol nol, (0 < element)%Z -> increment <> 0%Z -> (0 < line)%Z -> 0 < tp ->
  ((exists r, incore_part line element increment ports tp ol nol = Ok r /\ cl_throughput r == tp * (inject_Z line / inject_Z (Z.abs increment)))
   <-> (element | increment)%Z).
Proof. exact incore_exact. Qed.
(** ...and the program ends if and only if the pointers advance by less than an element, forwards. *)
Theorem C65_ends : forall line element increment ports tp ol nol, (0 < element)%Z ->
  (incore_part line element increment ports tp ol nol = Err SystemExit <-> (0 <= increment < element)%Z).
Proof. exact incore_ends. Qed.
Print Assumptions C65_exact.
Print Assumptions C65_ends.
(** Refuted: an increment that is not a multiple of the size of an element counts differently forwards and backwards... *)
Theorem C65_direction_refuted : exists line element increment ports tp ol nol a b,
  incore_part line element increment ports tp ol nol = Ok a /\ incore_part line element (- increment) ports tp ol nol = Ok b /\
  ~ cl_throughput a == cl_throughput b.
Proof. exists 64%Z, 8%Z, 12%Z, [], 1, [], []. do 2 eexists. repeat split. discriminate. Qed.
(** ...and the program ends if it is smaller than an element. *)
Theorem C65_small_refuted : exists line element increment ports tp ol nol, (0 < increment)%Z /\ incore_part line element increment ports tp ol nol = Err SystemExit.
Proof. exists 64%Z, 8%Z, 4%Z, [], 1, [], []. split; reflexivity. Qed.
Print Assumptions C65_partial.
Print Assumptions C65_throughput.
Print Assumptions C65_direction_refuted.
Print Assumptions C65_small_refuted.
(** Four elements per iteration of the assembly loop: *)
Definition some_ports := [(codes "0", 2); (codes "1", 3); (codes "2", 4); (codes "2D", 4)].
Example C65_example : (exists r, incore_part 64 8 (-32) some_ports 4 [codes "0"; codes "1"] [codes "2D"] = Ok r /\ t_comp r == 6 /\ t_regl1 r == 8 /\ cl_throughput r == 8)
  /\ (exists r, incore_part 64 8 32 some_ports 9 [codes "0"; codes "1"] [codes "2D"] = Ok r /\ t_comp r == 18 /\ t_regl1 r == 8).
Proof. split; eexists; (split; [vm_compute; reflexivity|]); repeat split. Qed.
