(** Theorems about the roofline models: C39 (part), C40, C41, C66 *)
From Verif Require Import PyBase PyNum PyText UnitModel EcmModel RoofModel RoofSpec RoofProofs.
From Coq Require Import Lqa Lia String.
Local Open Scope Q_scope.
Local Open Scope list_scope.

(** ** C39 (roofline) *)
(** The conversions of a rate that is not 0, or infinite, agree. The rate itself is not changed. *)
Theorem C39_roofline : forall clock line element flops f, unit clock = "Hz"%string -> base_value clock = Fin f -> (0 < element)%Z ->
  forall i, unit i = "It/s"%string -> rate_ok (base_value i) ->
  exists r, conv_perf clock line element flops (Some i) = Ok r /\ it_s r = i /\ agrees line element flops f r.
Proof. exact conv_rate. Qed.
Theorem C39_roofline_zero : forall clock line element flops, (0 < element)%Z ->
  forall i x, unit i = "It/s"%string -> base_value i = Fin x -> x == 0 -> conv_perf clock line element flops (Some i) = Err ZeroDivisionError.
Proof. exact conv_zero. Qed.
Print Assumptions C39_roofline.
Print Assumptions C39_roofline_zero.
Definition ghz := mkq (Fin 2) "G" "Hz".
Example C39_roofline_example : exists r c t p, conv_perf ghz 64 8 4 (Some (mkq (Fin 1) "G" "It/s")) = Ok r /\
  base_value (cy_cl r) = Fin c /\ c == 16 /\ base_value (cy_it r) = Fin t /\ t == 2 /\ base_value (flop_s r) = Fin p /\ p == 4000000000.
Proof. do 4 eexists. split; [vm_compute; reflexivity|]. repeat (split; [vm_compute; reflexivity|]). reflexivity. Qed.

(** ** C40 *)
(** For any measured bandwidths (positive), loads and stores: there is one entry for every level with the rate that its bandwidth and
    traffic permit (infinite without traffic); the bottleneck is the first with the smallest rate and the minimum reported is its performance. *)
Theorem C40_slowest : forall clock line element flops f bwf,
  unit clock = "Hz"%string -> base_value clock = Fin f -> (0 < element)%Z -> (element <= line)%Z ->
  (forall i l s, exists bw b, bwf i l s = Ok bw /\ base_value bw = Fin b /\ 0 < b) ->
  forall levels reads writes loads stores, (1 <= levels)%nat -> reads ++ writes <> [] ->
  (levels <= List.length loads)%nat -> (levels <= List.length stores)%nat ->
  (forall x, In x loads -> 0 <= x) -> (forall x, In x stores -> 0 <= x) ->
  exists r, cache_access clock line element flops bwf levels reads writes loads stores = Ok r /\
    List.length (bottlenecks r) = levels /\ slowest (map rate (bottlenecks r)) (bottleneck r) /\
    (exists e, nth_error (bottlenecks r) (bottleneck r) = Some e /\ minimum r = performance e) /\
    (forall j e, nth_error (bottlenecks r) j = Some e -> exists l s bytes, entry_ok line element flops f bwf e j l s bytes /\
       match j with
       | O => l = streams reads writes /\ s = 0 /\ bytes == l * inject_Z element
       | S _ => nth_error loads j = Some l /\ nth_error stores j = Some s /\ bytes == (l + s) * inject_Z line
       end).
Proof. exact cache_access_spec. Qed.
(** Refuted: without any access to arrays the analysis fails, though the case is provided for. *)
Theorem C40_no_access_refuted : forall clock bwf levels loads stores bw, bwf 0%nat 0 0 = Ok bw ->
  cache_access clock 64 8 1 bwf levels [] [] loads stores = Err TypeError.
Proof. intros clock bwf levels loads stores bw H. unfold cache_access, first_level. cbn -[base_value]. change (inject_Z 0) with 0. now rewrite H. Qed.
Print Assumptions C40_slowest.
Print Assumptions C40_no_access_refuted.
(** Bandwidths of three levels *)
Definition some_bw (i : nat) (l s : Q) : res quantity := Ok (match i with O => mkq (Fin 100) "G" "B/s" | 1%nat => mkq (Fin 50) "G" "B/s" | _ => mkq (Fin 20) "G" "B/s" end).
(** b[i] = a[i-1] + a[i+1] *)
Definition some_roofs := cache_access ghz 64 8 1 some_bw 3 [-1; 0; 1; 2; 3; 4; 5; 6; 7; 8]%Z [100; 101; 102; 103; 104; 105; 106; 107]%Z [0; 2; 2] [0; 1; 1].
Example C40_example : exists r a b c x, some_roofs = Ok r /\ bottleneck r = 2%nat /\ map rate (bottlenecks r) = [Fin a; Fin b; Fin c]
  /\ a == 800000000000 / 144 /\ b == 400000000000 / 192 /\ c == 160000000000 / 192 /\
  base_value (cy_cl (minimum r)) = Fin x /\ x == 96 / 5.
Proof. do 5 eexists. split; [vm_compute; reflexivity|]. split; [reflexivity|]. split; [vm_compute; reflexivity|]. repeat (split; [vm_compute; reflexivity|]). reflexivity. Qed.

(** ** C41 *)
(** Refuted: for every type of data a kernel can have (tuples) the peak for single precision is taken, and the operations per second are taken for
    iterations per second, so the operations per second reported for the processor are too many by the operations per iteration. *)
Theorem C41_refuted : forall clock line element flops f, unit clock = "Hz"%string -> base_value clock = Fin f -> (0 < element)%Z -> 0 < f ->
  forall l dp sp cores, (0 < sp)%Z -> (0 < cores)%Z ->
  exists p x o, max_perf clock line element flops (Tup l) dp sp cores = Ok p /\
    base_value (it_s p) = Fin x /\ x == f * inject_Z cores * inject_Z sp /\ base_value (flop_s p) = Fin o /\
    o == f * inject_Z cores * inject_Z sp * inject_Z flops /\ agrees line element flops f p.
Proof. exact max_perf_spec. Qed.
(** Every kernel with a size of its elements has a tuple as its type. *)
Theorem C41_tuples : forall d z, size_of d = Ok z -> exists l, d = Tup l.
Proof. intros [s|l] z; [discriminate|eauto]. Qed.
(** Proved: apart from that, the verdict is the smallest of the peak and the levels. *)
Theorem C41_partial : forall line element flops f r peak, (0 < flops)%Z -> slowest (map rate (bottlenecks r)) (bottleneck r) ->
  (exists e, nth_error (bottlenecks r) (bottleneck r) = Some e /\ minimum r = performance e) ->
  (forall e, In e (bottlenecks r) -> rate_ok (rate e) /\ agrees line element flops f (performance e)) ->
  agrees line element flops f peak -> rate_ok (base_value (it_s peak)) ->
  exists v, flop_report r peak = Ok v /\ smallest (verdict_rate v) (base_value (it_s peak) :: map rate (bottlenecks r)).
Proof. exact flop_report_spec. Qed.
(** Refuted: a double precision kernel with 20 operations per iteration is predicted to be memory bound with more operations per second than the
    processor can do. *)
Definition heavy_roofs := cache_access ghz 64 8 20 some_bw 3 [0; 1; 2; 3; 4; 5; 6; 7]%Z [] [0; 1; 1] [0; 0; 0].
Theorem C41_report_refuted : exists r p e o, heavy_roofs = Ok r /\ max_perf ghz 64 8 20 (Tup ["double"%string]) 8 16 1 = Ok p /\
  flop_report r p = Ok (MemoryBound e) /\ base_value (flop_s (performance e)) = Fin o /\ 2000000000 * 8 < o.
Proof. do 4 eexists. split; [vm_compute; reflexivity|]. split; [vm_compute; reflexivity|]. split; [vm_compute; reflexivity|]. split; [vm_compute; reflexivity|]. reflexivity. Qed.
Print Assumptions C41_refuted.
Print Assumptions C41_tuples.
Print Assumptions C41_partial.
Print Assumptions C41_report_refuted.
Example C41_example : exists r p, some_roofs = Ok r /\ max_perf ghz 64 8 1 (Tup ["double"%string]) 8 16 1 = Ok p /\
  (exists e, flop_report r p = Ok (MemoryBound e) /\ entry_level e = 2%nat).
Proof. do 2 eexists. split; [vm_compute; reflexivity|]. split; [vm_compute; reflexivity|]. eexists. split; vm_compute; reflexivity. Qed.

(** ** C66 *)
(** RooflineASM: the prediction is the smallest of the rate of the processor, which follows from the throughput, and those of all levels behind the
    first cache; the cycles of the processor agree with the throughput. *)
Theorem C66_smallest : forall clock line element flops f, unit clock = "Hz"%string -> base_value clock = Fin f -> (0 < element)%Z -> (0 < line)%Z -> 0 < f ->
  forall r tp increment cores, 0 < tp -> increment <> 0%Z -> (0 < cores)%Z -> (forall e, In e (bottlenecks r) -> rate_ok (rate e)) ->
  exists a v x c, asm_analyze clock line element flops r tp increment cores = Ok a /\
    base_value (it_s (cpu_performance a)) = Fin x /\ x * tp * inject_Z element == f * inject_Z (Z.abs increment) * inject_Z cores /\
    agrees line element flops f (cpu_performance a) /\
    asm_cl_throughput a == tp * (inject_Z line / inject_Z (Z.abs increment)) /\
    base_value (cy_cl (cpu_performance a)) = Fin c /\ c * inject_Z cores == asm_cl_throughput a /\
    asm_report a = Ok v /\ smallest (verdict_rate v) (base_value (it_s (cpu_performance a)) :: map rate (tl (bottlenecks r))).
Proof. exact asm_spec. Qed.
Theorem C66_no_increment : forall clock line element flops, (0 < element)%Z -> forall r tp cores, asm_analyze clock line element flops r tp 0 cores = Err SystemExit.
Proof. exact asm_no_increment. Qed.
Print Assumptions C66_smallest.
Print Assumptions C66_no_increment.
(** 4 or 40 cycles for four elements *)
Example C66_example : exists r a b e, some_roofs = Ok r /\ asm_analyze ghz 64 8 1 r 4 32 1 = Ok a /\ asm_report a = Ok (MemoryBound e) /\ entry_level e = 2%nat
  /\ asm_analyze ghz 64 8 1 r 40 (-32) 1 = Ok b /\ asm_report b = Ok (CpuBound (cpu_performance b)) /\ asm_cl_throughput b == 80.
Proof. do 4 eexists. split; [vm_compute; reflexivity|]. split; [vm_compute; reflexivity|]. split; [vm_compute; reflexivity|]. split; [vm_compute; reflexivity|]. split; [vm_compute; reflexivity|]. split; [vm_compute; reflexivity|]. reflexivity. Qed.
