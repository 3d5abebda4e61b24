(** C24 and C25: schedule of the cache simulation. *)
From Coq Require Import String.
From Verif Require Import PyBase LoopModel SimModel SimSpec SimProofs.
Local Open Scope Z_scope.

(** ** C24 *)
(** Every simulation that is completed has a valid schedule, whatever the simulator answers and
    wherever the kernel accesses memory. *)
Theorem C24_valid_schedule : forall es cl bits incr iterations cache offset invalid warmup bench,
  simulate es cl bits incr iterations cache offset invalid = Ok (warmup, bench) ->
  schedule iterations 0 (warmup ++ [bench]) (snd bench).
Proof. exact simulate_valid. Qed.

(** Simulations are completed exactly if the warm-up does not end with the last iteration while the caches are not full.
    Missing for the full property: kernels with few iterations (below). *)
Theorem C24_completes_partial : forall es cl bits incr iterations cache offset invalid,
  0 < es -> 0 <= bits -> cl = 2 ^ bits -> (es | cl) -> 1 <= incr ->
  2 * (cl / es) + 1 < iterations -> cl / es < 49999 -> es <= cache ->
  ((exists r, simulate es cl bits incr iterations cache offset invalid = Ok r)
   <-> ~ ends_exactly (warmup_increment es cache) iterations invalid).
Proof.
  intros es cl bits incr iterations cache offset invalid H1 H2 H3 H4 H5 H6 H7 H8. split.
  - intros [r R] X. rewrite simulate_exact in R; [discriminate|now apply inc_pos|exact X].
  - now apply simulate_runs.
Qed.

(** In this case it aborts. *)
Theorem C24_multiple_refuted : forall es cl bits incr iterations cache offset invalid,
  0 < warmup_increment es cache -> ends_exactly (warmup_increment es cache) iterations invalid ->
  simulate es cl bits incr iterations cache offset invalid = Err ValueError.
Proof. exact simulate_exact. Qed.

(** Kernels with at most one cache line of iterations abort. *)
Theorem C24_small_refuted : forall es cl bits incr iterations cache offset invalid,
  0 < es -> 0 <= bits -> cl = 2 ^ bits -> (es | cl) -> incr = 1 ->
  offset 0 mod cl = 0 -> (forall i, offset i = offset 0 + i * es) -> iterations <= cl / es ->
  exists e, simulate es cl bits incr iterations cache offset invalid = Err e.
Proof. exact simulate_small. Qed.

Print Assumptions C24_valid_schedule.
Print Assumptions C24_completes_partial.
Print Assumptions C24_multiple_refuted.
Print Assumptions C24_small_refuted.

(** 1 MB of caches and doubles: a warm-up step has 2622 iterations. One array, shifted by one element;
    the caches are full after 60 steps. *)
Definition full_after (n : Z) (done : list range) : Z := n - Z.of_nat (length done).
Example C24_step : warmup_increment 8 1048576 = 2622.
Proof. vm_compute. reflexivity. Qed.
(** A large kernel: the benchmark follows the warm-up directly. *)
Example C24_large : rmap (fun r => (length (fst r), last (fst r) (0, 0), snd r))
  (simulate 8 64 6 1 1000000 1048576 one_array (full_after 60))
  = Ok (61%nat, (157320, 157327), (157327, 257327)).
Proof. vm_compute. reflexivity. Qed.
(** A small kernel: one complete sweep, then from the start. *)
Example C24_sweep : simulate 8 64 6 1 2000 1048576 one_array (full_after 60)
  = Ok ([(0, 2000); (0, 7)], (7, 1999)).
Proof. vm_compute. reflexivity. Qed.
Example C24_hypotheses : ~ ends_exactly (warmup_increment 8 1048576) 1000000 (full_after 60).
Proof. rewrite C24_step. intros (n & H & E & _). lia. Qed.
(** Sixty steps end with the last iteration, but the caches are full after fifty. *)
Example C24_full_before : ~ ends_exactly (warmup_increment 8 1048576) (60 * 2622) (full_after 50)
  /\ rmap snd (simulate 8 64 6 1 (60 * 2622) 1048576 one_array (full_after 50)) = Ok (7, 100007).
Proof.
  split; [|vm_compute; reflexivity]. rewrite C24_step. intros (n & H & E & F). assert (n = 60%nat) by lia. subst n.
  specialize (F 50%nat ltac:(lia)). revert F. vm_compute. discriminate.
Qed.
Example C24_exactly : ends_exactly (warmup_increment 8 1048576) (10 * 2622) (full_after 60).
Proof.
  rewrite C24_step. exists 10%nat. split; [lia|]. split; [reflexivity|]. intros m H.
  do 10 (destruct m as [|m]; [vm_compute; reflexivity|]). lia.
Qed.
Example C24_multiple : simulate 8 64 6 1 (10 * 2622) 1048576 one_array (full_after 60) = Err ValueError.
Proof. vm_compute. reflexivity. Qed.
Example C24_small : simulate 8 64 6 1 8 1048576 (fun i => 8 * i) (full_after 60) = Err ValueError.
Proof. vm_compute. reflexivity. Qed.

(** ** C25 *)
(** Accesses are linear in the surrounding iterations, one step of the inner loop fits a cache line
    evenly and the access lies on a multiple of the step: then the result is aligned. *)
Theorem C25_aligned_partial : forall es cl bits incr iterations offset,
  0 < es -> 0 <= bits -> cl = 2 ^ bits -> (es | cl) -> 1 <= incr ->
  forall i subtract r, align es cl bits incr iterations offset i subtract = Ok r ->
  linear_around offset i (cl / es) (es * incr) -> (es * incr | cl) -> (es * incr | offset i) ->
  offset r mod cl = 0.
Proof. exact align_aligned. Qed.
(** In any case it is less than a cache line away in the requested direction. *)
Theorem C25_near : forall es cl bits incr iterations offset,
  0 < es -> 0 <= bits -> cl = 2 ^ bits -> (es | cl) -> 1 <= incr ->
  forall i subtract, i < iterations -> exists r, align es cl bits incr iterations offset i subtract = Ok r
    /\ (if subtract then i - cl / es < r <= i else i <= r <= i + cl / es).
Proof. exact align_bounds. Qed.
Print Assumptions C25_aligned_partial.
Print Assumptions C25_near.
Example C25_example : align 8 64 6 2 1000 (fun i => 32 + 16 * i) 5 false = Ok 6
  /\ align 8 64 6 2 1000 (fun i => 32 + 16 * i) 5 true = Ok 2
  /\ linear_around (fun i => 32 + 16 * i) 5 8 (8 * 2) /\ (8 * 2 | 64) /\ (8 * 2 | 32 + 16 * 5).
Proof.
  split; [vm_compute; reflexivity|]. split; [vm_compute; reflexivity|]. split; [intros j _; lia|].
  split; [exists 4; reflexivity|exists 7; reflexivity].
Qed.

(** A step of three elements. *)
Theorem C25_stride_refuted : exists r,
  align 8 64 6 3 1000 (fun i => 24 * i) 3 true = Ok r /\ (24 * r) mod 64 <> 0.
Proof. exact align_stride. Qed.
(** The previous row is not linear: interior of [double b[12][12]], first iteration of the second row. *)
Theorem C25_row_refuted : exists r,
  align 8 64 6 1 100 interior_offset 10 true = Ok r /\ interior_offset r mod 64 <> 0.
Proof. exact align_row. Qed.
(** An iteration before the first one. *)
Theorem C25_negative_refuted : align 8 64 6 1 1000 one_array 0 true = Ok (-1).
Proof. exact align_negative. Qed.
Print Assumptions C25_stride_refuted.
Print Assumptions C25_row_refuted.
Print Assumptions C25_negative_refuted.
