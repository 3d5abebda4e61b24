(** Properties C09, C11, C12, C13: arrays, loop nests, iteration numbers and memory layout. *)
From Coq Require Import String QArith.
From Verif Require Import PyBase LoopModel LoopSpec LoopProofs.
Local Open Scope Z_scope.

(** C09: the linearised offset of an in-range access is its position in row-major order, and lies
    inside the array. *)
Theorem C09_row_major : forall dims access,
  in_range dims access ->
  nth_error (row_major dims) (Z.to_nat (access_to_sympy dims access)) = Some access
  /\ 0 <= access_to_sympy dims access < array_elements dims.
Proof. exact row_major_exact. Qed.
Print Assumptions C09_row_major.

Theorem C09_injective : forall dims a b,
  in_range dims a -> in_range dims b -> access_to_sympy dims a = access_to_sympy dims b -> a = b.
Proof. exact access_injective. Qed.
Print Assumptions C09_injective.

Theorem C09_surjective : forall dims off,
  Forall (fun d => 0 < d) dims -> 0 <= off < array_elements dims ->
  exists access, in_range dims access /\ access_to_sympy dims access = off.
Proof. exact access_surjective. Qed.
Print Assumptions C09_surjective.

Example C09_case : in_range [4; 5; 6] [3; 2; 1] /\ access_to_sympy [4; 5; 6] [3; 2; 1] = 103
  /\ array_elements [4; 5; 6] = 120.
Proof. split; [repeat constructor; cbn; lia|]. vm_compute. auto. Qed.

(** C12: the reported number of iterations is the number of executed iterations. *)
Theorem C12_iteration_length : forall stack its,
  proper stack -> executes (bounds stack) its ->
  iteration_length stack = Z.of_nat (length its).
Proof. exact iteration_length_executed. Qed.
Print Assumptions C12_iteration_length.

(** Loop nests of this form always terminate with some list of iterations. *)
Theorem C12_executes : forall stack, proper stack -> exists its, executes (bounds stack) its.
Proof. exact executes_exists. Qed.
Print Assumptions C12_executes.

Definition C12_stack := [mkloop "j" 1 9 1; mkloop "i" 0 11 4]%string.
Example C12_case : proper C12_stack /\ iteration_length C12_stack = 24.
Proof. split; [repeat constructor; cbn; lia|reflexivity]. Qed.

(** Loops whose end is before their start are not executed but counted (negatively). *)
Theorem C12_backward_refuted : exists stack,
  Forall (fun l => 0 < lincr l) stack /\ executes (bounds stack) [] /\ iteration_length stack = 25.
Proof.
  exists [mkloop "j" 5 0 1; mkloop "i" 5 0 1]%string. split; [repeat constructor; cbn; lia|].
  split; [|reflexivity]. exists [[]; []]. split; [|reflexivity].
  repeat constructor; cbn; lia.
Qed.
Print Assumptions C12_backward_refuted.

(** The counts of the benchmark model and of binary descriptions agree if increments divide the
    loop ranges. Missing for the full property: other ranges, where they disagree (next theorem). *)
Theorem C12_counts_agree_partial : forall stack its,
  proper stack -> Forall (fun l => (lincr l | lend l - lstart l)) stack ->
  executes (bounds stack) its ->
  region_iterations stack = Z.of_nat (length its)
  /\ (bench_iterations stack == inject_Z (Z.of_nat (length its)))%Q.
Proof. exact counts_agree. Qed.
Print Assumptions C12_counts_agree_partial.

(** Exactly then: loops with at least one iteration are counted correctly if and only if all increments divide the ranges. *)
Theorem C12_counts_exact : forall stack its,
  Forall (fun l => lstart l < lend l /\ 0 < lincr l) stack -> executes (bounds stack) its ->
  (region_iterations stack = Z.of_nat (length its) <-> Forall (fun l => (lincr l | lend l - lstart l)) stack)
  /\ ((bench_iterations stack == inject_Z (Z.of_nat (length its)))%Q <-> Forall (fun l => (lincr l | lend l - lstart l)) stack).
Proof. exact counts_exact. Qed.
Print Assumptions C12_counts_exact.

Theorem C12_counts_refuted : exists stack its,
  proper stack /\ executes (bounds stack) its /\
  length its = 3%nat /\ region_iterations stack = 2 /\ (bench_iterations stack == 5 # 2)%Q.
Proof.
  exists [mkloop "i" 0 5 2]%string, [[0]; [2]; [4]]. split; [repeat constructor; cbn; lia|].
  split; [|repeat split].
  exists [[0; 2; 4]]. split; [|reflexivity]. constructor; [|constructor]. cbn.
  repeat (apply fv_step; [lia|]; cbn [Z.add Pos.add Pos.succ]). constructor. lia.
Qed.
Print Assumptions C12_counts_refuted.

Theorem C12_region_off_by_at_most_one : forall l,
  0 < lincr l ->
  (lend l - lstart l) / lincr l <= loop_length l <= (lend l - lstart l) / lincr l + 1.
Proof. exact region_undercounts. Qed.
Print Assumptions C12_region_off_by_at_most_one.

(** C11: for unit increments, the indices of global iteration [g] are those of the [g]-th executed
    iteration (the dictionary lists the innermost index first). *)
Theorem C11_execution_order_partial : forall stack its g,
  unit_stack stack -> executes (bounds stack) its -> 0 <= g < Z.of_nat (length its) ->
  exists tuple, nth_error its (Z.to_nat g) = Some tuple
    /\ rev (global_iterator_to_indices stack g) = combine (map lvar stack) tuple.
Proof. exact iterator_is_execution_order. Qed.
Print Assumptions C11_execution_order_partial.

Theorem C11_roundtrip_partial : forall stack g,
  unit_stack stack -> NoDup (map lvar stack) -> 0 <= g < iteration_length stack ->
  indices_to_global_iterator stack (lookup (global_iterator_to_indices stack g)) = g.
Proof. exact iterator_roundtrip. Qed.
Print Assumptions C11_roundtrip_partial.

Theorem C11_inverse_partial : forall stack its g tuple,
  unit_stack stack -> NoDup (map lvar stack) -> executes (bounds stack) its ->
  nth_error its (Z.to_nat g) = Some tuple -> 0 <= g ->
  indices_to_global_iterator stack (lookup (combine (map lvar stack) tuple)) = g.
Proof. exact indices_of_iteration. Qed.
Print Assumptions C11_inverse_partial.

Theorem C11_max_partial : forall stack,
  unit_stack stack -> NoDup (map lvar stack) ->
  max_global_iteration stack = iteration_length stack - 1.
Proof. exact max_iteration_unit. Qed.
Print Assumptions C11_max_partial.

Definition C11_stack := [mkloop "j" 1 4 1; mkloop "i" 2 7 1]%string.
Example C11_case : unit_stack C11_stack /\ NoDup (map lvar C11_stack)
  /\ global_iterator_to_indices C11_stack 8 = [("i", 5); ("j", 2)]%string.
Proof.
  split; [repeat constructor; cbn; lia|]. split; [|reflexivity].
  repeat constructor; cbn; intuition congruence.
Qed.

(** Missing for the full property: increments other than one.  There it is false, for every single
    loop with at least two iterations: *)
Theorem C11_strided_refuted : forall v s e i vs,
  2 <= i -> s <= e -> for_values s e i vs -> (2 <= length vs)%nat ->
  exists g, 0 <= g < iteration_length [mkloop v s e i] /\
    map (fun x => Some x) (map snd (global_iterator_to_indices [mkloop v s e i] g))
      <> [nth_error vs (Z.to_nat g)].
Proof. exact strided_wrong. Qed.
Print Assumptions C11_strided_refuted.

Theorem C11_strided_roundtrip_refuted : exists stack g,
  proper stack /\ 0 <= g < iteration_length stack /\
  global_iterator_to_indices stack g = [("i", 1)]%string /\
  indices_to_global_iterator stack (lookup (global_iterator_to_indices stack g)) <> g.
Proof.
  exists [mkloop "i" 0 10 2]%string, 3. split; [repeat constructor; cbn; lia|].
  vm_compute. repeat split; congruence.
Qed.
Print Assumptions C11_strided_roundtrip_refuted.

(** C13: the layout lists exactly the given arrays, ... *)
Theorem C13_complete : forall cl spacing arrays,
  Permutation.Permutation arrays (map (fun x => (fst (fst x), snd x)) (layout cl spacing arrays)).
Proof. exact layout_perm. Qed.
Print Assumptions C13_complete.

(** ... address ranges of different arrays are disjoint and at least [spacing] apart, ... *)
Theorem C13_disjoint : forall cl spacing arrays n1 b1 s1 n2 b2 s2,
  1 <= cl -> 0 <= spacing -> Forall (fun a => 0 <= snd a) arrays -> NoDup (map fst arrays) ->
  In (n1, b1, s1) (layout cl spacing arrays) -> In (n2, b2, s2) (layout cl spacing arrays) ->
  n1 <> n2 -> b1 + s1 + spacing <= b2 \/ b2 + s2 + spacing <= b1.
Proof. exact layout_disjoint. Qed.
Print Assumptions C13_disjoint.

(** ... never negative and on cache-line boundaries (cache-line sizes are powers of two), ... *)
Theorem C13_nonnegative : forall cl spacing arrays n b s,
  1 <= cl -> 0 <= spacing -> Forall (fun a => 0 <= snd a) arrays ->
  In (n, b, s) (layout cl spacing arrays) -> 0 <= b.
Proof. exact layout_nonneg. Qed.
Print Assumptions C13_nonnegative.

Theorem C13_aligned : forall k spacing arrays n b s,
  0 <= k -> In (n, b, s) (layout (2 ^ k) spacing arrays) -> (2 ^ k | b).
Proof. exact layout_aligned. Qed.
Print Assumptions C13_aligned.

(** ... and in-range accesses touch bytes of their array only. *)
Theorem C13_access_inside : forall base elem dims access,
  0 < elem -> in_range dims access ->
  base <= byte_offset base elem dims access
  /\ byte_offset base elem dims access + elem <= base + array_bytes elem dims.
Proof. exact access_inside. Qed.
Print Assumptions C13_access_inside.

(** Different elements of an array do not share bytes ... *)
Theorem C13_elements_disjoint : forall base elem dims a b,
  0 < elem -> in_range dims a -> in_range dims b -> a <> b ->
  byte_offset base elem dims a + elem <= byte_offset base elem dims b
  \/ byte_offset base elem dims b + elem <= byte_offset base elem dims a.
Proof. exact access_elements. Qed.
Print Assumptions C13_elements_disjoint.

(** ... and follow each other in row-major order without gaps. *)
Theorem C13_element_address : forall base elem dims access,
  in_range dims access ->
  exists i, nth_error (row_major dims) i = Some access /\ byte_offset base elem dims access = base + elem * Z.of_nat i.
Proof. exact access_element_number. Qed.
Print Assumptions C13_element_address.

Example C13_access_case : in_range [4; 5] [3; 2] /\ in_range [4; 5] [3; 3]
  /\ byte_offset 64 8 [4; 5] [3; 2] = 200 /\ byte_offset 64 8 [4; 5] [3; 3] = 208.
Proof. repeat split; try (repeat constructor; lia); reflexivity. Qed.

Definition C13_arrays := [("b", 1000); ("a", 8); ("c", 0)]%string.
Example C13_case :
  Forall (fun a => 0 <= snd a) C13_arrays /\ NoDup (map fst C13_arrays) /\
  layout (2 ^ 6) 0 C13_arrays = [("a", 0, 8); ("b", 64, 1000); ("c", 1088, 0)]%string.
Proof.
  split; [repeat constructor; cbn; lia|]. split; [|reflexivity].
  repeat constructor; cbn; intuition congruence.
Qed.

(** Alignment fails for cache-line sizes which are no powers of two (arrays stay disjoint). *)
Theorem C13_aligned_other_refuted : exists cl arrays n b s,
  1 <= cl /\ In (n, b, s) (layout cl 0 arrays) /\ ~ (cl | b).
Proof.
  exists 48, [("a", 1); ("b", 1)]%string, "b"%string, 16, 1. split; [lia|]. split.
  - vm_compute. auto.
  - intros [k Hk]. lia.
Qed.
Print Assumptions C13_aligned_other_refuted.
