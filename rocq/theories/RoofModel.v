(** Roofline models: models/roofline.py. Numbers are exact; measured bandwidths (C26), loads and stores (C20-C25) and the in-core analysis are
    parameters. *)
From Verif Require Export PyBase PyNum.
From Verif Require Export UnitModel EcmModel.
From Coq Require Import String.
Local Open Scope Q_scope.
Local Open Scope list_scope.

(** [kernel.datatype] and other Python values it is compared with: a string or a tuple of strings (kernel.py:222-225) *)
Inductive datatype := Str (s : string) | Tup (l : list string).
(** [datatypes_size[datatype]] (kernel.py:222-225) *)
Definition size_of (d : datatype) : res Z :=
  match d with
  | Tup l => if list_eq_dec string_dec l ["double"; "_Complex"]%string then Ok 16%Z
             else if list_eq_dec string_dec l ["double"]%string then Ok 8%Z
             else if list_eq_dec string_dec l ["float"; "_Complex"]%string then Ok 8%Z
             else if list_eq_dec string_dec l ["float"]%string then Ok 4%Z else Err KeyError
  | Str _ => Err KeyError
  end.

Section Roofline.
  (** Clock, bytes of a cache line and of an element, operations per iteration (models/roofline.py:67-71, 169-174) *)
  Variable clock : quantity.
  Variables line element flops : Z.
  (** models/roofline.py:167-183. [None] is Python's None. *)
  Definition conv_perf (it : option quantity) : res converted :=
    match it with
    | None => Err TypeError
    | Some i =>
        do p <- q_mul i (of_int flops);
        if (element =? 0)%Z then Err ZeroDivisionError else
        let per_line := inject_Z line / inject_Z element in
        do a <- q_div clock (OQ i);
        do c <- q_mul a (ON (Fin per_line));
        do t <- q_div clock (OQ i);
        Ok (mkConverted i (set_unit c "cy/CL") (set_unit t "cy/It") (set_unit p "FLOP/s"))
    end.
  Record entry := mkEntry { performance : converted; entry_level : nat; intensity : num; bandwidth : quantity; transferred : Q }.
  (** Result: 'mem bottlenecks', 'bottleneck level', 'min performance' (models/roofline.py:108-116, 146-155) *)
  Record roofs := mkRoofs { bottlenecks : list entry; bottleneck : nat; minimum : converted }.

  (** [get_bandwidth] for a level and numbers of streams (models/roofline.py:91-96 and 130-132) *)
  Variable get_bandwidth : nat -> Q -> Q -> res quantity.
  (** models/roofline.py:76-116: transfers between registers and the first cache; [reads] and [writes] are the offsets accessed in one cache line of iterations. *)
  Definition first_level (reads writes : list Z) : res roofs :=
    if (element =? 0)%Z then Err ZeroDivisionError else
    let per_line := (line / element)%Z in
    if (per_line <=? 0)%Z then Err ValueError else (* zip of nothing *)
    let nwrites := Z.of_nat (List.length (nodup Z.eq_dec writes)) in
    let nreads := (Z.of_nat (List.length (nodup Z.eq_dec reads)) + nwrites)%Z in
    let total := (nreads * element)%Z in
    do bw <- get_bandwidth 0 (inject_Z nreads) 0;
    if (total =? 0)%Z then do p <- conv_perf None; Err TypeError else
    let intens := 1 / (inject_Z total / inject_Z per_line) in
    do i <- make2 (nmul (base_value bw) (Fin intens)) "It/s";
    do p <- conv_perf (Some i);
    Ok (mkRoofs [mkEntry p 0 (Fin intens) bw (inject_Z total)] 0 p).
  (** models/roofline.py:118-155 for level [i]; [l] and [s] are the loads and stores of cache lines. *)
  Definition next_level (i : nat) (l s : Q) (r : roofs) : res roofs :=
    do bw <- get_bandwidth i l s;
    let bytes := l * inject_Z line + s * inject_Z line in
    let per_line := (line / element)%Z in
    do x <- (if Qeq_bool bytes 0 then do q <- make2 PInf "It/s"; Ok (PInf, q)
             else let intens := 1 / (bytes / inject_Z per_line) in
                  do q <- make2 (nmul (base_value bw) (Fin intens)) "It/s"; Ok (Fin intens, q));
    do p <- conv_perf (Some (snd x));
    let all := bottlenecks r ++ [mkEntry p i (fst x) bw bytes] in
    if q_lt (snd x) (OQ (it_s (minimum r)))
    then do m <- conv_perf (Some (snd x)); Ok (mkRoofs all (List.length all - 1) m)
    else Ok (mkRoofs all (bottleneck r) (minimum r)).
  (** The levels [i], [i + 1], ..., [n] more (models/roofline.py:118-155) *)
  Fixpoint next_levels (i n : nat) (loads stores : list Q) (r : roofs) : res roofs :=
    match n with
    | O => Ok r
    | S n' =>
        do l <- nth_res loads i; do s <- nth_res stores i;
        do r <- next_level i l s r;
        next_levels (S i) n' loads stores r
    end.
  (** calculate_cache_access; [levels] is the length of the memory hierarchy (models/roofline.py:59-157). *)
  Definition cache_access (levels : nat) (reads writes : list Z) (loads stores : list Q) : res roofs :=
    do r <- first_level reads writes;
    next_levels 1 (levels - 1) loads stores r.

  (** ** RooflineFLOP: models/roofline.py:159-165 and 185-228 *)
  (** Operations per cycle, for double and single precision (models/roofline.py:159-165) *)
  Definition precision_peak (d : datatype) (dp sp : Z) : Z :=
    if match d with Str s => String.eqb s "double" | Tup _ => false end then dp else sp.
  Definition max_perf (d : datatype) (dp sp cores : Z) : res converted :=
    do a <- q_mul clock (of_int cores);
    do p <- q_mul a (of_int (precision_peak d dp sp));
    conv_perf (Some p).
  (** What is reported as bound: the rate of the processor or of a memory level (models/roofline.py:209-223) *)
  Inductive verdict := CpuBound (p : converted) | MemoryBound (e : entry).
  Definition flop_report (r : roofs) (peak : converted) : res verdict :=
    if q_gt (flop_s (minimum r)) (OQ (flop_s peak)) then Ok (CpuBound peak)
    else do e <- nth_res (bottlenecks r) (bottleneck r); Ok (MemoryBound e).

  (** ** RooflineASM: models/roofline.py:282-339 *)
  Record asm := mkAsm { asm_bottleneck : option nat; asm_minimum : converted; cpu_performance : converted; asm_cl_throughput : Q; asm_entries : list entry }.
  (** models/roofline.py:319-328; the first entry is ignored. *)
  Fixpoint reevaluate (i : nat) (es : list entry) (b : option nat) (m : converted) : option nat * converted :=
    match es with
    | [] => (b, m)
    | e :: es' => if q_lt (it_s (performance e)) (OQ (it_s m)) then reevaluate (S i) es' (Some i) (performance e) else reevaluate (S i) es' b m
    end.
  Definition asm_analyze (r : roofs) (throughput : Q) (increment cores : Z) : res asm :=
    if (element =? 0)%Z then Err ZeroDivisionError else
    let per_block := Qabs (inject_Z increment / inject_Z element) in
    let block := per_block * inject_Z element in
    if Qeq_bool block 0 then Err SystemExit else
    let ratio := inject_Z line / block in
    do i <- make2 PInf "It/s";
    do m <- conv_perf (Some i);
    let x := reevaluate 1 (tl (bottlenecks r)) None m in
    do a <- q_div clock (ON (Fin throughput));
    do a <- q_mul a (ON (Fin per_block));
    do a <- q_mul a (of_int cores);
    do i <- make2 (base_value a) "It/s";
    do p <- conv_perf (Some i);
    Ok (mkAsm (fst x) (snd x) p (throughput * ratio) (bottlenecks r)).
  (** models/roofline.py:373-388. A bottleneck level of None is not an index. *)
  Definition asm_report (a : asm) : res verdict :=
    if q_gt (it_s (asm_minimum a)) (OQ (it_s (cpu_performance a))) then Ok (CpuBound (cpu_performance a))
    else match asm_bottleneck a with
         | None => Err TypeError
         | Some b => do e <- nth_res (asm_entries a) b; Ok (MemoryBound e)
         end.
End Roofline.
