(** Execution-Cache-Memory model: models/ecm.py:15-42, 92-196, 291-371 and 443-565. Numbers are exact. *)
From Verif Require Export PyBase PyNum PyText.
From Verif Require Import UnitModel.
Local Open Scope Q_scope.
Local Open Scope list_scope.

(** ** Helpers *)
(** [int(q)] (as used in models/ecm.py:18) *)
Definition qtrunc (q : Q) : Z := if Qltb q 0 then Qceiling q else Qfloor q.
(** models/ecm.py:15-18 *)
Definition round_to_next (x base : Q) : res Z :=
  if Qeq_bool base 0 then Err ZeroDivisionError else Ok (qtrunc (base * inject_Z (Qceiling (x / base)))).
(** models/ecm.py:21-42. The indices of blocks are floats with integral values. *)
Fixpoint blocks_of (indices : list Z) (size boundary : Z) (blocks : list Z) : res (list Z) :=
  match indices with
  | [] => Ok blocks
  | i :: indices' =>
      if (size =? 0)%Z then Err ZeroDivisionError
      else let b := ((i - boundary) / size)%Z in
           blocks_of indices' size boundary (if existsb (Z.eqb b) blocks then blocks else blocks ++ [b])
  end.
Definition blocking (indices : list Z) (size boundary : Z) : res (list Z) :=
  do b <- blocks_of indices size boundary []; Ok (sort_by (fun z => z) b).

(** ** Cycles of data transfers: models/ecm.py:92-164 *)
Inductive throughput := Bytes (t : Q) | MemoryBandwidth.
Inductive duplex := Half | Full | OtherDuplex.
Record level := mkLevel { overlaps : bool; upstream : throughput; duplexness : duplex; load_penalty : option Q; store_penalty : option Q }.
Definition qdiv (a b : Q) : res Q := if Qeq_bool b 0 then Err ZeroDivisionError else Ok (a / b).
Definition nth_res {A} (l : list A) (n : nat) : res A := match nth_error l n with Some x => Ok x | None => Err IndexError end.
Definition qmax2 (a b : Q) : Q := if Qltb a b then b else a.
Definition times (o : option Q) (q : Q) : Q := match o with Some p => q * p | None => 0 end.
Section Data.
  (** Size of a cache line and of an element in bytes, clock, and the measured bandwidth for a level and numbers of streams (C26) (models/ecm.py:92-164) *)
  Variable line element : Z.
  Variable clock : Q.
  Variable bandwidth : nat -> Q -> Q -> res Q.
  (** Cycles and penalty of one level; [l], [s] are the loads and stores of cache lines (models/ecm.py:92-164). *)
  Definition level_cycles (i : nat) (lv : level) (l s : Q) : res (Q * Q) :=
    match upstream lv with
    | MemoryBandwidth =>
        if (element =? 0)%Z then Err ZeroDivisionError else
        do bw <- bandwidth i l s;
        let per_line := inject_Z (line / element) * inject_Z element * clock in
        do cy <- qdiv (match duplexness lv with Half => (l + s) * per_line | _ => qmax2 l s * per_line end) bw;
        Ok (cy, times (load_penalty lv) l + times (store_penalty lv) s)
    | Bytes t =>
        do t <- qdiv t (inject_Z line);
        match duplexness lv with
        | Half => do cy <- qdiv (l + s) t; Ok (cy, 0)
        | Full => do a <- qdiv l t; do b <- qdiv s t; Ok (qmax2 a b, 0)
        | OtherDuplex => Err ValueError
        end
    end.
  (** [levels] are those behind the first, which has number [i - 1] (models/ecm.py:92-164). *)
  Fixpoint level_list (i : nat) (levels : list level) (loads stores : list Q) : res (list (Q * Q)) :=
    match levels with
    | [] => Ok []
    | lv :: levels' =>
        do l <- nth_res loads i; do s <- nth_res stores i;
        do x <- level_cycles i lv l s;
        do xs <- level_list (S i) levels' loads stores;
        Ok (x :: xs)
    end.
End Data.
Definition qsum (l : list Q) : Q := fold_left Qplus l 0.

(** ** In-core part: models/ecm.py:305-336. [ports]: cycles of the ports. A block size of 0 ends the program. *)
Definition qmax_from (b : Q) (l : list Q) : Q := fold_left qmax2 l b.
Definition in_list (k : text) (l : list text) : bool := existsb (text_eqb k) l.
Record incore := mkIncore { t_comp : Q; t_regl1 : Q; cl_throughput : Q }.
Definition port_max (ports : list (text * Q)) (names : list text) : res Q :=
  match map snd (filter (fun p => in_list (fst p) names) ports) ++ [0] with
  | [] => Err ValueError
  | x :: l => Ok (qmax_from x l)
  end.
Definition incore_part (line element increment : Z) (ports : list (text * Q)) (throughput : Q) (overlapping nonoverlapping : list text) : res incore :=
  if (element =? 0)%Z then Err ZeroDivisionError else
  let block := (Z.abs (increment / element) * element)%Z in
  if (block =? 0)%Z then Err SystemExit else
  let r := inject_Z line / inject_Z block in
  let ports := map (fun p => (fst p, snd p * r)) ports in
  do c <- port_max ports overlapping;
  do n <- port_max ports nonoverlapping;
  let tp := throughput * r in
  Ok (mkIncore (if Qltb n tp then tp else c) n tp).

(** ** Composition: models/ecm.py:453-495 *)
(** Overlapping and non-overlapping contributions; [seen] is nonoverlap_region (models/ecm.py:464-479). *)
Fixpoint compose_levels (seen : bool) (levels : list (bool * Q)) (ol nol : list Q) : res (list Q * list Q) :=
  match levels with
  | [] => Ok (ol, nol)
  | (o, cy) :: levels' =>
      if o then (if seen then Err ValueError else compose_levels seen levels' (ol ++ [cy]) nol)
      else compose_levels true levels' ol (nol ++ [cy])
  end.
Definition compose (comp regl1 : Q) (first : bool) (levels : list (bool * Q)) (penalty : Q) : res (list Q * list Q) :=
  do x <- (if first then compose_levels false levels [comp; regl1] [] else compose_levels true levels [comp] [regl1]);
  Ok (fst x, if Qeq_bool penalty 0 then snd x else snd x ++ [penalty]).
Definition total (x : list Q * list Q) : Q := qmax_from (qsum (snd x)) (fst x).

(** ** Scaling: models/ecm.py:497-558 *)
Definition q_of (n : nat) : Q := inject_Z (Z.of_nat n).
(** models/ecm.py:510-517: the utilizations for 1..n cores and the number of cores at saturation. [c] is the next number of cores. *)
Fixpoint utilizations (T M : Q) (c n : nat) (previous : Q) (sat : option nat) : res (list Q * option nat) :=
  match n with
  | O => Ok ([], sat)
  | S n' =>
      let d := T + previous * (q_of c - 1) * M / 2 in
      if Qltb d (q_of c * M) then
        do x <- utilizations T M (S c) n' 1 (match sat with Some s => Some (Nat.min s c) | None => Some c end);
        Ok (1 :: fst x, snd x)
      else
        do u <- qdiv (q_of c * M) d;
        do x <- utilizations T M (S c) n' u sat;
        Ok (u :: fst x, snd x)
  end.
(** models/ecm.py:521-551: cycles per cache line for a number of cores *)
Definition prediction (T M : Q) (numa socket sockets : nat) (util : list Q) (sat : option nat) (cores : nat) : res Q :=
  do numa_time <- (if (match sat with Some s => (cores <=? s)%nat | None => true end) then do r <- qdiv T M; qdiv T r else Ok M);
  if (cores <=? numa)%nat then do u <- nth_res util (cores - 1); qdiv numa_time u
  else if (cores <=? socket * sockets)%nat then
    match numa with
    | O => Err IndexError
    | S n => do u <- nth_res util n; do q <- qdiv numa_time u; qdiv (q * q_of numa) (q_of cores)
    end
  else Err ValueError.
Record scaling := mkScaling { scaling_utilization : list Q; scaling_cores : option nat; scaling_times : list Q }.
Definition scale (T M : Q) (numa socket sockets : nat) : res scaling :=
  if Qeq_bool M 0 then
    do times <- mapM (fun c => qdiv T (q_of c)) (seq 1 socket);
    Ok (mkScaling [] None times)
  else
    do x <- utilizations T M 1 numa 0 None;
    do times <- mapM (prediction T M numa socket sockets (fst x) (snd x)) (seq 1 socket);
    Ok (mkScaling (fst x) (snd x) times).
(** The whole analysis: models/ecm.py:443-565 (without the conversions of units, see below). [first] is the first level of the memory hierarchy. *)
Definition ecm (line element : Z) (clock : Q) bandwidth (first : bool) (levels : list level) (loads stores : list Q)
  (core : incore) (numa socket sockets : nat) : res (Q * scaling) :=
  do cs <- level_list line element clock bandwidth 1 levels loads stores;
  do x <- (match cs with [] => Err KeyError | _ =>
           compose (t_comp core) (t_regl1 core) first (combine (map overlaps levels) (map fst cs)) (qsum (map snd cs)) end);
  let T := total x in
  let M := last (map fst cs) 0 in
  do s <- scale T M numa socket sockets;
  Ok (T, s).

(** ** Conversion of units: models/ecm.py:174-196 and 350-371 *)
Local Open Scope string_scope.
Record converted := mkConverted { it_s : quantity; cy_cl : quantity; cy_it : quantity; flop_s : quantity }.
Definition set_unit (q : quantity) (u : string) : quantity := mkq (value q) (prefix q) u.
Definition as_cycles (o : operand) : res quantity := match o with OQ q => Ok q | ON v => make3 v "" "cy/CL" end.
Definition of_int (z : Z) : operand := ON (Fin (inject_Z z)).
Definition data_conv_cy (clock : quantity) (line element flops : Z) (o : operand) : res converted :=
  do c <- as_cycles o;
  if (element =? 0)%Z then Err ZeroDivisionError else
  let per_line := (line / element)%Z in
  do i <- (if q_ne c (ON (Fin 0)) then do r <- q_div clock (OQ c); do i <- q_mul r (of_int per_line); Ok (set_unit i "It/s")
           else parse "inf It/S");
  do p <- q_mul i (of_int flops);
  do t <- q_div c (of_int per_line);
  Ok (mkConverted i c (set_unit t "cy/It") (set_unit p "FLOP/s")).
Definition cpu_conv_cy (clock : quantity) (line element flops : Z) (o : operand) : res converted :=
  do c <- as_cycles o;
  if (element =? 0)%Z then Err ZeroDivisionError else
  let per_line := (line / element)%Z in
  do i <- (if q_eq c (ON (Fin 0)) then make1 PInf else do r <- q_div clock (OQ c); q_mul r (of_int per_line));
  let i := set_unit i "It/s" in
  do p <- q_mul i (of_int flops);
  do t <- q_mul c (of_int per_line);
  Ok (mkConverted i c (set_unit t "cy/It") (set_unit p "FLOP/s")).
