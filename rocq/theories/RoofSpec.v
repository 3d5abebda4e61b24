(** What a roofline prediction is to mean *)
From Verif Require Export PyBase PyNum UnitModel EcmModel RoofModel.
From Coq Require Import String.
Local Open Scope Q_scope.

(** Order of rates, which may be infinite *)
Definition at_most (a b : num) : Prop :=
  match a, b with Fin x, Fin y => x <= y | Fin _, PInf | PInf, PInf => True | _, _ => False end.
(** [b] is the first index of a smallest of the rates [l]. *)
Definition slowest (l : list num) (b : nat) : Prop :=
  exists v, nth_error l b = Some v /\ (forall j w, nth_error l j = Some w -> at_most v w) /\
            (forall j w, (j < b)%nat -> nth_error l j = Some w -> ~ at_most w v).
(** Iterations per second with [bw] bytes per second if [n] iterations need [bytes] bytes *)
Definition roof (bw bytes n : Q) (v : num) : Prop :=
  (bytes == 0 /\ v = PInf) \/ (~ bytes == 0 /\ exists x, v = Fin x /\ x * bytes == bw * n).
(** Iterations per second, cycles per cache line, cycles per iteration and operations per second belong together:
    [f] cycles per second, [n] iterations per cache line, [ops] operations per iteration. *)
Definition agree (f n ops : Q) (it cl cy op : num) : Prop :=
  match it with
  | Fin i => exists c t p, cl = Fin c /\ cy = Fin t /\ op = Fin p /\ i * t == f /\ c == t * n /\ p == i * ops
  | PInf => exists c t, cl = Fin c /\ cy = Fin t /\ c == 0 /\ t == 0 /\ (0 < ops -> op = PInf)
  | _ => False
  end.
(** A positive or infinite rate *)
Definition rate_ok (v : num) : Prop := match v with Fin x => 0 < x | PInf => True | _ => False end.
(** [x] is a smallest member of [l]. *)
Definition smallest (x : num) (l : list num) : Prop := In x l /\ forall y, In y l -> at_most x y.

(** The numbers in a result *)
Definition agrees (line element flops : Z) (f : Q) (r : converted) : Prop :=
  agree f (inject_Z line / inject_Z element) (inject_Z flops) (base_value (it_s r)) (base_value (cy_cl r)) (base_value (cy_it r)) (base_value (flop_s r)) /\
  unit (cy_cl r) = "cy/CL"%string /\ unit (cy_it r) = "cy/It"%string /\ unit (flop_s r) = "FLOP/s"%string.
Definition rate (e : entry) : num := base_value (it_s (performance e)).
Definition verdict_rate (v : verdict) : num := match v with CpuBound p => base_value (it_s p) | MemoryBound e => rate e end.
(** Entry [e] is that of level [i] with [l] and [s] streams and [bytes] bytes per cache line of iterations, with the bandwidth measured for it. *)
Definition entry_ok (line element flops : Z) (f : Q) (bwf : nat -> Q -> Q -> res quantity) (e : entry) (i : nat) (l s bytes : Q) : Prop :=
  entry_level e = i /\ transferred e == bytes /\ bwf i l s = Ok (bandwidth e) /\
  (exists b, base_value (bandwidth e) = Fin b /\ roof b bytes (inject_Z (line / element)) (rate e)) /\ unit (it_s (performance e)) = "It/s"%string /\ rate_ok (rate e) /\
  agrees line element flops f (performance e).
(** Different offsets read plus different offsets written *)
Definition streams (reads writes : list Z) : Q := inject_Z (Z.of_nat (List.length (nodup Z.eq_dec reads)) + Z.of_nat (List.length (nodup Z.eq_dec writes))).
