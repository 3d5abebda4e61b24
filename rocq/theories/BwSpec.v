(** Specification of the choice of bandwidths and cache simulators. *)
From Coq Require Import String.
From Verif Require Import PyNum BwModel.
Local Open Scope Z_scope.

(** Ratio of reads to writes of a measured kernel that writes; every write is also a read (write
    allocate) unless the stream is read anyway. *)
Definition mix (i : kernel_info) : Q :=
  (inject_Z (reads i + writes i - read_writes i) / inject_Z (writes i))%Q.
Definition distance (i : kernel_info) (r w : Q) : Q := Qabs (mix i - r / w).

(** Bytes that a measured kernel moves behind the first cache: a stream that is only written is read,
    too. The measurements count every stream once. *)
Definition counted (i : kernel_info) : Q := (read_bytes i + write_bytes i)%Q.
Definition moved (cache_level : nat) (i : kernel_info) : Q :=
  match cache_level with O => counted i | _ => (counted i + (write_bytes i - read_write_bytes i))%Q end.
Definition corrected (cache_level : nat) (i : kernel_info) (measured bw : Q) : Prop :=
  (bw * counted i == measured * moved cache_level i)%Q.

(** The simulator for a number of cores: shared caches are divided. *)
Definition divided (m : machine) (cores : Z) : list (string * Z) :=
  map (fun c => (level c, if 1 <? cores_per_group c then sets c / Z.min cores (cores_per_numa m) else sets c))
      (hierarchy m).
