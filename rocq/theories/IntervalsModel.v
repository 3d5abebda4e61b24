(** Model of [/repo/kerncraft/intervals.py].
    Ranges are pairs of integers (the class comment says "for integers"). *)
From Verif Require Import PyBase.

(** A range [lower, upper), intervals.py:44. *)
Definition range := (Z * Z)%type.

(** intervals.py:20-32, [_enforce_no_overlap].  The Python loop runs an index [i] over
    [self.data]; after handling index [i] it always continues with [i+1], also if element [i+1] was
    deleted just before.  The prefix before index [i] is never touched again, so the loop is a
    recursion over the remaining suffix: the head is emitted and the loop continues behind it. *)
Fixpoint no_overlap_fuel (fuel : nat) (data : list range) : list range :=
  match fuel with
  | O => data
  | S fuel' =>
      match data with
      | (l0, u0) :: (l1, u1) :: rest =>          (* i+1 < len(self.data) *)
          if u0 >=? l1 then                      (* line 24 *)
            let u0' := if u0 <? u1 then u1 else u0 in   (* lines 26-28 *)
            (l0, u0') :: no_overlap_fuel fuel' rest     (* line 31: del data[i+1]; line 32: i += 1 *)
          else (l0, u0) :: no_overlap_fuel fuel' ((l1, u1) :: rest)
      | _ => data
      end
  end.

(** The loop index grows in every step and the list never grows, so [length data] steps suffice
    (proved in [IntervalsProofs]) (intervals.py:20-32). *)
Definition enforce_no_overlap (data : list range) : list range :=
  no_overlap_fuel (length data) data.

(** intervals.py:8-14, the constructor with the default [sane=False]. *)
Definition intervals (args : list range) : list range :=
  enforce_no_overlap
    (sort_by fst (filter (fun d => snd d >? fst d) args)).

(** intervals.py:34-36, [a & b]. *)
Definition intervals_and (a b : list range) : list range := intervals (a ++ b).

(** intervals.py:38-40, [len(a)] (a negative Python [__len__] would raise ValueError;
    the constructor removes ranges of negative length). *)
Definition intervals_len (a : list range) : Z := zsum (map (fun d => snd d - fst d) a).

(** intervals.py:42-44, [x in a]. *)
Definition intervals_contains (a : list range) (x : Z) : bool :=
  existsb (fun d => (fst d <=? x) && (x <? snd d)) a.

(** intervals.py:50-52, [a == b]. *)
Definition range_eqb (d e : range) : bool := (fst d =? fst e) && (snd d =? snd e).
Fixpoint intervals_eq (a b : list range) : bool :=
  match a, b with
  | [], [] => true
  | d :: a', e :: b' => range_eqb d e && intervals_eq a' b'
  | _, _ => false
  end.

(** ** The same code with the sharing of range objects made explicit.
    A range is a mutable Python list; [heap] gives the current content of each list object and
    interval sets hold references.  Line 28 writes through such a reference. *)
Definition ref := nat.
Definition heap := ref -> range.
Definition upd (h : heap) (r : ref) (v : range) : heap :=
  fun r' => if Nat.eqb r r' then v else h r'.

(** intervals.py:20-32 on references. *)
Fixpoint h_no_overlap_fuel (fuel : nat) (h : heap) (data : list ref) : heap * list ref :=
  match fuel with
  | O => (h, data)
  | S fuel' =>
      match data with
      | r0 :: r1 :: rest =>
          if snd (h r0) >=? fst (h r1) then
            let h' := if snd (h r0) <? snd (h r1) then upd h r0 (fst (h r0), snd (h r1)) else h in
            let (h'', d) := h_no_overlap_fuel fuel' h' rest in (h'', r0 :: d)
          else
            let (h', d) := h_no_overlap_fuel fuel' h (r1 :: rest) in (h', r0 :: d)
      | _ => (h, data)
      end
  end.

(** intervals.py:8-14 on references. *)
Definition h_intervals (h : heap) (args : list ref) : heap * list ref :=
  let data := sort_by (fun r => fst (h r)) (filter (fun r => snd (h r) >? fst (h r)) args) in
  h_no_overlap_fuel (length data) h data.

(** intervals.py:34-36 on references. *)
Definition h_intervals_and (h : heap) (a b : list ref) : heap * list ref :=
  h_intervals h (a ++ b).

(** Observable content of an interval set (intervals.py:8-14). *)
Definition h_data (h : heap) (a : list ref) : list range := map h a.
