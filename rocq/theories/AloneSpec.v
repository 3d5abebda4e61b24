(** Which results are kept, and under which names *)
From Coq Require Import QArith.
From Verif Require Import PyBase PyText PyDict StoreModel BenchModel AloneModel.
Local Open Scope list_scope.

(** The same names with equal values in the same order *)
Definition alike (a b : constants) : Prop := Forall2 (fun x y => fst x = fst y /\ snd x == snd y) a b.
(** [b] is the name of the file [p] without its directories. *)
Definition file_name (p b : text) : Prop := ~ In 47%N b /\ (p = b \/ exists d, p = d ++ 47%N :: b).
(** Results which can be found in a storage: name of the binary, constants and model *)
Definition stored {R} (s : storage R) (b : text) (k : constants) (m : text) (r : R) : Prop :=
  exists d e, tget b s = Some d /\ kget R k d = Some e /\ tget m e = Some r.
(** One call in a history: it goes on to its end, or is killed after some steps of changing files. *)
Record event := mkEvent { e_call : call; e_killed : option nat }.
Section History.
  Context {R : Type}.
  Variable pickle : storage R -> list N.
  Variable unpickle : list N -> found R.
  Variable execute : text -> text -> Z -> list Q -> nat -> res (list (text * Q)).
  Variable evaluate : text -> text -> Z -> list (text * Q) -> res R.
  Variable fuel : nat.
  (** Calls one after the other. *)
  Fixpoint history (f : files) (l : list event) : files :=
    match l with
    | [] => f
    | e :: l' =>
        history (match run R pickle unpickle execute evaluate fuel (opened f) (e_call e) with
                 | Ok steps => do_steps (opened f) (match e_killed e with None => steps | Some n => firstn n steps end)
                 | Err _ => opened f
                 end) l'
    end.
  (** A call has the result [r] for the name [b] and constants like [k]. *)
  Definition adds (e : event) (b : text) (k : constants) (r : R) : Prop :=
    exists cs, measure R execute evaluate fuel (e_call e) = Ok (cs, r) /\ file_name (c_binary (e_call e)) b /\ alike k cs.
  (** Events, marked with whether they had an effect: the last one which adds something for [b] and [k] adds [r]. *)
  Definition last_added (l : list (event * bool)) (b : text) (k : constants) (r : R) : Prop :=
    exists l1 e l2, l = l1 ++ (e, true) :: l2 /\ adds e b k r /\ forall e', In (e', true) l2 -> forall r', ~ adds e' b k r'.
  Definition none_added (l : list (event * bool)) (b : text) (k : constants) : Prop := forall e, In (e, true) l -> forall r, ~ adds e b k r.
End History.
