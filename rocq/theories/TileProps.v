(** C47: The tile size search *)
From Verif Require Import PyBase PyNum TileModel TileSpec TileProofs.
From Coq Require Import Lia Lqa.
Local Open Scope Z_scope.

(** The search ends for every runtime function, if the minimal block length is positive. *)
Theorem C47_terminates_partial : forall simulate min_length upper, 0 < min_length ->
  exists enough, forall n, (enough <= n)%nat -> exists o, search simulate n min_length upper = Ok o.
Proof. exact search_terminates. Qed.
Print Assumptions C47_terminates_partial.

(** What is reported is one of two neighbours, at most ten apart, of which the shorter is not slower than the minimal block length, and the longer is
    slower or the end of the window. *)
Theorem C47_near_partial : forall simulate n min_length upper o, 0 < min_length -> 10 < upper - min_length -> search simulate n min_length upper = Ok o ->
  exists length good bad, o = Some length /\ (length = good \/ length = bad) /\ boundary simulate min_length upper good bad.
Proof. exact search_spec. Qed.
Print Assumptions C47_near_partial.

(** Refuted: "the search ends": with minimal length 0 it never does, with a negative one it does not if no negative length is slower. *)
Theorem C47_terminates_refuted : forall simulate n upper, 0 < upper -> search simulate n 0 upper = Err OutOfFuel.
Proof. exact search_zero. Qed.
Print Assumptions C47_terminates_refuted.
Theorem C47_negative_refuted : forall simulate n min_length upper, min_length < 0 -> 0 <= upper -> (forall l, l < 0 -> (simulate l <= simulate min_length)%Q) ->
  search simulate n min_length upper = Err OutOfFuel.
Proof. exact search_negative. Qed.
Print Assumptions C47_negative_refuted.

(** Refuted: "the reported length is not slower than the minimal one": the last length tried is reported, whatever its runtime. *)
Definition step_at (limit : Z) (l : Z) : Q := if l <=? limit then 1 else 2.
Theorem C47_good_refuted : exists length, search (step_at 320) 20 100 10000 = Ok (Some length) /\ (step_at 320 100 < step_at 320 length)%Q.
Proof. exists 326. vm_compute. auto. Qed.
Print Assumptions C47_good_refuted.

(** Refuted: "if no length changes the performance, nothing is reported": the search never ends so in a window of more than ten lengths. *)
Theorem C47_nothing_found_refuted : forall simulate n min_length upper, 0 < min_length -> 10 < upper - min_length -> search simulate n min_length upper <> Ok None.
Proof. intros f n mn up P U H. destruct (search_spec f n mn up None P U H) as (l & g & b & E & _). discriminate. Qed.
Print Assumptions C47_nothing_found_refuted.

(** Refuted: "the program reports a length": its arguments have no cache predictor, which the model reads, so it always ends in an AttributeError. *)
Theorem C47_program_refuted : forall simulate n min_length upper, cachetile simulate n min_length upper = Err AttributeError.
Proof. reflexivity. Qed.
Print Assumptions C47_program_refuted.

(** What the model needs: an argument for each of three names; without one of them there is an AttributeError. *)
Theorem C47_arguments : forall args,
  (In "verbose"%string args /\ In "cores"%string args /\ In "cache_predictor"%string args -> ecmdata_init args = Ok tt) /\
  (~ (In "verbose"%string args /\ In "cores"%string args /\ In "cache_predictor"%string args) -> ecmdata_init args = Err AttributeError).
Proof.
  intros args. assert (R : forall n, (In n args /\ read_attribute args n = Ok tt) \/ (~ In n args /\ read_attribute args n = Err AttributeError)).
  { intros n. unfold read_attribute. destruct (existsb (String.eqb n) args) eqn:E; [left|right]; split; try reflexivity.
    - apply existsb_exists in E as (x & I & X). apply String.eqb_eq in X as ->. exact I.
    - intros I. rewrite (proj2 (existsb_exists _ _)) in E; [discriminate|]. exists n. split; [exact I|apply String.eqb_refl]. }
  unfold ecmdata_init. destruct (R "verbose"%string) as [(A & ->)|(A & ->)], (R "cores"%string) as [(B & ->)|(B & ->)], (R "cache_predictor"%string) as [(C & ->)|(C & ->)]; cbn [bind]; split; tauto.
Qed.
Print Assumptions C47_arguments.
(** ** Examples *)
Example C47_search_ex : search (step_at 330) 20 100 10000 = Ok (Some 326) /\ search (step_at 330) 20 100 110 = Ok None /\ search (fun _ => 1%Q) 20 100 1000 = Ok (Some 992).
Proof. vm_compute. auto. Qed.
Example C47_near_ex : boundary (step_at 330) 100 10000 326 334.
Proof. unfold boundary, step_at. cbn. repeat split; try lia; [lra|right; lra]. Qed.
Example C47_terminates_refuted_ex : search (step_at 330) 50 0 10000 = Err OutOfFuel.
Proof. reflexivity. Qed.
Example C47_negative_ex : search (fun _ => 1%Q) 50 (-7) 10000 = Err OutOfFuel /\ forall l, (l < 0)%Z -> (1 <= 1)%Q.
Proof. split; [reflexivity|]. intros. lra. Qed.
