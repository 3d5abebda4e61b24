(** C42: Ranges of values on the command line (-D) *)
From Verif Require Import PyBase PyNum PyText PyInt RangeModel RangeSpec RangeProofs.
From Coq Require Import Lia Lqa Qabs Qround String.
Local Open Scope string_scope.
Local Open Scope list_scope.

(** A text is rejected exactly if it does not start with a digit. *)
Theorem C42_rejected : forall logarithm power s, (forall a b, logarithm a b <> Err SystemExit) ->
  (range_values logarithm power s = Err SystemExit <-> forall c r, s = c :: r -> ~ (48 <= c <= 57)%N).
Proof. intros l p s L. split; [intros H; exact (values_rejected l p s H L)|exact (values_rejects l p s)]. Qed.
Print Assumptions C42_rejected.

(** A number is one value. *)
Theorem C42_single : forall logarithm power n, range_values logarithm power (show_nat n) = Ok [Z.of_N n].
Proof.
  intros l p n. rewrite <- (app_nil_r (show_nat n)). apply values_single; [intros c r; discriminate|intros r; discriminate].
Qed.
Print Assumptions C42_single.

(** "a-b" are the integers from a to b, each once, ascending. *)
Theorem C42_all : forall logarithm power a b, exists l, range_values logarithm power (show_nat a ++ codes "-" ++ show_nat b) = Ok l /\
  (forall x, In x l <-> (Z.of_N a <= x <= Z.of_N b)%Z) /\
  forall i x, nth_error l i = Some x -> x = (Z.of_N a + Z.of_nat i)%Z.
Proof.
  intros lg p a b. eexists. split; [apply values_all|]. split.
  - intros x. rewrite int_range_spec. lia.
  - intros i x. rewrite int_range_nth. destruct (_ <? _)%Z; [now intros [= <-]|discriminate].
Qed.
Print Assumptions C42_all.

(** "a-b:n" are n values, from a to b, at equal distances up to rounding. *)
Theorem C42_linear : forall logarithm power a b n, (2 <= n)%N -> exists l,
  range_values logarithm power (show_nat a ++ codes "-" ++ show_nat b ++ codes ":" ++ show_nat n) = Ok l /\ List.length l = N.to_nat n /\
  nth_error l 0 = Some (Z.of_N a) /\ nth_error l (N.to_nat n - 1) = Some (Z.of_N b) /\
  (forall i x, nth_error l i = Some x ->
     rounded (inject_Z (Z.of_N a) + inject_Z (Z.of_nat i) * (inject_Z (Z.of_N b - Z.of_N a) / inject_Z (Z.of_N n - 1))) x) /\
  (if (Z.of_N a <=? Z.of_N b)%Z then ascending l else descending l).
Proof.
  intros lg p a b n H. destruct (linear_spec lg p (Z.of_N a) (Z.of_N b) (Z.of_N n) ltac:(lia)) as (l & E & L & F & La & R & M).
  exists l. rewrite values_num. replace (N.to_nat n) with (Z.to_nat (Z.of_N n)) by lia. auto 10.
Qed.
Print Assumptions C42_linear.

(** "a-b:nlogB" are n values, from a to b, whose logarithms have equal distances up to rounding; if the powers undo the logarithms closely enough. *)
Theorem C42_logarithmic : forall logarithm power a b n base la lb, (2 <= n)%N ->
  logarithm (Z.of_N a) (Z.of_N base) = Ok la -> logarithm (Z.of_N b) (Z.of_N base) = Ok lb ->
  (forall x y, (x == y -> power (Z.of_N base) x == power (Z.of_N base) y)%Q) ->
  (Qabs (power (Z.of_N base) la - inject_Z (Z.of_N a)) < 1 # 2)%Q -> (Qabs (power (Z.of_N base) lb - inject_Z (Z.of_N b)) < 1 # 2)%Q ->
  exists l, range_values logarithm power (show_nat a ++ codes "-" ++ show_nat b ++ codes ":" ++ show_nat n ++ codes "log" ++ show_nat base) = Ok l /\
  List.length l = N.to_nat n /\ nth_error l 0 = Some (Z.of_N a) /\ nth_error l (N.to_nat n - 1) = Some (Z.of_N b) /\
  (forall i x, nth_error l i = Some x -> rounded (power (Z.of_N base) (la + inject_Z (Z.of_nat i) * ((lb - la) / inject_Z (Z.of_N n - 1)))%Q) x) /\
  ((forall x y, (x <= y -> power (Z.of_N base) x <= power (Z.of_N base) y)%Q) -> (la <= lb)%Q -> ascending l).
Proof.
  intros lg p a b n base la lb H LA LB PP PA PB.
  destruct (log_spec lg p (Z.of_N a) (Z.of_N b) (Z.of_N n) (Z.of_N base) la lb ltac:(lia) LA LB PP PA PB) as (l & E & L & F & La & R & M).
  exists l. rewrite values_log_base. replace (N.to_nat n) with (Z.to_nat (Z.of_N n)) by lia. auto 10.
Qed.
Print Assumptions C42_logarithmic.

(** Without a base, it is ten. *)
Theorem C42_base_default : forall logarithm power a b n,
  range_values logarithm power (show_nat a ++ codes "-" ++ show_nat b ++ codes ":" ++ show_nat n ++ codes "log") =
  range_values logarithm power (show_nat a ++ codes "-" ++ show_nat b ++ codes ":" ++ show_nat n ++ codes "log" ++ show_nat 10).
Proof. intros lg p a b n. rewrite values_log, values_log_base. reflexivity. Qed.
Print Assumptions C42_base_default.

(** Colons before "log" and the base change nothing. *)
Theorem C42_colons : forall logarithm power a b n base,
  range_values logarithm power (show_nat a ++ codes "-" ++ show_nat b ++ codes ":" ++ show_nat n ++ codes ":log:" ++ show_nat base) =
  range_values logarithm power (show_nat a ++ codes "-" ++ show_nat b ++ codes ":" ++ show_nat n ++ codes "log" ++ show_nat base).
Proof. intros lg p a b n base. now rewrite values_log_colon, values_log_base. Qed.
Print Assumptions C42_colons.

(** Refuted: "texts of other forms are rejected". Whatever follows a number is ignored, unless it is a dash and a digit. *)
Theorem C42_malformed_refuted : forall logarithm power n rest, (forall c r, rest = c :: r -> ~ (48 <= c <= 57)%N) ->
  (forall c r, rest = 45%N :: c :: r -> ~ (48 <= c <= 57)%N) -> range_values logarithm power (show_nat n ++ rest) = Ok [Z.of_N n].
Proof.
  intros lg p n rest D M. apply values_single; [exact D|]. intros r -> c r' ->. exact (M c r' eq_refl).
Qed.
Print Assumptions C42_malformed_refuted.

(** Refuted: "a range has at least one value". A range from a larger to a smaller number is accepted, and is empty. *)
Theorem C42_backwards_refuted : forall logarithm power a b, (b < a)%N -> range_values logarithm power (show_nat a ++ codes "-" ++ show_nat b) = Ok [].
Proof.
  intros lg p a b H. rewrite values_all. unfold int_range. now replace (Z.to_nat (Z.of_N b + 1 - Z.of_N a)) with 0%nat by lia.
Qed.
Print Assumptions C42_backwards_refuted.

(** Refuted: "what cannot be a range is reported as a wrong argument". Fewer than two values end in an AssertionError; *)
Theorem C42_count_refuted : forall logarithm power a b n, (n < 2)%N ->
  range_values logarithm power (show_nat a ++ codes "-" ++ show_nat b ++ codes ":" ++ show_nat n) = Err AssertionError.
Proof. intros lg p a b n H. rewrite values_num. unfold space. destruct (Z.ltb_spec (Z.of_N n) 2); [easy|lia]. Qed.
Print Assumptions C42_count_refuted.
(** a logarithmic range with an end without logarithm (zero), or with base zero or one, ends in the error of the logarithm. *)
Theorem C42_log_error_refuted : forall logarithm power a b n base e, (2 <= n)%N -> logarithm (Z.of_N a) (Z.of_N base) = Err e ->
  range_values logarithm power (show_nat a ++ codes "-" ++ show_nat b ++ codes ":" ++ show_nat n ++ codes "log" ++ show_nat base) = Err e.
Proof. intros lg p a b n base e H E. rewrite values_log_base. unfold space. destruct (Z.ltb_spec (Z.of_N n) 2); [lia|]. now rewrite E. Qed.
Print Assumptions C42_log_error_refuted.

(** ** Examples *)
(** Logarithms and powers which are right for powers of two *)
Definition log2 (x base : Z) : res Q := if (x <=? 0)%Z then Err ValueError else Ok (inject_Z (Z.log2 x)).
Definition pow2 (base : Z) (x : Q) : Q := inject_Z (2 ^ Qfloor x).
Example C42_rejected_ex : range_values log2 pow2 (codes "N-10") = Err SystemExit /\ range_values log2 pow2 (codes "") = Err SystemExit.
Proof. vm_compute. auto. Qed.
Example C42_rejected_log2 a b : log2 a b <> Err SystemExit.
Proof. unfold log2. destruct (_ <=? _)%Z; discriminate. Qed.
Example C42_single_ex : range_values log2 pow2 (codes "1020") = Ok [1020%Z].
Proof. reflexivity. Qed.
Example C42_all_ex : range_values log2 pow2 (codes "8-11") = Ok [8; 9; 10; 11]%Z.
Proof. reflexivity. Qed.
Example C42_linear_ex : range_values log2 pow2 (codes "10-20:4") = Ok [10; 13; 17; 20]%Z /\ range_values log2 pow2 (codes "20-10:4") = Ok [20; 17; 13; 10]%Z.
Proof. vm_compute. auto. Qed.
Example C42_logarithmic_ex : range_values log2 pow2 (codes "1-16:5log2") = Ok [1; 2; 4; 8; 16]%Z /\ range_values log2 pow2 (codes "1-16:5:log:2") = Ok [1; 2; 4; 8; 16]%Z.
Proof. vm_compute. auto. Qed.
Example C42_logarithmic_hyps : log2 1 2 = Ok 0%Q /\ log2 16 2 = Ok 4%Q /\ (forall x y, (x == y -> pow2 2 x == pow2 2 y)%Q) /\
  (Qabs (pow2 2 0 - inject_Z 1) < 1 # 2)%Q /\ (Qabs (pow2 2 4 - inject_Z 16) < 1 # 2)%Q /\ (forall x y, (x <= y -> pow2 2 x <= pow2 2 y)%Q).
Proof.
  split; [reflexivity|]. split; [reflexivity|]. split; [intros x y E; unfold pow2; now rewrite E|]. split; [reflexivity|]. split; [reflexivity|].
  intros x y L. unfold pow2. rewrite <- Zle_Qle. destruct (Z.le_gt_cases 0 (Qfloor x)).
  - apply Z.pow_le_mono_r; [lia|]. now apply Qfloor_resp_le.
  - rewrite (Z.pow_neg_r 2 (Qfloor x)) by lia. apply Z.pow_nonneg. lia.
Qed.
Example C42_base_default_ex : range_values log2 pow2 (codes "1-4:3log") = Ok [1; 2; 4]%Z.
Proof. reflexivity. Qed.
Example C42_malformed_ex : range_values log2 pow2 (codes "10k") = Ok [10%Z] /\ range_values log2 pow2 (codes "10-abc") = Ok [10%Z] /\ range_values log2 pow2 (codes "1.5") = Ok [1%Z].
Proof. vm_compute. auto. Qed.
Example C42_backwards_ex : range_values log2 pow2 (codes "20-10") = Ok [].
Proof. reflexivity. Qed.
Example C42_count_ex : range_values log2 pow2 (codes "1-10:1") = Err AssertionError.
Proof. reflexivity. Qed.
Example C42_log_error_ex : range_values log2 pow2 (codes "0-10:3log10") = Err ValueError.
Proof. reflexivity. Qed.
