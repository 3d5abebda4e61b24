(** C48, C49, C60, C61: running benchmarks. *)
From Coq Require Import Lqa.
From Verif Require Import BenchModel BenchSpec BenchProofs.
Local Open Scope Z_scope.
Local Open Scope list_scope.

(** ** C48 *)
(** The variable has its old value again, whatever the body did and however it ended. *)
Theorem C48_restored : forall {A} name value (body : env -> env * res A) e, env_ok e ->
  fst (fix_env_variable name value body e) name = e name.
Proof. exact @fix_restored. Qed.
(** The body sees the requested value, its outcome is passed on, and its changes of other variables stay. *)
Theorem C48_inside : forall {A} name value (body : env -> env * res A) e,
  env_ok e -> (forall v, value = Some v -> name_ok name /\ value_ok v) ->
  exists e1, e1 name = value /\ (forall m, m <> name -> e1 m = e m) /\
    snd (fix_env_variable name value body e) = snd (body e1) /\
    (forall m, m <> name -> fst (fix_env_variable name value body e) m = fst (body e1) m).
Proof. exact @fix_inside. Qed.
(** The whole environment is as before if the body changes at most the fixed variable. *)
Theorem C48_environment : forall {A} name value (body : env -> env * res A) e, env_ok e -> changes_only [name] body ->
  same_env (fst (fix_env_variable name value body e)) e.
Proof. exact @fix_same. Qed.
Theorem C48_nested : forall {A} n1 v1 n2 v2 (body : env -> env * res A) e, env_ok e -> changes_only [n1; n2] body ->
  (forall v, v1 = Some v -> name_ok n1 /\ value_ok v) ->
  same_env (fst (fix_env_variable n1 v1 (fix_env_variable n2 v2 body) e)) e.
Proof. exact @fix_nested. Qed.
(** A name or value that no variable can have is an error, the body is not run and nothing changes. *)
Theorem C48_rejected : forall {A} name v (body : env -> env * res A) e, ~ (name_ok name /\ value_ok v) -> fix_env_variable name (Some v) body e = (e, Err ValueError).
Proof.
  intros A name v body e H. unfold fix_env_variable. destruct (putenv e name v) as [e1|x] eqn:E.
  - exfalso. apply H. revert E. unfold putenv.
    destruct name as [|c name]; [discriminate|]. cbn [orb]. destruct (existsb (fun c => (c =? 61) || (c =? 0))%N (c :: name)) eqn:X; [discriminate|].
    destruct (existsb (fun c => c =? 0)%N v) eqn:Y; [discriminate|]. intros _. repeat split.
    + discriminate.
    + intros I. rewrite (proj2 (existsb_exists _ _)) in X; [discriminate|]. exists 61%N. now split.
    + intros I. rewrite (proj2 (existsb_exists _ _)) in X; [discriminate|]. exists 0%N. now split.
    + intros I. rewrite (proj2 (existsb_exists _ _)) in Y; [discriminate|]. exists 0%N. now split.
  - enough (x = ValueError) as -> by reflexivity. revert E. unfold putenv. destruct (_ || _ : bool); congruence.
Qed.
Print Assumptions C48_rejected.
Print Assumptions C48_restored.
Print Assumptions C48_inside.
Print Assumptions C48_environment.
Print Assumptions C48_nested.

Definition omp : text := codes "OMP_NUM_THREADS".
Definition home : text := codes "HOME".
Definition example_env : env := env_set (env_set (fun _ => None) omp (Some (codes "4"))) home (Some (codes "/root")).
(** A body that sets the variable, and fails. *)
Definition bad_body (e : env) : env * res Z := (env_set e omp (Some (codes "7")), Err RuntimeError).
Example C48_example : env_ok example_env /\ changes_only [omp] bad_body
  /\ fst (fix_env_variable omp None bad_body example_env) omp = Some (codes "4")
  /\ snd (fix_env_variable omp None bad_body example_env) = Err RuntimeError
  /\ fst (fix_env_variable omp None bad_body (env_set example_env omp None)) omp = None.
Proof.
  split; [|split; [|repeat split; vm_compute; reflexivity]].
  - intros n v. unfold example_env, env_set. destruct (text_eqb_spec n home) as [->|_].
    + intros E. assert (v = codes "/root") as -> by congruence. unfold name_ok, value_ok. cbn. intuition discriminate.
    + destruct (text_eqb_spec n omp) as [->|_]; [|easy].
      intros E. assert (v = codes "4") as -> by congruence. unfold name_ok, value_ok. cbn. intuition discriminate.
  - intros e n N. cbn [bad_body fst]. apply env_set_other. intros ->. apply N. now left.
Qed.
(** Changes of other variables by the body are not undone. *)
Theorem C48_other_refuted : exists (name other : text) (body : env -> env * res Z) e, env_ok e /\
  fst (fix_env_variable name None body e) other <> e other.
Proof.
  exists omp, home, (fun e => (env_set e home None, Ok 0)), example_env. split; [apply C48_example|]. vm_compute. discriminate.
Qed.
Print Assumptions C48_other_refuted.

(** ** C49 *)
(** The adaptation ends only with a run of at least 1.5 s, whose number of repetitions and time per repetition are returned; the number of
    repetitions never becomes smaller than the first, and there is no division by zero. *)
Theorem C49_result : forall runtime fuel first,
  (forall i r, 0 <= runtime i r)%Q -> 3 <= first ->
  match repetitions runtime fuel first with
  | Ok (r, tpr, k) => first <= r /\ (1 <= k)%nat /\ (3 # 2 <= runtime (pred k) r)%Q /\ tpr = (runtime (pred k) r / inject_Z r)%Q
  | Err x => x = OutOfFuel
  end.
Proof. exact repetitions_ok. Qed.
(** Runtime proportional to the number of repetitions: at most two runs, the second takes between 1.5 and 2 seconds. *)
Theorem C49_linear : forall runtime first t,
  (0 < t)%Q -> 3 <= first -> (forall i n, runtime i n == t * inject_Z n)%Q ->
  exists r tpr k, repetitions runtime 1 first = Ok (r, tpr, k) /\ (tpr == t)%Q /\ (k <= 2)%nat /\
    (r = first /\ k = 1%nat \/ 3 # 2 <= t * inject_Z r <= 2)%Q.
Proof. exact repetitions_linear. Qed.
(** Any runtimes: it ends if enough repetitions take long enough. *)
Theorem C49_terminates : forall runtime first R,
  (forall i r, 0 <= runtime i r)%Q -> 3 <= first -> (forall i n, R <= n -> (3 # 2 <= runtime i n)%Q) ->
  exists x, repetitions runtime (Z.to_nat (R - first)) first = Ok x.
Proof. exact repetitions_end. Qed.
(** It never ends if all measured runtimes are short. *)
Theorem C49_forever_refuted : forall runtime first,
  (forall i r, 0 <= runtime i r < 3 # 2)%Q -> 3 <= first -> forall fuel, repetitions runtime fuel first = Err OutOfFuel.
Proof. exact repetitions_forever. Qed.
Print Assumptions C49_result.
Print Assumptions C49_linear.
Print Assumptions C49_terminates.
Print Assumptions C49_forever_refuted.

(** A kernel of 2 ms *)
Example C49_example : exists tpr, repetitions (fun _ n => (2 # 1000) * inject_Z n)%Q 1 9 = Ok (1000, tpr, 2%nat) /\ (tpr == 2 # 1000)%Q.
Proof. eexists. split; [vm_compute; reflexivity|]. reflexivity. Qed.
(** A clock of one tick per second: the first runs take no time. *)
Definition coarse (_ : nat) (n : Z) : Q := inject_Z (n / 20000).
Example C49_coarse : exists tpr, repetitions coarse 10 9 = Ok (90000, tpr, 5%nat) /\ (tpr == 4 # 90000)%Q.
Proof. eexists. split; [vm_compute; reflexivity|]. reflexivity. Qed.
(** At least three repetitions are needed at the start: with a first run of one repetition the number could stay the same for ever. *)
Example C49_first_run : forall n, repetitions (fun _ n => (14 # 10) * inject_Z n)%Q n 1 = Err OutOfFuel.
Proof.
  intros n. unfold repetitions.
  change ((14 # 10) * inject_Z 1)%Q with (14 # 10)%Q. change ((14 # 10) / inject_Z 1)%Q with (14 # 10)%Q.
  generalize 1%nat. induction n as [|n IH]; intros i; [reflexivity|]. cbn [adapt].
  change (Qle_bool (3 # 2) (14 # 10)) with false. cbv iota. change (next_repetitions (14 # 10) 1) with 1.
  cbn [Z.eqb]. change ((14 # 10) * inject_Z 1)%Q with (14 # 10)%Q. change ((14 # 10) / inject_Z 1)%Q with (14 # 10)%Q. apply IH.
Qed.

(** ** C60 *)
(** Positive ranges and measurable runtimes: the adaptation ends. The variables stay within their ranges. Either all regions run for
    at least 1.5 s, or the variables of every region that is too short are exhausted. *)
Theorem C60_adaptation : forall run : list var -> nat -> list (text * Q),
  (forall vs i, run vs i <> []) -> (forall vs i, Forall (fun rt => 0 < snd rt)%Q (run vs i)) ->
  forall vs, Forall positive vs -> exists n, forall fuel, (n < fuel)%nat ->
  exists vs' b, adapt_variables run fuel vs = Ok (vs', b) /\ Forall2 moved vs vs' /\ exists j,
    if b : bool then forall r t, In (r, t) (run vs' j) -> (3 # 2 <= t)%Q
    else (exists r t, In (r, t) (run vs' j) /\ (t < 3 # 2)%Q) /\
         forall r t v, In (r, t) (run vs' j) -> (t < 3 # 2)%Q -> In v vs' -> v_adjustable v = true -> In r (v_regions v) -> ~ has_room v.
Proof. exact adapt_variables_bound. Qed.
(** A region whose runtime is reported as 0.0 is run again and again without a change. *)
Theorem C60_zero_runtime_refuted : forall run vs,
  (forall vs i, run vs i <> []) -> (forall vs i, exists r, In (r, 0%Q) (run vs i)) -> (forall vs i, Forall (fun rt => 0 <= snd rt)%Q (run vs i)) ->
  forall fuel, adapt_variables run fuel vs = Err OutOfFuel.
Proof. exact zero_runtime_forever. Qed.
(** A range that starts at 0 is never left. *)
Theorem C60_zero_start_refuted : forall run (r : text) v t,
  (forall vs i, run vs i = [(r, t)]) -> (0 < t)%Q -> (t < 3 # 2)%Q -> v_adjustable v = true -> In r (v_regions v) -> v_scale v = Lin ->
  (v_value v == 0)%Q -> (0 < v_stop v)%Q -> forall fuel, adapt_variables run fuel [v] = Err OutOfFuel.
Proof. exact zero_value_forever. Qed.
Print Assumptions C60_adaptation.
Print Assumptions C60_zero_runtime_refuted.
Print Assumptions C60_zero_start_refuted.

(** A variable n from 100 to 100000 and a tolerance from 1 to 1/10; the runtime is n / 100000 seconds divided by the tolerance. *)
Definition reg : text := codes "sweep".
Definition v_n : var := mkVar true [reg] Lin 100 100000.
Definition v_tol : var := mkVar true [reg] Log 1 (1 # 10).
Definition example_run (vs : list var) (_ : nat) : list (text * Q) :=
  match vs with [n; tol] => [(reg, v_value n / 100000 / v_value tol + (1 # 1000000))%Q] | _ => [(reg, 1%Q)] end.
Example C60_example : Forall positive [v_n; v_tol]
  /\ exists x y, adapt_variables example_run 20 [v_n; v_tol] = Ok ([mkVar true [reg] Lin x 100000; mkVar true [reg] Log y (1 # 10)], true)
     /\ (x == 100000)%Q /\ (y == 1 # 10)%Q.
Proof.
  split.
  - repeat constructor.
  - eexists. eexists. split; [vm_compute; reflexivity|]. split; vm_compute; reflexivity.
Qed.
Example C60_exhausted : exists x, adapt_variables (fun vs _ => [(reg, 1%Q)]) 20 [v_n] = Ok ([mkVar true [reg] Lin x 100000], false) /\ (x == 100000)%Q.
Proof. eexists. split; [vm_compute; reflexivity|]. reflexivity. Qed.

(** ** C61 *)
(** Each region is divided by its own number of repetitions, provided that regions which share a configuration have the same number. *)
Theorem C61_partial : forall calls define regions config runtime,
  NoDup (map fst config) ->
  (forall r, In r regions -> exists k p, applies config r k p /\ count_of calls define (rep_source p) r <> 0) ->
  (forall r r' k p, In r regions -> In r' regions -> applies config r k p -> applies config r' k p ->
     count_of calls define (rep_source p) r = count_of calls define (rep_source p) r') ->
  exists times, times_per_repetition calls define regions config runtime = Ok times /\ map fst times = regions /\
    forall r t k p, In (r, t) times -> applies config r k p -> t = (runtime r / inject_Z (count_of calls define (rep_source p) r))%Q.
Proof. exact times_spec. Qed.
(** Two regions without own configuration, entered 10 and 1000 times, one second each: both are divided by 1000. *)
Definition region_a : text := codes "A".
Definition region_b : text := codes "B".
Definition example_calls (r : text) : Z := if text_eqb r region_a then 10 else 1000.
Theorem C61_shared_refuted : exists calls regions config runtime times t, NoDup (map fst config) /\ NoDup regions /\
  times_per_repetition calls (fun _ => 0) regions config runtime = Ok times /\
  In (region_a, t) times /\ applies config region_a [] (mkRep Marker None) /\ ~ (t == runtime region_a / inject_Z (calls region_a))%Q.
Proof.
  exists example_calls, [region_a; region_b], [([], mkRep Marker None)], (fun _ => 1%Q).
  eexists. eexists. split; [repeat constructor; easy|]. split; [repeat constructor; cbn; intuition discriminate|].
  split; [vm_compute; reflexivity|]. split; [now left|]. split.
  - split; [now left|]. right. split; [easy|]. intros q [E|[]]. discriminate.
  - vm_compute. discriminate.
Qed.
Print Assumptions C61_partial.
Print Assumptions C61_shared_refuted.
(** With own configurations both are right. *)
Example C61_example : times_per_repetition example_calls (fun _ => 0) [region_a; region_b] [(region_a, mkRep Marker None); (region_b, mkRep Marker None)] (fun _ => 1%Q)
  = Ok [(region_a, 1 / inject_Z 10)%Q; (region_b, 1 / inject_Z 1000)%Q].
Proof. reflexivity. Qed.
