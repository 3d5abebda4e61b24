(** Theorems about the first part of the layer condition analysis: properties C68 to C70. *)
From Coq Require Import String Permutation Sorted Lia.
From Verif Require Import PyBase AstModel AstSpec LCModel LCSpec FrontModel FrontSpec FrontProofs FrontDistance.
Local Open Scope string_scope.
Local Open Scope list_scope.
Local Open Scope Z_scope.

(** A stencil on two-dimensional arrays: [b[j][i] = a[j][i-1] + a[j][i+1] + a[j-1][i] + a[j+1][i]] *)
Definition jacobi (refs : list (list sym)) (dims : list sym) : front :=
  mkFront [("j", 1); ("i", 1)] [("b", Some dims); ("s", None); ("a", Some dims)] [("a", map Some refs); ("s", [None])] [("b", [Some [SVar "j"; SVar "i"]])].
Definition MN := [SVar "M"; SVar "N"].
Definition five := [[SVar "j"; SSub (SVar "i") (SInt 1)]; [SVar "j"; SAdd (SVar "i") (SInt 1)]; [SSub (SVar "j") (SInt 1); SVar "i"]; [SAdd (SVar "j") (SInt 1); SVar "i"]].

(** * C68: checks of kernels *)
(** In kernels which pass the checks, references with affine indices advance by at most one element with each iteration of the innermost loop. *)
Theorem C68_step : forall k inner incr rest n arefs idx dims,
  checks k = Ok tt -> rev (loops k) = (inner, incr) :: rest -> NoDup (map fst (loops k)) ->
  In (n, arefs) (sources k ++ destinations k) -> ~ In None arefs -> In (Some idx) arefs -> lookup (variables k) n = Some (Some dims) ->
  Forall (affine_in inner) idx -> Forall (independent_of inner) dims ->
  forall env v, place (set env inner (v + 1)) dims idx - place (set env inner v) dims idx = 0
             \/ place (set env inner (v + 1)) dims idx - place (set env inner v) dims idx = 1.
Proof. exact step_of_reference. Qed.
(** Kernels with usual references pass exactly if all loops have step 1 and indices are used in the order of the loops. *)
Theorem C68_accepts : forall k, usual k ->
  (checks k = Ok tt <-> loops k <> [] /\ (forall l, In l (loops k) -> snd l = 1)
    /\ forall n arefs idx, In (n, arefs) (sources k ++ destinations k) -> In (Some idx) arefs -> ordered (map fst (loops k)) idx).
Proof. exact usual_accepted. Qed.
(** Without the condition on the indices the first statement is false: [a[i][i*i-3*i]] in an array with rows of length 3. *)
Theorem C68_nonlinear_refuted : exists k idx dims, checks k = Ok tt /\ In ("a", [Some idx]) (sources k) /\ lookup (variables k) "a" = Some (Some dims) /\ rev (loops k) = [("i", 1)]
  /\ forall env v, place (set env "i" (v + 1)) dims idx - place (set env "i" v) dims idx = 2 * v + 1.
Proof.
  set (idx := [SVar "i"; SSub (SMul (SVar "i") (SVar "i")) (SMul (SInt 3) (SVar "i"))]). exists (mkFront [("i", 1)] [("a", Some [SVar "M"; SInt 3])] [("a", [Some idx])] []), idx, [SVar "M"; SInt 3].
  split; [reflexivity|]. split; [now left|]. split; [reflexivity|]. split; [reflexivity|]. intros env v. rewrite <- !eval_linear. unfold eval, monomial, zsum, zprod, idx. cbn [linear expand pmul psub product flat_map scale app tl map fold_right fst snd]. unfold set. cbn [String.eqb Ascii.eqb Bool.eqb]. ring.
Qed.
(** Indices of outer loops may be squared, the array is then not passed row by row. *)
Theorem C68_square_refuted : exists k idx dims, checks k = Ok tt /\ In ("a", [Some idx]) (sources k) /\ lookup (variables k) "a" = Some (Some dims) /\ map fst (loops k) = ["j"; "i"]
  /\ forall env v, place (set env "j" (v + 1)) dims idx - place (set env "j" v) dims idx = env "N" * (2 * v + 1).
Proof.
  set (idx := [SMul (SVar "j") (SVar "j"); SVar "i"]). exists (mkFront [("j", 1); ("i", 1)] [("a", Some MN)] [("a", [Some idx])] []), idx, MN.
  split; [reflexivity|]. split; [now left|]. split; [reflexivity|]. split; [reflexivity|]. intros env v. rewrite <- !eval_linear. unfold eval, monomial, zsum, zprod, idx, MN. cbn [linear expand pmul psub product flat_map scale app tl map fold_right fst snd]. unfold set. cbn [String.eqb Ascii.eqb Bool.eqb]. ring.
Qed.
(** Arrays with numbers as sizes and three dimensions are rejected, although the order is right: the product of sizes counts as one factor. *)
Theorem C68_literal_refuted : exists k idx, ordered (map fst (loops k)) idx /\ (forall l, In l (loops k) -> snd l = 1) /\ sources k = [("a", [Some idx])] /\ destinations k = [] /\ checks k = Err ValueError.
Proof.
  exists (mkFront [("k", 1); ("j", 1); ("i", 1)] [("a", Some [SInt 5; SInt 5; SInt 5])] [("a", [Some [SVar "k"; SVar "j"; SVar "i"]])] []), [SVar "k"; SVar "j"; SVar "i"].
  split; [intros [|[|[|p]]] s v c N S; cbn in N; try (injection N as <-; cbn in S; injection S as <- _; reflexivity); destruct p; discriminate|].
  split; [intros l [<-|[<-|[<-|[]]]]; reflexivity|]. repeat split; reflexivity.
Qed.
Print Assumptions C68_step.
Print Assumptions C68_accepts.
Print Assumptions C68_nonlinear_refuted.
Print Assumptions C68_square_refuted.
Print Assumptions C68_literal_refuted.

Lemma usual_pair u v c d x y : shape x = Some (u, c) -> shape y = Some (v, d) -> (match u with Some n => In n ["j"; "i"] | None => True end) -> (match v with Some n => In n ["j"; "i"] | None => True end) ->
  usual_reference ["j"; "i"] ["M"; "N"] [x; y].
Proof.
  intros X Y U V. split; [reflexivity|]. split; [intros s [<-|[<-|[]]] [H|[H|[]]]; discriminate|]. intros s [<-|[<-|[]]]; eauto.
Qed.
Example C68_usual : usual (jacobi five MN).
Proof.
  split; [repeat constructor; cbn; intuition discriminate|]. intros n arefs [E|[E|[E|[]]]]; injection E as <- <-; [right|now left|right]; exists ["M"; "N"]; (split; [reflexivity|]).
  - intros a [<-|[<-|[<-|[<-|[]]]]]; eexists; (split; [reflexivity|]; split; [discriminate|]); eapply usual_pair; try reflexivity; cbn; auto.
  - intros a [<-|[]]. eexists. split; [reflexivity|]. split; [discriminate|]. eapply usual_pair; try reflexivity; cbn; auto.
Qed.
Example C68_accepted : checks (jacobi five MN) = Ok tt. Proof. reflexivity. Qed.
Example C68_transposed : checks (jacobi [[SVar "i"; SVar "j"]] MN) = Err ValueError. Proof. reflexivity. Qed.
Example C68_affine : Forall (affine_in "i") [SVar "j"; SAdd (SVar "i") (SInt 1)] /\ Forall (independent_of "i") MN.
Proof.
  split; [constructor; [|constructor; [|constructor]]|repeat constructor].
  - intros env. exists (env "j"), 0. intros v. change (env "j" = env "j" + 0 * v). lia.
  - intros env. exists 1, 1. intros v. change (v + 1 = 1 + 1 * v). lia.
Qed.

(** * C69: splitting of accesses *)
(** Results of the splitting have the value of the expression. *)
Theorem C69_reproduces : forall e factors os env, split_access e factors = Ok os -> eval env (reassemble os factors) = eval env e.
Proof. exact split_reproduces. Qed.
(** Usual references are split into their indices. *)
Theorem C69_split : forall (ls : list (string * Z)) sizes idx, usual_reference (map fst ls) sizes idx ->
  exists os, split_access (linear (map SVar sizes) idx) (dimension_factors (map SVar sizes)) = Ok os
    /\ length os = length idx /\ forall env, map (eval env) os = map (seval env) idx.
Proof.
  intros ls sizes idx U. destruct (split_usual ls sizes idx U) as (os & E & F). exists os. split; [exact E|]. split; [now apply PyBaseFacts.F2_length in F|].
  intros env. clear E U. induction F as [|o s os idx S F IH]; [reflexivity|]. cbn. f_equal; [|exact IH]. rewrite <- FrontPoly.eval_expand. now apply FrontPoly.eval_same.
Qed.
(** The expression which is split is the number of the element. *)
Theorem C69_linear : forall env dims idx, eval env (linear dims idx) = place env dims idx.
Proof. exact eval_linear. Qed.
(** With numbers as sizes, offsets of outer dimensions may be taken for offsets in the last one: [a[j+2][i]] in rows of ten elements. *)
Theorem C69_literal_refuted : exists os, split_access (linear [SVar "M"; SInt 10] [SAdd (SVar "j") (SInt 2); SVar "i"]) (dimension_factors [SVar "M"; SInt 10]) = Ok os
  /\ forall env, map (eval env) os = [env "j"; env "i" + 20].
Proof. eexists. split; [vm_compute; reflexivity|]. intros env. unfold eval, monomial, zsum, zprod. cbn [map fold_right fst snd]. apply (f_equal2 cons); [ring|]. apply (f_equal2 cons); [ring|reflexivity]. Qed.
Print Assumptions C69_reproduces.
Print Assumptions C69_split.
Print Assumptions C69_linear.
Print Assumptions C69_literal_refuted.
Example C69_usual : usual_reference (map fst [("k", 1); ("j", 1); ("i", 1)]) ["L"; "N"; "N"] [SSub (SVar "k") (SInt 1); SAdd (SInt 2) (SVar "j"); SVar "i"].
Proof. split; [reflexivity|]. split; [intros s [<-|[<-|[<-|[]]]] [H|[H|[H|[]]]]; discriminate|]. intros s [<-|[<-|[<-|[]]]]; do 2 eexists; (split; [reflexivity|cbn; auto]). Qed.
Example C69_result : split_access (linear [SVar "L"; SVar "N"; SVar "N"] [SSub (SVar "k") (SInt 1); SAdd (SInt 2) (SVar "j"); SVar "i"]) (dimension_factors [SVar "L"; SVar "N"; SVar "N"])
  = Ok [[([], -1); (["k"], 1)]; [(["j"], 1); ([], 2)]; [(["i"], 1)]].
Proof. reflexivity. Qed.

(** * C70: reuse distances *)
(** The distances of an array are the differences of neighbouring references, from the largest offset to the smallest, and infinity for the first access to an element. *)
Theorem C70_distances : forall less k inner n sizes ds w, usual k -> lookup (variables k) n = Some (Some (map SVar sizes)) -> uniform (array_references k n) -> less_sound less ->
  uses inner (array_references k n) -> array_distances less k inner n (map SVar sizes) = Ok (ds, w) ->
  exists order, Permutation (array_references k n) order /\ Sorted (fun a b => not_below (offsets a) (offsets b)) order
    /\ (forall env, map (dist_value env) ds = map Some (gaps (map (place env (map SVar sizes)) order)) ++ [None])
    /\ Forall grows ds /\ w = Z.of_nat (length (entries (destinations k) n)).
Proof. exact array_result. Qed.
(** Arrays which do not depend on the innermost loop have none. *)
Theorem C70_unused : forall less k inner n sizes, usual k -> lookup (variables k) n = Some (Some (map SVar sizes)) -> ~ uses inner (array_references k n) ->
  array_distances less k inner n (map SVar sizes) = Ok ([], 0).
Proof. exact array_unused. Qed.
(** All arrays of a kernel: one distance for each reference, none of them becomes negative in large arrays. *)
Theorem C70_kernel : forall less k inner incr rest ds w, usual k -> NoDup (map fst (variables k)) -> (forall n, uniform (array_references k n)) -> less_sound less -> rev (loops k) = (inner, incr) :: rest ->
  reuse_distances less k = Ok (ds, w) -> Forall grows ds /\ counted k inner (variables k) (Z.of_nat (length ds)) w.
Proof. exact kernel_result. Qed.
(** The analysis does not fail if kernels pass the checks and differences of numbers are decided. *)
Theorem C70_total : forall less k, usual k -> NoDup (map fst (variables k)) -> (forall n, uniform (array_references k n)) -> less_numbers less ->
  (forall n dims, In (n, Some dims) (variables k) -> ~ In None (entries (destinations k) n)) -> checks k = Ok tt -> exists r, reuse_distances less k = Ok r.
Proof. exact kernel_total. Qed.
(** Together with the second part (C22): hits in a cache level for large arrays are those of the specification, computed from the differences. *)
Theorem C70_classified : forall less decide k inner incr rest ds w es tails total size cs,
  usual k -> NoDup (map fst (variables k)) -> (forall n, uniform (array_references k n)) -> less_sound less -> sound decide -> rev (loops k) = (inner, incr) :: rest -> 0 < es ->
  reuse_distances less k = Ok (ds, w) -> (forall d, In d tails <-> In d (map (scale_dist es) ds)) -> build_level decide ds es w tails total size = Ok cs ->
  exists n0, 1 <= n0 /\ forall n, n0 <= n -> exists c, desymbolize (fun _ => n) cs = Ok c
    /\ classified (map (fun d => option_map (Z.mul es) (dist_value (fun _ => n) d)) ds) (eval (fun _ => n) total) size (hits c).
Proof. exact kernel_classified. Qed.
(** With numbers as sizes a distance may be negative: [a[j+2][i]] and [a[j+1][i]] in rows of ten elements. *)
Theorem C70_negative_refuted : exists ds w, reuse_distances numbers_only (jacobi [[SAdd (SVar "j") (SInt 2); SVar "i"]; [SAdd (SVar "j") (SInt 1); SVar "i"]] [SVar "M"; SInt 10]) = Ok (ds, w)
  /\ forall env, map (dist_value env) ds = [Some (-10); None; None].
Proof. do 2 eexists. split; [vm_compute; reflexivity|]. reflexivity. Qed.
(** With a constant index in place of a loop variable a distance depends on the loop variable: [a[j][i]] and [a[0][i]]. *)
Theorem C70_moving_refuted : exists less ds w, less_sound less /\ reuse_distances less (jacobi [[SVar "j"; SVar "i"]; [SInt 0; SVar "i"]] MN) = Ok (ds, w)
  /\ forall env, map (dist_value env) ds = [Some (env "N" * env "j"); None; None].
Proof.
  exists (fun p q => if same p [(["j"], 1)] then if same q [] then Some false else None else numbers_only p q). do 2 eexists. split; [|split; [vm_compute; reflexivity|]].
  - intros p q b H rho P. destruct (same p [(["j"], 1)]) eqn:E; [|now apply numbers_only_sound]. destruct (same q []) eqn:F; [|discriminate]. injection H as <-. rewrite (FrontPoly.eval_same rho _ _ E), (FrontPoly.eval_same rho _ _ F).
    unfold eval, monomial, zsum, zprod. cbn [map fold_right fst snd]. specialize (P "j"). split; [lia|discriminate].
  - intros env. cbn [map dist_value]. unfold eval, monomial, zsum, zprod. cbn [map fold_right fst snd]. f_equal. f_equal. ring.
Qed.
Print Assumptions C70_distances.
Print Assumptions C70_unused.
Print Assumptions C70_kernel.
Print Assumptions C70_total.
Print Assumptions C70_classified.
Print Assumptions C70_negative_refuted.
Print Assumptions C70_moving_refuted.
Example C70_less : less_sound numbers_only /\ less_numbers numbers_only. Proof. exact (conj numbers_only_sound numbers_only_decides). Qed.
Example C70_uniform : uniform (array_references (jacobi five MN) "a").
Proof.
  intros a b p s s' v v' c c' A B N N' S S'. cbn in A, B. destruct A as [<-|[<-|[<-|[<-|[]]]]]; destruct B as [<-|[<-|[<-|[<-|[]]]]]; destruct p as [|[|[|p]]]; cbn in N, N'; try discriminate; injection N as <-; injection N' as <-; cbn in S, S'; congruence.
Qed.
Example C70_uses : uses "i" (array_references (jacobi five MN) "a"). Proof. exists [SVar "j"; SSub (SVar "i") (SInt 1)], (SSub (SVar "i") (SInt 1)), (-1). cbn. auto. Qed.
Example C70_result : reuse_distances numbers_only (jacobi five MN)
  = Ok ([Poly [([], -1); (["N"], 1)]; Poly [([], 2)]; Poly [(["N"], 1); ([], -1)]; Inf; Inf], 1).
Proof. reflexivity. Qed.
