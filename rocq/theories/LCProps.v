(** C20 to C23: layer conditions. *)
From Coq Require Import String.
From Verif Require Import PyBase LCModel LCSpec LCProofs.
Local Open Scope Z_scope.
Local Open Scope string_scope.
Local Open Scope list_scope.

(** A five point stencil on [double a[M][N], b[M][N]]: distances of a: N-1, 2 (once) and N-1; one
    infinity for each array. *)
Definition stencil : list dist :=
  [Inf; Inf; Poly [(["N"], 1); ([], -1)]; Poly [(["N"], 1); ([], -1)]; Poly [([], 2)]].
Definition stencil_tails : list dist := [Poly [([], 16)]; Inf; Poly [(["N"], 8); ([], -8)]].
Definition stencil_total : poly := [(["M"; "N"], 16)].
Definition stencil_level (size : Z) := build_level decide_numbers stencil 8 1 stencil_tails stencil_total size.
Definition sizes (n m : Z) (s : string) : Z := if String.eqb s "N" then n else m.

(** ** C20 *)
(** Whatever sympy decides, a true choice is found, and all accesses are counted in it. *)
Theorem C20_resolves : forall decide distances es destinations tails total size cs rho,
  build_level decide distances es destinations tails total size = Ok cs ->
  exists c, desymbolize rho cs = Ok c /\ In c cs /\ cond_holds rho (condition c) = true
    /\ hits c + misses c = Z.of_nat (length distances) /\ 0 <= hits c /\ 0 <= misses c.
Proof. exact level_counts. Qed.
Theorem C20_loads : forall cs i c, nth_error cs i = Some c ->
  nth_error (get_loads cs) (S i) = Some (Some (misses c)) /\ nth_error (get_misses cs) i = Some (misses c).
Proof. exact loads_are_misses. Qed.
Theorem C20_stores : forall cs i c, nth_error cs i = Some c ->
  nth_error (get_stores cs) (S i) = Some (Some (evicts c)) /\ nth_error (get_evicts cs) i = Some (evicts c).
Proof. exact stores_are_evicts. Qed.
Theorem C20_memory_hits : forall cs c, get_hits (cs ++ [c]) = Ok (map hits (cs ++ [c]) ++ [misses c]).
Proof. exact memory_hits. Qed.
(** Without a sort key (two constants that cancel when they are identified) the analysis fails. *)
Theorem C20_cancel_refuted : forall decide es destinations tails total size, es <> 0 ->
  build_level decide [Poly [(["N"], 1); (["M"], -1)]] es destinations tails total size = Err AssertionError.
Proof. exact level_cancel. Qed.
Print Assumptions C20_resolves.
Print Assumptions C20_cancel_refuted.
Print Assumptions C20_loads.
Print Assumptions C20_stores.
Print Assumptions C20_memory_hits.

(** 32 kB and 256 kB for N = 2000: the condition of three rows (2 * 15992 + 16 + 2 * 15992 bytes)
    holds in the second level only. *)
Example C20_example :
  (do a <- stencil_level 32768; do b <- stencil_level 262144;
   do a' <- desymbolize (sizes 2000 2000) a; do b' <- desymbolize (sizes 2000 2000) b;
   do h <- get_hits [a'; b']; Ok (h, get_loads [a'; b'], get_misses [a'; b']))
  = Ok ([1; 3; 2], [None; Some 4; Some 2], [4; 2; 0]).
Proof. vm_compute. reflexivity. Qed.

(** ** C21 *)
Theorem C21_bigger_cache : forall decide distances es destinations tails total rho s1 s2 cs1 cs2 c1 c2,
  sound decide -> (forall s, 0 < rho s) -> 0 <= destinations -> s1 <= s2 ->
  build_level decide distances es destinations tails total s1 = Ok cs1 ->
  build_level decide distances es destinations tails total s2 = Ok cs2 ->
  desymbolize rho cs1 = Ok c1 -> desymbolize rho cs2 = Ok c2 ->
  hits c1 <= hits c2 /\ misses c2 <= misses c1 /\ evicts c2 <= evicts c1.
Proof. exact build_level_monotone. Qed.
Print Assumptions C21_bigger_cache.
Example C21_sound : sound decide_numbers.
Proof. exact decide_numbers_sound. Qed.
Example C21_example :
  map (fun size => do cs <- stencil_level size; do c <- desymbolize (sizes 2000 2000) cs; Ok (hits c, misses c, evicts c))
    [64; 32768; 65536; 100000000]
  = [Ok (0, 5, 1); Ok (1, 4, 1); Ok (3, 2, 1); Ok (5, 0, 0)].
Proof. vm_compute. reflexivity. Qed.

(** ** C22 *)
Theorem C22_strongest : forall decide distances es destinations tails total size cs rho c,
  build_level decide distances es destinations tails total size = Ok cs ->
  desymbolize rho cs = Ok c ->
  forall c', In c' cs -> cond_holds rho (condition c') = true -> hits c' <= hits c.
Proof. exact level_strongest. Qed.
(** Classification as specified on numbers, whenever the sort key orders the distances by their
    values. *)
Theorem C22_classified : forall decide distances es destinations tails total rho size cs,
  sound decide -> (forall s, 0 < rho s) ->
  (forall d, In d tails <-> In d (map (scale_dist es) distances)) ->
  consistent rho (map (scale_dist es) distances) ->
  build_level decide distances es destinations tails total size = Ok cs ->
  exists c, desymbolize rho cs = Ok c
    /\ classified (map (fun d => option_map (Z.mul es) (dist_value rho d)) distances) (eval rho total) size (hits c).
Proof. exact level_meaning'. Qed.
(** This holds for all large square problems. *)
Theorem C22_classified_large : forall decide distances es destinations tails total size cs,
  sound decide -> 0 < es -> (forall d, In d distances -> grows d) ->
  (forall d, In d tails <-> In d (map (scale_dist es) distances)) ->
  build_level decide distances es destinations tails total size = Ok cs ->
  exists n0, 1 <= n0 /\ forall n, n0 <= n -> exists c, desymbolize (fun _ => n) cs = Ok c
    /\ classified (map (fun d => option_map (Z.mul es) (dist_value (fun _ => n) d)) distances) (eval (fun _ => n) total) size (hits c).
Proof. exact level_large'. Qed.
Theorem C22_requirement_grows : forall vs t t', t <= t' -> needed vs t <= needed vs t'.
Proof. exact needed_mono. Qed.
Print Assumptions C22_strongest.
Print Assumptions C22_classified.
Print Assumptions C22_classified_large.
Print Assumptions C22_requirement_grows.

Example C22_tails : forall d, In d stencil_tails <-> In d (map (scale_dist 8) stencil).
Proof. intros d. cbn. intuition congruence. Qed.
Example C22_grows : forall d, In d stencil -> grows d.
Proof.
  intros d Hd. cbn in Hd. intuition subst; cbn; try lia.
  all: exists 1%nat; split; [reflexivity|]; intros [|[|e]] He; [lia|lia|reflexivity].
Qed.
Example C22_consistent : consistent (sizes 2000 2000) (map (scale_dist 8) stencil).
Proof.
  intros a b ka kb Ia Ib Ka Kb. cbn [map scale_dist stencil In] in Ia, Ib.
  repeat destruct Ia as [<-|Ia]; try contradiction; repeat destruct Ib as [<-|Ib]; try contradiction;
    vm_compute in Ka, Kb; injection Ka as <-; injection Kb as <-; vm_compute; split; intros H;
    try reflexivity; try discriminate; try exact I; try (exfalso; apply H; reflexivity); exact H.
Qed.
Example C22_example : needed (map (fun d => option_map (Z.mul 8) (dist_value (sizes 2000 2000) d)) stencil) 15992 = 63984.
Proof. vm_compute. reflexivity. Qed.

(** ** C23 *)
Theorem C23_total_preorder : forall a b c,
  (key_leb a b = true \/ key_leb b a = true)
  /\ (key_leb a b = true -> key_leb b c = true -> key_leb a c = true)
  /\ (key_leb a b = true -> key_leb b a = true -> a = b).
Proof.
  exact (fun a b c => conj (key_leb_total a b) (conj (key_leb_trans a b c) (key_leb_antisym a b))).
Qed.
(** For growing distances and one common large value of all size constants the keys decide. *)
Theorem C23_order_partial : forall a b ka kb,
  distance_key a = Ok ka -> distance_key b = Ok kb -> grows a -> grows b ->
  exists n0, 1 <= n0 /\ forall n, n0 <= n ->
    (key_leb ka kb = true <-> value_le (dist_value (fun _ => n) a) (dist_value (fun _ => n) b)).
Proof. exact keys_decide. Qed.
Print Assumptions C23_total_preorder.
Print Assumptions C23_order_partial.
(** [N*N - 100*N < N*N + 5] *)
Example C23_example :
  (do a <- distance_key (Poly [(["N"; "N"], 1); (["N"], -100)]); do b <- distance_key (Poly [(["N"; "N"], 1); ([], 5)]);
   Ok (key_leb a b, key_leb b a)) = Ok (true, false)
  /\ grows (Poly [(["N"; "N"], 1); (["N"], -100)]) /\ grows (Poly [(["N"; "N"], 1); ([], 5)]).
Proof.
  split; [vm_compute; reflexivity|]. split.
  all: exists 2%nat; split; [reflexivity|]; intros [|[|[|e]]] He; try lia; reflexivity.
Qed.

(** Size constants of different magnitude: N is ordered before 2*M, although N may be larger for
    arbitrarily large values of both. *)
Theorem C23_separate_constants_refuted : forall n0, 1 <= n0 ->
  exists ka kb rho, distance_key (Poly [(["N"], 1)]) = Ok ka /\ distance_key (Poly [(["M"], 2)]) = Ok kb
    /\ key_leb kb ka = false /\ (forall s, n0 <= rho s) /\ eval rho [(["M"], 2)] < eval rho [(["N"], 1)].
Proof. exact key_separate_symbols. Qed.
(** A distance that falls with the constant is ordered above all numbers. *)
Theorem C23_negative_refuted : exists ka kb,
  distance_key (Poly [([], 5)]) = Ok ka /\ distance_key (Poly [(["N"], -1)]) = Ok kb /\ key_leb kb ka = false
  /\ forall n, 1 <= n -> eval (fun _ => n) [(["N"], -1)] < eval (fun _ => n) [([], 5)].
Proof. exact key_negative. Qed.
(** Distances in which the constants cancel when they are identified have no key. *)
Theorem C23_cancel_refuted : exists p, (exists rho, eval rho p <> eval (fun _ => 1) p)
  /\ distance_key (Poly p) = Err AssertionError.
Proof. exact key_cancel. Qed.
Print Assumptions C23_separate_constants_refuted.
Print Assumptions C23_negative_refuted.
Print Assumptions C23_cancel_refuted.
