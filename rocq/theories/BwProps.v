(** C26 and C27: bandwidths and cache simulator of a machine. *)
From Coq Require Import String.
From Verif Require Import PyNum BwModel BwSpec BwProofs.
Local Open Scope Z_scope.
Local Open Scope string_scope.
Local Open Scope list_scope.

(** ** C26 *)
(** Kernels with writes: the closest mix among all measured kernels, and the first name among equally
    close ones. *)
Theorem C26_closest : forall ks r w k, ~ (w == 0)%Q -> closest ks (ratio r w) = Ok k ->
  (exists x, In x ks /\ writes (snd x) <> 0) ->
  In k ks /\ writes (snd k) <> 0
  /\ forall x, In x ks -> writes (snd x) <> 0 ->
     (distance (snd k) r w <= distance (snd x) r w)%Q
     /\ (String.leb (fst k) (fst x) = false -> (distance (snd k) r w < distance (snd x) r w)%Q).
Proof. exact closest_spec. Qed.
(** Without writes, in the kernel or in all measurements, it is the kernel "load". *)
Theorem C26_no_writes : forall ks r w k, closest ks (ratio r w) = Ok k ->
  (w == 0)%Q \/ (forall x, In x ks -> writes (snd x) = 0) -> get "load" ks = Ok (snd k) /\ fst k = "load".
Proof. exact closest_no_writes. Qed.
Theorem C26_load_required : forall ks t, (exists e, closest ks t = Err e) <-> get "load" ks = Err KeyError.
Proof. exact closest_keyerror. Qed.
(** All cores that share the cache and a NUMA domain: the largest bandwidth. *)
Theorem C26_maximum : forall m lv r w tpc bw n, get_bandwidth m lv r w tpc None = Ok (bw, n) ->
  exists i c b rs v, closest (kernels m) (ratio r w) = Ok (n, i) /\ nth_error (hierarchy m) lv = Some c
    /\ measurements m (level c) tpc = Ok b /\ get n (m_results b) = Ok rs /\ corrected lv i v bw
    /\ (exists j, Z.of_nat j < Z.min (cores_per_group c) (cores_per_numa m) /\ nth_error rs j = Some v)
    /\ forall j y, Z.of_nat j < Z.min (cores_per_group c) (cores_per_numa m) -> nth_error rs j = Some y -> (y <= v)%Q.
Proof. exact bandwidth_max. Qed.
(** A number of cores: the measurement for it. *)
Theorem C26_number_of_cores : forall m lv r w tpc k bw n, get_bandwidth m lv r w tpc (Some k) = Ok (bw, n) ->
  exists i c b rs v, closest (kernels m) (ratio r w) = Ok (n, i) /\ nth_error (hierarchy m) lv = Some c
    /\ measurements m (level c) tpc = Ok b /\ tpc = m_threads b /\ get n (m_results b) = Ok rs
    /\ corrected lv i v bw /\ exists j, nth_error (m_cores b) j = Some k /\ nth_error rs j = Some v.
Proof. exact bandwidth_cores. Qed.
Print Assumptions C26_closest.
Print Assumptions C26_no_writes.
Print Assumptions C26_load_required.
Print Assumptions C26_maximum.
Print Assumptions C26_number_of_cores.

(** The kernels of machinemodel.py:210-236: ratios inf, 2, 1, 4, 2. *)
Definition table : list (string * kernel_info) :=
  [("load", mkInfo 1 0 0 8 0 0); ("copy", mkInfo 1 1 0 8 8 0); ("update", mkInfo 1 1 1 8 8 8);
   ("triad", mkInfo 3 1 0 24 8 0); ("daxpy", mkInfo 2 1 1 16 8 8)].
Definition example_machine : machine :=
  mkMachine [mkCache "L1" 1 64; mkCache "L3" 4 4096] 4 table
    (fun l t => if String.eqb l "L3" then Ok (mkMeasurement t [1; 2; 3; 4; 5]
       [("copy", [10; 19; 27; 26; 99]); ("load", [12; 24; 35; 40; 41])]%Q) else Err KeyError).
Example C26_names : map (fun rw => rmap fst (closest table (ratio (inject_Z (fst rw)) (inject_Z (snd rw)))))
  [(3, 1); (2, 1); (7, 2); (1, 1); (5, 0)] = [Ok "copy"; Ok "copy"; Ok "triad"; Ok "update"; Ok "load"].
Proof. vm_compute. reflexivity. Qed.
Example C26_bandwidths : rmap (fun x => (Qred (fst x), snd x)) (get_bandwidth example_machine 1 2 1 1 None) = Ok (81 # 2, "copy")%Q
  /\ rmap (fun x => (Qred (fst x), snd x)) (get_bandwidth example_machine 1 3 0 1 (Some 5)) = Ok (41, "load")%Q.
Proof. split; vm_compute; reflexivity. Qed.

(** ** C27 *)
(** Right if only one number of cores is ever requested from a machine object. *)
Theorem C27_same_cores_partial : forall m cores l s kept, (forall c, In (Get c) l -> c = cores) ->
  get_cachesim m (history m l) cores = Ok (s, kept) -> sim_levels s = divided m cores /\ sim_used s = false.
Proof. exact get_same_cores. Qed.
Theorem C27_fresh : forall m cores l s kept,
  get_cachesim m (history m l) cores = Ok (s, kept) -> sim_used s = false.
Proof. exact get_fresh. Qed.
(** Otherwise the first request decides for all later ones. *)
Theorem C27_other_cores_refuted : forall m c1 c2 s1 kept l, get_cachesim m None c1 = Ok (s1, kept) ->
  exists s2 kept2, get_cachesim m (fold_left (step m) l kept) c2 = Ok (s2, kept2) /\ sim_levels s2 = sim_levels s1.
Proof. exact get_later. Qed.
Print Assumptions C27_same_cores_partial.
Print Assumptions C27_fresh.
Print Assumptions C27_other_cores_refuted.
Example C27_history : history example_machine [Get 4; Use; Get 4; Use] = Some (mkSim [("L1", 64); ("L3", 1024)] true)
  /\ divided example_machine 4 = [("L1", 64); ("L3", 1024)].
Proof. split; vm_compute; reflexivity. Qed.
Example C27_wrong : rmap fst (get_cachesim example_machine (history example_machine [Get 1]) 4)
  = Ok (mkSim [("L1", 64); ("L3", 4096)] false)
  /\ divided example_machine 4 = [("L1", 64); ("L3", 1024)].
Proof. split; vm_compute; reflexivity. Qed.
(** A cache of 1024 sets shared by two cores only is divided by all eight cores in use. *)
Theorem C27_small_group_refuted : rmap (fun x => sim_levels (fst x))
  (get_cachesim (mkMachine [mkCache "L2" 2 1024] 8 [] (fun _ _ => Err KeyError)) None 8) = Ok [("L2"%string, 1024 / 8)].
Proof. exact small_group. Qed.
Print Assumptions C27_small_group_refuted.
