(** C50-C52: machine files. *)
From Verif Require Import MachModel MachSpec MachProofs.
Local Open Scope Z_scope.
Local Open Scope list_scope.

(** ** C50 *)
(** Missing sizes, results or statistics: the entry is replaced. *)
Theorem C50_incomplete_entries : forall sizes e, NoDup (map fst sizes) ->
  (exists k v, In (k, v) sizes /\ lookup k (e_sizes e) = None) \/ e_results e = None \/ e_stats e = None ->
  update_entry sizes (Some e) = mkEntry sizes (Some []) (Some []).
Proof. exact incomplete_replaced. Qed.
(** Otherwise it is never replaced, whatever the stored sizes are. *)
Theorem C50_changed_sizes_refuted : forall sizes e r s, NoDup (map fst sizes) ->
  (forall k v, In (k, v) sizes -> exists w, lookup k (e_sizes e) = Some w) -> e_results e = Some r -> e_stats e = Some s ->
  update_entry sizes (Some e) = e.
Proof. exact stale_kept. Qed.
(** The comparison which was meant, for sizes that are positive: some pair differs by at least 1 % of the smaller size. *)
Theorem C50_difference : forall a b, (forall x, In x a -> 0 < x)%Q -> (forall y, In y b -> 0 < y)%Q ->
  differs a b = true <-> exists n x y, nth_error a n = Some x /\ nth_error b n = Some y /\ (x + x / 100 <= y \/ y + y / 100 <= x)%Q.
Proof. exact differs_spec. Qed.
Print Assumptions C50_difference.
Example C50_difference_example : differs [100; 200]%Q [100; 201]%Q = false /\ differs [100; 200]%Q [100; 202]%Q = true /\ differs [100; 202]%Q [100; 200]%Q = true.
Proof. repeat split. Qed.
(** A finished update has one result per size, the largest of the measured values; complete measurements are kept. *)
Theorem C50_finished : forall measure cells, (forall i, measure i <> []) -> forall n budget out,
  run_cells measure n budget cells = (out, true) ->
  Forall2 (fun c c' => c_sizes c' = c_sizes c /\ complete c' /\ (complete c /\ c' = c \/ ~ complete c /\ fresh_results c')) cells out.
Proof. exact run_finished. Qed.
(** After any number of interruptions, an uninterrupted update finishes with one result per size. *)
Theorem C50_resume : forall cells l measure budget, history cells l -> (forall i, measure i <> []) -> (all_sizes cells <= budget)%nat ->
  exists out, run_cells measure O budget l = (out, true)
    /\ Forall2 (fun c c' => c_sizes c' = c_sizes c /\ complete c' /\ (complete c -> c' = c)) cells out.
Proof. exact resume. Qed.
(** With more than one -v the update fails before it measures anything. *)
Theorem C50_verbose_refuted : forall verbose measure budget c cells, 1 < verbose -> run_benchmarks verbose measure budget (c :: cells) = Err NameError.
Proof. intros v m b c l H. cbn. now rewrite (proj2 (Z.ltb_lt 1 v) H). Qed.
Print Assumptions C50_incomplete_entries.
Print Assumptions C50_changed_sizes_refuted.
Print Assumptions C50_finished.
Print Assumptions C50_resume.
Print Assumptions C50_verbose_refuted.

(** A cache that is ten times larger now: the old measurement stays. *)
Definition sizes_of (total : Q) : list (text * list Q) := [(codes "cores", [1%Q]); (codes "total size", [total])].
Definition old_entry : entry := mkEntry (sizes_of 21120) (Some [(codes "copy", [10%Q])]) (Some [(codes "copy", [[9; 10]%Q])]).
Example C50_stale : NoDup (map fst (sizes_of 211200))
  /\ (forall k v, In (k, v) (sizes_of 211200) -> exists w, lookup k (e_sizes old_entry) = Some w)
  /\ update_entry (sizes_of 211200) (Some old_entry) = old_entry /\ differs [21120%Q] [211200%Q] = true.
Proof.
  split; [|split; [|split; reflexivity]].
  - repeat constructor; cbn; try (intros [H|[]]; discriminate). intros [].
  - intros k v [H|[H|[]]]; injection H as <- <-; eexists; reflexivity.
Qed.
Example C50_incomplete : update_entry (sizes_of 211200) (Some (mkEntry [(codes "cores", [1%Q])] (Some []) (Some []))) = mkEntry (sizes_of 211200) (Some []) (Some []).
Proof. reflexivity. Qed.
(** Three sizes for one kernel, complete measurement for another: interrupted after two measurements, then after one, then
    finished. The interrupted measurement starts from the beginning. *)
Definition example_cells : list cell := [mkCell 1 (Some [7%Q]) (Some [[7%Q]]); mkCell 3 None None].
Definition values (k : Z) (n : nat) : list Q := [inject_Z (k + Z.of_nat n); inject_Z (k + 1)].
Example C50_interrupted : let l1 := fst (run_cells (values 10) 0 2 example_cells) in let l2 := fst (run_cells (values 20) 0 1 l1) in
  l1 = [mkCell 1 (Some [7%Q]) (Some [[7%Q]]); mkCell 3 (Some [11; 11]%Q) (Some [[10; 11]; [11; 11]]%Q)]
  /\ l2 = [mkCell 1 (Some [7%Q]) (Some [[7%Q]]); mkCell 3 (Some [21]%Q) (Some [[20; 21]]%Q)]
  /\ run_cells (values 30) 0 4 l2
     = ([mkCell 1 (Some [7%Q]) (Some [[7%Q]]); mkCell 3 (Some [31; 31; 32]%Q) (Some [[30; 31]; [31; 31]; [32; 31]]%Q)], true)
  /\ history example_cells l2 /\ all_sizes example_cells = 4%nat.
Proof.
  cbn zeta. split; [vm_compute; reflexivity|]. split; [vm_compute; reflexivity|]. split; [vm_compute; reflexivity|]. split; [|reflexivity].
  apply again, again, never.
Qed.

(** ** C51 *)
(** Versions of numbers and dots: accepted if newer than every 0.8.3 and not newer than 0.8.17. *)
Theorem C51_numeric : forall ds, ds <> [] -> Forall digits ds -> let v := map value ds in
  check_version (Text (dotted ds)) = Ok tt <->
  (older [0; 8; 3] v /\ ~ exists t, v = [0; 8; 3] ++ t) /\ (older v [0; 8; 17] \/ v = [0; 8; 17]).
Proof. exact check_dotted. Qed.
(** The comparison is an order, as far as it is defined. *)
Theorem C51_order : (forall a, version_le a a = Ok true)
  /\ (forall a b, version_le a b = Ok true -> version_le b a = Ok true -> a = b)
  /\ (forall a b c, version_le a b = Ok true -> version_le b c = Ok true -> version_le a c = Ok true)
  /\ forall a b x, version_le a b = Ok x -> exists y, version_le b a = Ok y /\ (x = true \/ y = true).
Proof. exact (conj version_refl (conj version_antisym (conj version_trans version_total))). Qed.
(** Releases 0.8.3 and later of the series 0.8.3 are not accepted although 0.8.3.dev0 is, a pre-release of the running version
    counts as newer, and numbers in the machine file are an error. *)
Theorem C51_refuted : check_version (Text (codes "0.8.3.dev0")) = Ok tt
  /\ check_version (Text (codes "0.8.3")) = Err ValueError /\ check_version (Text (codes "0.8.3.1")) = Err TypeError
  /\ check_version (Text (codes "0.8.17rc1")) = Err ValueError /\ check_version (Text (codes "0.8.17.dev0")) = Err ValueError
  /\ check_version (Text (codes "v0.8.10")) = Err TypeError /\ check_version Number = Err TypeError /\ check_version (Text []) = Err AttributeError.
Proof. repeat split. Qed.
Print Assumptions C51_numeric.
Print Assumptions C51_order.
Print Assumptions C51_refuted.
Example C51_example : Forall digits [codes "0"; codes "8"; codes "10"] /\ dotted [codes "0"; codes "8"; codes "10"] = codes "0.8.10"
  /\ check_version (Text (codes "0.8.10")) = Ok tt /\ check_version (Text (codes "0.9")) = Err ValueError /\ check_version (Text (codes "0.8.2")) = Err ValueError.
Proof.
  split; [|repeat split]. repeat constructor; cbn; try discriminate; lia.
Qed.
Example C51_comparable : version_le (loose_version (codes "0.8.3.dev0")) (loose_version (codes "0.8.3.dev1")) = Ok true
  /\ loose_version (codes "1.5.1-b2RC") = [Num 1; Num 5; Num 1; Txt (codes "-"); Txt (codes "b"); Num 2; Txt (codes "RC")].
Proof. split; reflexivity. Qed.

(** ** C52 *)
Theorem C52_explicit : forall installed machine args c flags c' fl, c <> [] ->
  get_compiler installed machine args (Some c) flags = Ok (c', fl) -> c' = c.
Proof. exact explicit_compiler. Qed.
Theorem C52_command_line : forall installed machine c f req flags c' fl, empty req ->
  get_compiler installed machine (Some (Some c, f)) req flags = Ok (c', fl) -> c' = c.
Proof. exact command_line_compiler. Qed.
Theorem C52_machine_file : forall installed machine args flags c fl, (args = None \/ exists f, args = Some (None, f)) ->
  get_compiler installed machine args None flags = Ok (c, fl) ->
  exists m1 x m2, machine = m1 ++ (c, x) :: m2 /\ installed c = true /\ forall d y, In (d, y) m1 -> installed d = false.
Proof. exact first_installed. Qed.
Theorem C52_no_compiler : forall installed machine args flags, (args = None \/ exists f, args = Some (None, f)) ->
  (forall c x, In (c, x) machine -> installed c = false) -> get_compiler installed machine args None flags = Err RuntimeError.
Proof. exact none_installed. Qed.
(** The flags: explicit ones, those of the command line, or those of the machine file for the chosen compiler, cut at blanks. *)
Theorem C52_flags : forall installed machine args req flags c fl, get_compiler installed machine args req flags = Ok (c, fl) ->
    exists f, fl = split 32 f
    /\ (forall g, g <> [] -> flags = Some g -> f = g)
    /\ (forall cc g, args = Some (cc, Some g) -> empty flags -> f = g)
    /\ (flags = None -> (args = None \/ exists cc, args = Some (cc, None)) ->
        lookup c machine = Some (Some f) \/ lookup c machine = None /\ f = []).
Proof. exact flags_chosen. Qed.
(** Explicit flags that are empty do not win over the command line, and no flags are one empty flag. *)
Theorem C52_no_flags_refuted : exists installed machine c f,
  get_compiler installed machine (Some (None, Some f)) (Some c) (Some []) = Ok (c, [f])
  /\ get_compiler installed machine None (Some c) (Some []) = Ok (c, [[]]).
Proof. exists (fun _ => true), [], (codes "gcc"), (codes "-O3"). split; reflexivity. Qed.
Print Assumptions C52_explicit.
Print Assumptions C52_command_line.
Print Assumptions C52_machine_file.
Print Assumptions C52_no_compiler.
Print Assumptions C52_flags.
Print Assumptions C52_no_flags_refuted.
Definition example_machine : list (text * option text) := [(codes "icc", Some (codes "-O3 -xAVX")); (codes "gcc", Some (codes "-O3 -march=native"))].
Definition no_icc (c : text) : bool := negb (text_eqb c (codes "icc")).
Example C52_example :
  get_compiler no_icc example_machine None None None = Ok (codes "gcc", [codes "-O3"; codes "-march=native"])
  /\ get_compiler no_icc example_machine (Some (Some (codes "icc"), None)) None None = Ok (codes "icc", [codes "-O3"; codes "-xAVX"])
  /\ get_compiler no_icc example_machine (Some (Some (codes "icc"), Some (codes "-O1"))) (Some (codes "clang")) None = Ok (codes "clang", [codes "-O1"])
  /\ get_compiler (fun _ => false) example_machine (Some (None, Some (codes "-O1"))) None None = Err RuntimeError.
Proof. repeat split; reflexivity. Qed.
