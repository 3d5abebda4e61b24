(** C133: results of the stand-alone benchmark are stored under the values they were measured with, and kept. C134: the regions named with --marker are analysed. *)
From Coq Require Import QArith Permutation.
From Verif Require Import PyBase PyNum PyText PyDict StoreModel BenchModel RegionModel RegionSpec RegionProofs RegionProps AloneModel AloneSpec AloneProofs.
Local Open Scope list_scope.

(** The key of a result: the names given by the user in their order, with the arguments of the run the result was made from. *)
Theorem C133_values : forall R execute (evaluate : text -> text -> Z -> list (text * Q) -> res R) fuel c cs r, NoDup (map fst (c_define c)) -> measure R execute evaluate fuel c = Ok (cs, r) ->
  map fst cs = map fst (c_define c) /\
  exists i times, execute (c_binary c) (c_machine c) (c_cores c) (map snd cs) i = Ok times /\ evaluate (c_binary c) (c_machine c) (c_cores c) times = Ok r.
Proof.
  intros R execute evaluate fuel c cs r ND H. unfold measure in H.
  destruct (session _ fuel 0 [([], 0%Q)] (c_define c) (initial_constants (c_define c)) []) as [[[[d cs0] ts] done]|] eqn:S; cbn [bind fst snd] in H; [|discriminate].
  destruct (evaluate (c_binary c) (c_machine c) (c_cores c) ts) as [r0|] eqn:V; cbn [bind] in H; [|discriminate]. injection H as <- <-.
  apply session_values in S; [|exact ND | now apply initial_values | left; auto | reflexivity]. destruct S as (S1 & -> & earlier & _ & S3).
  split; [rewrite values_keys; exact S1|]. exists (List.length earlier), ts. split; [|exact V]. replace (map snd (values d)) with (arguments d); [exact S3|].
  unfold values, arguments. rewrite map_map. reflexivity.
Qed.
Print Assumptions C133_values.

(** Calls one after the other, each going to its end or killed at any step: some of them take effect, among them all which measure something and are not killed. What is found afterwards under the name
    of a binary and constants is the result of the last of these with this name and such constants; where there is none, it is what was there before. *)
Theorem C133_history : forall R (pickle : storage R -> list N) unpickle, (forall s, unpickle (pickle s) = Found R s) -> unpickle [] = Empty R ->
  forall execute evaluate fuel l f old, load_store R unpickle f = Ok old -> exists flags new,
    List.length flags = List.length l /\ load_store R unpickle (history pickle unpickle execute evaluate fuel f l) = Ok new /\
    (forall e, In (e, true) (combine l flags) -> exists x, measure R execute evaluate fuel (e_call e) = Ok x) /\
    (forall e, In (e, false) (combine l flags) -> e_killed e <> None \/ exists x, measure R execute evaluate fuel (e_call e) = Err x) /\
    (forall b k m r, stored new b k m r <->
       (m = codes "stand-alone benchmark" /\ last_added execute evaluate fuel (combine l flags) b k r) \/
       ((m <> codes "stand-alone benchmark" \/ none_added execute evaluate fuel (combine l flags) b k) /\ stored old b k m r)).
Proof. intros R pickle unpickle HP HE execute evaluate fuel l f old L. exact (history_spec R pickle unpickle HP HE execute evaluate fuel l f old L). Qed.
Print Assumptions C133_history.

(** A file which cannot be read is not touched, nor is the program run. *)
Theorem C133_unreadable : forall R pickle unpickle execute (evaluate : text -> text -> Z -> list (text * Q) -> res R) fuel t temporary c k,
  unpickle t = Unreadable R -> let f := mkFiles (Some t) temporary in
  run R pickle unpickle execute evaluate fuel f c = Err RuntimeError /\ history pickle unpickle execute evaluate fuel f [mkEvent c k] = f.
Proof. intros R pickle unpickle execute evaluate fuel t temporary c k U f. unfold history, run, load_store, opened, f. cbn [store temp]. rewrite U. split; reflexivity. Qed.
Print Assumptions C133_unreadable.

(** The directory of the binary, the machine and the number of cores are not part of the key: a result replaces one measured with another binary of the same name, or on another machine or with another
    number of cores. *)
Theorem C133_replaced_refuted : forall R (pickle : storage R -> list N) unpickle, (forall s, unpickle (pickle s) = Found R s) -> unpickle [] = Empty R ->
  forall execute evaluate fuel f old c1 c2 b k cs r1 r2, load_store R unpickle f = Ok old ->
  measure R execute evaluate fuel c1 = Ok (k, r1) -> measure R execute evaluate fuel c2 = Ok (cs, r2) -> alike k cs -> file_name (c_binary c1) b -> file_name (c_binary c2) b -> r1 <> r2 ->
  exists mid new, load_store R unpickle (history pickle unpickle execute evaluate fuel f [mkEvent c1 None]) = Ok mid /\ stored mid b k (codes "stand-alone benchmark") r1 /\
    load_store R unpickle (history pickle unpickle execute evaluate fuel f [mkEvent c1 None; mkEvent c2 None]) = Ok new /\
    stored new b k (codes "stand-alone benchmark") r2 /\ forall k' m, ~ stored old b k' m r1 -> ~ stored new b k' m r1.
Proof.
  intros R pickle unpickle HP HE execute evaluate fuel f old c1 c2 b k cs r1 r2 L M1 M2 K B1 B2 D.
  change (history pickle unpickle execute evaluate fuel f [mkEvent c1 None; mkEvent c2 None])
    with (after R pickle unpickle execute evaluate fuel (after R pickle unpickle execute evaluate fuel f (mkEvent c1 None)) (mkEvent c2 None)).
  change (history pickle unpickle execute evaluate fuel f [mkEvent c1 None]) with (after R pickle unpickle execute evaluate fuel f (mkEvent c1 None)).
  destruct (after_spec R pickle unpickle HP HE execute evaluate fuel f (mkEvent c1 None) old L) as [[_ [X | [x X]]] | (k0 & r0 & M & L1)]; [now elim X | cbn in X; congruence|].
  cbn [e_call] in M, L1. rewrite M1 in M. injection M as <- <-.
  destruct (after_spec R pickle unpickle HP HE execute evaluate fuel _ (mkEvent c2 None) _ L1) as [[_ [X | [x X]]] | (k0 & r0 & M & L2)]; [now elim X | cbn in X; congruence|].
  cbn [e_call] in M, L2. rewrite M2 in M. injection M as <- <-. exists (add_result R old (c_binary c1) k model_name r1), (add_result R (add_result R old (c_binary c1) k model_name r1) (c_binary c2) cs model_name r2).
  split; [exact L1|]. split; [apply add_stored; left; auto using alike_refl|]. split; [exact L2|]. split; [apply add_stored; left; auto|].
  intros k' m N S. apply add_stored in S. destruct S as [(_ & _ & _ & X) | [X S]]; [contradiction|].
  apply add_stored in S. destruct S as [(_ & Y & Z & _) | [_ S]]; [|contradiction]. apply X. split; [exact B2|]. split; [apply (alike_trans _ _ _ Y K) | exact Z].
Qed.
Print Assumptions C133_replaced_refuted.

(** The file is read before the measurement. If another call saves its result in between, that result is lost. *)
Theorem C133_concurrent_refuted : forall R (pickle : storage R -> list N) unpickle, (forall s, unpickle (pickle s) = Found R s) ->
  forall execute evaluate fuel f old c1 c2 s1 s2, load_store R unpickle f = Ok old ->
  run R pickle unpickle execute evaluate fuel f c1 = Ok s1 -> run R pickle unpickle execute evaluate fuel f c2 = Ok s2 ->
  exists new, load_store R unpickle (do_steps (do_steps f s1) s2) = Ok new /\
    forall b k m r, stored new b k m r -> stored old b k m r \/ (m = codes "stand-alone benchmark" /\ adds execute evaluate fuel (mkEvent c2 None) b k r).
Proof.
  intros R pickle unpickle HP execute evaluate fuel f old c1 c2 s1 s2 L R1 R2. unfold run in R2. rewrite L in R2. cbn [bind] in R2.
  destruct (measure R execute evaluate fuel c2) as [[cs r]|] eqn:M; cbn [bind fst snd] in R2; [|discriminate].
  assert (E : s2 = save R pickle (add_result R old (c_binary c2) cs model_name r)) by congruence. clear R2 R1. subst s2. rewrite save_whole.
  exists (add_result R old (c_binary c2) cs model_name r). split; [now apply load_saved|]. intros b k m x S. apply add_stored in S.
  destruct S as [(S1 & S2 & -> & ->) | [_ S]]; [right | now left]. split; [reflexivity|]. exists cs. auto.
Qed.
Print Assumptions C133_concurrent_refuted.

(** The order of the options is part of the key: the same values given in another order are another entry, and the earlier result stays where it was. *)
Theorem C133_order_refuted : forall R (pickle : storage R -> list N) unpickle, (forall s, unpickle (pickle s) = Found R s) -> unpickle [] = Empty R ->
  forall execute evaluate fuel f old c1 c2 b k1 k2 r1 r2, load_store R unpickle f = Ok old ->
  measure R execute evaluate fuel c1 = Ok (k1, r1) -> measure R execute evaluate fuel c2 = Ok (k2, r2) -> Permutation k1 k2 -> map fst k1 <> map fst k2 -> file_name (c_binary c1) b -> file_name (c_binary c2) b ->
  exists new, load_store R unpickle (history pickle unpickle execute evaluate fuel f [mkEvent c1 None; mkEvent c2 None]) = Ok new /\
    stored new b k1 (codes "stand-alone benchmark") r1 /\ stored new b k2 (codes "stand-alone benchmark") r2.
Proof.
  intros R pickle unpickle HP HE execute evaluate fuel f old c1 c2 b k1 k2 r1 r2 L M1 M2 _ D B1 B2.
  change (history pickle unpickle execute evaluate fuel f [mkEvent c1 None; mkEvent c2 None])
    with (after R pickle unpickle execute evaluate fuel (after R pickle unpickle execute evaluate fuel f (mkEvent c1 None)) (mkEvent c2 None)).
  destruct (after_spec R pickle unpickle HP HE execute evaluate fuel f (mkEvent c1 None) old L) as [[_ [X | [x X]]] | (k0 & r0 & M & L1)]; [now elim X | cbn in X; congruence|].
  cbn [e_call] in M, L1. rewrite M1 in M. injection M as <- <-.
  destruct (after_spec R pickle unpickle HP HE execute evaluate fuel _ (mkEvent c2 None) _ L1) as [[_ [X | [x X]]] | (k0 & r0 & M & L2)]; [now elim X | cbn in X; congruence|].
  cbn [e_call] in M, L2. rewrite M2 in M. injection M as <- <-. eexists. split; [exact L2|]. split; apply add_stored; [|left; auto using alike_refl].
  right. split; [|apply add_stored; left; auto using alike_refl]. intros (_ & A & _). apply D. clear - A. induction A as [|x y a b [E _] F IH]; [reflexivity|]. cbn. now rewrite E, IH.
Qed.
Print Assumptions C133_order_refuted.

(** Regions named with --marker, separated by commas: exactly these are analysed if the program has all of them, otherwise nothing is. The empty name is that of the whole program and counts only if there
    is no other. *)
Theorem C134_named : forall clock ignore found output rs f names, perfctr clock ignore found output = Ok (rs, f) ->
  names <> [] -> Forall (fun r => ~ In 44%N r) names -> join 44 names <> [] ->
  exists wanted, NoDup wanted /\ (forall r, In r wanted <-> In r names /\ (r <> [] \/ forall r', In r' names -> r' = [])) /\
    (choose_regions (initial_regions (Some (Some (join 44 names)))) rs = Ok wanted /\ (forall r, In r wanted -> exists k e, reported rs r k e)
     \/ choose_regions (initial_regions (Some (Some (join 44 names)))) rs = Err SystemExit /\ exists r, In r wanted /\ forall k e, ~ reported rs r k e).
Proof.
  intros clock ignore found output rs f names P NE F J. exists (initial_regions (Some (Some (join 44 names)))).
  assert (I' : forall r, In r (initial_regions (Some (Some (join 44 names)))) <-> In r names /\ (r <> [] \/ forall r', In r' names -> r' = [])).
  { intros r. rewrite initial_in, parse_names by assumption. reflexivity. }
  split; [apply initial_nodup|]. split; [exact I'|]. apply (C97_given clock ignore found output rs f _ P). intros E.
  assert (X : forall r, ~ (In r names /\ (r <> [] \/ forall r', In r' names -> r' = []))) by (intros r R; apply I' in R; rewrite E in R; destruct R).
  destruct names as [|n names]; [congruence|]. apply (X n). split; [now left|]. right. intros r' R. destruct r' as [|c r']; [reflexivity|]. exfalso. apply (X (c :: r')). split; [exact R|]. left. discriminate.
Qed.
Print Assumptions C134_named.
(** Without the option the whole program is one region; the option without names stands for all regions the program reports (C97_all). *)
Theorem C134_unnamed : initial_regions None = [[]] /\ initial_regions (Some None) = [].
Proof. split; reflexivity. Qed.
Print Assumptions C134_unnamed.
(** An empty text as name is taken as no name: all regions. *)
Theorem C134_empty_refuted : forall clock ignore found output rs f, perfctr clock ignore found output = Ok (rs, f) ->
  choose_regions (initial_regions (Some (Some []))) rs = choose_regions (initial_regions (Some None)) rs.
Proof. reflexivity. Qed.
Print Assumptions C134_empty_refuted.

(** ** Cases *)
(** A way to write storages: every list is preceded by its length. *)
Definition put_list {A} (e : A -> list N) (l : list A) : list N := N.of_nat (List.length l) :: flat_map e l.
Fixpoint get_items {A} (d : list N -> option (A * list N)) (n : nat) (l : list N) : option (list A * list N) :=
  match n with
  | O => Some ([], l)
  | S n' => match d l with Some (x, l1) => match get_items d n' l1 with Some (xs, l2) => Some (x :: xs, l2) | None => None end | None => None end
  end.
Definition get_list {A} (d : list N -> option (A * list N)) (l : list N) : option (list A * list N) := match l with [] => None | n :: l' => get_items d (N.to_nat n) l' end.
Definition put_pair {A B} (e : A -> list N) (f : B -> list N) (p : A * B) : list N := e (fst p) ++ f (snd p).
Definition get_pair {A B} (d : list N -> option (A * list N)) (e : list N -> option (B * list N)) (l : list N) : option (A * B * list N) :=
  match d l with Some (x, l1) => match e l1 with Some (y, l2) => Some ((x, y), l2) | None => None end | None => None end.
Definition reads {A} (e : A -> list N) (d : list N -> option (A * list N)) := forall x l, d (e x ++ l) = Some (x, l).
Lemma reads_list {A} (e : A -> list N) d : reads e d -> reads (put_list e) (get_list d).
Proof.
  intros H x l. unfold put_list, get_list. rewrite <- app_comm_cons, Nnat.Nat2N.id. induction x as [|y x IH]; [reflexivity|]. cbn. rewrite <- app_assoc, H, IH. reflexivity.
Qed.
Lemma reads_pair {A B} (e : A -> list N) d (f : B -> list N) g : reads e d -> reads f g -> reads (put_pair e f) (get_pair d g).
Proof. intros H K [x y] l. unfold put_pair, get_pair. cbn. rewrite <- app_assoc, H, K. reflexivity. Qed.
Definition put_n (n : N) : list N := [n].
Definition get_n (l : list N) : option (N * list N) := match l with [] => None | n :: l' => Some (n, l') end.
Definition put_q (q : Q) : list N := [Z.to_N (- Qnum q); Z.to_N (Qnum q); Npos (Qden q)].
Definition get_q (l : list N) : option (Q * list N) := match l with a :: b :: Npos d :: l' => Some ((Z.of_N b - Z.of_N a)%Z # d, l') | _ => None end.
Lemma reads_q : reads put_q get_q.
Proof. intros [[|p|p] d] l; reflexivity. Qed.
Definition put_text := put_list put_n.
Definition get_text := get_list get_n.
Definition toy_pickle : storage N -> list N := put_list (put_pair put_text (put_list (put_pair (put_list (put_pair put_text put_q)) (put_list (put_pair put_text put_n))))).
Definition toy_unpickle (l : list N) : found N :=
  match l with
  | [] => Empty N
  | _ => match get_list (get_pair get_text (get_list (get_pair (get_list (get_pair get_text get_q)) (get_list (get_pair get_text get_n))))) l with Some (s, []) => Found N s | _ => Unreadable N end
  end.
Example C133_toy : (forall s, toy_unpickle (toy_pickle s) = Found N s) /\ toy_unpickle [] = Empty N.
Proof.
  split; [|reflexivity]. intros s.
  assert (RN : reads put_n get_n) by (intros x l; reflexivity). assert (RT : reads put_text get_text) by (now apply reads_list).
  assert (H : reads toy_pickle (get_list (get_pair get_text (get_list (get_pair (get_list (get_pair get_text get_q)) (get_list (get_pair get_text get_n))))))).
  { apply reads_list, reads_pair; [exact RT|]. apply reads_list, reads_pair; [apply reads_list, reads_pair; [exact RT | exact reads_q]|]. apply reads_list, reads_pair; assumption. }
  specialize (H s []). rewrite app_nil_r in H. unfold toy_unpickle. rewrite H. destruct (toy_pickle s) eqn:E; [discriminate E | reflexivity].
Qed.
(** A binary whose region main runs for a thousandth of a second per repetition, with the number of repetitions its first argument; other machines are twice as fast. *)
Definition toy_execute (binary machine : text) (cores : Z) (arguments : list Q) (i : nat) : res (list (text * Q)) :=
  match arguments with n :: _ => Ok [(codes "main", (n * (if text_eqb machine (codes "IVY.yml") then 1 # 1000 else 1 # 2000))%Q)] | [] => Err SystemExit end.
Definition toy_evaluate (binary machine : text) (cores : Z) (times : list (text * Q)) : res N :=
  match times with (_, t) :: _ => Ok (Z.to_N (Qceiling (t * 10)%Q)) | [] => Err KeyError end.
Definition repetitions : text * var := (codes "_R", mkVar true [codes "main"] Lin 100 100000).
Definition length_N : text * var := (codes "N", mkVar false [codes "main"] Lin 1000 1000).
Definition first_call := mkCall (codes "build/triad") [repetitions; length_N] (codes "IVY.yml") 1.
Example C133_values_case : measure N toy_execute toy_evaluate 10 first_call = Ok ([(codes "_R", 2000%Q); (codes "N", 1000%Q)], 20%N).
Proof. vm_compute. reflexivity. Qed.
(** The first call is killed before the file is moved, the second is not, the third is a binary which is not found. *)
Definition third_call := mkCall (codes "build/triad") [] (codes "IVY.yml") 1.
Example C133_history_case :
  let f := history toy_pickle toy_unpickle toy_execute toy_evaluate 10 (mkFiles None None) [mkEvent first_call (Some 30%nat); mkEvent first_call None; mkEvent third_call None] in
  load_store N toy_unpickle f = Ok [(codes "triad", [([(codes "_R", 2000%Q); (codes "N", 1000%Q)], [(codes "stand-alone benchmark", 20%N)])])] /\
  load_store N toy_unpickle (history toy_pickle toy_unpickle toy_execute toy_evaluate 10 (mkFiles None None) [mkEvent first_call (Some 30%nat)]) = Ok [] /\
  measure N toy_execute toy_evaluate 10 third_call = Err SystemExit.
Proof. vm_compute. auto. Qed.
Definition other_machine := mkCall (codes "old/triad") [(codes "_R", mkVar true [codes "main"] Lin 2000 2000); length_N] (codes "SNB.yml") 1.
Example C133_replaced_case : measure N toy_execute toy_evaluate 10 other_machine = Ok ([(codes "_R", 2000%Q); (codes "N", 1000%Q)], 10%N) /\ 
  file_name (c_binary first_call) (codes "triad") /\ file_name (c_binary other_machine) (codes "triad").
Proof. split; [vm_compute; reflexivity|]. split; apply base_name_spec; vm_compute; reflexivity. Qed.
Definition other_binary := mkCall (codes "build/copy") [repetitions] (codes "IVY.yml") 1.
Example C133_concurrent_case : exists s1 s2, run N toy_pickle toy_unpickle toy_execute toy_evaluate 10 (mkFiles (Some []) None) first_call = Ok s1 /\
  run N toy_pickle toy_unpickle toy_execute toy_evaluate 10 (mkFiles (Some []) None) other_binary = Ok s2 /\
  load_store N toy_unpickle (do_steps (do_steps (mkFiles (Some []) None) s1) s2) = Ok [(codes "copy", [([(codes "_R", 2000%Q)], [(codes "stand-alone benchmark", 20%N)])])].
Proof. do 2 eexists. split; [vm_compute; reflexivity|]. split; [vm_compute; reflexivity|]. vm_compute. reflexivity. Qed.
Definition ordered (l : list (text * var)) := mkCall (codes "triad") l (codes "IVY.yml") 1.
Definition long_N : text * var := (codes "N", mkVar false [codes "main"] Lin 2000 2000).
Definition long_R : text * var := (codes "_R", mkVar true [codes "main"] Lin 2000 100000).
Example C133_order_case : measure N toy_execute toy_evaluate 10 (ordered [long_R; long_N]) = Ok ([(codes "_R", 2000%Q); (codes "N", 2000%Q)], 20%N) /\
  measure N toy_execute toy_evaluate 10 (ordered [long_N; long_R]) = Ok ([(codes "N", 2000%Q); (codes "_R", 2000%Q)], 20%N).
Proof. vm_compute. auto. Qed.
Example C134_named_case : initial_regions (Some (Some (codes "main,,init,main"))) = [codes "main"; codes "init"] /\ join 44 [codes "main"; []; codes "init"; codes "main"] = codes "main,,init,main".
Proof. vm_compute. auto. Qed.
