(** Properties C130 to C132: installation and use of IACA. *)
From Coq Require Import Ascii String Lia.
From Verif Require Import PyBase IacaModel IacaSpec IacaProofs.
Local Open Scope string_scope.
Local Open Scope list_scope.

(** ** C130: only complete installations are found *)

(** Whatever calls of iaca_get have been made, next to each other and interrupted anywhere: an installation which is found is complete, and all of it comes from the downloads of one call. *)
Theorem C130_found_is_complete : forall home package system fix_script, apart home package system ->
  forall st, reachable home package system fix_script st ->
  forall p, find_iaca home package system (files st) = Ok p ->
  exists b args archives o, location home package system b /\ p = b ++ ["bin"] /\ In (Call b args archives) (calls st) /\
    In o ["lin64"; "mac"] /\ (In o args \/ own system o) /\ complete fix_script (files st) b o archives.
Proof.
  intros home package system fix_script A st R p F. apply find_iaca_ok in F. destruct F as (b & L & -> & U & _).
  destruct (usable_finished home package system fix_script st b (reachable_invariant _ _ _ _ A st R) L U) as (args & archives & o & C1 & C2 & C3 & C4 & _ & _).
  exists b, args, archives, o. repeat (split; [assumption || reflexivity|]). apply C4. intros q _. reflexivity.
Qed.
Print Assumptions C130_found_is_complete.

(** Where there is no installation, a call which is not interrupted makes one if the downloads hold the programs and one of the locations can be created. It is found afterwards. *)
Theorem C130_installs : forall home package system fix_script, apart home package system ->
  forall st, reachable home package system fix_script st -> find_iaca home package system (files st) = Err RuntimeError ->
  forall o permitted archives, own system o -> usable o archives ->
  (exists b, location home package system b /\ files st b = None /\ permitted b = true) ->
  exists b steps s', main home package system fix_script [licence] permitted archives (files st) = Install b steps /\ permitted b = true /\
    perform steps (files st) = Ok s' /\ find_iaca home package system s' = Ok (b ++ ["bin"]) /\ complete fix_script s' b o archives /\
    forall q, (forall c, location home package system c -> ~ below c q) -> s' q = files st q.
Proof.
  intros home package system fix_script A st R F o permitted archives O U (b0 & L0 & N0 & P0).
  pose proof (reachable_invariant _ _ _ _ A st R) as INV.
  assert (M : exists b, main home package system fix_script [licence] permitted archives (files st) = Install b (install fix_script b o archives) /\ permitted b = true).
  { unfold main. rewrite F. change (String.eqb licence licence) with true. cbn iota. rewrite (proj2 (get_os_own system o) O).
    unfold search_path. rewrite (proj2 (get_os_own system o) O). cbn [bind].
    destruct (find _ _) as [b|] eqn:FI.
    - exists b. split; [reflexivity|]. apply find_some in FI. destruct FI as [_ FI]. cbn [apply] in FI. destruct (files st b); [discriminate | exact FI].
    - exfalso. pose proof (find_none _ _ FI b0) as X. cbn [apply] in X. rewrite N0, P0 in X. discriminate X.
      apply -> in_rev. destruct L0 as [(o' & O' & ->) | (o' & O' & ->)]; rewrite (own_unique system o' o O' O); cbn; auto. }
  destruct M as (b & M & PB). pose proof M as M'. apply main_install in M'. destruct M' as (L & NB & _).
  assert (N : forall q, files st (b ++ q) = None).
  { destruct INV as (_ & _ & LO). destruct (LO b L) as [[U1 _] | (ar & az & o1 & did & rs & s & _ & _ & _ & C4 & C5 & C6 & C7 & _)].
    - intros q. symmetry. apply (U1 _ (below_app b q)).
    - exfalso. destruct did as [|x did]; [contradiction|]. unfold install in C4. injection C4 as <- _. cbn [perform apply nothing bind] in C6.
      apply (perform_keeps did _ s b C6); [rewrite put_same; discriminate | rewrite (C7 b (below_refl b)); exact NB]. }
  destruct (install_succeeds fix_script b o archives (files st) N U) as (s' & E). exists b, (install fix_script b o archives), s'.
  pose proof (install_complete fix_script b o archives (files st) s' N E s' (fun q _ => eq_refl)) as C.
  split; [exact M|]. split; [exact PB|]. split; [exact E|]. split; [|split; [exact C|]].
  - pose proof (begin_later home package system fix_script st _ _ _ b _ s' M E) as LT.
    remember (State s' ((b, []) :: running st) (Call b [licence] archives :: calls st)) as st' eqn:ES.
    assert (FS : files st' = s') by (rewrite ES; reflexivity). clear ES.
    assert (INV' : invariant home package system fix_script st') by apply (later_invariant _ _ _ _ A st st' LT INV).
    assert (G : forall b', location home package system b' -> b' <> b -> usable_there s' b' = false).
    { intros b' L' D. destruct (usable_there s' b') eqn:UB; [|reflexivity]. exfalso. rewrite <- FS in UB.
      destruct (usable_finished _ _ _ _ st' b' INV' L' UB) as (_ & az & o2 & _ & _ & _ & C' & _). rewrite FS in C'.
      assert (AG : agree b' s' (files st)).
      { intros q B. apply (perform_other _ _ _ _ E). intros x X T. apply (locations_apart _ _ _ A b' b L' L D q B). apply (proj1 (install_cases system fix_script b o archives x X) q T). }
      specialize (C' (files st) AG). apply complete_usable in C'.
      destruct (find_iaca_none _ _ _ _ _ F) as [[X _] | (_ & _ & X)]; [discriminate | rewrite (X b' L') in C'; discriminate]. }
    apply complete_usable in C. destruct (find_iaca home package system s') as [p|e] eqn:FE.
    + apply find_iaca_ok in FE. destruct FE as (b' & L' & -> & UB & _). destruct (list_eq_dec string_dec b' b) as [-> | D]; [reflexivity|].
      rewrite (G b' L' D) in UB. discriminate.
    + exfalso. destruct (find_iaca_none _ _ _ _ _ FE) as [[_ X] | (_ & _ & X)]; [apply (X o O) | rewrite (X b L) in C; discriminate].
  - intros q Q. apply (perform_other _ _ _ _ E). intros x X T. apply (Q b L). apply (proj1 (install_cases system fix_script b o archives x X) q T).
Qed.
Print Assumptions C130_installs.

(** ** C131: repeated, forced and interrupted installations *)

(** An installation which has been found is found from then on and stays as it is, whatever calls of iaca_get follow. Only one in the home directory takes precedence. *)
Theorem C131_found_stays : forall home package system fix_script, apart home package system ->
  forall st, reachable home package system fix_script st ->
  forall b, location home package system b -> find_iaca home package system (files st) = Ok (b ++ ["bin"]) ->
  forall st', later home package system fix_script st st' ->
  (forall q, below b q -> files st' q = files st q) /\
  exists b', find_iaca home package system (files st') = Ok (b' ++ ["bin"]) /\ (b' = b \/ (in_package package system b /\ in_home home system b')).
Proof.
  intros home package system fix_script A st R b L F st' LT. pose proof (reachable_invariant _ _ _ _ A st R) as INV.
  apply find_iaca_ok in F. destruct F as (b1 & _ & E & U & _). apply app_inv_tail in E. subst b1.
  destruct (later_frozen _ _ _ _ A st st' b INV L U LT) as [AG U']. split; [intros q B; symmetry; apply (AG q B)|].
  destruct (find_iaca home package system (files st')) as [p|e] eqn:FE.
  - apply find_iaca_ok in FE. destruct FE as (b' & L' & -> & UB & PR). exists b'. split; [reflexivity|].
    destruct (list_eq_dec string_dec b' b) as [-> | D]; [now left|]. right.
    destruct L as [H | P]; destruct L' as [H' | P'].
    + destruct D. destruct H as (o & O & ->), H' as (o' & O' & ->). now rewrite (own_unique system o o' O O').
    + exfalso. destruct (PR P' b H) as [H' | X]; [|congruence]. destruct (A b' b' H' P') as [X _]. apply X, below_refl.
    + split; assumption.
    + destruct D. destruct P as (o & O & ->), P' as (o' & O' & ->). now rewrite (own_unique system o o' O O').
  - exfalso. destruct (find_iaca_none _ _ _ _ _ FE) as [[_ X] | (_ & _ & X)]; [|rewrite (X b L) in U'; discriminate].
    destruct L as [(o & O & _) | (o & O & _)]; apply (X o O).
Qed.
Print Assumptions C131_found_stays.

(** Without [--force] a call does nothing where an installation is found. *)
Theorem C131_not_repeated : forall home package system fix_script s p args permitted archives,
  find_iaca home package system s = Ok p -> ~ In "--force" args -> main home package system fix_script args permitted archives s = Exit 0.
Proof.
  intros home package system fix_script s p args permitted archives F N. unfold main. rewrite F.
  destruct (existsb (String.eqb "--force") args) eqn:E; [|reflexivity]. exfalso. apply existsb_exists in E. destruct E as (x & I' & E).
  apply String.eqb_eq in E. subst x. auto.
Qed.
Print Assumptions C131_not_repeated.

(** After the directories of the locations have been created (or where they cannot be), no call installs anything, ever again: also if the installations there have been interrupted and nothing is found. *)
Theorem C131_never_again : forall home package system fix_script st st', later home package system fix_script st st' ->
  forall permitted, (forall b, location home package system b -> files st b <> None \/ permitted b = false) ->
  forall args archives b steps, main home package system fix_script args permitted archives (files st') <> Install b steps.
Proof.
  intros home package system fix_script st st' LT permitted B args archives b steps M. pose proof M as M'. apply main_install in M'.
  destruct M' as (L & N & _). destruct (B b L) as [X | X]; [apply (later_keeps _ _ _ _ st st' b L LT X N)|].
  unfold main in M.
  assert (G : forall (l : path -> string -> list op) (o : string), match search_path home package system with
      | Err e => Raise e
      | Ok ps => match find (fun p => match apply (Mkdir p) (files st') with Ok _ => permitted p | Err _ => false end) (rev ps) with Some b => Install b (l b o) | None => Exit 1 end
      end = Install b steps -> False).
  { intros l o E. destruct (search_path home package system) as [ps|]; [|discriminate]. destruct (find _ _) as [b'|] eqn:FI; [|discriminate].
    injection E as -> _. apply find_some in FI. destruct FI as [_ FI]. cbn [apply] in FI. rewrite N, X in FI. discriminate. }
  assert (H : forall l, match l with
      | l0 :: rest =>
          if String.eqb l0 licence then
            match (match rest with o :: _ => if (String.eqb o "lin64" || String.eqb o "mac")%bool then Ok o else Err AssertionError | [] => get_os system end) with
            | Err e => Raise e
            | Ok o =>
                match search_path home package system with
                | Err e => Raise e
                | Ok ps => match find (fun p => match apply (Mkdir p) (files st') with Ok _ => permitted p | Err _ => false end) (rev ps) with Some b => Install b (install fix_script b o archives) | None => Exit 1 end
                end
            end
          else Exit 1
      | [] => Exit 1
      end = Install b steps -> False).
  { intros [|l0 rest] E; [discriminate|]. destruct (String.eqb l0 licence); [|discriminate].
    destruct (match rest with o :: _ => if (String.eqb o "lin64" || String.eqb o "mac")%bool then Ok o else Err AssertionError | [] => get_os system end) as [o|]; [|discriminate].
    apply (G (fun b o => install fix_script b o archives) o E). }
  destruct (find_iaca home package system (files st')) as [p|e].
  - destruct (existsb _ args); [|discriminate]. apply (H _ M).
  - destruct e; try discriminate. apply (H _ M).
Qed.
Print Assumptions C131_never_again.

(** [--force] is not understood where there is no installation. *)
Theorem C131_force_refuted : forall home package system fix_script s permitted archives rest,
  find_iaca home package system s = Err RuntimeError ->
  main home package system fix_script ("--force" :: rest) permitted archives s = Exit 1 /\
  main home package system fix_script (licence :: "--force" :: rest) permitted archives s = Raise AssertionError.
Proof. intros home package system fix_script s permitted archives rest F. unfold main. rewrite F. split; reflexivity. Qed.
Print Assumptions C131_force_refuted.

(** ** C132: the program which is run *)

Lemma supports_map : forall arch exec version options, supports arch exec version options ->
  exists e, find (fun x => String.eqb (fst x) arch) arch_map = Some (e, (exec, options)).
Proof.
  intros arch exec version options [(H & -> & _ & ->) | [(H & -> & _ & ->) | (H & -> & _ & ->)]]; cbn [In] in H;
  repeat (destruct H as [<- | H]; [eexists; reflexivity|]); destruct H.
Qed.

Lemma no_program s d exec : (forall c, resolve s (d ++ [exec]) <> Some (File true c)) -> program s d exec = false.
Proof. intros H. unfold program. destruct (resolve s (d ++ [exec])) as [[|[|] c|]|]; try reflexivity. now destruct (H c). Qed.

(** If no other directory of PATH has a program of this name, the installed version for the microarchitecture is run, which is the program of the downloaded archive. *)
Theorem C132_runs_installed : forall home package system fix_script, apart home package system ->
  forall st, reachable home package system fix_script st ->
  forall p, find_iaca home package system (files st) = Ok p ->
  forall arch exec version options, supports arch exec version options ->
  forall ds file, (forall d c, In d ds -> d <> p -> resolve (files st) (d ++ [exec]) <> Some (File true c)) ->
  analyse home package system (files st) (Some ds) arch file = (Ok (p, exec, options ++ ["-arch"; arch; file]), Some (ds ++ [p])) /\
  exists b args archives o z c, p = b ++ ["bin"] /\ In (Call b args archives) (calls st) /\ archives version o = Ok z /\
    (if String.eqb version "v3.0" then archived z (directory version o) ["iaca"] c /\ resolve (files st) (p ++ [exec]) = Some (File true c)
     else archived z (directory version o) script_name c /\ resolve (files st) (p ++ [exec]) = Some (File true (fix_script c))).
Proof.
  intros home package system fix_script A st R p F arch exec version options S ds file D0.
  assert (D : forall d, In d ds -> d <> p -> program (files st) d exec = false) by (intros d I N; apply no_program; intros c; now apply D0).
  destruct (C130_found_is_complete home package system fix_script A st R p F) as (b & args & archives & o & L & EP & C1 & C2 & C3 & V & _ & L2 & L3 & L4).
  assert (K : exists z c, archives version o = Ok z /\
    (if String.eqb version "v3.0" then archived z (directory version o) ["iaca"] c /\ resolve (files st) (p ++ [exec]) = Some (File true c)
     else archived z (directory version o) script_name c /\ resolve (files st) (p ++ [exec]) = Some (File true (fix_script c)))).
  { assert (G : forall v q, In v ["v2.1"; "v2.2"; "v2.3"; "v3.0"] -> In q (if negb (String.eqb v "v3.0") then [["bin"; "iaca"]; script_name] else [["iaca"]]) -> q <> [] ->
       exists z c, archives v o = Ok z /\ archived z (directory v o) q c /\
         files st (b ++ v :: q) = Some (File true (if negb (String.eqb v "v3.0") then if path_eqb q script_name then fix_script c else c else c))).
    { intros v q Iv Iq Q. destruct (V v Iv) as (z & E & H1 & H2 & H3). destruct (H3 q Iq) as [c' X]. destruct (H2 q _ Q X) as [c AR].
      exists z, c. split; [exact E|]. split; [exact AR|]. destruct (H1 q c AR) as [x Y]. rewrite X in Y. injection Y as EX EC. rewrite <- app_assoc in X.
      cbn [app] in X. rewrite X. now rewrite EC. }
    rewrite EP, <- app_assoc. cbn [app]. destruct S as [(_ & -> & -> & _) | [(_ & -> & -> & _) | (_ & -> & -> & _)]].
    - destruct (G "v2.2" script_name) as (z & c & E & AR & X); [cbn; auto | cbn; auto | discriminate|]. exists z, c. split; [exact E|]. cbn. split; [exact AR|]. rewrite L2. exact X.
    - destruct (G "v2.3" script_name) as (z & c & E & AR & X); [cbn; auto | cbn; auto | discriminate|]. exists z, c. split; [exact E|]. cbn. split; [exact AR|]. rewrite L3. exact X.
    - destruct (G "v3.0" ["iaca"]) as (z & c & E & AR & X); [cbn; auto | cbn; auto | discriminate|]. exists z, c. split; [exact E|]. cbn. split; [exact AR|]. rewrite L4. exact X. }
  destruct K as (z & c & E & K). split; [|exists b, args, archives, o, z, c; auto].
  assert (PR : program (files st) p exec = true).
  { unfold program. destruct (String.eqb version "v3.0"); destruct K as [_ ->]; reflexivity. }
  destruct (supports_map arch exec version options S) as [e FM]. unfold analyse. rewrite FM, F.
  replace (lookup_program (files st) (ds ++ [p]) exec) with (Some p); [reflexivity|]. symmetry. unfold lookup_program. clear - D PR.
  induction ds as [|d ds IH]; cbn; [now rewrite PR|].
  destruct (list_eq_dec string_dec d p) as [-> | N]; [now rewrite PR|]. rewrite (D d (or_introl eq_refl) N). apply IH. intros d' I' N'. apply D; [now right | exact N'].
Qed.
Print Assumptions C132_runs_installed.

(** A program of the same name in any other directory of PATH is run instead. *)
Theorem C132_shadowed_refuted : forall home package system s p, find_iaca home package system s = Ok p ->
  forall arch exec version options, supports arch exec version options ->
  forall (ds1 : list path) (d : path) (ds2 : list path) file x, (forall (d' : path) c, In d' ds1 -> resolve s (d' ++ [exec]) <> Some (File true c)) -> resolve s (d ++ [exec]) = Some (File true x) ->
  fst (analyse home package system s (Some (ds1 ++ d :: ds2)) arch file) = Ok (d, exec, options ++ ["-arch"; arch; file]).
Proof.
  intros home package system s p F arch exec version options S ds1 d ds2 file x N0 P0.
  assert (N : forall d' : path, In d' ds1 -> program s d' exec = false) by (intros d' I; apply no_program; intros c; now apply N0).
  assert (P : program s d exec = true) by (unfold program; now rewrite P0). clear N0 P0. destruct (supports_map arch exec version options S) as [e FM].
  unfold analyse. rewrite FM, F. replace (lookup_program s ((ds1 ++ d :: ds2) ++ [p]) exec) with (Some d); [reflexivity|]. symmetry. unfold lookup_program.
  rewrite <- app_assoc. induction ds1 as [|d1 ds1 IH]; cbn; [now rewrite P|]. rewrite (N d1 (or_introl eq_refl)). apply IH. intros d' I'. apply N. now right.
Qed.
Print Assumptions C132_shadowed_refuted.

(** Failing calls: unknown microarchitectures, no installation, no PATH. The environment is left alone. *)
Theorem C132_failures : forall home package system s env arch file,
  (~ In arch ["NHM"; "WSM"; "SNB"; "IVB"; "HSW"; "BDW"; "SKL"; "SKX"] -> analyse home package system s env arch file = (Err ValueError, env)) /\
  (forall exec version options e, supports arch exec version options -> find_iaca home package system s = Err e -> analyse home package system s env arch file = (Err e, env)) /\
  (forall exec version options p, supports arch exec version options -> find_iaca home package system s = Ok p -> env = None -> analyse home package system s env arch file = (Err KeyError, env)).
Proof.
  intros home package system s env arch file. split; [|split].
  - intros N. unfold analyse. destruct (find (fun x => String.eqb (fst x) arch) arch_map) as [[a [e l]]|] eqn:E; [|reflexivity]. exfalso.
    apply find_some in E. destruct E as [I' E]. cbn [fst] in E. apply String.eqb_eq in E. subst a. apply N. apply (in_map fst) in I'. exact I'.
  - intros exec version options e S F. destruct (supports_map _ _ _ _ S) as [x FM]. unfold analyse. now rewrite FM, F.
  - intros exec version options p S F ->. destruct (supports_map _ _ _ _ S) as [x FM]. unfold analyse. now rewrite FM, F.
Qed.
Print Assumptions C132_failures.

(** PATH grows with each analysis. *)
Theorem C132_path_grows_refuted : forall home package system s p, find_iaca home package system s = Ok p ->
  forall l, (forall x, In x l -> exists exec version options, supports (fst x) exec version options) ->
  forall ds, analyses home package system s (Some ds) l = Some (ds ++ repeat p (List.length l)).
Proof.
  intros home package system s p F l. induction l as [|[arch file] l IH]; intros H ds; cbn; [now rewrite app_nil_r|].
  destruct (H (arch, file) (or_introl eq_refl)) as (exec & version & options & S). cbn [fst] in S.
  assert (E : snd (analyse home package system s (Some ds) arch file) = Some (ds ++ [p])).
  { destruct (supports_map _ _ _ _ S) as [x FM]. unfold analyse. rewrite FM, F. destruct (lookup_program s (ds ++ [p]) exec); reflexivity. }
  rewrite E, IH by (intros x X; apply H; now right). now rewrite <- app_assoc.
Qed.
Print Assumptions C132_path_grows_refuted.

(** The place named in the documentation (README.rst:34) is not looked at: with all versions there nothing is found. *)
Definition manual : fs := fun p => match p with
  | "root" :: ".kerncraft" :: "iaca" :: v :: _ => if existsb (String.eqb v) ["v2.1"; "v2.2"; "v2.3"; "v3.0"] then Some (File true "program") else None | _ => None end.
Theorem C132_manual_refuted :
  (forall v q, In v ["v2.1"; "v2.2"; "v2.3"; "v3.0"] -> exists c, manual (["root"] ++ [".kerncraft"; "iaca"; v] ++ q) = Some (File true c)) /\
  find_iaca ["root"] ["usr"; "kerncraft"] "Linux" manual = Err RuntimeError.
Proof. split; [|reflexivity]. intros v q [<- | [<- | [<- | [<- | []]]]]; eexists; reflexivity. Qed.
Print Assumptions C132_manual_refuted.

(** ** Examples *)
Definition ex_home : path := ["root"].
Definition ex_package : path := ["usr"; "kerncraft"].
Definition ex_fix (c : string) : string := (c ++ " (corrected)")%string.
Definition ex_zip (os v : string) : zip :=
  let d := ("iaca-" ++ (if String.eqb os "mac" then if String.eqb v "v2.1" then "mac64" else os else os))%string in
  if String.eqb v "v3.0" then [([d; "iaca"], ("program " ++ v ++ os)%string); ([d; ".hidden"], "no")]
  else [([d; "bin"; "iaca"], "old"); ([d; "bin"; "iaca.sh"], ("script " ++ v ++ os)%string); (["other"; "bin"; "iaca"], "no"); ([d; "bin"; "iaca"], ("program " ++ v ++ os)%string)].
Definition ex_archives (v o : string) : res zip := Ok (ex_zip o v).
Lemma ex_apart : apart ex_home ex_package "Linux".
Proof.
  intros a b (o & _ & ->) (o' & _ & ->). split; intros [q E]; discriminate E.
Qed.
Lemma ex_own : own "Linux" "lin64".
Proof. left. auto. Qed.
Definition ex_start : state := State nothing [] [].
Lemma ex_fresh : fresh ex_home ex_package "Linux" ex_start.
Proof. repeat split. Qed.
Lemma ex_usable : forall o, o = "lin64" \/ o = "mac" -> usable o ex_archives.
Proof.
  assert (V : forall q : path, existsb hidden q = false -> visible q) by (intros q H; now apply visible_spec).
  intros o [-> | ->]; (split;
  [ intros v [<- | [<- | [<- | []]]]; do 3 eexists; (split; [reflexivity|]); split;
    (split; [discriminate|]); (split; [apply V; reflexivity|]);
    [eexists (_ :: _ :: _ :: nil), nil | eexists (_ :: nil), (_ :: _ :: nil) | eexists (_ :: _ :: _ :: nil), nil | eexists (_ :: nil), (_ :: _ :: nil) | eexists (_ :: _ :: _ :: nil), nil | eexists (_ :: nil), (_ :: _ :: nil)]
  | do 2 eexists; (split; [reflexivity|]); (split; [discriminate|]); (split; [apply V; reflexivity|]); eexists nil, (_ :: nil)]);
  (split; [reflexivity|]); cbn; intros c' H; repeat (destruct H as [H | H]; [discriminate H|]); destruct H.
Qed.

(** An installation on a machine without one *)
Definition ex_files (o : string) : fs := match perform (install ex_fix (ex_package ++ ["iaca"; "lin64"]) o ex_archives) nothing with Ok s => s | Err _ => nothing end.
Definition ex_installed (o : string) : state :=
  State (ex_files o) [(ex_package ++ ["iaca"; "lin64"], [])] [Call (ex_package ++ ["iaca"; "lin64"]) (if String.eqb o "lin64" then [licence] else [licence; o]) ex_archives].
Lemma ex_reachable : forall o, o = "lin64" \/ o = "mac" -> reachable ex_home ex_package "Linux" ex_fix (ex_installed o).
Proof.
  intros o O. exists ex_start. split; [apply ex_fresh|].
  destruct (install_succeeds ex_fix (ex_package ++ ["iaca"; "lin64"]) o ex_archives nothing (fun _ => eq_refl) (ex_usable o O)) as (s' & E).
  assert (F : ex_files o = s') by (unfold ex_files; now rewrite E). unfold ex_installed. rewrite F.
  apply (begin_later ex_home ex_package "Linux" ex_fix ex_start _ (fun _ => true) ex_archives _ (install ex_fix (ex_package ++ ["iaca"; "lin64"]) o ex_archives) s'); [|exact E].
  destruct O as [-> | ->]; reflexivity.
Qed.
Example C130_example : find_iaca ex_home ex_package "Linux" (files (ex_installed "lin64")) = Ok ["usr"; "kerncraft"; "iaca"; "lin64"; "bin"] /\
  resolve (files (ex_installed "lin64")) ["usr"; "kerncraft"; "iaca"; "lin64"; "bin"; "iaca2.3"] = Some (File true "script v2.3lin64 (corrected)") /\
  files (ex_installed "lin64") ["usr"; "kerncraft"; "iaca"; "lin64"; "v2.3"; "bin"; "iaca"] = Some (File true "program v2.3lin64") /\
  files (ex_installed "lin64") ["usr"; "kerncraft"; "iaca"; "lin64"; "v3.0"; ".hidden"] = None.
Proof. vm_compute. repeat split. Qed.
Example C130_example_found : exists b args archives o, location ex_home ex_package "Linux" b /\ ["usr"; "kerncraft"; "iaca"; "lin64"; "bin"] = b ++ ["bin"] /\
  In (Call b args archives) (calls (ex_installed "lin64")) /\ In o ["lin64"; "mac"] /\ (In o args \/ own "Linux" o) /\ complete ex_fix (files (ex_installed "lin64")) b o archives.
Proof. exact (C130_found_is_complete _ _ _ _ ex_apart _ (ex_reachable "lin64" (or_introl eq_refl)) _ (proj1 C130_example)). Qed.
Example C130_example_installs : exists b steps s', main ex_home ex_package "Linux" ex_fix [licence] (fun p => path_eqb p ["root"; ".kerncraft"; "iaca"; "lin64"]) ex_archives nothing = Install b steps /\
  perform steps nothing = Ok s' /\ find_iaca ex_home ex_package "Linux" s' = Ok (b ++ ["bin"]).
Proof.
  destruct (C130_installs _ _ _ ex_fix ex_apart ex_start) with (o := "lin64") (permitted := fun p : path => path_eqb p ["root"; ".kerncraft"; "iaca"; "lin64"]) (archives := ex_archives)
    as (b & steps & s' & H1 & _ & H3 & H4 & _).
  - exists ex_start. split; [apply ex_fresh | apply Now].
  - reflexivity.
  - apply ex_own.
  - apply ex_usable. now left.
  - exists ["root"; ".kerncraft"; "iaca"; "lin64"]. split; [left; exists "lin64"; split; [apply ex_own | reflexivity]|]. split; reflexivity.
  - exists b, steps, s'. auto.
Qed.

(** The property that an interrupted installation can be repeated is false: without permission for the directory of the package one interruption right after the first step is enough. *)
Definition ex_broken : state := State (put nothing ["root"; ".kerncraft"; "iaca"; "lin64"] Dir)
  [(["root"; ".kerncraft"; "iaca"; "lin64"], tl (install ex_fix ["root"; ".kerncraft"; "iaca"; "lin64"] "lin64" ex_archives))] [Call ["root"; ".kerncraft"; "iaca"; "lin64"] [licence] ex_archives].
Theorem C131_interrupted_refuted : exists home package system fix_script permitted st, apart home package system /\ reachable home package system fix_script st /\
  (exists b, in_home home system b /\ permitted b = true) /\
  find_iaca home package system (files st) = Err RuntimeError /\
  forall st' args archives b steps, later home package system fix_script st st' -> main home package system fix_script args permitted archives (files st') <> Install b steps.
Proof.
  set (perm := fun p : path => path_eqb p ["root"; ".kerncraft"; "iaca"; "lin64"]).
  exists ex_home, ex_package, "Linux", ex_fix, perm, ex_broken. split; [apply ex_apart|]. split.
  - exists ex_start. split; [apply ex_fresh|]. apply (Then _ _ _ _ _ ex_start); [apply Now|].
    apply (Begin ex_home ex_package "Linux" ex_fix ex_start [licence] perm ex_archives ["root"; ".kerncraft"; "iaca"; "lin64"] (Mkdir ["root"; ".kerncraft"; "iaca"; "lin64"])); reflexivity.
  - split; [exists ["root"; ".kerncraft"; "iaca"; "lin64"]; split; [exists "lin64"; split; [apply ex_own | reflexivity] | reflexivity]|]. split; [reflexivity|].
    intros st' args archives b steps LT. apply (C131_never_again ex_home ex_package "Linux" ex_fix ex_broken st' LT).
    intros b' [(o & O & ->) | (o & O & ->)]; rewrite (own_unique _ _ _ O ex_own); [left; discriminate | right; reflexivity].
Qed.
Print Assumptions C131_interrupted_refuted.

(** Programs for another operating system are installed where those for this one are looked for. *)
Theorem C131_other_system_refuted : exists home package fix_script st b archives, apart home package "Linux" /\ reachable home package "Linux" fix_script st /\
  find_iaca home package "Linux" (files st) = Ok (b ++ ["bin"]) /\ complete fix_script (files st) b "mac" archives.
Proof.
  exists ex_home, ex_package, ex_fix, (ex_installed "mac"), (ex_package ++ ["iaca"; "lin64"]), ex_archives. split; [apply ex_apart|].
  split; [apply ex_reachable; now right|]. split; [reflexivity|].
  destruct (install_succeeds ex_fix (ex_package ++ ["iaca"; "lin64"]) "mac" ex_archives nothing (fun _ => eq_refl) (ex_usable "mac" (or_intror eq_refl))) as (s' & E).
  assert (F : files (ex_installed "mac") = s') by (cbn [files ex_installed]; unfold ex_files; now rewrite E). rewrite F.
  apply (install_complete ex_fix _ "mac" ex_archives nothing s' (fun _ => eq_refl) E). intros q _. reflexivity.
Qed.
Print Assumptions C131_other_system_refuted.

Example C131_example_force : main ex_home ex_package "Linux" ex_fix [licence; "--force"] (fun _ => true) ex_archives nothing = Raise AssertionError.
Proof. apply (C131_force_refuted ex_home ex_package "Linux" ex_fix nothing (fun _ => true) ex_archives []). reflexivity. Qed.
Example C131_example_repeated : main ex_home ex_package "Linux" ex_fix [licence; "lin64"] (fun _ => true) ex_archives (files (ex_installed "lin64")) = Exit 0.
Proof. apply (C131_not_repeated _ _ _ _ _ _ _ _ _ (proj1 C130_example)). intros [H | [H | []]]; discriminate. Qed.
(** A forced installation goes to the other location. *)
Example C131_example_stays : exists steps, main ex_home ex_package "Linux" ex_fix ["--force"; licence] (fun _ => true) ex_archives (files (ex_installed "lin64")) = Install ["root"; ".kerncraft"; "iaca"; "lin64"] steps /\
  forall st', later ex_home ex_package "Linux" ex_fix (ex_installed "lin64") st' ->
    files st' ["usr"; "kerncraft"; "iaca"; "lin64"; "v2.3"; "bin"; "iaca"] = Some (File true "program v2.3lin64").
Proof.
  eexists. split; [vm_compute; reflexivity|]. intros st' LT.
  assert (L : location ex_home ex_package "Linux" ["usr"; "kerncraft"; "iaca"; "lin64"]) by (right; exists "lin64"; split; [apply ex_own | reflexivity]).
  destruct (C131_found_stays _ _ _ _ ex_apart _ (ex_reachable "lin64" (or_introl eq_refl)) _ L (proj1 C130_example) st' LT) as [H _].
  rewrite H by (exists ["v2.3"; "bin"; "iaca"]; reflexivity). apply C130_example.
Qed.

Example C132_example : analyse ex_home ex_package "Linux" (files (ex_installed "lin64")) (Some [["usr"; "bin"]]) "IVB" "kernel.o" =
  (Ok (["usr"; "kerncraft"; "iaca"; "lin64"; "bin"], "iaca2.3", ["-64"; "-arch"; "IVB"; "kernel.o"]), Some [["usr"; "bin"]; ["usr"; "kerncraft"; "iaca"; "lin64"; "bin"]]).
Proof.
  apply (C132_runs_installed _ _ _ _ ex_apart _ (ex_reachable "lin64" (or_introl eq_refl)) _ (proj1 C130_example) "IVB" "iaca2.3" "v2.3" ["-64"]).
  - right. left. cbn. auto.
  - intros d c [<- | []] _. vm_compute. discriminate.
Qed.
Definition ex_shadow : fs := put (files (ex_installed "lin64")) ["usr"; "bin"; "iaca3.0"] (File true "another program").
Example C132_example_shadowed : fst (analyse ex_home ex_package "Linux" ex_shadow (Some [["bin"]; ["usr"; "bin"]]) "SKX" "kernel.o") = Ok (["usr"; "bin"], "iaca3.0", ["-arch"; "SKX"; "kernel.o"]).
Proof.
  apply (C132_shadowed_refuted ex_home ex_package "Linux" ex_shadow ["usr"; "kerncraft"; "iaca"; "lin64"; "bin"]) with (version := "v3.0") (options := []) (ds1 := [["bin"]]) (ds2 := []) (x := "another program").
  - vm_compute. reflexivity.
  - right. right. cbn. auto 10.
  - intros d c [<- | []]. vm_compute. discriminate.
  - vm_compute. reflexivity.
Qed.
Example C132_example_grows : analyses ex_home ex_package "Linux" (files (ex_installed "lin64")) (Some []) [("IVB", "a.o"); ("SKX", "b.o")] =
  Some [["usr"; "kerncraft"; "iaca"; "lin64"; "bin"]; ["usr"; "kerncraft"; "iaca"; "lin64"; "bin"]].
Proof.
  apply (C132_path_grows_refuted _ _ _ _ _ (proj1 C130_example) [("IVB", "a.o"); ("SKX", "b.o")]).
  intros x [<- | [<- | []]]; cbn; do 3 eexists; [right; left | right; right]; cbn; repeat split; auto 10.
Qed.
Example C132_example_failures : analyse ex_home ex_package "Linux" nothing (Some []) "ICL" "a.o" = (Err ValueError, Some []) /\
  analyse ex_home ex_package "Linux" nothing (Some []) "SKX" "a.o" = (Err RuntimeError, Some []).
Proof.
  split; [apply (C132_failures ex_home ex_package "Linux" nothing (Some []) "ICL" "a.o"); cbn; intuition discriminate|].
  apply (proj1 (proj2 (C132_failures ex_home ex_package "Linux" nothing (Some []) "SKX" "a.o")) "iaca3.0" "v3.0" []); [right; right; cbn; auto 10 | reflexivity].
Qed.
