(** C143 and C144: command lines of the compiler and what is kept of its output. *)
From Coq Require Import Lia.
From Verif Require Import PyBase PyText MachModel CmdModel CmdSpec CmdProofs.
Local Open Scope N_scope.
Local Open Scope list_scope.

(** ** C143 *)
(** Flags written with single spaces are handed to the compiler one by one and in order, to compile the kernel and to assemble marked code. *)
Theorem C143_neat_partial : forall installed machine args relpath headers assembly in_file out_file compiler fl,
  get_compiler installed machine args None None = Ok (compiler, fl) ->
  exists flags, chosen_flags machine args compiler flags /\ forall ws, neat flags -> consists flags ws ->
    compile_command installed machine args relpath headers assembly in_file out_file =
      Ok ([compiler; in_file; codes "-c"; codes "-I" ++ reduce_path relpath headers; codes "-o"; out_file] ++ ws ++ (if assembly then [codes "-S"] else []) ++ [codes "-std=c99"])
    /\ assemble_command installed machine args in_file out_file = Ok ([compiler; in_file] ++ ws ++ [codes "-c"; codes "-o"; out_file]).
Proof.
  intros installed machine args relpath headers assembly in_file out_file compiler fl G. destruct (compiler_flags _ _ _ _ _ G) as (f & -> & C). exists f. split; [exact C|].
  intros ws N W. rewrite (neat_words f ws N W) in G. unfold compile_command, assemble_command. rewrite G. cbn [bind fst snd]. split; [now rewrite <- !app_assoc|]. now rewrite <- !app_assoc.
Qed.
(** Refuted for all other flags (none at all, or more than one space): the compiler gets an empty argument. *)
Theorem C143_spaces_refuted : forall installed machine args relpath headers assembly in_file out_file compiler fl,
  get_compiler installed machine args None None = Ok (compiler, fl) ->
  exists flags, chosen_flags machine args compiler flags /\ (~ neat flags ->
    (exists cmd, compile_command installed machine args relpath headers assembly in_file out_file = Ok cmd /\ In [] cmd) /\
    (exists cmd, assemble_command installed machine args in_file out_file = Ok cmd /\ In [] cmd)).
Proof.
  intros installed machine args relpath headers assembly in_file out_file compiler fl G. destruct (compiler_flags _ _ _ _ _ G) as (f & -> & C). exists f. split; [exact C|].
  intros N. assert (I : In [] (split 32 f)). { destruct (in_dec text_dec [] (split 32 f)) as [I|I]; [exact I|]. exfalso. now apply N, neat_iff. }
  unfold compile_command, assemble_command. rewrite G. cbn [bind fst snd]. split; eexists; (split; [reflexivity|]).
  - apply in_or_app. right. apply in_or_app. right. apply in_or_app. left. apply in_or_app. now left.
  - apply in_or_app. right. apply in_or_app. right. apply in_or_app. left. apply in_or_app. now left.
Qed.
(** The executable is built with all words of the flags and of LIKWID_LIB, however they are spaced, with the value of LIKWID_INCLUDE and LIKWID_INC as one argument each if not empty,
    and without the library if LIKWID_LIB is empty. *)
Definition one_if_any (o : option text) : list text := match o with Some (x :: v) => [x :: v] | _ => [] end.
Theorem C143_executable : forall installed machine args relpath headers env lflags object main out_file cmd after compiler fl,
  get_compiler installed machine args None None = Ok (compiler, fl) ->
  compiler <> [] -> object <> [] -> main <> [] -> out_file <> [] -> reduce_path relpath (headers ++ codes "dummy.c") <> [] ->
  build_command installed machine args relpath headers env lflags object main out_file = Ok (cmd, after) ->
  exists flags lib, chosen_flags machine args compiler flags /\ env (codes "LIKWID_LIB") = Some lib /\ forall ws ls, consists flags ws -> consists lib ls ->
    cmd = [compiler; reduce_path relpath (headers ++ codes "dummy.c"); object; main] ++ ws ++ [codes "-std=c99"; codes "-I" ++ reduce_path relpath headers]
      ++ one_if_any (env (codes "LIKWID_INCLUDE")) ++ one_if_any (env (codes "LIKWID_INC")) ++ (match lib with [] => [] | _ => [codes "-llikwid"] end)
      ++ ls ++ [codes "-pthread"; codes "-o"; out_file].
Proof.
  intros installed machine args relpath headers env lflags object main out_file cmd after compiler fl G Nc No Nm Nf Nd. destruct (compiler_flags _ _ _ _ _ G) as (f & -> & C).
  unfold build_command. rewrite G. cbn [bind fst snd]. destruct (env (codes "LIKWID_LIB")) as [lib|] eqn:EL.
  2:{ unfold is_set at 3. rewrite EL, Bool.andb_false_r. discriminate. }
  destruct (negb _); [discriminate|]. unfold get_or_empty. rewrite EL. intros E. assert (E1 : filter nonempty ([compiler] ++ [reduce_path relpath (headers ++ codes "dummy.c"); object; main] ++
    (match lib with [] => removelast (split 32 f ++ [codes "-std=c99"; codes "-I" ++ reduce_path relpath headers; get_or_empty env (codes "LIKWID_INCLUDE"); get_or_empty env (codes "LIKWID_INC"); codes "-llikwid"])
     | _ => split 32 f ++ [codes "-std=c99"; codes "-I" ++ reduce_path relpath headers; get_or_empty env (codes "LIKWID_INCLUDE"); get_or_empty env (codes "LIKWID_INC"); codes "-llikwid"] end
     ++ split 32 lib ++ [codes "-pthread"]) ++ [codes "-o"; out_file]) = cmd).
  { injection E as <- _. reflexivity. }
  clear E. subst cmd. exists f, lib. split; [exact C|]. split; [reflexivity|]. intros ws ls W L. apply consists_split in W, L.
  assert (K : forall x : text, x <> [] -> nonempty x = true) by (intros [|]; [contradiction|reflexivity]).
  assert (One : forall o, filter nonempty [match o with Some v => v | None => [] end] = one_if_any o) by (intros [[|]|]; reflexivity).
  assert (Mid : forall l, (match l with [] => removelast (split 32 f ++ [codes "-std=c99"; codes "-I" ++ reduce_path relpath headers; get_or_empty env (codes "LIKWID_INCLUDE"); get_or_empty env (codes "LIKWID_INC"); codes "-llikwid"])
     | _ :: _ => split 32 f ++ [codes "-std=c99"; codes "-I" ++ reduce_path relpath headers; get_or_empty env (codes "LIKWID_INCLUDE"); get_or_empty env (codes "LIKWID_INC"); codes "-llikwid"] end)
     = split 32 f ++ [codes "-std=c99"; codes "-I" ++ reduce_path relpath headers] ++ [get_or_empty env (codes "LIKWID_INCLUDE")] ++ [get_or_empty env (codes "LIKWID_INC")] ++ match l : text with [] => [] | _ => [codes "-llikwid"] end).
  { intros [|]; [|reflexivity]. rewrite removelast_app by discriminate. reflexivity. }
  rewrite Mid. clear Mid. rewrite !filter_app, W, L. unfold get_or_empty. rewrite !One.
  assert (F1 : filter nonempty [compiler] = [compiler]) by (cbn [filter]; now rewrite K). assert (F2 : filter nonempty [reduce_path relpath (headers ++ codes "dummy.c"); object; main] = [reduce_path relpath (headers ++ codes "dummy.c"); object; main]) by (cbn [filter]; now rewrite !K).
  assert (F3 : filter nonempty [codes "-o"; out_file] = [codes "-o"; out_file]) by (cbn [filter]; now rewrite !K). rewrite F1, F2, F3.
  replace (filter nonempty (match lib with [] => [] | _ => [codes "-llikwid"] end)) with (match lib with [] => [] | _ => [codes "-llikwid"] end) by (destruct lib; reflexivity).
  cbn [app]. now rewrite <- !app_assoc.
Qed.
(** It is not built only if LIKWID_LIB or both of LIKWID_INCLUDE and LIKWID_INC are missing. *)
Theorem C143_likwid : forall installed machine args relpath headers env lflags object main out_file c,
  get_compiler installed machine args None None = Ok c ->
  (build_command installed machine args relpath headers env lflags object main out_file = Err SystemExit <->
   env (codes "LIKWID_LIB") = None \/ env (codes "LIKWID_INCLUDE") = None /\ env (codes "LIKWID_INC") = None) /\
  (forall e, build_command installed machine args relpath headers env lflags object main out_file = Err e -> e = SystemExit).
Proof.
  intros installed machine args relpath headers env lflags object main out_file c G. unfold build_command. rewrite G. cbn [bind]. unfold is_set.
  destruct (env (codes "LIKWID_INCLUDE")), (env (codes "LIKWID_INC")), (env (codes "LIKWID_LIB")); cbn [orb andb negb]; (split; [split; [intros H; (discriminate || auto)|intros [H|[H H']]; (discriminate || auto)]|intros e [= <-]; reflexivity || discriminate]).
Qed.
(** Refuted: several options in LIKWID_INCLUDE are handed over as one argument. *)
Theorem C143_include_refuted : forall installed machine args relpath headers env lflags object main out_file cmd after v,
  build_command installed machine args relpath headers env lflags object main out_file = Ok (cmd, after) ->
  env (codes "LIKWID_INCLUDE") = Some v -> v <> [] -> In v cmd.
Proof.
  intros installed machine args relpath headers env lflags object main out_file cmd after v. unfold build_command. destruct (get_compiler _ _ _ _ _) as [c|]; [|discriminate]. cbn [bind].
  destruct (negb _); [discriminate|]. intros E V N. assert (Iv : In v (snd c ++ [codes "-std=c99"; codes "-I" ++ reduce_path relpath headers; get_or_empty env (codes "LIKWID_INCLUDE"); get_or_empty env (codes "LIKWID_INC")])).
  { apply in_or_app. right. unfold get_or_empty. rewrite V. right. right. now left. }
  assert (E1 := f_equal (fun r => match r with Ok p => fst p | Err _ => [] end) E). cbv beta iota in E1. cbn [fst] in E1. rewrite <- E1. clear E E1. apply filter_In. split; [|destruct v; [contradiction|reflexivity]]. apply in_or_app. right. apply in_or_app. right. apply in_or_app. left. apply in_or_app. left.
  assert (R : forall A (l : list A) a b d e x, removelast (l ++ [a; b; d; e; x]) = l ++ [a; b; d; e]) by (intros; rewrite removelast_app by discriminate; reflexivity).
  destruct (env (codes "LIKWID_LIB")) as [[|]|]; [rewrite R; exact Iv| |]; (apply in_app_or in Iv as [Iv|Iv]; apply in_or_app; [now left|right]; cbn [In] in *; tauto).
Qed.
(** Refuted: the argument lflags of build_executable has no effect on the executable, but the caller's list is changed. *)
Theorem C143_lflags_refuted : forall installed machine args relpath headers env lflags lflags' object main out_file cmd after,
  build_command installed machine args relpath headers env lflags object main out_file = Ok (cmd, after) ->
  (exists more, more <> [] /\ after = lflags ++ more) /\ exists after', build_command installed machine args relpath headers env lflags' object main out_file = Ok (cmd, after').
Proof.
  intros installed machine args relpath headers env lflags lflags' object main out_file cmd after. unfold build_command. destruct (get_compiler _ _ _ _ _) as [c|]; [|discriminate]. cbn [bind].
  destruct (negb _); [discriminate|]. intros [= <- <-]. split; [|eexists; reflexivity]. eexists. split; [|reflexivity]. intros H. apply app_eq_nil in H as [_ H]. discriminate.
Qed.
(** Paths are made relative only where this is shorter, and stay the same file. *)
Theorem C143_paths : forall {F} (file : text -> F) relpath path, file (relpath path) = file path ->
  file (reduce_path relpath path) = file path /\ (List.length (reduce_path relpath path) <= List.length path)%nat /\ (List.length (reduce_path relpath path) <= List.length (relpath path))%nat.
Proof. intros F file relpath path H. unfold reduce_path. destruct (Nat.ltb_spec (List.length (relpath path)) (List.length path)); repeat split; auto; lia. Qed.
(** Words of a text: every text has exactly one list of words. *)
Theorem C143_words : forall t, exists ws, consists t ws /\ forall ws', consists t ws' -> ws' = ws.
Proof. intros t. eexists. split; [apply split_consists|]. intros ws' H. symmetry. now apply consists_split. Qed.
Print Assumptions C143_neat_partial.
Print Assumptions C143_spaces_refuted.
Print Assumptions C143_executable.
Print Assumptions C143_likwid.
Print Assumptions C143_include_refuted.
Print Assumptions C143_lflags_refuted.
Print Assumptions C143_paths.
Print Assumptions C143_words.

Definition some_compilers : list (text * option text) := [(codes "icc", Some (codes "-O3 -xHost")); (codes "gcc", Some (codes "-O3  -march=native"))].
Definition only (c : string) (x : text) : bool := text_eqb x (codes c).
Definition some_env (n : text) : option text :=
  if text_eqb n (codes "LIKWID_INCLUDE") then Some (codes "-I/a -I/b") else if text_eqb n (codes "LIKWID_LIB") then Some (codes "-L/a  -L/b") else None.
Example C143_example :
  compile_command (only "icc") some_compilers None (fun _ => codes "h") (codes "/k/headers/") true (codes "kernel.c") (codes "kernel.s")
    = Ok (map codes ["icc"; "kernel.c"; "-c"; "-Ih"; "-o"; "kernel.s"; "-O3"; "-xHost"; "-S"; "-std=c99"]%string)
  /\ compile_command (only "gcc") some_compilers None (fun _ => codes "h") (codes "/k/headers/") false (codes "kernel.c") (codes "kernel.o")
    = Ok (map codes ["gcc"; "kernel.c"; "-c"; "-Ih"; "-o"; "kernel.o"; "-O3"; ""; "-march=native"; "-std=c99"]%string)
  /\ assemble_command (only "icc") some_compilers None (codes "m.s") (codes "m.o") = Ok (map codes ["icc"; "m.s"; "-O3"; "-xHost"; "-c"; "-o"; "m.o"]%string)
  /\ build_command (only "gcc") some_compilers None (fun p => p) (codes "/k/headers/") some_env [] (codes "k.o") (codes "main.c") (codes "k")
    = Ok (map codes ["gcc"; "/k/headers/dummy.c"; "k.o"; "main.c"; "-O3"; "-march=native"; "-std=c99"; "-I/k/headers/"; "-I/a -I/b"; "-llikwid"; "-L/a"; "-L/b"; "-pthread"; "-o"; "k"]%string,
          map codes ["-L/a"; ""; "-L/b"; "-pthread"]%string)
  /\ neat (codes "-O3 -xHost") /\ ~ neat (codes "-O3  -march=native") /\ consists (codes "-O3  -march=native") [codes "-O3"; codes "-march=native"].
Proof.
  split; [vm_compute; reflexivity|]. split; [vm_compute; reflexivity|]. split; [vm_compute; reflexivity|]. split; [vm_compute; reflexivity|].
  split; [apply neat_iff; vm_compute; intuition discriminate|]. split; [rewrite neat_iff; vm_compute; intuition|]. apply consists_iff. vm_compute. reflexivity.
Qed.

(** ** C144 *)
(** What other compilers write, and objects, are kept as they are. *)
Theorem C144_others : forall compiler assembly output, compiler <> codes "icc" \/ assembly = false -> kept_output compiler assembly output = output.
Proof. intros c a o H. unfold kept_output. destruct (text_eqb_spec c (codes "icc")) as [->|N]; [|reflexivity]. destruct H as [H| ->]; [contradiction|reflexivity]. Qed.
(** In assembly of icc, every vkmovb becomes kmovb and nothing else is changed. *)
Theorem C144_icc : forall output r, kept_output (codes "icc") true output = r <-> rewritten (codes "vkmovb") (codes "kmovb") output r.
Proof. exact icc_iff. Qed.
(** Refuted: there is no vkmovb afterwards (which can only be the case where the letter v is doubled). *)
Theorem C144_again_refuted : kept_output (codes "icc") true (codes "vvkmovb") = codes "vkmovb".
Proof. reflexivity. Qed.
Print Assumptions C144_others.
Print Assumptions C144_icc.
Print Assumptions C144_again_refuted.
Example C144_example : kept_output (codes "icc") true (codes "vkmovb %eax, %k1; kmovb; vkmovb") = codes "kmovb %eax, %k1; kmovb; kmovb"
  /\ rewritten (codes "vkmovb") (codes "kmovb") (codes "a vkmovb b") (codes "a kmovb b") /\ kept_output (codes "gcc") true (codes "vkmovb") = codes "vkmovb".
Proof. split; [reflexivity|]. split; [apply C144_icc; reflexivity|reflexivity]. Qed.
