(** Command lines of the compiler: kernel.py:209-215, 1597-1602, 1623-1652, 1666-1675 and 1756-1804. *)
From Verif Require Export PyBase PyText.
From Verif Require Import MachModel PerfModel.
Local Open Scope N_scope.
Local Open Scope list_scope.

(** kernel.py:209-215; [relpath] is os.path.relpath, which depends on the working directory. *)
Definition reduce_path (relpath : text -> text) (path : text) : text :=
  if (List.length (relpath path) <? List.length path)%nat then relpath path else path.

Section Commands.
  (** The machine as for C52, the working directory and the directory of kerncraft with '/headers/' (kernel.py:1649-1650, 1779-1780 and 1798-1799) *)
  Variable installed : text -> bool.
  Variable machine : list (text * option text).
  Variable args : option (option text * option text).
  Variable relpath : text -> text.
  Variable headers : text.

  (** kernel.py:1597-1602: the arguments handed to the operating system *)
  Definition assemble_command (in_file out_file : text) : res (list text) :=
    do c <- get_compiler installed machine args None None;
    Ok ([fst c] ++ [in_file] ++ (snd c ++ [codes "-c"]) ++ [codes "-o"; out_file]).
  (** kernel.py:1623-1652 *)
  Definition compile_command (assembly : bool) (in_file out_file : text) : res (list text) :=
    do c <- get_compiler installed machine args None None;
    let compiler_args := (snd c ++ (if assembly then [codes "-S"] else [])) ++ [codes "-std=c99"] in
    Ok ([fst c] ++ [in_file; codes "-c"; codes "-I" ++ reduce_path relpath headers; codes "-o"; out_file] ++ compiler_args).

  (** [os.environ.get(name, '')] (kernel.py:1781-1782) *)
  Definition get_or_empty (env : text -> option text) (name : text) : text := match env name with Some v => v | None => [] end.
  Definition is_set (env : text -> option text) (name : text) : bool := match env name with Some _ => true | None => false end.
  (** kernel.py:1756 and 1769-1804: the arguments, and the list [lflags] of the caller afterwards *)
  Definition build_command (env : text -> option text) (lflags : list text) (object main out_file : text) : res (list text * list text) :=
    do c <- get_compiler installed machine args None None;
    if negb ((is_set env (codes "LIKWID_INCLUDE") || is_set env (codes "LIKWID_INC")) && is_set env (codes "LIKWID_LIB")) then Err SystemExit else
    let compiler_args := snd c ++ [codes "-std=c99"; codes "-I" ++ reduce_path relpath headers;
      get_or_empty env (codes "LIKWID_INCLUDE"); get_or_empty env (codes "LIKWID_INC"); codes "-llikwid"] in
    let compiler_args := match env (codes "LIKWID_LIB") with Some [] => removelast compiler_args | _ => compiler_args end in
    let libs := split 32 (get_or_empty env (codes "LIKWID_LIB")) ++ [codes "-pthread"] in
    let compiler_args := compiler_args ++ libs in
    let infiles := [reduce_path relpath (headers ++ codes "dummy.c"); object; main] in
    let cmd := [fst c] ++ infiles ++ compiler_args ++ [codes "-o"; out_file] in
    Ok (filter (fun a => match a with [] => false | _ => true end) cmd, lflags ++ libs).
End Commands.

(** kernel.py:1666-1675: what is kept of the compiler's output; [assembly] is the argument of compile_kernel. *)
Definition kept_output (compiler : text) (assembly : bool) (output : text) : text :=
  if text_eqb compiler (codes "icc") && assembly then replace (List.length output) (codes "vkmovb") (codes "kmovb") output else output.
