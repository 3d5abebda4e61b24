(** Installation and use of IACA: iaca_get.py and incore_model.py:874-926.
    Simplifications: paths are lists of names, directories between a location and the files of an archive are not kept, temporary directories are not part of the file system, and permissions are those for
    creating the directory of a location. *)
From Coq Require Import Ascii String.
From Verif Require Import PyBase.
Local Open Scope string_scope.
Local Open Scope list_scope.
Local Open Scope Z_scope.

(** ** Files *)
(** Names of directories from the root, then the name of the file (iaca_get.py:55-57) *)
Definition path := list string.
(** Whether two names are those of the same file (iaca_get.py:67) *)
Definition path_eqb (p q : path) : bool := if list_eq_dec string_dec p q then true else false.
(** Directories, files (executable or not) with a content, and symbolic links (iaca_get.py:108, 140, 143-152, 253-257) *)
Inductive node := Dir | File (executable : bool) (content : string) | Link (target : path).
(** What is at each place (os.path.exists, iaca_get.py:67) *)
Definition fs := path -> option node.
(** The file system after one change (iaca_get.py:108, 140-160, 253-257) *)
Definition put (s : fs) (p : path) (n : node) : fs := fun q => if path_eqb q p then Some n else s q.
(** [target] from a link in the directory [d] (iaca_get.py:254-257) *)
Definition follow (d target : path) : path := fold_left (fun d c => if String.eqb c ".." then removelast d else d ++ [c]) target d.
(** What a path stands for (iaca_get.py:67). Simplification: links to links are not followed, there are none. *)
Definition resolve (s : fs) (p : path) : option node := match s p with Some (Link t) => s (follow (removelast p) t) | n => n end.
(** os.path.exists, iaca_get.py:67 *)
Definition exists_ (s : fs) (p : path) : bool := match resolve s p with Some _ => true | None => false end.

(** ** Steps of an installation (iaca_get.py:108-257); a program may end between any two of them. *)
Inductive op :=
| Mkdir (p : path)                    (* os.makedirs, os.mkdir and the first step of copytree: iaca_get.py:108, 140, 253 *)
| Copy (p : path) (content : string)  (* one file of copytree: iaca_get.py:140 *)
| Chmod (p : path)                    (* os.stat and os.chmod: iaca_get.py:143-152 *)
| Truncate (p : path)                 (* open for reading, then for writing: iaca_get.py:155, 160 *)
| Write (p : path) (content : string) (* iaca_get.py:160 *)
| Symlink (p : path) (target : path)  (* iaca_get.py:254-257 *)
| Fail (e : exn).                     (* downloads and archives which cannot be used: iaca_get.py:132, 139 and 140 *)
(** Files of an archive are not executable after extractall (iaca_get.py:139), os.chmod makes them so (144-147). Directories and links are made only where there is nothing (108, 140, 253-257). *)
Definition apply (o : op) (s : fs) : res fs :=
  match o with
  | Mkdir p => match s p with None => Ok (put s p Dir) | Some _ => Err OSError end
  | Copy p c => Ok (put s p (File false c))
  | Chmod p => match s p with Some (File _ c) => Ok (put s p (File true c)) | Some _ => Ok s | None => Err OSError end
  | Truncate p => match s p with Some (File x _) => Ok (put s p (File x "")) | _ => Err OSError end
  | Write p c => match s p with Some (File x _) => Ok (put s p (File x c)) | _ => Err OSError end
  | Symlink p t => match s p with None => Ok (put s p (Link t)) | Some _ => Err OSError end
  | Fail e => Err e
  end.
(** Steps one after the other, up to the first exception (iaca_get.py:125-257) *)
Fixpoint perform (os : list op) (s : fs) : res fs := match os with [] => Ok s | o :: os' => do s' <- apply o s; perform os' s' end.

Section Iaca.
  (** The home directory and the directory of the package (iaca_get.py:55-57) *)
  Variables home package : path.
  (** platform.system() (iaca_get.py:44) *)
  Variable system : string.
  (** Replacements of texts in iaca.sh (iaca_get.py:156-159), not modelled further *)
  Variable fix_script : string -> string.
  (** iaca_get.py:42-47 *)
  Definition get_os : res string := if String.eqb system "Darwin" then Ok "mac" else if String.eqb system "Linux" then Ok "lin64" else Err AssertionError.
  (** iaca_get.py:50-57 *)
  Definition search_path : res (list path) := do o <- get_os; Ok [home ++ [".kerncraft"; "iaca"; o]; package ++ ["iaca"; o]].
  (** iaca_get.py:62 *)
  Definition requires : list string := ["iaca2.2"; "iaca2.3"; "iaca3.0"].
  (** iaca_get.py:60-73 *)
  Definition find_iaca (s : fs) : res path :=
    do ps <- search_path;
    match find (fun p => forallb (fun r => exists_ s (p ++ ["bin"; r])) requires) ps with Some p => Ok (p ++ ["bin"]) | None => Err RuntimeError end.

  (** ** Archives *)
  (** Names and contents of a zip file (iaca_get.py:132) *)
  Definition zip := list (path * string).
  (** '/.' in a name: iaca_get.py:135, 169, 203, 237 *)
  Definition hidden (n : string) : bool := match n with String c _ => Ascii.eqb c "."%char | EmptyString => false end.
  (** iaca_get.py:133-135, 167-169, 201-203, 235-237: the files in the directory of the operating system, without hidden ones, with their names below this directory (140).
      Simplification: entries for directories are left out. *)
  Definition members (dir : string) (z : zip) : zip :=
    flat_map (fun e => match fst e with d :: n :: rest => if (String.eqb d dir && negb (existsb hidden (n :: rest)))%bool then [(n :: rest, snd e)] else [] | _ => [] end) z.
  (** Later files replace earlier ones (extractall, iaca_get.py:139). *)
  Definition content (z : zip) (p : path) : option string := option_map snd (find (fun e => path_eqb (fst e) p) (rev z)).
  (** One version: download and extraction (iaca_get.py:130-140, 164-174, 198-208, 232-242), permissions (143-152, 177-186, 211-220), iaca.sh (155-160, 189-194, 223-228). Version 3.0 has only
      an executable (245-249). Simplification: files are copied in the order of the archive. *)
  Definition install_version (base : path) (v dir : string) (script : bool) (archive : res zip) : list op :=
    match archive with
    | Err e => [Fail e]
    | Ok z =>
        let m := members dir z in
        match m with
        | [] => [Fail OSError]
        | _ => Mkdir (base ++ [v]) :: map (fun e : path * string => Copy (base ++ v :: fst e) (snd e)) m ++
               if script then
                 [Chmod (base ++ [v; "bin"; "iaca"]); Chmod (base ++ [v; "bin"; "iaca.sh"]); Truncate (base ++ [v; "bin"; "iaca.sh"]);
                  match content m ["bin"; "iaca.sh"] with Some c => Write (base ++ [v; "bin"; "iaca.sh"]) (fix_script c) | None => Fail OSError end]
               else [Chmod (base ++ [v; "iaca"])]
        end
    end.
  (** iaca_get.py:108, 125-257; the directory for the Mac has another name in version 2.1 (126-129). *)
  Definition install (base : path) (o : string) (archives : string -> string -> res zip) : list op :=
    Mkdir base ::
    install_version base "v2.1" ("iaca-" ++ (if String.eqb o "mac" then "mac64" else o))%string true (archives "v2.1" o) ++
    install_version base "v2.2" ("iaca-" ++ o)%string true (archives "v2.2" o) ++
    install_version base "v2.3" ("iaca-" ++ o)%string true (archives "v2.3" o) ++
    install_version base "v3.0" ("iaca-" ++ o)%string false (archives "v3.0" o) ++
    [Mkdir (base ++ ["bin"]);
     Symlink (base ++ ["bin"; "iaca2.1"]) [".."; "v2.1"; "bin"; "iaca.sh"]; Symlink (base ++ ["bin"; "iaca2.2"]) [".."; "v2.2"; "bin"; "iaca.sh"];
     Symlink (base ++ ["bin"; "iaca2.3"]) [".."; "v2.3"; "bin"; "iaca.sh"]; Symlink (base ++ ["bin"; "iaca3.0"]) [".."; "v3.0"; "iaca"]].

  (** ** The program *)
  (** iaca_get.py:88 *)
  Definition licence : string := "--I-accept-the-Intel-What-If-Pre-Release-License-Agreement-and-please-take-my-soul".
  (** [list.remove] (iaca_get.py:81) *)
  Fixpoint remove_first (x : string) (l : list string) : list string := match l with [] => [] | y :: l' => if String.eqb y x then l' else y :: remove_first x l' end.
  (** The end of the program before anything is changed, or the location and the steps of the installation in it (iaca_get.py:84, 95, 98, 121 and 125-257) *)
  Inductive outcome := Exit (status : Z) | Raise (e : exn) | Install (base : path) (steps : list op).
  (** iaca_get.py:76-258, [args] is sys.argv[1:]. Directories which cannot be created because of permissions or because they exist are passed over (105-118). *)
  Definition main (args : list string) (permitted : path -> bool) (archives : string -> string -> res zip) (s : fs) : outcome :=
    let go (args : list string) : outcome :=
      match args with
      | l :: rest =>
          if String.eqb l licence then
            match (match rest with o :: _ => if (String.eqb o "lin64" || String.eqb o "mac")%bool then Ok o else Err AssertionError | [] => get_os end) with
            | Err e => Raise e
            | Ok o =>
                match search_path with
                | Err e => Raise e
                | Ok ps => match find (fun p => match apply (Mkdir p) s with Ok _ => permitted p | Err _ => false end) (rev ps) with Some b => Install b (install b o archives) | None => Exit 1 end
                end
            end
          else Exit 1
      | [] => Exit 1
      end in
    match find_iaca s with
    | Ok _ => if existsb (String.eqb "--force") args then go (remove_first "--force" args) else Exit 0
    | Err RuntimeError => go args
    | Err e => Raise e
    end.

  (** ** Use (incore_model.py:874-926) *)
  (** incore_model.py:888-898 *)
  Definition arch_map : list (string * (string * list string)) :=
    [("NHM", ("iaca2.2", ["-64"])); ("WSM", ("iaca2.2", ["-64"])); ("SNB", ("iaca2.3", ["-64"])); ("IVB", ("iaca2.3", ["-64"]));
     ("HSW", ("iaca3.0", [])); ("BDW", ("iaca3.0", [])); ("SKL", ("iaca3.0", [])); ("SKX", ("iaca3.0", []))].
  (** Directories of PATH, which may be missing (incore_model.py:908) *)
  Definition environment := option (list path).
  (** A directory holds a program if an executable file of this name is there (subprocess, incore_model.py:921). *)
  Definition program (s : fs) (d : path) (name : string) : bool := match resolve s (d ++ [name]) with Some (File true _) => true | _ => false end.
  (** Programs are looked for in the order of PATH (incore_model.py:911, 921). find_executable also accepts files which cannot be executed and files in the current directory; then the call of
      subprocess fails and the same exception is raised (923-924). *)
  Definition lookup_program (s : fs) (ds : list path) (name : string) : option path := find (fun d => program s d name) ds.
  (** The program which is run (its directory and name) with its arguments, and the environment left behind (incore_model.py:899-926) *)
  Definition analyse (s : fs) (e : environment) (arch file : string) : res (path * string * list string) * environment :=
    match find (fun x => String.eqb (fst x) arch) arch_map with
    | None => (Err ValueError, e)
    | Some (_, (exec, base_args)) =>
        match find_iaca s with
        | Err x => (Err x, e)
        | Ok p =>
            match e with
            | None => (Err KeyError, e)
            | Some ds =>
                let ds' := ds ++ [p] in
                match lookup_program s ds' exec with
                | None => (Err RuntimeError, Some ds')
                | Some d => (Ok (d, exec, base_args ++ ["-arch"; arch; file]), Some ds')
                end
            end
        end
    end.
End Iaca.
