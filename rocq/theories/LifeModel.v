(** Machine descriptions in a process and on disk: [/repo/kerncraft/machinemodel.py] 88-186 (loading), 411-417 (age), 612-627 (saving), 868-918
    (the program that writes a description); ages of files: [/repo/kerncraft/kernel.py] 799-808 and [/repo/kerncraft/kerncraft.py] 74-85.
    Reading and writing YAML is not part of the repository: what [yaml.load] and [yaml.dump] give are parameters. Simplifications: the working
    directory does not change; symbolic links are other files; times are whole numbers. *)
From Coq Require Export String.
From Verif Require Export PyBase PyText PyDict.
Local Open Scope Z_scope.
Local Open Scope list_scope.

Fixpoint set_nth {A} (i : nat) (a : A) (l : list A) : list A :=
  match i, l with O, _ :: l' => a :: l' | S i', x :: l' => x :: set_nth i' a l' | _, [] => [] end.

Section Life.
  (** The content of a description *)
  Context {data : Type}.
  (** The description without values: machinemodel.py:102-151 *)
  Variable default : data.
  (** [os.path.abspath], machinemodel.py:161 *)
  Variable abspath : text -> text.
  (** [yaml.load], machinemodel.py:165: None for an empty document *)
  Variable parse : text -> res (option data).
  (** machinemodel.py:170-183, for a dictionary (see check_version in MachModel.v) *)
  Variable supported : data -> res unit.
  (** [yaml.dump(data)], machinemodel.py:617 *)
  Variable yaml_dump : data -> res text.

  (** Files by absolute path (as used in machinemodel.py:92-183 and 612-627) *)
  Definition disk := text -> option text.
  Definition put (p t : text) (d : disk) : disk := fun q => if text_eqb q p then Some t else d q.
  Definition erase (p : text) (d : disk) : disk := fun q => if text_eqb q p then None else d q.

  (** ** Models in a process *)
  (** A model: [_path], and the number of the dictionary [_data] (machinemodel.py:92-183) *)
  Record model := mkModel { m_path : option text; m_data : nat }.
  (** Dictionaries are numbered; an empty document is None. [s_loaded] is [_loaded_machine_yaml] (machinemodel.py:90), shared by all models. *)
  Record state := mkState { s_disk : disk; s_loaded : tdict nat; s_dicts : list (option data); s_models : list model }.
  (** machinemodel.py:170-183: [in] of None is a TypeError. *)
  Definition checked (d : option data) : res unit := match d with None => Err TypeError | Some d => supported d end.
  (** machinemodel.py:162-166: the number of the dictionary for a path. A document that could not be read is not kept, one that is unsupported is. *)
  Definition load (st : state) (p : text) : state * res nat :=
    match tget (abspath p) (s_loaded st) with
    | Some n => (st, Ok n)
    | None =>
        match s_disk st (abspath p) with
        | None => (st, Err OSError)
        | Some t =>
            match parse t with
            | Err e => (st, Err e)
            | Ok d => let n := List.length (s_dicts st) in
                      (mkState (s_disk st) (tset (abspath p) n (s_loaded st)) (s_dicts st ++ [d]) (s_models st), Ok n)
            end
        end
    end.
  (** What [MachineModel] is called with: a path, a dictionary or nothing. Both is a ValueError (153-154); an empty path and an empty
      dictionary count as nothing (157, 167), the latter is left out. *)
  Inductive source := FromFile (p : text) | FromDict (d : data) | Nothing | Both.
  Definition dictionary (st : state) (s : source) : state * res nat :=
    let add d := (mkState (s_disk st) (s_loaded st) (s_dicts st ++ [Some d]) (s_models st), Ok (List.length (s_dicts st))) in
    match s with
    | FromFile [] => add default
    | FromFile p => load st p
    | FromDict d => add d
    | Nothing => add default
    | Both => (st, Err ValueError)
    end.
  Definition path_of (s : source) : option text := match s with FromFile p => Some p | _ => None end.
  (** machinemodel.py:92-183: the number of the new model *)
  Definition new (st : state) (s : source) : state * res nat :=
    match dictionary st s with
    | (st1, Err e) => (st1, Err e)
    | (st1, Ok n) =>
        match checked (nth n (s_dicts st1) None) with
        | Err e => (st1, Err e)
        | Ok _ => (mkState (s_disk st1) (s_loaded st1) (s_dicts st1) (s_models st1 ++ [mkModel (path_of s) n]), Ok (List.length (s_models st1)))
        end
    end.
  (** The description a model has, as machinemodel.py:391 reads it *)
  Definition description (st : state) (m : nat) : option data :=
    match nth_error (s_models st) m with Some x => nth (m_data x) (s_dicts st) None | None => None end.
  (** [if self._path], machinemodel.py:406 and 413; [open(None)] is a TypeError, [open('')] an OSError. *)
  Definition save_to (given path : option text) : res text :=
    match given, path with
    | Some p, _ | None, Some p => match p with [] => Err OSError | _ => Ok (abspath p) end
    | None, None => Err TypeError
    end.
  (** machinemodel.py:612-627 for a path: the file is emptied, then written. *)
  Definition dump (d : data) (given path : option text) : res (list (text * text)) :=
    do t <- yaml_dump d;
    do p <- save_to given path;
    Ok [(p, []); (p, t)].
  Definition write_all (d : disk) (l : list (text * text)) : disk := fold_left (fun d w => put (fst w) (snd w) d) l d.
  (** What may happen in a process: a new model, another path (185-186), a change of the dictionary (188-201), saving; others may change
      and remove files. *)
  Inductive event :=
  | New (s : source) | SetPath (m : nat) (p : text) | Change (m : nat) (f : data -> data) | Dump (m : nat) (p : option text)
  | Edit (p t : text) | Remove (p : text).
  Definition step (st : state) (e : event) : state :=
    match e with
    | New s => fst (new st s)
    | SetPath m p =>
        match nth_error (s_models st) m with
        | Some x => mkState (s_disk st) (s_loaded st) (s_dicts st) (set_nth m (mkModel (Some p) (m_data x)) (s_models st))
        | None => st
        end
    | Change m f =>
        match nth_error (s_models st) m, description st m with
        | Some x, Some d => mkState (s_disk st) (s_loaded st) (set_nth (m_data x) (Some (f d)) (s_dicts st)) (s_models st)
        | _, _ => st
        end
    | Dump m p =>
        match nth_error (s_models st) m, description st m with
        | Some x, Some d =>
            match dump d p (m_path x) with
            | Ok ws => mkState (write_all (s_disk st) ws) (s_loaded st) (s_dicts st) (s_models st)
            | Err _ => st
            end
        | _, _ => st
        end
    | Edit p t => mkState (put (abspath p) t (s_disk st)) (s_loaded st) (s_dicts st) (s_models st)
    | Remove p => mkState (erase (abspath p) (s_disk st)) (s_loaded st) (s_dicts st) (s_models st)
    end.
  Definition run (st : state) (l : list event) : state := fold_left step l st.
  Definition initial (d : disk) : state := mkState d [] [] [].

  (** ** The program that writes a description: machinemodel.py:868-918 *)
  (** A part of [update]: how it changes the description, and whether the description is saved afterwards (machinemodel.py:379) *)
  Record part := mkPart { p_change : data -> res data; p_saved : bool }.
  (** machinemodel.py:912-916: the parts one after the other; before part number [interrupt], the user presses Ctrl-C. The writes and the description. *)
  Fixpoint update_parts (path : text) (parts : list part) (interrupt : option nat) (d : data) : list (text * text) * res data :=
    match interrupt, parts with
    | Some O, _ | _, [] => ([], Ok d)
    | _, x :: rest =>
        match p_change x d with
        | Err e => ([], Err e)
        | Ok d' =>
            match (if p_saved x then dump d' None (Some path) else Ok []) with
            | Err e => ([], Err e)
            | Ok ws => let (ws', r) := update_parts path rest (option_map pred interrupt) d' in (ws ++ ws', r)
            end
        end
    end.
  (** [argparse.FileType('w')], machinemodel.py:889: the file is emptied while the arguments are read. "-" is the standard output, its name (910) is "<stdout>". *)
  Definition standard_output : text := codes "-".
  Definition opened (out : text) : list (text * text) := if text_eqb out standard_output then [] else [(abspath out, [])].
  Definition output_name (out : text) : text := if text_eqb out standard_output then codes "<stdout>" else out.
  (** machinemodel.py:894 and 905-908: [out_first] tells whether the output file comes before the option -m. A basis that can not be read ends the
      program with an exit code. *)
  Definition basis (files : disk) (base : option text) (out : text) (out_first : bool) : list (text * text) * res data :=
    match base with
    | None => (opened out, do _ <- supported default; Ok default)
    | Some p =>
        match (if out_first then write_all files (opened out) else files) (abspath p) with
        | None => (if out_first then opened out else [], Err SystemExit)
        | Some _ =>
            (opened out,
             match write_all files (opened out) (abspath p) with
             | None => Err OSError
             | Some t => do d <- parse t; do _ <- checked d; match d with Some d => Ok d | None => Err TypeError end
             end)
        end
    end.
  (** All writes in their order, and how the program ends (machinemodel.py:868-918) *)
  Definition main (files : disk) (base : option text) (out : text) (out_first : bool) (parts : list part) (interrupt : option nat) : list (text * text) * res unit :=
    match basis files base out out_first with
    | (ws, Err e) => (ws, Err e)
    | (ws, Ok d) =>
        match update_parts (output_name out) parts interrupt d with
        | (ws', Err e) => (ws ++ ws', Err e)
        | (ws', Ok d') =>
            match dump d' None (Some (output_name out)) with
            | Err e => (ws ++ ws', Err e)
            | Ok ws'' => (ws ++ ws' ++ ws'', Ok tt)
            end
        end
    end.
  (** The files if the process dies after [n] writes (of machinemodel.py:868-918) *)
  Definition files_after (files : disk) (ws : list (text * text)) (n : nat) : disk := write_all files (firstn n ws).
End Life.

(** ** Age of intermediate files *)
(** The directory of kerncraft: times of the files, None for those that have vanished (or point nowhere); and directories (kerncraft.py:74-85) *)
Inductive tree := Dir (files : list (option Z)) (dirs : list tree).
(** [os.walk], kerncraft.py:78-84: the latest time so far *)
Definition latest_file (latest : Z) (f : option Z) : Z := match f with Some t => Z.max latest t | None => latest end.
Fixpoint latest (t : tree) (m : Z) : Z :=
  match t with
  | Dir files dirs => fold_left (fun m d => latest d m) dirs (fold_left latest_file files m)
  end.
(** kerncraft.py:74-85: kept by [lru_cache] for the rest of the process. The new content of the cache and the result *)
Definition kerncraft_modified (cache : option Z) (t : tree) : option Z * Z :=
  match cache with Some m => (Some m, m) | None => let m := latest t 0 in (Some m, m) end.
(** machinemodel.py:411-417: time of the file, or the current local time ([zone]: its difference from UTC). A missing file is an OSError. *)
Inductive machine_source := File (mtime : option Z) | NoFile.
Definition machine_modified (m : machine_source) (now zone : Z) : res Z :=
  match m with File (Some t) => Ok t | File None => Err OSError | NoFile => Ok (now + zone) end.
(** kernel.py:799-808; [and] stops at the first false, so later times are not looked up. *)
Definition check_freshness (cache : option Z) (intermediate : option Z) (m : machine_source) (t : tree) (kernel : option Z) (now zone : Z) : res bool :=
  match intermediate with
  | None => Ok false
  | Some f =>
      do a <- machine_modified m now zone;
      if negb (a <? f) then Ok false else
      if negb (snd (kerncraft_modified cache t) <? f) then Ok false else
      match kernel with None => Err OSError | Some k => Ok (k <? f) end
  end.
