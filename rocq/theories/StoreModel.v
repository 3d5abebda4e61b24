(** Storing of results: kerncraft.py:306-313, 375-423 and picklemerge.py:35-46 *)
From Coq Require Export NArith.
From Verif Require Export PyBase.
Local Open Scope N_scope.
Local Open Scope list_scope.

(** Identifiers and results are known by numbers; see IdentModel for identifiers (kerncraft.py:306-313 and 408). *)
Definition storage := list (N * N).
(** [result_storage\[result_identifier\] = model.results] (kerncraft.py:408) *)
Fixpoint put_result (s : storage) (p : N * N) : storage :=
  match s with [] => [p] | (k, v) :: s' => if fst p =? k then (k, snd p) :: s' else (k, v) :: put_result s' p end.
Definition put_results (s : storage) (l : list (N * N)) : storage := fold_left put_result l s.

(** The file of the results and the temporary file next to it ([None]: no such file) (kerncraft.py:412-417). *)
Record files := mkFiles { store : option (list N); temp : option (list N) }.
(** Steps of the file system: [open(temp_name, 'wb+')], writing one byte, [shutil.move], which renames. For picklemerge: truncating and writing the file
    itself. Simplifications: the data reaches the disk in order, both files are on the same file system, and a step addresses a file by its name (kerncraft.py:412-417). *)
Inductive step := OpenTemp | WriteTemp (b : N) | Move | TruncateStore | WriteStore (b : N).
Definition do_step (f : files) (s : step) : files :=
  match s with
  | OpenTemp => mkFiles (store f) (Some [])
  | WriteTemp b => mkFiles (store f) (match temp f with Some t => Some (t ++ [b]) | None => None end)
  | Move => match temp f with Some t => mkFiles (Some t) None | None => f end
  | TruncateStore => mkFiles (Some []) (temp f)
  | WriteStore b => mkFiles (match store f with Some t => Some (t ++ [b]) | None => None end) (temp f)
  end.
Definition do_steps (f : files) (l : list step) : files := fold_left do_step l f.

(** What [pickle.load] finds (kerncraft.py:306-313) *)
Inductive loaded := Loaded (s : storage) | EndOfFile | Broken.
Section Pickle.
  Variable pickle : storage -> list N.
  Variable unpickle : list N -> loaded.
  (** kerncraft.py:306-313. The file has been opened with mode a+b, which creates it. Other errors than EOFError end the program. *)
  Definition load (f : files) : res storage :=
    match store f with
    | None => Ok []
    | Some t => match unpickle t with Loaded s => Ok s | EndOfFile => Ok [] | Broken => Err RuntimeError end
    end.
  (** kerncraft.py:412-417 *)
  Definition save_steps (s : storage) : list step := OpenTemp :: map WriteTemp (pickle s) ++ [Move].
  (** kerncraft.py:375-417: after the analyses of each combination of constants, whose results are [batches], everything is saved. *)
  Fixpoint run_steps (s : storage) (batches : list (list (N * N))) : list step :=
    match batches with
    | [] => []
    | b :: batches' => save_steps (put_results s b) ++ run_steps (put_results s b) batches'
    end.
  (** A run with the option --store, from parsing to the end (kerncraft.py:304-424) *)
  Definition run (f : files) (batches : list (list (N * N))) : res (list step) := do s <- load f; Ok (run_steps s batches).
  (** picklemerge.py:44-46, with the merged dictionary *)
  Definition merge_steps (s : storage) : list step := TruncateStore :: map WriteStore (pickle s).
End Pickle.
