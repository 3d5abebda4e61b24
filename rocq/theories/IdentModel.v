(** Identifiers of results: kerncraft.py:247-277, 405-408 *)
From Verif Require Export PyVal DefineModel.
Local Open Scope string_scope.
Local Open Scope Z_scope.
Local Open Scope list_scope.

(** [to_tuple]: kerncraft.py:247-257. Slices of lists are lists, of tuples tuples. The recursion over the length of a list needs fuel here. *)
Fixpoint to_tuple (fuel : nat) (x : value) : res value :=
  match fuel with
  | O => Err OutOfFuel
  | S fuel =>
      match x with
      | VList l | VTuple l =>
          let slice s := match x with VList _ => VList s | _ => VTuple s end in
          match l with
          | a :: (_ :: _) as r =>
              do f <- to_tuple fuel (slice [a]);
              do g <- to_tuple fuel (slice r);
              match f, g with VTuple f, VTuple g => Ok (VTuple (f ++ g)) | _, _ => Err TypeError end
          | [a] => do f <- to_tuple fuel a; Ok (VTuple [f])
          | [] => Ok (VTuple [])
          end
      | _ => Ok x
      end
  end.
(** kerncraft.py:266-275: the value of one argument *)
Definition argument_value (fuel : nat) (v : value) : res value :=
  do v <- match v with VList _ => to_tuple fuel v | _ => Ok v end;
  do v <- match v with VTuple _ => to_tuple fuel v | _ => Ok v end;
  Ok match v with VFile name _ => VStr name | _ => v end.
Definition ignored : list string := ["verbose"; "store"; "unit"; "clean_intermediates"].
Definition key_leb {V} (a b : string * V) : bool := String.leb (fst a) (fst b).
(** [identifier_from_arguments]: kerncraft.py:260-277. [args] is the dictionary of the namespace. *)
Fixpoint identify (fuel : nat) (kwargs args : list (string * value)) : res (list (string * value)) :=
  match args with
  | [] => Ok []
  | (k, v) :: args' =>
      match lookup k kwargs with
      | Some w => do r <- identify fuel kwargs args'; Ok ((k, w) :: r)
      | None =>
          if mem k ignored then identify fuel kwargs args'
          else do w <- argument_value fuel v; do r <- identify fuel kwargs args'; Ok ((k, w) :: r)
      end
  end.
Definition identifier_from_arguments (fuel : nat) (args kwargs : list (string * value)) : res value :=
  do l <- identify fuel kwargs (sort_with key_leb args);
  Ok (VTuple (map (fun p => VTuple [VStr (fst p); snd p]) l)).
(** A combination of constants as in [run]: a tuple of lists, or an empty dictionary if the kernel has no constants (kerncraft.py:367, 373) *)
Definition define_value (required : list string) (define : list (string * Z)) : value :=
  match required with [] => VDict [] | _ => VTuple (map (fun p => VList [VStr (fst p); VInt (snd p)]) define) end.
(** kerncraft.py:406-407 *)
Definition result_identifier (fuel : nat) (args : list (string * value)) (required : list string) (define : list (string * Z)) (model : string) : res value :=
  do d <- to_tuple fuel (define_value required define);
  identifier_from_arguments fuel args [("define", d); ("pmodel", VStr model)].
(** kerncraft.py:408: the storage is a dictionary. Equality of keys is equality of values: simplification, as [1 == True == 1.0]. *)
Section Storage.
  Context {R : Type}.
  Variable value_eqb : value -> value -> bool.
  Fixpoint store_put (k : value) (v : R) (d : list (value * R)) : list (value * R) :=
    match d with [] => [(k, v)] | (k', v') :: d' => if value_eqb k k' then (k', v) :: d' else (k', v') :: store_put k v d' end.
  Definition store_result (k : value) (v : R) (d : list (value * R)) : res (list (value * R)) :=
    if hashableb k then Ok (store_put k v d) else Err TypeError.
End Storage.
(** The identifiers of all analyses of a run: kerncraft.py:375-408 *)
Definition run_identifiers (fuel : nat) (args : list (string * value)) (required : list string) (options : list opt) (models : list string) : res (list value) :=
  do ds <- combinations required options;
  mapM (fun dm => result_identifier fuel args required (fst dm) (snd dm)) (flat_map (fun d => map (fun m => (d, m)) (uniquify models)) ds).
