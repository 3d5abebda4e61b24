(** Arguments of the program: [/repo/kerncraft/kerncraft.py] 60-65, 149-215 (defaults), 218-234 (checks), 335-345 (constants that are required)
    and [/repo/kerncraft/machinemodel.py] 537-543 *)
From Verif Require Export PyBase PyText PyFloat AstModel DefineModel.
Local Open Scope string_scope.
Local Open Scope list_scope.

(** ** Checks and defaults *)
(** Names of models: models/__init__.py:13-16. RooflineIACA is another name of RooflineASM. *)
Inductive pmodel := ECM | ECMData | ECMCPU | RooflineFLOP | RooflineASM | Benchmark | LC | PerformanceModel | RooflineIACA.
(** Units: kerncraft.py:182 *)
Inductive output_unit := CyPerCL | CyPerIt | ItPerS | FlopPerS.
(** Value of --asm-block after [check_arguments]: kerncraft.py:223-227. [parser.error] ends the program. *)
Inductive asm_block := Auto | Manual | Number (z : Z).
Definition check_asm_block (s : text) : res asm_block :=
  if text_eqb s (codes "auto") then Ok Auto else
  if text_eqb s (codes "manual") then Ok Manual else
  match py_int s with Some z => Ok (Number z) | None => Err SystemExit end.
(** kerncraft.py:60-65, for --pointer-increment (173) *)
Inductive int_or_text := IsInt (z : Z) | IsText (s : text).
Definition int_or_str (s : text) : int_or_text := match py_int s with Some z => IsInt z | None => IsText s end.
(** kerncraft.py:229-234 *)
Definition is_roofline (m : pmodel) : bool := match m with RooflineFLOP | RooflineASM | RooflineIACA => true | _ => false end.
Definition check_unit (given : option output_unit) (models : list pmodel) : output_unit :=
  match given with Some u => u | None => if existsb is_roofline models then FlopPerS else CyPerCL end.
(** kerncraft.py:208: the default of --incore-model; machinemodel.py:537-543: [next(iter(...))] of a description without in-core models
    is a StopIteration, here a RuntimeError. *)
Definition incore_option (given : option text) : option text := match given with Some m => Some m | None => Some (codes "OSACA") end.
Definition get_incore_model (described : list text) (model : option text) : res text :=
  match model with
  | Some m => Ok m
  | None => match described with m :: _ => Ok m | [] => Err RuntimeError end
  end.

(** ** Constants a kernel requires *)
(** A loop: index, start, stop and step (kernel.py:1074-1077 and 1843-1847; the step of kernel code is a number) *)
Record loop := mkLoop { l_index : string; l_start : sym; l_stop : sym; l_step : sym }.
(** Variables with their sizes, None for scalars; accesses of sources and destinations (kernel.py:227-239) *)
Record kernel := mkKernel { k_variables : list (string * option (list sym)); k_loops : list loop;
                            k_sources : list (string * list access); k_destinations : list (string * list access) }.
Section Required.
  (** [free_symbols] of sympy (as used in kerncraft.py:335-345) *)
  Variable free : sym -> list string.
  (** kerncraft.py:337-342 *)
  Definition given_lists {A} (l : list (A * option (list sym))) : list sym := flat_map (fun v => match snd v with Some s => s | None => [] end) l.
  Definition accessed (l : list (string * list access)) : list sym := flat_map (fun v => flat_map (fun a => match a with Some s => s | None => [] end) (snd v)) l.
  Definition considered (k : kernel) : list sym :=
    given_lists (k_variables k) ++ flat_map (fun l => [l_start l; l_stop l]) (k_loops k) ++ accessed (k_sources k) ++ accessed (k_destinations k).
  (** kerncraft.py:335 and 343-345; the set is in the order of first occurrence here. *)
  Definition required (k : kernel) : list string :=
    filter (fun n => negb (mem n (map l_index (k_loops k)))) (uniquify (flat_map free (considered k))).
  (** The analyses that are made for a kernel: kerncraft.py:335-402 *)
  Definition run_analyses (k : kernel) (options : list opt) (models : list string) : res (list (list (string * Z) * string)) :=
    analyses (required k) options models.
End Required.
