(** Model of the location of intermediate files, [/repo/kerncraft/kernel.py]
    [get_intermediate_location] 762-797, of the machine identifier (machinemodel.py:404-409) and of
    all places that ask for a location: kernel.py:1374, 1407, 1527, 1589, 1633, 1701, 1710, 1761 and
    cacheprediction.py:266, 518.
    A file is identified by the list of the non-empty components of its path (so that "a//b" is the
    same as "a/b"). Simplifications: the kernel is given by directory and file name; components "."
    and ".." and symbolic links are not interpreted; [reduce_path] (209-215) only changes the
    spelling of a path and is left out; kernels without file name (private temporary directory) are
    left out. *)
From Coq Require Import String Ascii DecimalString.
From Verif Require Import PyBase.
Local Open Scope Z_scope.
Local Open Scope string_scope.

Definition slash : ascii := "/"%char.

(** [s.replace('/', '')] (as used in kernel.py:762-797) *)
Fixpoint no_slash (s : string) : string :=
  match s with
  | EmptyString => EmptyString
  | String c s' => if Ascii.eqb c slash then no_slash s' else String c (no_slash s')
  end.
(** Non-empty components of a path; [cur] is the component being read (of kernel.py:762-797). *)
Definition add_component (c : string) (l : list string) : list string :=
  match c with EmptyString => l | _ => c :: l end.
Fixpoint components_from (cur : string) (s : string) : list string :=
  match s with
  | EmptyString => add_component cur []
  | String c s' => if Ascii.eqb c slash then add_component cur (components_from "" s')
                   else components_from (cur ++ String c "") s'
  end.
Definition components (s : string) : list string := components_from "" s.

(** ['_'.join(l)] (as used in kernel.py:762-797) *)
Fixpoint join_underscore (l : list string) : string :=
  match l with
  | [] => ""
  | [x] => x
  | x :: l' => x ++ "_" ++ join_underscore l'
  end.

(** [str] of an integer and of an item of the constants, "(N, 100)" (as used in kernel.py:762-797). *)
Definition show (z : Z) : string := NilZero.string_of_int (Z.to_int z).
Definition show_item (x : string * Z) : string := "(" ++ fst x ++ ", " ++ show (snd x) ++ ")".

(** Everything a user can choose for an analysis (which decides the calls of kernel.py:762-797). *)
Record request := mkRequest {
  kernel_dir : string; kernel_file : string;
  machine_dir : string; machine_file : string;
  compiler : string; flags : list string;       (* result of get_compiler *)
  cores : Z; constants : list (string * Z);
  incore_model : string; model_parameter : string;
  asm_block : string; pointer_increment : string;
  openmp : bool }.

(** What a file holds: the callers of kernel.py:762-797 *)
Inductive content :=
  KernelH | KernelC | MainC | KernelS | KernelO | MarkedS | MarkedO | IncoreAnalysis | Executable
| LCAnalysis | CSIMAnalysis.

Definition omp (r : request) : string := if openmp r then "-omp" else "".
(** File names (kernel.py:762-797 and its callers) *)
Definition file_name (k : content) (r : request) : string :=
  match k with
  | KernelH => "kernel.h"
  | KernelC => "kernel" ++ omp r ++ ".c"
  | MainC => "main.c"
  | KernelS => "kernel" ++ omp r ++ ".s"
  | KernelO => "kernel" ++ omp r ++ ".o"
  | MarkedS => "kernel-marked.s"
  | MarkedO => "kernel-marked.o"
  | IncoreAnalysis => "incore_analysis.pickle.lzma"
  | Executable => "kernel" ++ omp r
  | LCAnalysis => "LC_analysis.pickle.lzma"
  | CSIMAnalysis => "CSIM_analysis.pickle.lzma"
  end.
Definition machine_and_compiler_dependent (k : content) : bool :=
  match k with KernelH | KernelC | MainC | LCAnalysis | CSIMAnalysis => false | _ => true end.
Definition other_dependencies (k : content) (r : request) : list string :=
  match k with
  | MarkedS => [asm_block r; pointer_increment r]
  | IncoreAnalysis => [incore_model r; model_parameter r]
  | LCAnalysis => [show (cores r)]
  | CSIMAnalysis => show (cores r) :: map show_item (constants r)
  | _ => []
  end.

(** kernel.py:774-797. *)
Definition location (k : content) (r : request) : list string :=
  components (kernel_dir r) ++ ["." ++ kernel_file r ++ "_kerncraft"]
  ++ (if machine_and_compiler_dependent k
      then components (machine_file r) ++ components (compiler r)
           ++ components (no_slash (join_underscore (flags r)))
      else [])
  ++ flat_map (fun d => components (no_slash d)) (other_dependencies k r)
  ++ [file_name k r].
