(** Model of the chain of intermediate files of a kernel, [/repo/kerncraft/kernel.py]: get_kernel_header 1367-1390, get_kernel_code 1392-1458,
    get_main_code 1517-1578, assemble_to_object 1581-1615, compile_kernel 1617-1679, incore_analysis 1682-1752, build_executable 1754-1816.
    A history is a sequence of calls, by any number of program runs, one after the other, on the same files. Concurrent runs are the subject of
    LockModel.v. Simplifications: neither the kernel, the machine file nor kerncraft is changed within a history, so that a file which exists is
    up to date (799-808) and files that are older are as good as missing; directories are always created; intermediates are kept (778-780).
    What the generators, compilers and analysis tools produce is given by a [world]; each is a function of exactly what the code hands to it.
    Answers of users and the increment cache are fixed, too. *)
From Coq Require Import String.
From Verif Require Import PyBase PyText MarkModel PathModel.
Local Open Scope list_scope.
Notation text := PyText.text.

Record world := mkWorld {
  (* C code, from the directory and name of the kernel file (1314-1325, 1392-1458, 1517-1578) *)
  header : list string -> string -> text;
  code : list string -> string -> bool -> text;
  main : list string -> string -> text;
  (* the instruction set in the machine file (1733, 1739, 1742) *)
  isa : string -> string -> text;
  (* the compiler with its flags: with -S or without (1641-1664), for an assembly file (1596-1613), for the executable (1769-1814); None if it fails *)
  compile : string -> list string -> bool -> text -> text -> option text;
  assemble : string -> list string -> text -> option text;
  link : string -> list string -> text -> text -> text -> option text;
  (* incore_model.asm_instrumentation: marked assembly and increment; or the exception and whether the file is removed (incore_model.py:677-678) *)
  instrument : string -> string -> text -> text -> (text * Z) + (exn * bool);
  (* analysis of assembly or an object file with a model and its parameter (1737-1748) *)
  analyse : string -> string -> text -> text -> res text }.

(** Contents of files: texts, or the pickled analysis with its increment (1749) *)
Inductive data := Text (t : text) | Pickle (a : text) (z : Z).
Definition store := list string -> option data.
Definition same_path (a b : list string) : bool := if list_eq_dec string_dec a b then true else false.
Definition put (l : list string) (d : data) (st : store) : store := fun x => if same_path x l then Some d else st x.
Definition unlink (l : list string) (st : store) : store := fun x => if same_path x l then None else st x.
(** Calls change files even if they fail (as kernel.py:1367-1816 do). *)
Definition M (A : Type) := store -> store * res A.
Definition ret {A} (a : A) : M A := fun st => (st, Ok a).
Definition fail {A} (e : exn) : M A := fun st => (st, Err e).
Definition andthen {A B} (m : M A) (f : A -> M B) : M B := fun st => match m st with (st', Ok a) => f a st' | (st', Err e) => (st', Err e) end.
Definition lift {A} (r : res A) : M A := fun st => (st, r).
Definition of_option {A} (o : option A) : res A := match o with Some a => Ok a | None => Err SystemExit end.

Definition set_openmp (b : bool) (r : request) : request :=
  mkRequest (kernel_dir r) (kernel_file r) (machine_dir r) (machine_file r) (compiler r) (flags r) (cores r) (constants r)
    (incore_model r) (model_parameter r) (asm_block r) (pointer_increment r) b.

(** [lock_intermediate] and what follows: an existing file is used, otherwise it is written (such as 1376-1388). A pickled file has another name
    than the files read here; the error stands for the impossible case (kernel.py:810-863 and its callers). *)
Definition cached (k : content) (r : request) (make : M text) : M text :=
  fun st => match st (location k r) with
            | Some (Text t) => (st, Ok t)
            | Some (Pickle _ _) => (st, Err ValueError)
            | None => match make st with
                      | (st', Ok t) => (put (location k r) (Text t) st', Ok t)
                      | (st', Err e) => (st', Err e)
                      end
            end.

Section W.
Context (w : world).
Definition dir (r : request) : list string := components (kernel_dir r).
(** kernel.py:1367-1390 *)
Definition get_header (r : request) : M text := cached KernelH r (ret (header w (dir r) (kernel_file r))).
(** kernel.py:1392-1458 *)
Definition get_code (omp : bool) (r : request) : M text :=
  let r := set_openmp omp r in cached KernelC r (ret (code w (dir r) (kernel_file r) omp)).
(** kernel.py:1517-1578 *)
Definition get_main (r : request) : M text := cached MainC r (ret (main w (dir r) (kernel_file r))).
(** 1617-1679. The replacement in assembly of icc (1666-1675) is part of [compile]. *)
Definition compile_kernel (assembly omp : bool) (r : request) : M text :=
  let r := set_openmp omp r in
  cached (if assembly then KernelS else KernelO) r
    (andthen (get_header r) (fun h =>
     andthen (get_code omp r) (fun c =>
     lift (of_option (compile w (compiler r) (flags r) assembly h c))))).
(** kernel.py:1581-1615, for the marked assembly *)
Definition assemble_marked (r : request) (t : text) : M text := cached MarkedO r (lift (of_option (assemble w (compiler r) (flags r) t))).
(** 1710-1735: marked assembly and increment. A file that exists is read again, and removed if there is no increment in it.
    Opening the file for writing (1728) leaves an empty file if the instrumentation fails and does not remove it. *)
Definition get_marked (r : request) : M (text * Z) :=
  fun st => match st (location MarkedS r) with
            | Some (Text t) => match search_increment t with
                               | Some z => (st, Ok (t, z))
                               | None => (unlink (location MarkedS r) st, Err SystemExit)
                               end
            | Some (Pickle _ _) => (st, Err ValueError)
            | None => match compile_kernel true false r st with
                      | (st', Err e) => (st', Err e)
                      | (st', Ok s) =>
                          match instrument w (asm_block r) (pointer_increment r) (isa w (machine_dir r) (machine_file r)) s with
                          | inl (t, z) => (put (location MarkedS r) (Text t) st', Ok (t, z))
                          | inr (e, removed) => ((if removed : bool then st' else put (location MarkedS r) (Text []) st'), Err e)
                          end
                      end
            end.
(** kernel.py:1737-1748 *)
Definition run_model (r : request) (t : text) : M text :=
  let m := incore_model r in
  if String.eqb m "OSACA" || String.eqb m "LLVM-MCA" then lift (analyse w m (model_parameter r) (isa w (machine_dir r) (machine_file r)) t)
  else if String.eqb m "IACA" then andthen (assemble_marked r t) (fun o => lift (analyse w m (model_parameter r) [] o))
  else fail ValueError.
(** kernel.py:1682-1752 *)
Definition incore_analysis (r : request) : M (text * Z) :=
  fun st => match st (location IncoreAnalysis r) with
            | Some (Pickle a z) => (st, Ok (a, z))
            | Some (Text _) => (st, Err ValueError)
            | None => andthen (get_marked r) (fun x => andthen (run_model r (fst x)) (fun a =>
                        fun st => (put (location IncoreAnalysis r) (Pickle a (snd x)) st, Ok (a, snd x)))) st
            end.
(** 1754-1816; [env] is what LIKWID_INCLUDE, LIKWID_INC and LIKWID_LIB are set to, None if they are not (1770-1775). *)
Definition build_executable (env : option text) (omp : bool) (r : request) : M text :=
  let r := set_openmp omp r in
  cached Executable r
    (match env with
     | None => fail SystemExit
     | Some e => andthen (get_main r) (fun m => andthen (compile_kernel false omp r) (fun o =>
                   lift (of_option (link w (compiler r) (flags r) e o m))))
     end).

(** Calls and answers; the answer of a call that returns a file name is the content of the file (of kernel.py:1367-1816). *)
Inductive call := Assembly (omp : bool) | Object (omp : bool) | Incore | Build (env : option text) (omp : bool).
Definition perform (c : call) (r : request) : M (text * option Z) :=
  match c with
  | Assembly omp => andthen (compile_kernel true omp r) (fun t => ret (t, None))
  | Object omp => andthen (compile_kernel false omp r) (fun t => ret (t, None))
  | Incore => andthen (incore_analysis r) (fun x => ret (fst x, Some (snd x)))
  | Build env omp => andthen (build_executable env omp r) (fun t => ret (t, None))
  end.
Fixpoint perform_all (l : list (call * request)) (st : store) : store * list (res (text * option Z)) :=
  match l with
  | [] => (st, [])
  | (c, r) :: l' => let (st1, x) := perform c r st in let (st2, xs) := perform_all l' st1 in (st2, x :: xs)
  end.
End W.
Definition empty : store := fun _ => None.
