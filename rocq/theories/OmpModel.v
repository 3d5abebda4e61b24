(** OpenMP version of the generated kernel function: [/repo/kerncraft/kernel.py] 1212-1229, 1404-1406 and 1449-1451. Texts of pragmas are lists of
    code points; syntax trees of loops and statements are those of [GenModel]. *)
From Verif Require Export PyText GenModel.
From Verif Require PerfModel.
Local Open Scope list_scope.
Local Open Scope N_scope.

(** [p in s] (as used in kernel.py:1212-1229) *)
Fixpoint contains (p s : text) : bool :=
  (PerfModel.starts_with p s || match s with [] => false | _ :: s' => contains p s' end)%bool.

(** The loop nest with its pragmas, as accepted by kernel.py:914-924 and 1079-1097: pragmas before each loop, with the text behind [#pragma ],
    and pragmas between the statements of the innermost loop. *)
Record nest := mkNest { levels : list (list text * cloop); inner_pragmas : list text }.
(** kernel.py:179-189, [find_node_type(loop_nest, c_ast.Pragma)] *)
Definition pragmas (n : nest) : list text := flat_map fst (levels n) ++ inner_pragmas n.
Definition map_pragmas (f : text -> text) (n : nest) : nest :=
  mkNest (map (fun l => (map f (fst l), snd l)) (levels n)) (map f (inner_pragmas n)).
Definition mentions_omp (p : text) : bool := contains (codes "omp") p.
(** kernel.py:1224, for one of [omp_pragmas] *)
Definition without_parallel (p : text) : text := PerfModel.replace (List.length p) (codes " parallel") [] p.
(** kernel.py:1212-1229, [get_kernel_loop_nest]: the loop nest returned, and the syntax tree of the kernel afterwards, whose pragmas are changed
    in place (the pragma inserted in line 1227 belongs to the returned list only). Calls of swap behind the loops are left out. *)
Definition get_kernel_loop_nest (n : nest) : res (nest * nest) :=
  match levels n with
  | [] => Err AssertionError
  | (ps, l) :: ls =>
      let omp_pragmas := filter mentions_omp (pragmas n) in
      let changed := map_pragmas (fun p => if mentions_omp p then without_parallel p else p) n in
      match omp_pragmas with
      | [] => match levels changed with
              | (ps', l') :: ls' => Ok (mkNest ((codes "omp for" :: ps', l') :: ls') (inner_pragmas changed), changed)
              | [] => Err AssertionError
              end
      | _ => Ok (changed, changed)
      end
  end.

(** kernel.py:1404-1406: name of the file with the kernel function *)
Definition kernel_filename (openmp : bool) : text := codes "kernel" ++ (if openmp then codes "-omp" else []) ++ codes ".c".

(** [re.sub('#pragma omp[^\n]*\n', '', code)] of kernel.py:1451. A match needs the newline; what is behind [#pragma omp] in a line is consumed. *)
Fixpoint after_newline (s : text) : option text :=
  match s with [] => None | c :: s' => if c =? 10 then Some s' else after_newline s' end.
Fixpoint sub_pragmas (fuel : nat) (s : text) : text :=
  match fuel with
  | O => s
  | S fuel' =>
      match s with
      | [] => []
      | c :: s' =>
          if PerfModel.starts_with (codes "#pragma omp") s
          then match after_newline (skipn 11 s) with
               | Some r => sub_pragmas fuel' r
               | None => c :: sub_pragmas fuel' s'
               end
          else c :: sub_pragmas fuel' s'
      end
  end.
(** kernel.py:1446-1451: the code stored, from the text of the function with all pragmas *)
Definition stored_code (openmp : bool) (code : text) : text :=
  if openmp then code else sub_pragmas (List.length code) code.
