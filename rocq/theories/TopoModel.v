(** Description of the current machine: machinemodel.py 188-201 (update), 248-285 (sizes of the benchmarks), 545-565 (current_system),
    630-706 (readouts), 709-787 (memory hierarchy), 790-865 (bandwidth and kernels of likwid-bench). *)
From Verif Require Export PyDict PyFloat.
From Verif Require UnitModel MachModel.
From Verif Require Import PerfModel.
Local Open Scope Z_scope.
Local Open Scope list_scope.

(** ** Patterns: machinemodel.py:630-641 *)
(** [re.search] with re.MULTILINE of a pattern that starts with [^]: the first place at the start of a line where [f] matches (machinemodel.py:630-641) *)
Fixpoint search_line {A} (f : text -> option A) (at_start : bool) (s : text) : option A :=
  match (if at_start then f s else None) with
  | Some a => Some a
  | None => match s with [] => None | c :: r => search_line f (c =? 10)%N r end
  end.
(** [\s*$]: only white space up to the end of the line. [\s] also matches line feeds (as used in machinemodel.py:680-706). *)
Definition line_ends (s : text) : bool :=
  match span is_space s with (w, r) => match r with [] => true | _ => existsb (N.eqb 10) w end end.
(** [label\s+([0-9]+)\s*$], machinemodel.py:690-696 *)
Definition match_number (label s : text) : option Z :=
  if starts_with label s then
    match span is_space (skipn (List.length label) s) with
    | (_ :: _, r) => match span is_decimal r with
                     | ((_ :: _) as d, t) => if line_ends t then Some (Z.of_N (value d)) else None
                     | _ => None
                     end
    | _ => None
    end
  else None.
(** [label\s+(.+?)\s*$], machinemodel.py:686, and [label\s+:\s+(.+?)\s*$], line 687. Simplification: if nothing but white space follows up to the
    end of the text, there is no match here. *)
Definition not_feed (c : N) : bool := negb (c =? 10)%N.
Definition match_words (s : text) : option text :=
  match span is_space s with
  | (_ :: _, r) => match r with [] => None | _ => Some (rev (lstrip (rev (fst (span not_feed r))))) end
  | _ => None
  end.
Definition match_type (label s : text) : option text :=
  if starts_with label s then match_words (skipn (List.length label) s) else None.
Definition match_name (label s : text) : option text :=
  if starts_with label s then
    match span is_space (skipn (List.length label) s) with (_ :: _, (58 :: r)%N) => match_words r | _ => None end
  else None.
(** [\[([a-z]+)\]], machinemodel.py:704 *)
Fixpoint match_bracket (s : text) : option text :=
  match s with
  | [] => None
  | c :: r =>
      match (if (c =? 91)%N then match span is_lower r with ((_ :: _) as w, (93 :: _)%N) => Some w | _ => None end else None) with
      | Some w => Some w
      | None => match_bracket r
      end
  end.
(** machinemodel.py:630-634 *)
Definition found {A} (m : option A) : res A := match m with Some a => Ok a | None => Err ValueError end.
Definition number_in (label : string) (s : text) : res Z := found (search_line (match_number (codes label)) true s).

(** ** Readouts: machinemodel.py:679-706 *)
Record readout := mkReadout { r_type : text; r_name : option text; r_threads : Z; r_sockets : Z; r_cores : Z; r_domains : Z;
  r_domain_cores : Z; r_clock : option Q; r_hugepage : text }.
(** The clock that psutil tells in Hz (machinemodel.py:657-664), and the content of the file read in line 703 *)
Record world := mkWorld { w_clock : option Q; w_hugepage : text }.
(** 'kerncraft version' is left out (machinemodel.py:680-706). *)
Definition readouts (topology cpuinfo : text) (w : world) : res readout :=
  do type <- found (search_line (match_type (codes "CPU type:")) true topology);
  let name := search_line (match_name (codes "model name")) true cpuinfo in
  do threads <- number_in "Threads per core:" topology;
  do sockets <- number_in "Sockets:" topology;
  do cores <- number_in "Cores per socket:" topology;
  do domains <- number_in "NUMA domains:" topology;
  if sockets =? 0 then Err ZeroDivisionError else
  let domains := if domains / sockets =? 0 then 1 else domains / sockets in
  do hugepage <- found (match_bracket (w_hugepage w));
  Ok (mkReadout type name threads sockets cores domains (cores / domains) (w_clock w) hugepage).

(** ** Memory hierarchy: machinemodel.py:709-787 *)
(** 'cache per group', as far as it is not placeholders (machinemodel.py:710-787) *)
Record cache := mkCache { load_from : option text; store_to : option text }.
(** One level. None stands for a key that is missing; [v_size] Some None is the value None. The placeholders of 'cache per group' and
    'performance counter metrics' and the penalties are left out (machinemodel.py:710-787). *)
Record level := mkLevel { v_name : text; v_throughput : option (list text); v_cache : option cache;
  v_size : option (option UnitModel.quantity); v_groups : option Z; v_cores : option Z; v_threads : option Z }.
(** [s.find(p)] (as used in machinemodel.py:710-787) *)
Fixpoint find_from (p s : text) (i : Z) : Z :=
  if starts_with p s then i else match s with [] => -1 | _ :: r => find_from p r (i + 1) end.
Definition find (p s : text) : Z := find_from p s 0.
(** [s[a:b]] (as used in machinemodel.py:710-787) *)
Definition bound (n x : Z) : Z := if x <? 0 then Z.max 0 (x + n) else Z.min x n.
Definition slice (s : text) (a b : Z) : text :=
  let n := Z.of_nat (List.length s) in
  firstn (Z.to_nat (bound n b - bound n a)) (skipn (Z.to_nat (bound n a)) s).
(** A text as Coq string, for PrefixedUnit. Simplification: characters above 255 are not distinguished from others (machinemodel.py:710-787). *)
Fixpoint as_string (s : text) : string := match s with [] => EmptyString | c :: r => String (ascii_of_N c) (as_string r) end.
(** [line.split(':')[1].strip()] for a line with a colon (machinemodel.py:729, 740) *)
Definition behind_colon (line : text) : text := strip (nth 1 (PyText.split 58 line) []).
Definition count (c : N) (s : text) : Z := Z.of_nat (List.length (filter (N.eqb c) s)).
(** machinemodel.py:732-739 *)
Definition throughput_of (name : text) : list text :=
  if text_eqb name (codes "L1") then [codes "architecture code analyzer"; codes "INFORMATION_REQUIRED (e.g. [port1, port2])"]
  else [codes "INFORMATION_REQUIRED (e.g. 24 B/cy)"; codes "INFORMATION_REQUIRED (e.g. ""half-duplex"" or ""full-duplex"")"].
(** machinemodel.py:728-765: one line. The levels are in reversed order; [] before the first level, when [mem_level] is a dictionary that is
    in no list. Simplification: [str(size)] in the placeholders does not fail. *)
Definition read_line (placeholders : bool) (r : readout) (h : list level) (line : text) : res (list level) :=
  if starts_with (codes "Level:") line then
    let name := codes "L" ++ behind_colon line in
    Ok (mkLevel name (if placeholders then Some (throughput_of name) else None) None None None None None :: h)
  else if starts_with (codes "Size:") line then
    do size <- UnitModel.parse (as_string (behind_colon line));
    match h with
    | [] => Err KeyError
    | l :: h' =>
        match py_int (tl (v_name l)) with
        | None => Err ValueError
        | Some n =>
            let next := codes "L" ++ show_int (n + 1) in
            if placeholders || match v_cache l with Some _ => true | None => false end
            then Ok (mkLevel (v_name l) (v_throughput l) (Some (mkCache (Some next) (Some next))) (Some (Some size))
                             (v_groups l) (v_cores l) (v_threads l) :: h')
            else Err KeyError
        end
    end
  else if starts_with (codes "Cache groups:") line then
    let groups := count 40 line in
    if groups =? 0 then Err ZeroDivisionError else
    let cores := (r_cores r * r_sockets r) / groups in
    match h with
    | [] => Ok []
    | l :: h' => Ok (mkLevel (v_name l) (v_throughput l) (v_cache l) (v_size l) (Some groups) (Some cores) (Some (cores * r_threads r)) :: h')
    end
  else Ok h.
Fixpoint read_lines (placeholders : bool) (r : readout) (h : list level) (lines : list text) : res (list level) :=
  match lines with
  | [] => Ok h
  | line :: lines' => do h' <- read_line placeholders r h line; read_lines placeholders r h' lines'
  end.
(** machinemodel.py:771-785 *)
Definition memory (placeholders : bool) (r : readout) : level :=
  mkLevel (codes "MEM")
          (if placeholders then Some [codes "full socket memory bandwidth"; codes "INFORMATION_REQUIRED (e.g. ""half-duplex"" or ""full-duplex"")"] else None)
          None (Some None) None (Some (r_cores r)) (Some (r_threads r * r_cores r)).
(** machinemodel.py:715-721 read the threads, but do not use them. Lines 723-787 *)
Definition hierarchy (placeholders : bool) (r : readout) (topology : text) : res (list level) :=
  let section := slice topology (find (codes "Cache Topology") topology) (find (codes "NUMA Topology") topology) in
  do h <- read_lines placeholders r [] (PyText.split 10 section);
  match h with
  | [] => Err IndexError
  | l :: h' =>
      match v_cache l with
      | None => Err KeyError
      | Some c =>
          Ok (rev (mkLevel (v_name l) (v_throughput l) (Some (mkCache None None)) (v_size l) (v_groups l) (v_cores l) (v_threads l) :: h')
              ++ [memory placeholders r])
      end
  end.

(** ** Calls in one process: machinemodel.py:188-201 and 545-565 *)
(** [lru_cache(1)] keeps the result of the last call, by the arguments as they were written: get_machine_readouts() and
    get_machine_readouts(cpuinfo_path=p) are different keys, also for the default path. *)
Inductive key := Plain | Path (p : text).
Definition path_of (k : key) : text := match k with Plain => codes "/proc/cpuinfo" | Path p => p end.
Definition key_eqb (a b : key) : bool :=
  match a, b with Plain, Plain => true | Path p, Path q => text_eqb p q | _, _ => false end.
Inductive hkey := HPlain | HWith (placeholders : bool) (p : text).
Definition hkey_eqb (a b : hkey) : bool :=
  match a, b with HPlain, HPlain => true | HWith x p, HWith y q => Bool.eqb x y && text_eqb p q | _, _ => false end.
(** The dictionary that get_machine_readouts returns; machinemodel.py:556 adds 'memory hierarchy' to it. *)
Record dict := mkDict { d_read : readout; d_hier : option (list level) }.
(** A machine description: the readouts, as far as compared or updated, and the memory hierarchy. Simplification: all these keys but
    'clock' are present (machinemodel.py:88-201). *)
Record model := mkModel { m_read : readout; m_hier : option (list level) }.
(** Dictionaries are numbered. No code changes the lists of levels, so they are values here. Simplification: the output of
    likwid-topology and the cpuinfo files, which are kept by lru_cache as well (644-654), do not change while the process runs. *)
Record state := mkState { s_dicts : list dict; s_read : option (key * nat); s_hier : option (hkey * list level); s_models : list model; s_world : world }.
Section Calls.
Variable topology : text.
Variable cpuinfo : text -> res text.
Definition get_readouts (st : state) (k : key) : state * res nat :=
  let miss :=
    match (do c <- cpuinfo (path_of k); readouts topology c (s_world st)) with
    | Err e => (st, Err e)
    | Ok r => (mkState (s_dicts st ++ [mkDict r None]) (Some (k, List.length (s_dicts st))) (s_hier st) (s_models st) (s_world st),
               Ok (List.length (s_dicts st)))
    end in
  match s_read st with
  | Some (k', i) => if key_eqb k k' then (st, Ok i) else miss
  | None => miss
  end.
Definition get_hierarchy (st : state) (k : hkey) : state * res (list level) :=
  let (placeholders, p) := match k with HPlain => (true, path_of Plain) | HWith b p => (b, p) end in
  let miss :=
    match get_readouts st (Path p) with
    | (st1, Err e) => (st1, Err e)
    | (st1, Ok i) =>
        match nth_error (s_dicts st1) i with
        | None => (st1, Err IndexError) (* numbers of dictionaries exist *)
        | Some d =>
            match hierarchy placeholders (d_read d) topology with
            | Err e => (st1, Err e)
            | Ok h => (mkState (s_dicts st1) (s_read st1) (Some (k, h)) (s_models st1) (s_world st1), Ok h)
            end
        end
    end in
  match s_hier st with
  | Some (k', h) => if hkey_eqb k k' then (st, Ok h) else miss
  | None => miss
  end.
(** Dictionaries of machinemodel.py:188-201 and 545-565 *)
Fixpoint set_nth {A} (i : nat) (a : A) (l : list A) : list A :=
  match i, l with O, _ :: l' => a :: l' | Datatypes.S i', x :: l' => x :: set_nth i' a l' | _, [] => [] end.
(** The keys compared in machinemodel.py:558-559 *)
Definition same_name (a b : option text) : bool :=
  match a, b with None, None => true | Some x, Some y => text_eqb x y | _, _ => false end.
Definition same_system (a b : readout) : bool :=
  text_eqb (r_type a) (r_type b) && same_name (r_name a) (r_name b) && (r_sockets a =? r_sockets b) && (r_cores a =? r_cores b)
  && (r_threads a =? r_threads b) && (r_domains a =? r_domains b) && (r_domain_cores a =? r_domain_cores b)
  && text_eqb (r_hugepage a) (r_hugepage b).
(** machinemodel.py:545-565, for the model with number [m] *)
Definition current_system (st : state) (m : nat) : state * res bool :=
  match get_readouts st Plain with
  | (st1, Err e) => (st1, Err e)
  | (st1, Ok i) =>
      match get_hierarchy st1 HPlain with
      | (st2, Err e) => (st2, Err e)
      | (st2, Ok h) =>
          match nth_error (s_dicts st2) i, nth_error (s_models st2) m with
          | Some d, Some md =>
              (mkState (set_nth i (mkDict (d_read d) (Some h)) (s_dicts st2)) (s_read st2) (s_hier st2) (s_models st2) (s_world st2),
               Ok (same_system (d_read d) (m_read md)))
          | _, _ => (st2, Err IndexError)
          end
      end
  end.
(** [self._data.update(d)]: the clock and the hierarchy are taken over if they are in [d] (machinemodel.py:188-195). *)
Definition update_model (d : dict) (md : model) : model :=
  let r := d_read d in
  mkModel (mkReadout (r_type r) (r_name r) (r_threads r) (r_sockets r) (r_cores r) (r_domains r) (r_domain_cores r)
                     (match r_clock r with Some c => Some c | None => r_clock (m_read md) end) (r_hugepage r))
          (match d_hier d with Some h => Some h | None => m_hier md end).
Definition set_models (st : state) (l : list model) : state := mkState (s_dicts st) (s_read st) (s_hier st) l (s_world st).
(** machinemodel.py:188-195; the benchmarks (modelled in MachModel.v) and the machine state do not use these data. *)
Definition update (st : state) (m : nat) (read hier overwrite : bool) (p : text) : state * res unit :=
  let '(st1, r1) :=
    if read then
      match get_readouts st (Path p) with
      | (st1, Err e) => (st1, Err e)
      | (st1, Ok i) =>
          match nth_error (s_dicts st1) i, nth_error (s_models st1) m with
          | Some d, Some md => (set_models st1 (set_nth m (update_model d md) (s_models st1)), Ok tt)
          | _, _ => (st1, Err IndexError)
          end
      end
    else (st, Ok tt) in
  match r1 with
  | Err e => (st1, Err e)
  | Ok _ =>
      if hier then
        match get_hierarchy st1 (HWith overwrite p) with
        | (st2, Err e) => (st2, Err e)
        | (st2, Ok h) =>
            match nth_error (s_models st2) m with
            | Some md => (set_models st2 (set_nth m (mkModel (m_read md) (Some h)) (s_models st2)), Ok tt)
            | None => (st2, Err IndexError)
            end
        end
      else (st1, Ok tt)
  end.
(** What may happen in a process: check, update, and changes of clock and huge pages by others (calls of machinemodel.py:188-201 and 545-565) *)
Inductive event := Check (m : nat) | Update (m : nat) (read hier overwrite : bool) (p : text) | Change (w : world).
Definition step (st : state) (e : event) : state :=
  match e with
  | Check m => fst (current_system st m)
  | Update m r h o p => fst (update st m r h o p)
  | Change w => mkState (s_dicts st) (s_read st) (s_hier st) (s_models st) w
  end.
Definition run (st : state) (l : list event) : state := fold_left step l st.
Definition initial (l : list model) (w : world) : state := mkState [] None None l w.
End Calls.

(** ** Kernels of likwid-bench *)
(** What a run of likwid-bench gives: a non-zero exit code (CalledProcessError) or its output (as called by machinemodel.py:790-815) *)
Inductive outcome := Failed | Printed (output : text).
(** [[0-9]+(?:\.[0-9]+)?\s*$] behind [MByte/s:\s+], machinemodel.py:811 *)
Definition decimal_value (s : text) : Q := match py_float s with Some (Fin q) => q | _ => 0%Q end.
Definition match_bandwidth (s : text) : option Q :=
  let label := codes "MByte/s:" in
  if starts_with label s then
    match span is_space (skipn (List.length label) s) with
    | (_ :: _, r) =>
        match span is_decimal r with
        | ((_ :: _) as d, t) =>
            if line_ends t then Some (decimal_value d)
            else match t with
                 | (46 :: t1)%N => match span is_decimal t1 with
                                   | ((_ :: _) as f, t2) => if line_ends t2 then Some (decimal_value (d ++ 46%N :: f)) else None
                                   | _ => None
                                   end
                 | _ => None
                 end
        | _ => None
        end
    | _ => None
    end
  else None.
(** machinemodel.py:790-815: the bandwidth in MB/s. None: an exception that line 829 catches; the program ends if there is no output. *)
Definition measured (o : outcome) : res (option Q) :=
  match o with
  | Failed => Ok None
  | Printed [] => Err SystemExit
  | Printed s => Ok (search_line match_bandwidth true s)
  end.
(** machinemodel.py:818-840. Comparison of (bandwidth, name): the names decide if the bandwidths are equal. Bandwidths all have the unit MB/s. *)
Definition greater (a b : Q * text) : bool :=
  if Qeq_bool (fst a) (fst b) then MachModel.text_leb (snd b) (snd a) && negb (text_eqb (snd a) (snd b)) else Qltb (fst b) (fst a).
Fixpoint max_from (m : Q * text) (l : list (Q * text)) : Q * text :=
  match l with [] => m | x :: l' => max_from (if greater x m then x else m) l' end.
Fixpoint results (bench : text -> outcome) (kernels : list text) : res (list (Q * text)) :=
  match kernels with
  | [] => Ok []
  | k :: ks => do b <- measured (bench k); do rest <- results bench ks; Ok (match b with Some q => (q, k) :: rest | None => rest end)
  end.
Definition fastest (bench : text -> outcome) (kernels : list text) : res text :=
  do l <- results bench kernels;
  match l with [] => Err RuntimeError | x :: l' => Ok (snd (max_from x l')) end.
(** [l.split(' - ')[0]], machinemodel.py:851 *)
Fixpoint before (p s : text) : text :=
  if starts_with p s then [] else match s with [] => [] | c :: r => c :: before p r end.
(** [e in l], machinemodel.py:860 *)
Fixpoint contains (p s : text) : bool :=
  starts_with p s || match s with [] => false | _ :: r => contains p r end.
(** machinemodel.py:843-865, for the output of likwid-bench -a *)
Definition available (prefix : text) (excludes : list text) (output : text) : list text :=
  filter (fun l => starts_with prefix l && negb (existsb (fun e => contains e l) excludes))
         (map (before (codes " - ")) (PyText.split 10 (strip output))).

(** ** Sizes of the data sets: machinemodel.py:248-276 *)
Definition qmax (a b : Q) : Q := if Qltb a b then b else a.
(** [int(mem['size per group'])]. Simplification: OverflowError of an infinite size is a ValueError here (machinemodel.py:255-275). *)
Definition int_size (l : level) : res Z :=
  match v_size l with
  | None => Err KeyError
  | Some None => Err TypeError
  | Some (Some q) => match UnitModel.base_value q with Fin x => Ok (Z.quot (Qnum x) (QDen x)) | _ => Err ValueError end
  end.
Definition cores_of (l : level) : res Z := match v_cores l with Some c => Ok c | None => Err KeyError end.
(** [max(size * c / cores per group, size)] (machinemodel.py:255-275) *)
Definition share (size cores c : Z) : res Q :=
  if cores =? 0 then Err ZeroDivisionError else Ok (qmax (inject_Z (size * c) / inject_Z cores) (inject_Z size)).
(** The total size in B for [c] cores in level [i]. Floats are exact (see PyNum.v) (machinemodel.py:255-275). *)
Definition total_size (h : list level) (i : nat) (c : Z) : res Q :=
  match nth_error h i with
  | None => Err IndexError
  | Some l =>
      match v_size l with
      | None => Err KeyError
      | Some (Some _) =>
          do size <- int_size l;
          do cores <- cores_of l;
          do own <- share size cores c;
          do previous <- match i with
                         | O => share 0 1 c
                         | Datatypes.S j =>
                             match nth_error h j with
                             | None => Err IndexError
                             | Some p => do ps <- int_size p; do pc <- cores_of p; share ps pc c
                             end
                         end;
          Ok (qmax (own * (66 # 100)) (previous * (12 # 10)))
      | Some None =>
          match nth_error (rev h) 1 with
          | None => Err IndexError
          | Some p =>
              match v_size p with
              | None => Err KeyError
              | Some None => Err TypeError
              | Some (Some q) => match UnitModel.base_value q with Fin x => Ok (x * 15)%Q | _ => Err ValueError end
              end
          end
      end
  end.
(** machinemodel.py:365-372: the size in kB given to likwid-bench *)
Definition kilobytes (x : Q) : Z := Z.quot (Qnum (x / 1000)) (QDen (x / 1000)).
