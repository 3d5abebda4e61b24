(** Machine files: version check (machinemodel.py:170-183), choice of the compiler (510-535) and update of the
    benchmarks (203-383). *)
From Verif Require Export PyText PyNum CtrModel.
Local Open Scope Z_scope.
Local Open Scope list_scope.

(** ** Versions *)
(** distutils.version.LooseVersion (standard library, imported in machinemodel.py:10): the text is cut into numbers, runs of
    lower case letters, dots (dropped) and whatever is between them. Simplification: digits are ASCII digits. *)
Inductive part := Num (n : Z) | Txt (s : text).
Inductive char_class := CDigit | CLower | CDot | COther.
Definition class (c : N) : char_class :=
  if is_digit c then CDigit else if is_lower c then CLower else if (c =? 46)%N then CDot else COther.
Definition same_class (a b : char_class) : bool :=
  match a, b with CDigit, CDigit | CLower, CLower | COther, COther => true | _, _ => false end.
(** Maximal runs of characters of one class (as LooseVersion in machinemodel.py:170-183). *)
Fixpoint runs (s : text) : list (char_class * text) :=
  match s with
  | [] => []
  | c :: s' =>
      match runs s' with
      | (k, r) :: rs => if same_class (class c) k then (k, c :: r) :: rs else (class c, [c]) :: (k, r) :: rs
      | [] => [(class c, [c])]
      end
  end.
(** [int(s)] for a run of digits (as LooseVersion in machinemodel.py:170-183) *)
Definition number (s : text) : Z := fold_left (fun a c => 10 * a + (Z.of_N c - 48)) s 0.
Definition loose_version (s : text) : list part :=
  flat_map (fun kr => match kr with
                      | (CDot, _) => []
                      | (CDigit, r) => [Num (number r)]
                      | (_, r) => [Txt r]
                      end) (runs s).
(** Order of texts by code points, and Python's comparison of lists [a <= b]: the first unequal elements decide; numbers
    and texts cannot be compared (as LooseVersion in machinemodel.py:170-183). *)
Fixpoint text_leb (a b : text) : bool :=
  match a, b with
  | [], _ => true
  | _, [] => false
  | x :: a', y :: b' => if (x =? y)%N then text_leb a' b' else (x <? y)%N
  end.
Fixpoint version_le (a b : list part) : res bool :=
  match a, b with
  | [], _ => Ok true
  | _, [] => Ok false
  | Num x :: a', Num y :: b' => if x =? y then version_le a' b' else Ok (x <? y)
  | Txt x :: a', Txt y :: b' => if text_eqb x y then version_le a' b' else Ok (text_leb x y)
  | _, _ => Err TypeError
  end.
(** machinemodel.py:26, kerncraft/__init__.py:2, machinemodel.py:28-76 (the keys of CHANGES_SINCE) *)
Definition min_supported : list part := loose_version (codes "0.8.3.dev0").
Definition this_version : list part := loose_version (codes "0.8.17").
Definition changes_since : list (list part) :=
  map (fun s => loose_version (codes s)) ["0.6.6"; "0.7.1"; "0.8.1.dev0"; "0.8.3.dev0"; "0.8.3.dev1"; "0.8.6.dev0"; "0.8.11.dev0"]%string.
(** The entry 'kerncraft version': missing, null, a number, or a text (machinemodel.py:170-183). *)
Inductive version_entry := Missing | Null | Number | Text (s : text).
(** machinemodel.py:170-183. LooseVersion of null or of the empty text has no version to compare (AttributeError), of a number
    cannot be parsed (TypeError). Line 176-179 compares with all known changes before the ValueError is raised. *)
Definition check_version (e : version_entry) : res unit :=
  match e with
  | Missing => Err AssertionError
  | Null | Text [] => Err AttributeError
  | Number => Err TypeError
  | Text s =>
      let v := loose_version s in
      do a <- version_le min_supported v;
      do b <- (if a then version_le v this_version else Ok false);
      if b : bool then Ok tt
      else do _ <- mapM (fun c => version_le c v) changes_since; Err ValueError
  end.

(** ** Compiler: machinemodel.py:510-535 *)
(** [a or b] (as used in machinemodel.py:510-535) *)
Definition or_else (a b : option text) : option text := match a with Some (_ :: _) => a | _ => b end.
Fixpoint lookup {A} (k : text) (l : list (text * A)) : option A :=
  match l with [] => None | (x, v) :: l' => if text_eqb k x then Some v else lookup k l' end.
(** [machine]: the entries of 'compiler' in order, a compiler without value has None. [installed c] means that
    find_executable finds it. [args]: compiler and flags of the command line, or None without command line (machinemodel.py:510-535). *)
Definition get_compiler (installed : text -> bool) (machine : list (text * option text))
    (args : option (option text * option text)) (compiler flags : option text) : res (text * list text) :=
  let (compiler, flags) := match args with Some (c, f) => (or_else compiler c, or_else flags f) | None => (compiler, flags) end in
  do c <- match compiler with
          | Some c => Ok c
          | None => match find (fun x => installed (fst x)) machine with Some x => Ok (fst x) | None => Err RuntimeError end
          end;
  do f <- match flags with
          | Some f => Ok f
          | None => match lookup c machine with None => Ok [] | Some (Some f) => Ok f | Some None => Err AttributeError end
          end;
  Ok (c, split 32 f).

(** ** Update of the benchmarks: machinemodel.py:203-383 *)
(** What is stored for one memory level and number of threads per core. [e_sizes]: 'threads per core', 'cores', 'threads',
    'size per core', 'size per thread', 'total size', as far as present, as lists of numbers (units are dropped).
    Results and statistics by name of the kernel (machinemodel.py:203-383). *)
Record entry := mkEntry { e_sizes : list (text * list Q);
  e_results : option (list (text * list Q)); e_stats : option (list (text * list (list Q))) }.
Fixpoint list_eqb (a b : list Q) : bool :=
  match a, b with [], [] => true | x :: a', y :: b' => Qeq_bool x y && list_eqb a' b' | _, _ => false end.
(** machinemodel.py:296-298: relative difference of at least 1 % of some pair *)
Definition differs (a b : list Q) : bool :=
  existsb (fun p => Qle_bool (1 # 100) (Qabs (fst p - snd p) / (if Qle_bool (fst p) (snd p) then fst p else snd p))) (combine a b).
(** machinemodel.py:287-302. [sizes] are the sizes for the current machine. Line 291 and 294 look up [sizes_dict[k]], not the stored sizes. *)
Fixpoint needs_update (sizes stored items : list (text * list Q)) : bool :=
  match items with
  | [] => false
  | (k, v) :: items' =>
      match lookup k stored with
      | None => true
      | Some _ =>
          match lookup k sizes with
          | None => needs_update sizes stored items'
          | Some w => if list_eqb v w then needs_update sizes stored items' else differs v w || needs_update sizes stored items'
          end
      end
  end.
(** machinemodel.py:304-313, with overwrite=False as in update() (line 198) *)
Definition update_entry (sizes : list (text * list Q)) (old : option entry) : entry :=
  let fresh := mkEntry sizes (Some []) (Some []) in
  match old with
  | None => fresh
  | Some e =>
      if needs_update sizes (e_sizes e) sizes then fresh
      else match e_results e, e_stats e with Some _, Some _ => e | _, _ => fresh end
  end.

(** machinemodel.py:348-383: the measurements of one kernel for one level and number of threads per core. [c_sizes] is the number of total
    sizes; None stands for a missing list. Measured values are given by an oracle: [measure n] are the values of the n-th
    measurement since the start of the program (10 repetitions each). The machine file is dumped after every measurement; the
    state kept here is that of the last dump. Simplification: dumping itself is not interrupted. *)
Record cell := mkCell { c_sizes : nat; c_results : option (list Q); c_stats : option (list (list Q)) }.
Fixpoint maximum (l : list Q) (m : Q) : Q := match l with [] => m | x :: l' => maximum l' (if Qltb m x then x else m) end.
(** [max(stats)] (machinemodel.py:376) *)
Definition max_stats (l : list Q) : Q := match l with [] => 0%Q | x :: l' => maximum l' x end.
(** machinemodel.py:353-359 *)
Definition start (c : cell) : list Q * list (list Q) :=
  match c_results c, c_stats c with
  | Some r, Some s => if (length r =? length s)%nat && (length s =? c_sizes c)%nat then (r, s) else ([], [])
  | _, _ => ([], [])
  end.
(** machinemodel.py:361-379: sizes from the i-th on. [todo] sizes are left, [budget] more measurements are done before the program is
    interrupted. Returns lists, next number of measurement, remaining budget. *)
Fixpoint fill (measure : nat -> list Q) (n i todo budget : nat) (r : list Q) (s : list (list Q)) : list Q * list (list Q) * nat * nat * bool :=
  match todo with
  | O => (r, s, n, budget, true)
  | S todo' =>
      if (i <? length r)%nat then fill measure n (S i) todo' budget r s
      else match budget with
           | O => (r, s, n, O, false)
           | S budget' => fill measure (S n) (S i) todo' budget' (r ++ [max_stats (measure n)]) (s ++ [measure n])
           end
  end.
(** All kernels, levels and numbers of threads one after the other. The second component tells whether all were finished.
    A cell that was reset but not measured yet is dumped as it was (machinemodel.py:348-383). *)
Fixpoint run_cells (measure : nat -> list Q) (n budget : nat) (cells : list cell) : list cell * bool :=
  match cells with
  | [] => ([], true)
  | c :: cells' =>
      let (r0, s0) := start c in
      let '(r, s, n', budget', finished) := fill measure n O (c_sizes c) budget r0 s0 in
      if finished then let (rest, b) := run_cells measure n' budget' cells' in (mkCell (c_sizes c) (Some r) (Some s) :: rest, b)
      else ((if (n' =? n)%nat then c else mkCell (c_sizes c) (Some r) (Some s)) :: cells', false)
  end.
(** machinemodel.py:348-349: with verbose > 1, [total_size] is used before it is assigned (line 361). *)
Definition run_benchmarks (verbose : Z) (measure : nat -> list Q) (budget : nat) (cells : list cell) : res (list cell * bool) :=
  match cells with
  | _ :: _ => if 1 <? verbose then Err NameError else Ok (run_cells measure O budget cells)
  | [] => Ok ([], true)
  end.
