(** Reading of the output of in-core analysis tools: [/repo/kerncraft/incore_model.py] 769-784 (OSACA), 827-869 (LLVM-MCA) and 928-955 (IACA).
    The tools themselves are not modelled. Numbers are exact (see PyNum.v). *)
From Verif Require Export PyDict PyFloat PyNum.
From Verif Require Import CtrModel MarkModel PerfModel.
Local Open Scope N_scope.
Local Open Scope list_scope.

(** [re.search] as used in incore_model.py:829, 835, 850, 851 and 868: the leftmost match of a pattern *)
Fixpoint search {A} (f : text -> option A) (s : text) : option A :=
  match f s with
  | Some a => Some a
  | None => match s with [] => None | _ :: r => search f r end
  end.
(** [m.group(...)] of None is an AttributeError (incore_model.py:830, 836, 850, 851, 868). *)
Definition group {A} (m : option A) : res A := match m with Some a => Ok a | None => Err AttributeError end.
Definition space_char (c : N) : bool := MarkModel.is_space c.

(** ** LLVM-MCA *)
(** incore_model.py:829: the lines behind "Resources:" up to an empty line. The last line of the output is none if it does not end with a line feed. *)
Fixpoint nonempty_lines (ls : list text) : list text :=
  match ls with
  | ((_ :: _) as l) :: ((_ :: _) as rest) => l :: nonempty_lines rest
  | _ => []
  end.
Definition match_resources (s : text) : option text :=
  let p := codes "Resources:" ++ [10] in
  if starts_with p s then
    match nonempty_lines (split 10 (skipn (List.length p) s)) with
    | [] => None
    | ls => Some (p ++ flat_map (fun l => l ++ [10]) ls)
    end
  else None.
(** incore_model.py:830, the pattern at the start of a text: identifier in brackets, hyphen, and name. No class contains the first character of what follows
    it, so the longest sequences are the only ones that can match. *)
Definition id_char (c : N) : bool := is_digit c || (c =? 46).
Definition match_port (s : text) : option ((text * text) * text) :=
  match s with
  | 91 :: r =>
      match span id_char r with
      | ((_ :: _) as i, 93 :: r1) =>
          match span space_char r1 with
          | (_ :: _, 45 :: r2) =>
              match span space_char r2 with
              | (_ :: _, r3) =>
                  match span alnum r3 with
                  | ((_ :: _) as n, t) => Some ((91 :: i ++ [93], n), t)
                  | _ => None
                  end
              | _ => None
              end
          | _ => None
          end
      | _ => None
      end
  | _ => None
  end.
(** [re.finditer], incore_model.py:830 *)
Fixpoint find_ports (fuel : nat) (s : text) : list (text * text) :=
  match fuel with
  | O => []
  | S fuel' =>
      match s with
      | [] => []
      | _ :: r => match match_port s with Some (p, t) => p :: find_ports fuel' t | None => find_ports fuel' r end
      end
  end.
(** incore_model.py:828-831 *)
Definition port_names (output : text) : res (tdict text) :=
  do g <- group (search match_resources output);
  Ok (fold_left (fun d p => tset (fst p) (snd p) d) (find_ports (List.length g) g) []).
(** incore_model.py:835-836: two lines, both not empty *)
Definition match_pressure (s : text) : option (text * text) :=
  let p := codes "Resource pressure per iteration:" ++ [10] in
  if starts_with p s then
    match split 10 (skipn (List.length p) s) with
    | ((_ :: _) as a) :: ((_ :: _) as b) :: _ => Some (a, b)
    | _ => None
    end
  else None.
(** incore_model.py:837-846. [max(a, b)] is a unless b is greater. *)
Definition nmax (a b : num) : num := if ngtb b a then b else a.
Definition add_port (names : tdict text) (d : tdict num) (port cycles : text) : res (tdict num) :=
  match tget port names with
  | None => Err KeyError
  | Some n =>
      match (if text_eqb cycles (codes "-") then Some (Fin 0) else py_float cycles) with
      | None => Err ValueError
      | Some c => Ok (tset n (match tget n d with Some old => nmax c old | None => c end) d)
      end
  end.
Fixpoint add_ports (names : tdict text) (d : tdict num) (l : list (text * text)) : res (tdict num) :=
  match l with
  | [] => Ok d
  | (port, cycles) :: l' => do d' <- add_port names d port cycles; add_ports names d' l'
  end.
Definition port_cycles (output : text) : res (tdict num) :=
  do names <- port_names output;
  do lines <- group (search match_pressure output);
  add_ports names [] (combine (fields (fst lines)) (fields (snd lines))).
(** incore_model.py:850, 851 and 868: [label\s+([0-9]+)] *)
Definition match_number (label s : text) : option Z :=
  if starts_with label s then
    match span space_char (skipn (List.length label) s) with
    | (_ :: _, r) => match span is_digit r with ((_ :: _) as d, _) => Some (Z.of_N (value d)) | _ => None end
    | _ => None
    end
  else None.
Definition number_of (label : text) (output : text) : res Z := group (search (match_number label) output).
(** incore_model.py:858: [[0-9]+,[0-9]+] in brackets at the start of a line *)
Definition is_timeline (l : text) : bool :=
  match l with
  | 91 :: r =>
      match span is_digit r with
      | (_ :: _, 44 :: r1) => match span is_digit r1 with (_ :: _, 93 :: _) => true | _ => false end
      | _ => false
      end
  | _ => false
  end.
(** [l.index(c)], incore_model.py:863 and 864 *)
Fixpoint index_of (c : N) (l : text) : res Z :=
  match l with
  | [] => Err ValueError
  | x :: l' => if x =? c then Ok 0%Z else do i <- index_of c l'; Ok (i + 1)%Z
  end.
(** incore_model.py:859-864; None is [float("inf")]. *)
Fixpoint path_range (ls : list text) (start : option Z) (stop : Z) : res (option Z * Z) :=
  match ls with
  | [] => Ok (start, stop)
  | l :: ls' =>
      if starts_with (codes "[0,") l then
        do d <- index_of 68 l;
        do r <- index_of 82 l;
        path_range ls' (Some (match start with Some s => Z.min d s | None => d end)) (Z.max r stop)
      else path_range ls' start stop
  end.
(** incore_model.py:858-865 *)
Definition latency (output : text) : res num :=
  do range <- path_range (filter is_timeline (split 10 output)) None 0%Z;
  Ok (match fst range with Some s => Fin (inject_Z (snd range - s)) | None => NInf end).
(** The dictionary that is returned, without the output itself (incore_model.py:827-869 and 928-955) *)
Record analysis := mkAnalysis { ports : tdict num; throughput : num; lcd : option num; cp_latency : option num; uops : option num }.
(** [a / b] of integers, incore_model.py:852 and 869 *)
Definition quotient (a b : Z) : res num := if (b =? 0)%Z then Err ZeroDivisionError else Ok (Fin (inject_Z a / inject_Z b)).
(** incore_model.py:827-869 *)
Definition read_mca (output : text) : res analysis :=
  do pc <- port_cycles output;
  do cycles <- number_of (codes "Total Cycles:") output;
  do iterations <- number_of (codes "Iterations:") output;
  do l <- quotient cycles iterations;
  do cp <- latency output;
  do u <- number_of (codes "Total uOps:") output;
  do u <- quotient u iterations;
  Ok (mkAnalysis pc l (Some l) (Some cp) (Some u)).

(** ** IACA *)
(** incore_model.py:929 and 951, anchored at the start of a line *)
Fixpoint first_line {A} (f : text -> option A) (ls : list text) : option A :=
  match ls with [] => None | l :: ls' => match f l with Some a => Some a | None => first_line f ls' end end.
Definition asserted {A} (m : option A) : res A := match m with Some a => Ok a | None => Err AssertionError end.
Definition to_float (s : text) : res num := match py_float s with Some x => Ok x | None => Err ValueError end.
Definition match_throughput (l : text) : option text :=
  let p := codes "Block Throughput: " in
  if starts_with p l then
    match span id_char (skipn (List.length p) l) with
    | ((_ :: _) as d, r) => if starts_with (codes " Cycles") r then Some d else None
    | _ => None
    end
  else None.
Definition match_uops (l : text) : option text :=
  let p := codes "Total Num Of Uops: " in
  if starts_with p l then match span is_digit (skipn (List.length p) l) with ((_ :: _) as d, _) => Some d | _ => None end else None.
(** incore_model.py:938 and 939 *)
Definition cells (row : text) : list text := skipn 2 (map strip (split 124 row)).
Definition item (l : list text) (i : nat) : res text := match nth_error l i with Some x => Ok x | None => Err IndexError end.
(** incore_model.py:942-948 *)
Definition read_cell (port : text) (cycles : list text) (i : nat) : res (list (text * num)) :=
  match port with
  | [] => Ok []
  | _ =>
      do c <- item cycles i;
      if existsb (N.eqb 45) port && existsb (N.eqb 32) c then
        let subports := map strip (split 45 port) in
        let subcycles := filter (fun w => match w with [] => false | _ => true end) (split 32 c) in
        do p0 <- item subports 0;
        do c0 <- item subcycles 0;
        do x0 <- to_float c0;
        do p1 <- item subports 1;
        do c1 <- item subcycles 1;
        do x1 <- to_float c1;
        Ok [(p0, x0); (p0 ++ p1, x1)]
      else match c with [] => Ok [] | _ => do x <- to_float c; Ok [(port, x)] end
  end.
Fixpoint read_cells (ports cycles : list text) (i : nat) : res (list (text * num)) :=
  match ports with
  | [] => Ok []
  | p :: ports' => do a <- read_cell p cycles i; do b <- read_cells ports' cycles (S i); Ok (a ++ b)
  end.
(** incore_model.py:928-955 *)
Definition read_iaca (output : text) : res analysis :=
  let lines := split 10 output in
  do t <- asserted (first_line match_throughput lines);
  do t <- to_float t;
  match filter (starts_with (codes "|  Port  |")) lines, filter (starts_with (codes "| Cycles |")) lines with
  | p :: _, c :: _ =>
      do pc <- read_cells (cells p) (cells c) 0;
      do u <- asserted (first_line match_uops lines);
      do u <- to_float u;
      Ok (mkAnalysis (tupdate [] pc) t None None (Some u))
  | _, _ => Err AssertionError
  end.

(** ** OSACA: incore_model.py:769-784. The throughput of each port, the latencies of loop-carried dependencies and the latencies on the critical path
    are results of the library. *)
Fixpoint qmax (a : Q) (l : list Q) : Q := match l with [] => a | b :: l' => qmax (if Qltb a b then b else a) l' end.
Definition read_osaca (names : list text) (values lcds path : list Q) : analysis :=
  let max_lcd := qmax 0%Q lcds in
  let all := values ++ [max_lcd] in
  mkAnalysis (tupdate [] (combine names (map Fin values))) (Fin (qmax (hd 0%Q all) (tl all))) (Some (Fin max_lcd)) (Some (Fin (fold_right Qplus 0%Q path))) None.
