(** Metrics of performance counters and results of likwid-perfctr: machinemodel.py 586-610, models/benchmark.py 197-265, 331-355
    and 395-402, 430-447 and 505-524. *)
From Verif Require Export PyDict PyFloat CtrModel.
From Verif Require Import LoopModel.
Local Open Scope N_scope.
Local Open Scope list_scope.

(** ** Metrics: machinemodel.py:586-610 parse_perfmetric *)
(** Character classes of the regular expression in machinemodel.py:591: events, registers, parameters *)
Definition event_char (c : N) : bool := is_upper c || is_digit c || (c =? 95).
Definition register_char (c : N) : bool := is_upper c || is_digit c || (c =? 91) || (c =? 93) || (c =? 124) || (c =? 45).
Definition parameter_char (c : N) : bool := alnum c || (c =? 45) || (c =? 95) || (c =? 61).
(** Longest sequence of characters of a class, and the text behind (as for machinemodel.py:591) *)
Fixpoint span (p : N -> bool) (s : text) : text * text :=
  match s with
  | c :: r => if p c then let (a, b) := span p r in (c :: a, b) else ([], s)
  | [] => ([], [])
  end.
(** [(?::[A-Za-z0-9\-_=]+)*]; every repetition is at least two characters long (machinemodel.py:591). *)
Fixpoint match_parameters (fuel : nat) (s : text) : text * text :=
  match fuel with
  | O => ([], s)
  | S fuel' =>
      match s with
      | 58 :: r => match span parameter_char r with
                   | ([], _) => ([], s)
                   | (a, t) => let (b, t') := match_parameters fuel' t in (58 :: a ++ b, t')
                   end
      | _ => ([], s)
      end
  end.
(** One match at the start of a text. No class contains the colon, so the longest sequences are the only ones that can match (machinemodel.py:591). *)
Definition match_counter (s : text) : option (text * text) :=
  match span event_char s with
  | ((_ :: _) as e, 58 :: r) =>
      match span register_char r with
      | ((_ :: _) as g, t) => let (p, t') := match_parameters (List.length t) t in Some (e ++ 58 :: g ++ p, t')
      | _ => None
      end
  | _ => None
  end.
(** machinemodel.py:591 [re.findall]: matches from left to right *)
Fixpoint find_counters (fuel : nat) (s : text) : list text :=
  match fuel with
  | O => []
  | S fuel' =>
      match s with
      | [] => []
      | _ :: r => match match_counter s with Some (m, t) => m :: find_counters fuel' t | None => find_counters fuel' r end
      end
  end.
(** machinemodel.py:595 *)
Definition temp_name (pc : text) : text :=
  codes "SYM" ++ map (fun c => if (c =? 91) || (c =? 93) || (c =? 45) || (c =? 124) || (c =? 61) || (c =? 58) then 95 else c) pc.
(** [s.replace(p, v)] for p that is not empty (as used in machinemodel.py:587-610) *)
Fixpoint starts_with (p s : text) : bool :=
  match p, s with
  | [], _ => true
  | x :: p', y :: s' => (x =? y) && starts_with p' s'
  | _, [] => false
  end.
Fixpoint replace (fuel : nat) (p v s : text) : text :=
  match fuel with
  | O => s
  | S fuel' =>
      match s with
      | [] => []
      | c :: r => if starts_with p s then v ++ replace fuel' p v (skipn (List.length p) s) else c :: replace fuel' p v r
      end
  end.
(** What the parser of expressions sees: words (names and numbers) and other characters. Expressions are represented by these
    sequences: their syntax and the simplifications of sympy (in which symbols can cancel) are not modelled (machinemodel.py:602-608). *)
Inductive token := Word (w : text) | Sign (c : N).
Definition flush (w : text) : list token := match w with [] => [] | _ => [Word w] end.
Fixpoint tokens (cur s : text) : list token :=
  match s with
  | [] => flush cur
  | c :: r => if word_char c then tokens (cur ++ [c]) r else flush cur ++ (if is_space c then [] else [Sign c]) ++ tokens [] r
  end.
(** machinemodel.py:602-605. The name of a symbol is changed in place; the cache of symbols of sympy is not modelled. *)
Definition rename (names : tdict text) (t : token) : token :=
  match t with Word w => Word (match tget w names with Some pc => pc | None => w end) | _ => t end.
(** machinemodel.py:607-608, for a sequence of tokens: the symbols that are counters, and their events *)
Fixpoint metric_events (counters : list text) (ts : list token) : res (list (text * event)) :=
  match ts with
  | Word w :: ts' =>
      if existsb (text_eqb w) counters then do e <- parse_perfctr_event w; do es <- metric_events counters ts'; Ok ((w, e) :: es)
      else metric_events counters ts'
  | Sign _ :: ts' => metric_events counters ts'
  | [] => Ok []
  end.
Definition temp_names (counters : list text) : tdict text := fold_left (fun d pc => tset (temp_name pc) pc d) counters [].
Definition replace_counters (names : tdict text) (metric : text) : text :=
  fold_left (fun t x => replace (List.length t) (snd x) (fst x) t) names metric.
Definition parse_perfmetric (metric : text) : res (list token * tdict event) :=
  let counters := find_counters (List.length metric) metric in
  let names := temp_names counters in
  let expr := map (rename names) (tokens [] (replace_counters names metric)) in
  do es <- metric_events counters expr;
  Ok (expr, fold_left (fun d x => tset (fst x) (snd x) d) es []).

(** ** Output of likwid-perfctr: models/benchmark.py:234-265 *)
Inductive result := Number (x : num) | Label (s : text) | Counts (d : tdict Z) | Raw (l : list text).
(** models/benchmark.py:254 *)
Definition is_event_name (s : text) : bool := match s with [] => false | _ => forallb event_char s end.
(** models/benchmark.py:255 [[A-Z0-9]+(:[A-Z0-9]+=[0-9a-fA-Fx]+)*]: no class contains the colon or '='. *)
Definition name_char (c : N) : bool := is_upper c || is_digit c.
Definition hex_char (c : N) : bool := is_digit c || ((97 <=? c) && (c <=? 102)) || ((65 <=? c) && (c <=? 70)) || (c =? 120).
Definition some_of (p : N -> bool) (s : text) : bool := match s with [] => false | _ => forallb p s end.
Definition is_option (s : text) : bool := match split 61 s with [n; v] => some_of name_char n && some_of hex_char v | _ => false end.
Definition is_register_name (s : text) : bool :=
  match split 58 s with r :: ps => some_of name_char r && forallb is_option ps | [] => false end.
(** models/benchmark.py:250-253; None for ValueError *)
Definition counter_value (s : text) : option Z :=
  if text_eqb s (codes "-") || text_eqb s (codes "nan") then Some 0%Z else py_int s.
Definition ends_with_colon (s : text) : bool := match rev s with 58 :: _ => true | _ => false end.
(** models/benchmark.py:236-264, for one line. Setting an entry in something that is no dictionary is a TypeError, which is not caught. *)
Definition read_line (results : tdict result) (line : text) : res (tdict result) :=
  match split 44 line with
  | k :: v :: rest =>
      match py_float v with
      | Some x => Ok (tset k (Number x) results)
      | None =>
          let info := if ends_with_colon k && match rest with [[]] => true | _ => false end then tset k (Label v) results else results in
          match rest with
          | [] => Ok info
          | c :: _ =>
              match counter_value c with
              | None => Ok info
              | Some n =>
                  if is_event_name k && is_register_name v then
                    match tget k results with
                    | None => Ok (tset k (Counts [(v, n)]) results)
                    | Some (Counts d) => Ok (tset k (Counts (tset v n d)) results)
                    | Some _ => Err TypeError
                    end
                  else Ok info
              end
          end
      end
  | _ => Ok results
  end.
Fixpoint read_lines (results : tdict result) (lines : list text) : res (tdict result) :=
  match lines with
  | [] => Ok results
  | l :: lines' => do results <- read_line results l; read_lines results lines'
  end.
(** models/benchmark.py:234-265 *)
Definition read_output (output : text) : res (tdict result) :=
  let lines := split 10 output in read_lines [(codes "raw output", Raw lines)] lines.

(** ** Frequency: models/benchmark.py:343-353 *)
(** [s.replace(" GHz", "")] (models/benchmark.py:331-355) *)
Definition without_unit (s : text) : text := replace (List.length s) (codes " GHz") [] s.
(** [float] of a text that is no number is a ValueError; a value that was read as a number has no [replace]; a list, too.
    A dictionary cannot be stored under a name that ends with a colon (models/benchmark.py:331-355). *)
Definition check_clock (clock : Q) (ignore_warnings : bool) (results : tdict result) : res (tdict result) :=
  match tget (codes "CPU clock:") results with
  | None => Ok results
  | Some (Label s) =>
      match py_float (without_unit s) with
      | None => Err ValueError
      | Some x =>
          let current := nmul x (Fin (inject_Z 1000000000)) in
          if ngtb (nabs (nsub current (Fin clock))) (Fin (clock * (1 # 100))%Q) && negb ignore_warnings then Err SystemExit else Ok results
      end
  | Some _ => Err AttributeError
  end.

(** ** Counters of all runs: models/benchmark.py:430-447 *)
(** models/benchmark.py:431-436: the results of the runs, one after the other *)
Definition merge_results (runs : list (tdict result)) : tdict result := fold_left tupdate runs [].
(** models/benchmark.py:446: [r in measured_ctrs[event]]. A text or list instead of the dictionary, which no event name has, is an error here. *)
Definition measured_value (measured : tdict result) (event : text) (r : option text) : res (option Z) :=
  match tget event measured with
  | None => Err KeyError
  | Some (Counts d) => Ok (match r with Some r => tget r d | None => None end)
  | Some _ => Err TypeError
  end.
(** models/benchmark.py:445-447: the last register that was measured *)
Fixpoint last_match (measured : tdict result) (event : text) (regs : list (option text)) (found : option Z) : res (option Z) :=
  match regs with
  | [] => Ok found
  | r :: regs' =>
      do v <- measured_value measured event r;
      last_match measured event regs' (match v with Some n => Some n | None => found end)
  end.
(** models/benchmark.py:441-447 for one symbol. Without parameters the registers are enumerated in the loop. *)
Definition match_symbol (measured : tdict result) (ctr : event) : res (option Z) :=
  let '(event, descr, parameters) := ctr in
  let g := register_options descr in
  match parameters with
  | [] =>
      do v <- last_match measured event (fst g) None;
      match snd g with Some e => Err e | None => Ok v end
  | _ =>
      match snd g with
      | Some e => Err e
      | None =>
          do regs <- mapM (fun r => match r with Some r => Ok (Some (r ++ 58 :: join 58 parameters)) | None => Err TypeError end) (fst g);
          last_match measured event regs None
      end
  end.
(** models/benchmark.py:438-447: symbols without a measured register get no value. *)
Fixpoint match_symbols (measured : tdict result) (counters : tdict event) : res (tdict Z) :=
  match counters with
  | [] => Ok []
  | (sym, ctr) :: counters' =>
      do v <- match_symbol measured ctr;
      do d <- match_symbols measured counters';
      Ok (match v with Some n => (sym, n) :: d | None => d end)
  end.

(** ** Derived results: models/benchmark.py:395-402 and 505-524, exact numbers *)
Record rates := mkRates { cy_per_cl : Q; mflops : Q; mlups : Q; mits : Q; mem_volume : option Q }.
(** [loops] of the kernel, cache line size and bytes per iteration, clock, flops per iteration, time per repetition, number of
    repetitions, and the measured data volume in GByte, if any. Divisions by zero are errors; the numbers of iterations and bytes can
    only be zero for empty loops or kernels without accesses. Simplification: sympy numbers give infinity or nan there (models/benchmark.py:505-524). *)
Definition derived (loops : list loop) (cacheline bytes clock : Q) (flops : Z) (time repetitions : Q) (volume : option Q) : res rates :=
  let its := bench_iterations loops in
  if Qeq_bool bytes 0 || Qeq_bool its 0 || Qeq_bool time 0 || Qeq_bool repetitions 0 then Err ZeroDivisionError
  else
    let its_per_cl := (cacheline / bytes)%Q in
    let cys := (time * clock)%Q in
    Ok (mkRates (cys / its * its_per_cl)
                (inject_Z flops / (time / its) / inject_Z 1000000)
                (its / time / inject_Z 1000000)
                (its / time / inject_Z 1000000)
                (match volume with Some v => Some (v * inject_Z 1000000000 / repetitions) | None => None end))%Q.
