(** Names of symbols and performance counters: machinemodel.py 79-85 and 568-584, models/benchmark.py 62-188. *)
From Verif Require Export PyText.
Local Open Scope N_scope.
Local Open Scope list_scope.

(** Character classes of the regular expressions (machinemodel.py:79-85 and models/benchmark.py:62-126). *)
Definition is_digit (c : N) : bool := (48 <=? c) && (c <=? 57).
Definition is_upper (c : N) : bool := (65 <=? c) && (c <=? 90).
Definition is_lower (c : N) : bool := (97 <=? c) && (c <=? 122).
Definition alnum (c : N) : bool := is_lower c || is_upper c || is_digit c.
Definition word_char (c : N) : bool := alnum c || (c =? 95).

(** machinemodel.py:79-85 [re.subn('(^[0-9])|[^0-9a-zA-Z_]', '_', name)[0]]. Without re.MULTILINE the [^]
    matches at the start of the text only, so the first alternative is for the first character. *)
Definition sanitize_symbolname (name : text) : text :=
  match name with
  | [] => []
  | c :: r => (if is_digit c || negb (word_char c) then 95 else c) :: map (fun c => if negb (word_char c) then 95 else c) r
  end.

(** machinemodel.py:568-584 parse_perfctr_event. *)
Definition event := (text * text * list text)%type.
Definition parse_perfctr_event (perfctr : text) : res event :=
  match split 58 perfctr with
  | e :: r :: ps => Ok (e, r, ps)
  | _ => Err AssertionError
  end.

(** models/benchmark.py:129-156 eventstr. [event_tuple] is None (the default), a pair or a triple; the last component
    of a triple may be None. Line 147 takes the length of [event_tuple] even if it is None: TypeError.
    The keyword arguments matter for parameters only: event and register are overwritten by the tuple. Not modelled:
    registers that are None (join raises TypeError). *)
Inductive event_tuple := NoTuple | Pair (e r : text) | Triple (e r : text) (ps : option (list text)).
Definition eventstr (t : event_tuple) (parameters : option (list text)) : res text :=
  do (e, r, ps) <- match t with
                   | NoTuple => Err TypeError
                   | Pair e r => Ok (e, r, parameters)
                   | Triple e r ps => Ok (e, r, ps)
                   end;
  Ok (join 58 ([e; r] ++ match ps with None => [] | Some ps => ps end)).

(** ** Generators: the values yielded, and the exception that ends the iteration, if any (as models/benchmark.py:62-126). *)
Definition gen (A : Type) := (list A * option exn)%type.
Definition gmap {A B} (f : A -> B) (g : gen A) : gen B := (map f (fst g), snd g).
(** Nested [for] loops that yield: one generator after the other until one raises (models/benchmark.py:62-126). *)
Fixpoint gseq {A} (l : list (gen A)) : gen A :=
  match l with
  | [] => ([], None)
  | (ys, Some e) :: _ => (ys, Some e)
  | (ys, None) :: l' => let (zs, e) := gseq l' in (ys ++ zs, e)
  end.

(** models/benchmark.py:79 [string.ascii_letters + string.digits] *)
Definition ordered_chars : list N := codes "abcdefghijklmnopqrstuvwxyzABCDEFGHIJKLMNOPQRSTUVWXYZ0123456789".
(** [ordered_chars.index(c)]; only called for characters in it (models/benchmark.py:62-88). *)
Fixpoint index_of (c : N) (l : list N) : nat :=
  match l with [] => O | x :: l' => if x =? c then O else S (index_of c l') end.
(** models/benchmark.py:84-86 *)
Definition char_range (a b : N) : list N :=
  let s := index_of a ordered_chars in
  let e := index_of b ordered_chars in
  map (fun i => nth i ordered_chars 0) (seq s (e + 1 - s)).
(** models/benchmark.py:62-88 group_iterator: [finditer] of a range or a character other than newline. *)
Fixpoint group_iterator (g : text) : list N :=
  match g with
  | [] => []
  | a :: rest =>
      let single := (if a =? 10 then [] else [a]) ++ group_iterator rest in
      match rest with
      | d :: b :: r => if alnum a && (d =? 45) && alnum b then char_range a b ++ group_iterator r else single
      | _ => single
      end
  end.

(** [\[(?P<grp>[^]]+)\]|(?P<chr>.)] at the start of [u] (models/benchmark.py:111-119): the characters to choose from, and
    the text after the match. *)
Fixpoint until_bracket (u : text) : option (text * text) :=
  match u with
  | [] => None
  | c :: r => if c =? 93 then Some ([], r) else match until_bracket r with Some (g, t) => Some (c :: g, t) | None => None end
  end.
Definition match_token (u : text) : option (list N * text) :=
  match u with
  | [] => None
  | c :: r =>
      let single := if c =? 10 then None else Some ([c], r) in
      if c =? 91 then
        match until_bracket r with
        | Some ((_ :: _) as g, t) => Some (group_iterator g, t)
        | _ => single
        end
      else single
  end.
(** models/benchmark.py:111-126 for a non-empty description. The recursive call gets a shorter text, so the length of the text
    is enough fuel. *)
Fixpoint register_rec (fuel : nat) (regdescr : text) : gen text :=
  match fuel with
  | O => ([], Some OutOfFuel)
  | S fuel' =>
      gseq (map (fun u => match match_token u with
                          | None => ([], Some AttributeError)
                          | Some (current, []) => (map (fun c => [c]) current, None)
                          | Some (current, rest) => gseq (map (fun c => gmap (cons c) (register_rec fuel' rest)) current)
                          end)
                (split 124 regdescr))
  end.
(** models/benchmark.py:91-126 register_options; line 110 yields None for an empty text and goes on with [''.split('|')]. *)
Definition register_options (regdescr : text) : gen (option text) :=
  let g := gmap Some (register_rec (S (length regdescr)) regdescr) in
  match regdescr with [] => (None :: fst g, snd g) | _ => g end.

(** ** models/benchmark.py:159-188 build_minimal_runs *)
Definition event_eq_dec (a b : event) : {a = b} + {a <> b}.
Proof. decide equality; [apply (list_eq_dec text_dec)|decide equality; apply text_dec]. Defined.
Definition event_in (e : event) (l : list event) : bool := existsb (fun x => if event_eq_dec e x then true else false) l.
Definition reg_dec (a b : option text) : {a = b} + {a <> b}.
Proof. decide equality. apply text_dec. Defined.
Definition reg_in (r : option text) (l : list (option text)) : bool := existsb (fun x => if reg_dec r x then true else false) l.

(** models/benchmark.py:162: every event at its first position. *)
Fixpoint first_occurrences (seen l : list event) : list event :=
  match l with
  | [] => []
  | e :: l' => if event_in e seen then first_occurrences seen l' else e :: first_occurrences (e :: seen) l'
  end.
(** What is measured: event, register, parameters (models/benchmark.py:159-188). *)
Definition counter := (text * option text * list text)%type.
(** models/benchmark.py:174-182: the first yielded register that is free in the run, None if there is none. *)
Fixpoint free_register (ys : list (option text)) (e : option exn) (used : list (option text)) : res (option (option text)) :=
  match ys with
  | [] => match e with Some x => Err x | None => Ok None end
  | r :: ys' => if reg_in r used then free_register ys' e used else Ok (Some r)
  end.
(** models/benchmark.py:168-182: one pass over the events. The run is a list of the entries of the dict [s] in order of insertion. *)
Fixpoint one_run (events : list event) (run : list (option text * counter)) (scheduled : list event)
  : res (list (option text * counter) * list event) :=
  match events with
  | [] => Ok (run, scheduled)
  | (ev, registers, parameters) as tpl :: events' =>
      if event_in tpl scheduled then one_run events' run scheduled
      else
        do r <- (let g := register_options registers in free_register (fst g) (snd g) (map fst run));
        match r with
        | Some reg => one_run events' (run ++ [(reg, (ev, reg, parameters))]) (scheduled ++ [tpl])
        | None => one_run events' run scheduled
        end
  end.
(** models/benchmark.py:164-188. A run is in [scheduled_runs] only if some register was tried in it (line 176); the first one tried is free,
    so these are the non-empty runs. *)
Fixpoint all_runs (fuel : nat) (events scheduled : list event) (runs : list (list counter)) : res (list (list counter)) :=
  if (length scheduled =? length events)%nat then Ok runs
  else match fuel with
       | O => Err OutOfFuel
       | S fuel' =>
           do (run, scheduled') <- one_run events [] scheduled;
           all_runs fuel' events scheduled' (match run with [] => runs | _ => runs ++ [map snd run] end)
       end.
Definition build_minimal_runs (fuel : nat) (events : list event) : res (list (list counter)) :=
  all_runs fuel (first_occurrences [] events) [] [].
