(** Specification for C73-C77, independent of the code. *)
From Verif Require Import PerfModel CtrSpec LoopSpec.
Local Open Scope N_scope.
Local Open Scope list_scope.
(** Of the models, only texts, events, counters, tokens, loops, dictionaries and the reading of numbers are used here. *)

(** ** C73: metrics are words, references to counters, and signs or spaces between them. *)
Inductive atom := Name (w : text) | Ref (e : event).
Definition ref_text (e : event) : text := let '(ev, rs, ps) := e in join 58 (ev :: rs :: ps).
Definition atom_text (a : atom) : text := match a with Name w => w | Ref e => ref_text e end.
(** Every atom comes with the signs and spaces in front of it; the last text is behind the last atom. *)
Definition metric_text (m : list (text * atom)) (last : text) : text := flat_map (fun x => fst x ++ atom_text (snd x)) m ++ last.

Definition any_of (s : string) (c : N) : Prop := In c (codes s).
Definition in_event (c : N) : Prop := upper c \/ digit c \/ c = 95.
Definition in_registers (c : N) : Prop := upper c \/ digit c \/ any_of "[]|-" c.
Definition in_parameter (c : N) : Prop := letter_or_digit c \/ any_of "-_=" c.
Definition good_ref (e : event) : Prop :=
  let '(ev, rs, ps) := e in
  (ev <> [] /\ Forall in_event ev) /\ (rs <> [] /\ Forall in_registers rs) /\ Forall (fun p => p <> [] /\ Forall in_parameter p) ps.
(** Signs: anything but letters, digits, '_', and the other characters of references to counters; '-' is allowed. *)
Definition separator (c : N) : Prop := ~ identifier_char c /\ ~ any_of ":[]|=" c.
Definition good_atom (a : atom) : Prop := match a with Name w => w <> [] /\ Forall identifier_char w | Ref e => good_ref e end.
(** Between two atoms there is at least one sign or space, and no '-' immediately behind a counter. *)
Definition good_gap (before : option atom) (g : text) : Prop :=
  Forall separator g /\ match before with Some (Ref _) => hd_error g <> Some 45 | _ => True end.
Fixpoint good_metric (before : option atom) (m : list (text * atom)) (last : text) : Prop :=
  match m with
  | [] => good_gap before last
  | (g, a) :: m' => good_gap before g /\ (before <> None -> g <> []) /\ good_atom a /\ good_metric (Some a) m' last
  end.
Definition refs (m : list (text * atom)) : list event := flat_map (fun x => match snd x with Ref e => [e] | Name _ => [] end) m.
(** [part p s]: p is a contiguous part of s. *)
Definition part (p s : text) : Prop := exists a b, s = a ++ p ++ b.
Definition punctuation (c : N) : bool := existsb (N.eqb c) (codes "[]|-=:").
Definition plain (s : text) : text := map (fun c => if punctuation c then 95 else c) s.
(** No counter is part of another one, different counters stay different without punctuation, and no name looks like a counter. *)
Definition unambiguous (m : list (text * atom)) : Prop :=
  (forall c d, In c (refs m) -> In d (refs m) -> part (ref_text c) (ref_text d) -> c = d)
  /\ (forall c d, In c (refs m) -> In d (refs m) -> plain (ref_text c) = plain (ref_text d) -> c = d)
  /\ (forall g w c, In (g, Name w) m -> In c (refs m) -> w <> codes "SYM" ++ plain (ref_text c)).
(** The metric with counters as single symbols *)
Definition signs (g : text) : list token := flat_map (fun c => if is_space c then [] else [Sign c]) g.
Definition metric_tokens (m : list (text * atom)) (last : text) : list token :=
  flat_map (fun x => signs (fst x) ++ [Word (atom_text (snd x))]) m ++ signs last.

(** ** C74: lines of comma separated values *)
Definition begins_with (fields : list text) (line : text) : Prop := exists rest, split 44 line = fields ++ rest.
(** Registers as LIKWID writes them: a name that begins with a letter, and options NAME=number. *)
Definition in_name (c : N) : Prop := upper c \/ digit c.
Definition good_option (p : text) : Prop :=
  exists n v, p = n ++ 61 :: v /\ n <> [] /\ Forall in_name n /\ v <> [] /\ Forall (fun c => digit c \/ 97 <= c <= 102 \/ 65 <= c <= 70 \/ c = 120) v.
Definition good_register (r : text) : Prop :=
  exists c n ps, r = join 58 ((c :: n) :: ps) /\ upper c /\ Forall in_name n /\ Forall good_option ps.
Definition good_event (e : text) : Prop := e <> [] /\ Forall in_event e.
(** The number of a counter: '-' and 'nan' stand for no counts. *)
Definition count_of_field (s : text) (n : Z) : Prop := s = codes "-" /\ n = 0%Z \/ s = codes "nan" /\ n = 0%Z \/ py_int s = Some n.

(** ** C75 *)
Definition register_label (r : text) (ps : list text) : text := join 58 (r :: ps).
(** The results of a run are the counts of its counters, under event, register and parameters; there is nothing under the names of other
    events. *)
Definition reports (names : list text) (count : counter -> Z) (run : list counter) (results : tdict result) : Prop :=
  NoDup (map fst results)
  /\ (forall e, (exists r ps, In (e, r, ps) run) ->
       exists d, tget e results = Some (Counts d)
         /\ forall label n, tget label d = Some n <-> exists r ps, In (e, Some r, ps) run /\ label = register_label r ps /\ n = count (e, Some r, ps))
  /\ (forall e, In e names -> ~ (exists r ps, In (e, r, ps) run) -> tget e results = None).
Definition event_name (e : event) : text := fst (fst e).
Definition colon_free (s : text) : Prop := ~ In 58 s.
(** The output of LIKWID for a run has a line "event,register,count" for every counter, and no other line for the events. *)
Definition prints (names : list text) (count : counter -> Z) (run : list counter) (output : text) : Prop :=
  (forall e, In e names -> good_event e)
  /\ (forall e r ps, In (e, r, ps) run -> In e names /\ Forall colon_free ps /\ match r with Some r => colon_free r | None => False end)
  /\ (forall e r ps, In (e, Some r, ps) run ->
       good_register (register_label r ps) /\ py_float (register_label r ps) = None
       /\ exists l, In l (split 10 output) /\ begins_with [e; register_label r ps; show_int (count (e, Some r, ps))] l)
  /\ (forall e v l, In e names -> In l (split 10 output) -> begins_with [e; v] l ->
       exists r ps, In (e, Some r, ps) run /\ v = register_label r ps /\ begins_with [e; v; show_int (count (e, Some r, ps))] l)
  (** No other name is printed both with a number and with a count. *)
  /\ (forall e l v x l' w s n, In l (split 10 output) -> In l' (split 10 output) -> good_event e -> begins_with [e; v] l -> py_float v = Some x ->
       begins_with [e; w; s] l' -> py_float w = None -> count_of_field s n -> False).
Definition clean_event (e : event) : Prop := let '(ev, rs, ps) := e in colon_free rs /\ Forall colon_free ps /\ rs <> [].
(** All runs with their results *)
Definition measurement (events : list event) (runs : list (list counter)) (counts : list (counter -> Z)) (results : list (tdict result)) : Prop :=
  Forall2 (fun rc res => reports (map event_name events) (snd rc) (fst rc) res) (combine runs counts) results /\ length runs = length counts.
(** A count of the event with its parameters in one of its registers *)
Definition genuine (runs : list (list counter)) (counts : list (counter -> Z)) (e : event) (n : Z) : Prop :=
  let '(ev, rs, ps) := e in
  exists i run count r, nth_error runs i = Some run /\ nth_error counts i = Some count
    /\ In (ev, Some r, ps) run /\ In (Some r) (registers_of e) /\ n = count (ev, Some r, ps).
(** Every event name is measured in one run only. *)
Definition one_run_each (runs : list (list counter)) : Prop :=
  forall i j a b e r1 ps1 r2 ps2, nth_error runs i = Some a -> nth_error runs j = Some b ->
    In (e, r1, ps1) a -> In (e, r2, ps2) b -> i = j.
