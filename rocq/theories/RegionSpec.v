(** Specification for C96-C101, independent of the code. *)
From Verif Require Import CtrSpec LoopSpec PerfSpec LoopModel BenchModel RegionModel.
Local Open Scope N_scope.
Local Open Scope list_scope.
(** Of the models, only texts, dictionaries, entries, events, levels, loops, variables and the reading of numbers are used here. *)

(** ** C96: the region of a line is that of the last header up to it, or the default region, named by the empty text. *)
Definition header (r line : text) : Prop := begins_with [codes "TABLE"; codes "Region " ++ r] line.
Inductive region_after : list text -> text -> Prop :=
| after_nothing : region_after [] []
| after_header ls l r : header r l -> region_after (ls ++ [l]) r
| after_other ls l r : region_after ls r -> (forall r', ~ header r' l) -> region_after (ls ++ [l]) r.
(** [line_of r output line]: the line is in the output, in region r. *)
Definition line_of (r output line : text) : Prop :=
  exists before after, PyText.split 10 output = before ++ line :: after /\ region_after (before ++ [line]) r.
(** The same, and no later line of the region begins with this name *)
Definition last_line_of (r output k line : text) : Prop :=
  exists before after, PyText.split 10 output = before ++ line :: after /\ region_after (before ++ [line]) r
    /\ forall a l b, after = a ++ l :: b -> region_after (before ++ line :: a ++ [l]) r -> ~ begins_with [k] l.
Definition reported (rs : results) (r k : text) (e : entry) : Prop := exists d, tget r rs = Some d /\ tget k d = Some e.
Definition counted_in (rs : results) (r k reg : text) (n : Z) : Prop := exists d, reported rs r k (Counts d) /\ tget reg d = Some n.
Definition colon_at_end (k : text) : Prop := exists s, k = s ++ [58].
(** A register without options *)
Definition plain_register (s : text) : Prop := s <> [] /\ Forall in_name s.
(** A line with the count n of event k in a register *)
Definition count_line (k reg : text) (n : Z) (line : text) : Prop :=
  good_event k /\ plain_register reg /\ py_float reg = None /\ exists s, begins_with [k; reg; s] line /\ count_of_field s n.
Definition number_line (k : text) (x : num) (line : text) : Prop := exists v, begins_with [k; v] line /\ py_float v = Some x.
(** No name is used for both a number and a count in one region. *)
Definition no_mixture (output : text) : Prop :=
  forall r k reg n x l l', line_of r output l -> line_of r output l' -> count_line k reg n l -> number_line k x l' -> False.

(** ** C99: cycles per cache line for an amount of cache lines at some bandwidth in bytes per cycle *)
Definition transfer (lines total cl_size rate : Q) : Q := (lines * cl_size / total / rate)%Q.
Definition value_at (levels : list level) (cache name : string) (q : Q) : Prop :=
  exists l d, In l levels /\ l_name l = codes cache /\ l_metrics l = Some d /\ tget (codes name) d = Some q.
Definition distinct_levels (levels : list level) : Prop := NoDup (map l_name levels).
