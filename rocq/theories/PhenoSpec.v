(** What the options of the stand-alone benchmark mean, independently of how they are read. *)
From Coq Require Import String.
From Verif Require Import PyBase PyText PyInt PyFloat PyDict PyRegex BenchModel PhenoModel.
Local Open Scope N_scope.
Local Open Scope list_scope.

(** Names of regions: letters, digits and underscores, no digit in front *)
Definition is_name (t : text) : Prop :=
  match t with c :: w => is_word c = true /\ is_decimal c = false /\ forallb is_word w = true | [] => False end.
(** [[...,]region:], nothing for no region *)
Definition write_regions (l : list text) : text := match l with [] => [] | _ => join 44 l ++ [58] end.
(** No region means the default region, the empty text. *)
Definition meant (l : list text) : list text := match l with [] => [[]] | _ => l end.

(** ** Loops: [[...,]region:]start:[step:]end[:variable] *)
Record loop_option := mkLoopOption { o_regions : list text; o_start : N; o_step : option N; o_end : N; o_variable : option text }.
Definition write_loop (o : loop_option) : text :=
  write_regions (o_regions o) ++ show_nat (o_start o) ++ [58]
  ++ (match o_step o with Some s => show_nat s ++ [58] | None => [] end)
  ++ show_nat (o_end o) ++ (match o_variable o with Some v => 58 :: v | None => [] end).
(** Variables have no white space and no digit in front. *)
Definition good_variable (v : text) : Prop := match v with c :: w => is_decimal c = false /\ forallb not_blank w = true | [] => False end.
Definition good_loop (o : loop_option) : Prop :=
  Forall is_name (o_regions o) /\ NoDup (o_regions o) /\ match o_variable o with Some v => good_variable v | None => True end.
Definition loop_of (o : loop_option) : entry :=
  Loop (mkLoop (Z.of_N (o_start o)) (match o_step o with Some s => Z.of_N s | None => 1%Z end) (inject_Z (Z.of_N (o_end o))) (o_variable o) None).
Definition for_region (r : text) (o : loop_option) : bool := existsb (text_eqb r) (meant (o_regions o)).
(** The loops of a region, from outside to inside *)
Definition loops_in (st : loops) (r : text) : list entry :=
  match tget r (table st) with
  | Some l => flat_map (fun i => match nth_error (heap st) i with Some e => [e] | None => [] end) l
  | None => []
  end.
Definition no_loops : loops := mkLoops [] [].
(** A text does not go on with a character of the class. *)
Definition ends (p : N -> bool) (t : text) : Prop := match t with c :: _ => p c = false | [] => True end.

(** ** Variables: [[...,]region:]start[:stop[:scale]] *)
(** Digits, optionally a dot and digits, optionally an exponent *)
Definition digits (t : text) : Prop := t <> [] /\ forallb is_decimal t = true.
Definition fraction (t : text) : Prop := t = [] \/ exists d, digits d /\ t = 46 :: d.
Definition exponent (t : text) : Prop :=
  t = [] \/ exists c s d, (c = 101 \/ c = 69) /\ (s = [] \/ s = [45] \/ s = [43]) /\ digits d /\ t = c :: s ++ d.
Definition number (t : text) : Prop := exists i f e, digits i /\ fraction f /\ exponent e /\ t = i ++ f ++ e.
Record define_option := mkDefineOption { f_regions : list text; f_start : text; f_stop : option (text * option scale) }.
Definition write_scale (s : scale) : text := match s with Lin => codes "lin" | Log => codes "log" end.
Definition write_define (f : define_option) : text :=
  write_regions (f_regions f) ++ f_start f
  ++ match f_stop f with
     | None => []
     | Some (b, None) => 58 :: b
     | Some (b, Some s) => 58 :: b ++ 58 :: write_scale s
     end.
Definition good_define (f : define_option) : Prop :=
  Forall is_name (f_regions f) /\ number (f_start f) /\ match f_stop f with Some (b, _) => number b | None => True end.
(** The variable: its value, and the last value with the direction of changes: upwards if the last value is larger, unless it is given *)
Definition variable_of (f : define_option) (v : variable) : Prop :=
  v_region v = meant (f_regions f) /\ v_first v = v_now v /\ py_float (f_start f) = Some (Fin (v_now v))
  /\ match f_stop f with
     | None => v_adjust v = None
     | Some (b, s) =>
         exists q, py_float b = Some (Fin q)
                   /\ match s with
                      | Some s => v_adjust v = Some (q, s)
                      | None => (v_now v < q /\ v_adjust v = Some (q, Lin) \/ q <= v_now v /\ v_adjust v = Some (q, Log))%Q
                      end
     end.

(** ** Kernels *)
(** Dictionaries have every key once. *)
Definition dictionary {A} (d : tdict A) : Prop := NoDup (map fst d).
(** The value of a region: its own one, otherwise that of the default region *)
Definition chosen {A} (d : tdict A) (r : text) : option A := match tget r d with Some x => Some x | None => tget [] d end.
(** Regions to be analysed: the default region only if there is no other *)
Definition analysed (l : list text) (r : text) : Prop := In r l /\ (r = [] -> l = [r]).
(** The number of repetitions that a text describes *)
Definition repetition_of (q : text) (p : rep) : Prop :=
  (q = codes "marker" /\ p = mkRep Marker None)
  \/ (q <> codes "marker" /\ match py_int q with Some n => p = mkRep (Fixed n) (Some n) | None => p = mkRep (Variable_ q) None end).
(** The option can be used: loops have integers, their variables are defined with a value, and so is every variable. *)
Definition usable_loop (define : tdict (option variable)) (e : entry) : Prop :=
  match e with
  | Raw _ => False
  | Loop l => match l_var l with None | Some [] => True | Some n => exists v, tget n define = Some (Some v) end
  end.
Definition usable (a : arguments) : Prop :=
  (forall r e, In e (loops_in (a_loops a) r) -> usable_loop (a_define a) e)
  /\ (forall n v, In (n, v) (a_define a) -> v <> None)
  /\ (forall r q, In (r, q) (a_repetitions a) -> q = codes "marker" -> a_marker a = true).
(** Everything is known about a region. *)
Definition known (a : arguments) (r : text) : Prop :=
  chosen (table (a_loops a)) r <> None /\ chosen (a_repetitions a) r <> None /\ chosen (a_flops a) r <> None.

(** The end of every loop that depends on a variable differs from the variable's value by a constant: [offset]. *)
Definition follows (b : binary) : Prop :=
  forall r l n o, In (Loop l) (loops_in (b_loops b) r) -> l_var l = Some n -> l_offset l = Some o ->
  exists v, tget n (b_define b) = Some (Some v) /\ (l_end l == v_now v - o)%Q.
(** A loop after its offset to the variable is recorded *)
Definition with_offset (define : tdict (option variable)) (e : entry) : entry :=
  match e with
  | Raw t => Raw t
  | Loop l =>
      match l_var l with
      | None | Some [] => e
      | Some n => match tget n define with
                  | Some (Some v) => Loop (mkLoop (l_start l) (l_step l) (l_end l) (l_var l) (Some (v_now v - l_end l)%Q))
                  | _ => e
                  end
      end
  end.
(** The region that describes the loops of a region: itself or the default region *)
Definition source_of (st : loops) (r : text) : text := match tget r (table st) with Some _ => r | None => [] end.
(** Position i of the heap belongs to the region. *)
Definition belongs (st : loops) (r : text) (i : nat) : Prop := exists l, tget r (table st) = Some l /\ In i l.
(** The loops that depend on a variable belong to each of the regions where the variable is changed. *)
Definition shared (b : binary) (regions : list text) : Prop :=
  forall region n v r i l,
  In region regions -> tget n (b_define b) = Some (Some v) -> v_adjust v <> None -> In region (v_region v) ->
  belongs (b_loops b) r i -> nth_error (heap (b_loops b)) i = Some (Loop l) -> l_var l = Some n -> belongs (b_loops b) region i.
(** The variables as the adaptation of values sees them (BenchModel.v, C60) *)
Definition variables (d : tdict (option variable)) : list var := flat_map (fun x => match snd x with Some v => [as_var v] | None => [] end) d.
