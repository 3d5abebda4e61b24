(** Model of the options of the stand-alone benchmark, [/repo/kerncraft/standalone_pheno.py] 23-261, of the kernel they describe,
    [/repo/kerncraft/kernel.py] BinaryDescription 1891-1989, and of the ends of loops that depend on variables,
    [/repo/kerncraft/models/standalone_benchmark.py] adjust_variables 180-220.
    The options have defaults (standalone_pheno.py:273, 302, 305-306, 309-310), so the branches for a missing attribute (85-87, 148-150,
    194-197, 241-244) are not reached. Simplifications: texts are ASCII; floating point numbers are exact; warnings are left out. *)
From Coq Require Import String.
From Verif Require Import PyBase PyText PyInt PyFloat PyDict PyRegex BenchModel.
Local Open Scope N_scope.
Local Open Scope list_scope.

(** ** Patterns (standalone_pheno.py:44-47, 106-115, 171-174, 217) *)
Definition rdigit : rx := RChr is_decimal.
(** The optional regions, standalone_pheno.py:44, 106, 171, 217: names of a character that is no digit and of word characters, separated by commas,
    then a colon *)
Definition name_rx : rx := RSeq (RChr not_decimal) (RStar (RChr is_word)).
Definition item_rx : rx := RSeq (RChr not_decimal) (RSeq (RStar (RChr is_word)) (rlit 44)).
Definition region_rx : rx := ropt (RSeq (RGroup "region" (RSeq (RStar item_rx) name_rx)) (rlit 58)).
(** Digits, optionally a dot and digits: standalone_pheno.py:108, 110, 112 *)
Definition number_rx : rx := RSeq (rplus rdigit) (RSeq (ropt (rlit 46)) (RStar rdigit)).
(** standalone_pheno.py:106-115 *)
Definition variable_rx : rx := ropt (RSeq (rlit 58) (RGroup "variable" (RSeq (RChr not_decimal) (RStar (RChr not_blank))))).
Definition step_rx : rx := ropt (RSeq (RGroup "step" number_rx) (rlit 58)).
Definition loop_rx : rx :=
  RSeq region_rx (RSeq (RGroup "start" number_rx) (RSeq (rlit 58) (RSeq step_rx (RSeq (RGroup "end" number_rx) variable_rx)))).
(** standalone_pheno.py:171-174 *)
Definition repetition_rx : rx := RSeq region_rx (RSeq (RGroup "qualifier" (rplus (RChr is_word))) REnd).
(** standalone_pheno.py:217 *)
Definition flops_rx : rx := RSeq region_rx (RSeq (RGroup "flops" (rplus rdigit)) REnd).
(** Floating point numbers, standalone_pheno.py:45-46 *)
Definition is_e (c : N) : bool := (c =? 101) || (c =? 69).
Definition is_sign (c : N) : bool := (c =? 45) || (c =? 43).
Definition exponent_rx : rx := ropt (RSeq (RChr is_e) (RSeq (ropt (RChr is_sign)) (rplus rdigit))).
Definition float_rx : rx := RSeq (RStar rdigit) (RSeq (ropt (rlit 46)) (RSeq (rplus rdigit) exponent_rx)).
(** standalone_pheno.py:44-47 *)
Definition colon_rx : rx := ropt (rlit 58).
Definition scale_rx : rx := ropt (ropt (RGroup "scale_var" (RAlt (rword (codes "log")) (rword (codes "lin"))))).
Definition define_rx : rx :=
  RSeq region_rx (RSeq (RSeq (ropt (RGroup "start_var" float_rx)) colon_rx) (RSeq (ropt (RSeq (ropt (RGroup "stop_var" float_rx)) colon_rx)) scale_rx)).

(** [gd['region'].split(',') if gd['region'] is not None else ['']], standalone_pheno.py:55, 121, 179, 221-224 *)
Definition regions_of (g : groups) : list text := match group "region" g with Some r => PyText.split 44 r | None => [[]] end.

(** ** Loops: standalone_pheno.py:90-150 *)
(** The dictionary of a loop (130-131). The end may become a fraction (see below). *)
Record loop := mkLoop { l_start : Z; l_step : Z; l_end : Q; l_var : option text; l_offset : option Q }.
(** Numbers that are no integers leave the text as it was (132-134). *)
Inductive entry := Loop (l : loop) | Raw (t : text).
(** The regions given in one option share one dictionary; [table] has positions in [heap] (standalone_pheno.py:100-150). *)
Record loops := mkLoops { heap : list entry; table : tdict (list nat) }.
Definition read_loop (v : text) (g : groups) : entry :=
  match group "start" g, group "end" g with
  | Some a, Some b =>
      match py_int a, py_int b, match group "step" g with Some c => py_int c | None => Some 1%Z end with
      | Some a, Some b, Some c => Loop (mkLoop a c (inject_Z b) (group "variable" g) None)
      | _, _, _ => Raw v
      end
  | _, _ => Raw v
  end.
(** standalone_pheno.py:139-147 *)
Definition add_to (i : nat) (t : tdict (list nat)) (r : text) : tdict (list nat) :=
  match tget r t with Some l => tset r (l ++ [i]) t | None => tset r [i] t end.
(** argparse ends the program for an ArgumentError (standalone_pheno.py:100-150). *)
Definition append_loop (st : loops) (v : text) : res loops :=
  match re_match loop_rx v with
  | None => Err SystemExit
  | Some (_, g) => Ok (mkLoops (heap st ++ [read_loop v g]) (fold_left (add_to (List.length (heap st))) (regions_of g) (table st)))
  end.

(** ** Variables: standalone_pheno.py:23-87 *)
(** Without a start value the dictionary stays empty (52): None. standalone_pheno.py:52-76 *)
Record variable := mkVariable { v_region : list text; v_first : Q; v_now : Q; v_adjust : option (Q * scale) }.
Definition finite (t : text) : res Q := match py_float t with Some (Fin q) => Ok q | _ => Err ValueError end.
Definition append_define (d : tdict (option variable)) (name v : text) : res (tdict (option variable)) :=
  match re_match define_rx v with
  | None => Err SystemExit
  | Some (_, g) =>
      match group "start_var" g with
      | None => Ok (tset name None d)
      | Some a =>
          do start <- finite a;
          do adjust <- match group "stop_var" g with
                       | None => Ok None
                       | Some b =>
                           do stop <- finite b;
                           Ok (Some (stop, match group "scale_var" g with
                                           | None => if Qltb start stop then Lin else Log
                                           | Some s => if text_eqb s (codes "lin") then Lin else Log
                                           end))
                       end;
          Ok (tset name (Some (mkVariable (regions_of g) start start adjust)) d)
      end
  end.

(** ** Repetitions: standalone_pheno.py:153-197; the value for a region is replaced by a later one *)
Definition append_repetition (d : tdict text) (v : text) : res (tdict text) :=
  match v with
  | [] => Err SystemExit
  | _ => match re_match repetition_rx v with
         | None => Err SystemExit
         | Some (_, g) => match group "qualifier" g with
                          | Some q => Ok (fold_left (fun d r => tset r q d) (regions_of g) d)
                          | None => Err SystemExit
                          end
         end
  end.
(** ** Floating point operations: standalone_pheno.py:200-244; a plain Exception (238) is modelled as RuntimeError. *)
Fixpoint set_once (f : Z) (l : list text) (d : tdict Z) : res (tdict Z) :=
  match l with
  | [] => Ok d
  | r :: l' => match tget r d with Some _ => Err RuntimeError | None => set_once f l' (tset r f d) end
  end.
Definition append_flops (d : tdict Z) (v : text) : res (tdict Z) :=
  match v with
  | [] => Err SystemExit
  | _ => match re_match flops_rx v with
         | None => Err SystemExit
         | Some (_, g) => match group "flops" g with
                          | Some t => match py_int t with Some f => set_once f (regions_of g) d | None => Ok d end
                          | None => Err SystemExit
                          end
         end
  end.

(** All options of one kind, in order (standalone_pheno.py:23-244) *)
Fixpoint fold_res {A B} (f : B -> A -> res B) (b : B) (l : list A) : res B :=
  match l with [] => Ok b | a :: l' => do b' <- f b a; fold_res f b' l' end.

(** ** The kernel: kernel.py:1891-1989 *)
Record arguments := mkArguments { a_loops : loops; a_define : tdict (option variable); a_repetitions : tdict text; a_flops : tdict Z;
                                  a_marker : bool; a_regions : list text }.
Record binary := mkBinary { b_loops : loops; b_define : tdict (option variable); b_repetitions : tdict rep; b_flops : tdict Z; b_regions : list text }.
Fixpoint set_nth {A} (i : nat) (a : A) (l : list A) : list A :=
  match l, i with [], _ => [] | _ :: l', O => a :: l' | x :: l', S i' => x :: set_nth i' a l' end.
(** kernel.py:1913-1918: offset of one loop *)
Definition set_offset (define : tdict (option variable)) (h : list entry) (i : nat) : res (list entry) :=
  match nth_error h i with
  | None => Ok h
  | Some (Raw _) => Err TypeError
  | Some (Loop l) =>
      match l_var l with
      | None => Ok h
      | Some [] => Ok h
      | Some n => match tget n define with
                  | Some (Some v) => Ok (set_nth i (Loop (mkLoop (l_start l) (l_step l) (l_end l) (l_var l) (Some (v_now v - l_end l)%Q))) h)
                  | _ => Err KeyError
                  end
      end
  end.
(** kernel.py:1922-1942. [int(...)] of digits and letters; anything else is the name of a variable. *)
Definition repetition (marker : bool) (q : text) : res rep :=
  if text_eqb q (codes "marker") then if marker then Ok (mkRep Marker None) else Err SystemExit
  else match py_int q with Some n => Ok (mkRep (Fixed n) (Some n)) | None => Ok (mkRep (Variable_ q) None) end.
Fixpoint repetition_table (marker : bool) (d : tdict text) : res (tdict rep) :=
  match d with [] => Ok [] | (r, q) :: d' => do x <- repetition marker q; do l <- repetition_table marker d'; Ok ((r, x) :: l) end.
(** kernel.py:1962-1984: the values of the region '' are defaults. *)
Definition default {A} (d : tdict A) (r : text) : res (tdict A) :=
  match tget r d with
  | Some _ => Ok d
  | None => match tget [] d with Some x => Ok (tset r x d) | None => Err SystemExit end
  end.
(** kernel.py:1986-1989 *)
Definition all_regions (regions : list text) (v : option variable) : res (option variable) :=
  match v with
  | None => Err KeyError
  | Some v => Ok (Some (match v_adjust v with
                        | Some _ => if list_eq_dec (list_eq_dec N.eq_dec) (v_region v) [[]]
                                    then mkVariable (v_region v ++ regions) (v_first v) (v_now v) (v_adjust v) else v
                        | None => v
                        end))
  end.
Fixpoint map_res {A B} (f : A -> res B) (d : tdict A) : res (tdict B) :=
  match d with [] => Ok [] | (k, a) :: d' => do b <- f a; do l <- map_res f d'; Ok ((k, b) :: l) end.
(** kernel.py:1956-1989. The order of the regions (a set) is not fixed; the result does not depend on it but for the order of tables. *)
Definition check (b : binary) : res binary :=
  do x <- fold_res (fun x r => do lt <- default (fst (fst x)) r; do rt <- default (snd (fst x)) r; do ft <- default (snd x) r; Ok (lt, rt, ft))
            (table (b_loops b), b_repetitions b, b_flops b) (b_regions b);
  do define <- map_res (all_regions (b_regions b)) (b_define b);
  Ok (mkBinary (mkLoops (heap (b_loops b)) (fst (fst x))) define (snd (fst x)) (snd x) (b_regions b)).
(** kernel.py:1891-1954; [a_regions] has no duplicates (a set, 1911). *)
Definition describe (a : arguments) : res binary :=
  do h <- fold_res (set_offset (a_define a)) (heap (a_loops a)) (concat (map snd (table (a_loops a))));
  do reps <- repetition_table (a_marker a) (a_repetitions a);
  let regions := if (1 <? List.length (a_regions a))%nat then filter (fun r => negb (text_eqb r [])) (a_regions a) else a_regions a in
  check (mkBinary (mkLoops h (table (a_loops a))) (a_define a) reps (a_flops a) regions).

(** ** Ends of loops: models/standalone_benchmark.py:186-190, for one variable with its new value in one region *)
Definition adjust_entry (name : text) (value : Q) (h : list entry) (i : nat) : res (list entry) :=
  match nth_error h i with
  | Some (Loop l) =>
      match l_var l with
      | Some n =>
          if text_eqb n name
          then match l_offset l with
               | Some o => Ok (set_nth i (Loop (mkLoop (l_start l) (l_step l) (value - o)%Q (l_var l) (l_offset l))) h)
               | None => Err TypeError
               end
          else Ok h
      | None => Ok h
      end
  | Some (Raw _) => Err TypeError
  | None => Ok h
  end.
Definition adjust_loop (st : loops) (name region : text) (value : Q) : res loops :=
  match tget region (table st) with
  | None => Err KeyError
  | Some l => do h <- fold_res (adjust_entry name value) (heap st) l; Ok (mkLoops h (table st))
  end.
(** models/standalone_benchmark.py:201-218: the first variable that can be adjusted; see BenchModel.adjusted *)
Definition as_var (v : variable) : var :=
  match v_adjust v with
  | Some (stop, s) => mkVar true (v_region v) s (v_now v) stop
  | None => mkVar false (v_region v) Lin (v_now v) (v_now v)
  end.
Definition set_now (v : variable) (x : Q) : variable := mkVariable (v_region v) (v_first v) x (v_adjust v).
Fixpoint find_adjusted (region : text) (runtime : Q) (d : tdict (option variable)) : option (text * Q) :=
  match d with
  | [] => None
  | (n, Some v) :: d' =>
      if v_adjustable (as_var v) && existsb (text_eqb region) (v_region v) then
        match adjusted runtime (as_var v) with Some v' => Some (n, v_value v') | None => find_adjusted region runtime d' end
      else find_adjusted region runtime d'
  | (_, None) :: d' => find_adjusted region runtime d'
  end.
Definition assign (n : text) (x : Q) (d : tdict (option variable)) : tdict (option variable) :=
  match tget n d with Some (Some v) => tset n (Some (set_now v x)) d | _ => d end.
(** One region with a short, positive runtime (201-218) *)
Definition adjust_in (b : binary) (region : text) (runtime : Q) : res binary :=
  match find_adjusted region runtime (b_define b) with
  | None => Ok b
  | Some (n, x) =>
      do st <- adjust_loop (b_loops b) n region x;
      Ok (mkBinary st (assign n x (b_define b)) (b_repetitions b) (b_flops b) (b_regions b))
  end.
(** The measured runtimes of all calls of [adjust_variables] (195-198), one after the other *)
Definition adjust_all (b : binary) (l : list (text * Q)) : res binary :=
  fold_res (fun b x => if Qltb (snd x) (3 # 2) then adjust_in b (fst x) (snd x) else Ok b) b l.
