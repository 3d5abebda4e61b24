(** Syntax of assembly code, versions of OSACA and the command line tool for marking: incore_model.py:581-614, 701-714 and 959-1002. *)
From Verif Require Export PyBase PyText PyInt.
From Verif Require Import PyFloat IncModel MarkModel.
Local Open Scope N_scope.
Local Open Scope list_scope.

(** ** Versions of OSACA: [tuple(map(int, osaca.get_version().split(".")))], incore_model.py:583, 603, 704 and 754 *)
Definition version_tuple (v : text) : res (list Z) := mapM (fun s => match py_int s with Some z => Ok z | None => Err ValueError end) (split 46 v).
(** [a >= b] for tuples of integers (incore_model.py:584) *)
Fixpoint tuple_geb (a b : list Z) : bool :=
  match a, b with
  | x :: a', y :: b' => if (x =? y)%Z then tuple_geb a' b' else (y <? x)%Z
  | _, [] => true
  | [], _ :: _ => false
  end.
(** [osaca_version_tuple >= (0,7,0)] (incore_model.py:584, 604, 705 and 755) *)
Definition recent (v : text) : res bool := do t <- version_tuple v; Ok (tuple_geb t [0; 7; 0]%Z).

Section Syntax.
  Context {L : Type}.
  (** OSACA's parser of an instruction set, with the keyword argument [syntax] if it is given, applied to a text; and the processing of the lines with the semantics
      of the instruction set, with the parser used for them (OSACA is not part of the code base) (as called by incore_model.py:586-598). *)
  Variable parser : text -> option text -> text -> res (list L).
  Variable process : text -> option text -> list L -> res (list L).
  (** OSACA's markers for an instruction set, with the keyword argument [syntax] if it is given, and a comment (as called by incore_model.py:705-714) *)
  Variable get_marker : text -> option text -> text -> list L * list L.

  (** incore_model.py:585-590 and 606-613: first Intel, and if that raises an exception AT&T. SystemExit is no [Exception]. Returned are the syntax and the lines. *)
  Definition either_syntax (isa code : text) : res (text * list L) :=
    match parser isa (Some (codes "intel")) code with
    | Ok l => Ok (codes "intel", l)
    | Err SystemExit => Err SystemExit
    | Err _ => do l <- parser isa (Some (codes "att")) code; Ok (codes "att", l)
    end.
  (** incore_model.py:581-599. The machine model of the architecture is part of [process]. *)
  Definition parse_asm (version isa code : text) : res (list L) :=
    do new <- recent version;
    if (new : bool) then do p <- either_syntax isa code; process isa (Some (fst p)) (snd p)
    else do l <- parser isa None code; process isa None l.
  (** incore_model.py:602-614 *)
  Definition detect_x86_syntax (version code : text) : res text :=
    do new <- recent version;
    if negb new then Ok (codes "ATT")
    else do p <- either_syntax (codes "x86") code; Ok (if text_eqb (fst p) (codes "intel") then codes "INTEL" else codes "ATT").
  (** incore_model.py:701-714: the keyword argument [syntax] for the markers *)
  Definition marker_syntax (version isa code : text) : res (option text) :=
    do s <- (if text_eqb isa (codes "x86") then detect_x86_syntax version code else Ok []);
    do new <- recent version; Ok (if (new : bool) then Some s else None).

  Variable line_eqb : L -> L -> bool.
  Variable line_text : L -> text.
  Variable find_loops : list L -> list (text * list L).
  Variable metric : list L -> list Z.
  Variable detect : list L -> res (option Z).
  Variable md5 : text -> text.
  (** incore_model.py:617-727 with the parser and the markers above. The syntax cannot fail there, as the code has been parsed before (C141_same_syntax). *)
  Definition instrument (version isa : text) (same debug : bool) (sel : selection) (c : choice) (comment : option text) (cache output : file) (code : text) (answers : list text)
    : outcome (list L * Z) :=
    asm_instrumentation line_eqb line_text (parse_asm version isa) find_loops metric detect md5
      (fun cmt => match marker_syntax version isa code with Ok s => get_marker isa s cmt | Err _ => ([], []) end) same debug sel c comment cache output code answers.
  (** incore_model.py:959-1002: the command line tool; [use_cache]: the option --cache, which is handed over as [cache] but not looked at in 644-727. Options and files are not parsed here. *)
  Definition marking_tool (use_cache : bool) (version isa : text) (debug : bool) (comment : option text) (cache output : file) (code : text) (answers : list text) : outcome (list L * Z) :=
    instrument version isa false debug SelManual IncFallback comment cache output code answers.
End Syntax.
