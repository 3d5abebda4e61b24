(** Marking of assembly blocks and the cache of pointer increments: incore_model.py:493-578 and 617-727, kernel.py:1713-1737. *)
From Verif Require Export PyBase PyText PyInt.
From Verif Require Import IncModel.
Local Open Scope N_scope.
Local Open Scope list_scope.

(** A file is absent or has a content (incore_model.py:548-578). *)
Definition file := option text.
Definition content (f : file) : text := match f with Some s => s | None => [] end.

(** ** White space: [s.split()]. Simplification: ASCII white space only (as used in incore_model.py:548-566). *)
Definition is_space (c : N) : bool := (c =? 32) || ((9 <=? c) && (c <=? 13)) || ((28 <=? c) && (c <=? 31)).
Fixpoint fields_from (cur s : text) : list text :=
  match s with
  | [] => match cur with [] => [] | _ => [cur] end
  | c :: s' =>
      if is_space c then match cur with [] => fields_from [] s' | _ => cur :: fields_from [] s' end
      else fields_from (cur ++ [c]) s'
  end.
Definition fields (s : text) : list text := fields_from [] s.
(** [int(s)] of a text with white space around the number (as used in incore_model.py:493-578) *)
Definition read_int (s : text) : option Z := match fields s with [w] => parse_int w | _ => None end.

(** ** Cache of increments *)
(** incore_model.py:569-578; [hash] is the result of hashblock (539-545). Creation of the directory is not modelled. *)
Definition store_increment (hash : text) (inc : Z) (comment : option text) (f : file) : file :=
  let line := hash ++ codes " " ++ show_int inc in
  let line := match comment with Some ((_ :: _) as c) => line ++ codes " #" ++ c | _ => line end in
  Some (content f ++ line ++ [10]).
(** incore_model.py:555-566, for the lines of the file. An entry that is no number is returned as None. *)
Fixpoint search_lines (hash : text) (lines : list text) : option Z :=
  match lines with
  | [] => None
  | l :: lines' =>
      match fields l with
      | h :: v :: _ => if text_eqb h hash then parse_int v else search_lines hash lines'
      | _ => search_lines hash lines'
      end
  end.
(** incore_model.py:548-566. Simplification: lines end with a line feed only. *)
Definition find_increment (hash : text) (f : file) : option Z := search_lines hash (split 10 (content f)).

(** A history of calls of store_increment_to_cache (incore_model.py:569-578) *)
Definition stores (hist : list (text * Z * option text)) (f : file) : file :=
  fold_left (fun f e => match e with (h, z, c) => store_increment h z c f end) hist f.

(** ** Questions to the user: incore_model.py:493-513 and 516-535. The answers are given; without further answers [input] raises EOFError,
    here OSError. *)
Fixpoint ask_increment (default : option Z) (answers : list text) : res (Z * list text) :=
  match answers with
  | [] => Err OSError
  | a :: answers' =>
      match (match read_int a with Some z => Some z | None => default end) with
      | Some z => Ok (z, answers')
      | None => ask_increment default answers'
      end
  end.
Definition userselect_increment (hash : text) (default : option Z) (comment : option text) (cache : file) (answers : list text) : res (Z * file) :=
  do x <- ask_increment default answers;
  Ok (fst x, if (fst x =? 0)%Z then cache else store_increment hash (fst x) comment cache).
Fixpoint assoc {B} (k : text) (d : list (text * B)) : option B :=
  match d with [] => None | (x, v) :: d' => if text_eqb k x then Some v else assoc k d' end.
Fixpoint userselect_block {B} (blocks : list (text * B)) (default : text) (answers : list text) : res (text * list text) :=
  match answers with
  | [] => Err OSError
  | a :: answers' =>
      let label := match a with [] => default | _ => a end in
      match assoc label blocks with Some _ => Ok (label, answers') | None => userselect_block blocks default answers' end
  end.

(** ** Marking: incore_model.py:617-727 *)
Inductive selection := SelAuto | SelManual | SelNumber (z : Z) | SelOther.
Inductive choice := IncNumber (z : Z) | IncAuto | IncFallback | IncManual | IncOther.
(** What a call leaves behind: its result, the cache of increments and the output file (of incore_model.py:617-727) *)
Record outcome (A : Type) := mkOutcome { result : res A; cache_after : file; output_after : file }.
Arguments mkOutcome {A}. Arguments result {A}. Arguments cache_after {A}. Arguments output_after {A}.

Section Mark.
  Context {L : Type}.
  (** Equality of OSACA's lines, their text, OSACA's parser and its search for loops, which returns labels and lines
      (OSACA is not part of the code base; its parser skips blank lines) (as called by incore_model.py:617-727). *)
  Variable line_eqb : L -> L -> bool.
  Variable line_text : L -> text.
  Variable parse : text -> res (list L).
  Variable find_loops : list L -> list (text * list L).
  (** Metric of a block and automatic detection (without the cache) (as called by incore_model.py:617-727) *)
  Variable metric : list L -> list Z.
  Variable detect : list L -> res (option Z).
  (** md5 of the texts of the lines, and OSACA's marker with a comment (incore_model.py:539-545 and 617-727) *)
  Variable md5 : text -> text.
  Variable marker : text -> list L * list L.

  (** incore_model.py:539-545 *)
  Definition hashblock (block : list L) : text := md5 (join 10 (map line_text block)).
  (** [asm_lines.index(line)] (incore_model.py:617-727) *)
  Fixpoint index_of (x : L) (l : list L) : res nat :=
    match l with [] => Err ValueError | y :: l' => if line_eqb y x then Ok O else do i <- index_of x l'; Ok (S i) end.
  Definition first_line (block : list L) : res L := match block with [] => Err IndexError | x :: _ => Ok x end.
  Definition last_line (block : list L) : res L := match block with [] => Err IndexError | x :: b => Ok (last b x) end.
  (** Detection with the cache as last resort: incore_model.py:252-253 and 486-488 *)
  Definition increment_of (cache : file) (block : list L) : res (option Z) :=
    do x <- detect block; Ok (match x with Some z => Some z | None => find_increment (hashblock block) cache end).
  (** incore_model.py:655-667. A number as selection is looked up among labels, which are texts: KeyError. *)
  Definition choose_block (debug : bool) (sel : selection) (blocks : list (text * list L)) (answers : list text) : res (list L * list text) :=
    match (if debug then SelManual else sel) with
    | SelAuto =>
        do label <- select_best_block metric blocks;
        match assoc label blocks with Some b => Ok (b, answers) | None => Err KeyError end
    | SelManual =>
        do label <- select_best_block metric blocks;
        do x <- userselect_block blocks label answers;
        match assoc (fst x) blocks with Some b => Ok (b, snd x) | None => Err KeyError end
    | SelNumber _ => Err KeyError
    | SelOther => Err ValueError
    end.
  (** incore_model.py:673-702: increment and cache afterwards, or the error and whether the output file is removed before *)
  Definition choose_increment (c : choice) (comment : option text) (cache : file) (block : list L) (answers : list text)
    : (res Z * file) * bool :=
    match c with
    | IncNumber z => ((Ok z, cache), false)
    | IncAuto =>
        match increment_of cache block with
        | Ok (Some z) => ((Ok z, cache), false)
        | Ok None => ((Err RuntimeError, cache), true)
        | Err e => ((Err e, cache), false)
        end
    | IncFallback =>
        match increment_of cache block with
        | Ok (Some z) => ((Ok z, cache), false)
        | Ok None =>
            match userselect_increment (hashblock block) None comment cache answers with
            | Ok (z, cache') => ((Ok z, cache'), false)
            | Err e => ((Err e, cache), false)
            end
        | Err e => ((Err e, cache), false)
        end
    | IncManual =>
        match increment_of cache block with
        | Ok d =>
            match userselect_increment (hashblock block) d comment cache answers with
            | Ok (z, cache') => ((Ok z, cache'), false)
            | Err e => ((Err e, cache), false)
            end
        | Err e => ((Err e, cache), false)
        end
    | IncOther => ((Err ValueError, cache), false)
    end.
  Definition comment_text (inc : Z) (hash : text) : text := codes "pointer_increment=" ++ show_int inc ++ codes " " ++ hash.
  (** incore_model.py:669-670 and 704-724 *)
  Definition bounds (lines block : list L) : res (nat * nat) :=
    do x <- first_line block; do s <- index_of x lines;
    do y <- last_line block; do e <- index_of y lines; Ok (s, S e).
  (** [asm_lines[start:end]] is empty if the end is before the start (incore_model.py:617-727). *)
  Definition insert_markers (lines : list L) (s e : nat) (m : list L * list L) : list L :=
    firstn s lines ++ fst m ++ skipn s (firstn e lines) ++ snd m ++ skipn e lines.
  Definition written (lines : list L) : text := flat_map (fun l => line_text l ++ [10]) lines.
  (** The whole function. [same]: input and output are the same file object, which holds [code]. [output] is None without output file.
      The output file is written at the end of its content (incore_model.py:617-727). *)
  Definition asm_instrumentation (same debug : bool) (sel : selection) (c : choice) (comment : option text) (cache output : file)
    (code : text) (answers : list text) : outcome (list L * Z) :=
    match parse code with
    | Err e => mkOutcome (Err e) cache output
    | Ok lines =>
        let output := if same then Some [] else output in
        match choose_block debug sel (find_loops lines) answers with
        | Err e => mkOutcome (Err e) cache output
        | Ok (block, answers) =>
            match bounds lines block with
            | Err e => mkOutcome (Err e) cache output
            | Ok (s, e) =>
                match choose_increment c comment cache block answers with
                | ((Err x, cache'), removed) => mkOutcome (Err x) cache' (if removed then None else output)
                | ((Ok inc, cache'), _) =>
                    let marked := insert_markers lines s e (marker (comment_text inc (hashblock block))) in
                    mkOutcome (Ok (block, inc)) cache'
                      (match output with Some o => Some (o ++ written marked) | None => None end)
                end
            end
        end
    end.
End Mark.

(** ** Increment of marked assembly: kernel.py:1713-1724 *)
Definition key := codes "pointer_increment=".
Fixpoint leading_digits (s : text) : text :=
  match s with c :: s' => if is_decimal c then c :: leading_digits s' else [] | [] => [] end.
(** [re.search(r'pointer_increment=([0-9]+)', s)] (kernel.py:1717) *)
Fixpoint search_increment (s : text) : option Z :=
  let here := if starts_with key s then match leading_digits (skipn (length key) s) with [] => None | d => Some (Z.of_N (value d)) end else None in
  match here with
  | Some z => Some z
  | None => match s with [] => None | _ :: s' => search_increment s' end
  end.
(** The increment, or the end of the program; and the file afterwards (kernel.py:1713-1724) *)
Definition cached_increment (f : text) : res Z * file :=
  match search_increment f with Some z => (Ok z, Some f) | None => (Err SystemExit, None) end.
