(** Information printed about kernels with [-v] and [-vv]: kernel.py:79-95, 666-712 and 1992-2003. Texts of symbolic expressions ([repr] and [str] of sympy
    objects and of tuples) are given; numbers of operations and values of constants are integers. *)
From Coq Require Import String.
From Verif Require Export PyBase PyText PyInt.
Local Open Scope list_scope.

(** ** Formats *)
(** ['{:>n}'.format(s)] (kernel.py:671-711) *)
Definition rjust (n : nat) (s : text) : text := repeat 32%N (n - List.length s) ++ s.
(** ['{:<n}'.format(s)] (kernel.py:703 and 711) *)
Definition ljust (n : nat) (s : text) : text := s ++ repeat 32%N (n - List.length s).
(** A line: [s + '\n'], and what [print(s)] writes (kernel.py:666-712) *)
Definition line (s : text) : text := s ++ [10%N].
(** [sep.join(l)] for a separator of one character is [PyText.join]. Last character of a text which is not empty (kernel.py:92) *)
Definition ends_line (s : text) : bool := (last s 0 =? 10)%N.
(** kernel.py:79-95 *)
Definition prefix_indent (prefix block later : text) : text :=
  let parts := PyText.split 10 block in
  let later' := if (List.length later =? 1)%nat then repeat 32%N (List.length prefix) else later in
  let l := line (prefix ++ hd [] parts) ++ join 10 (map (fun x => later' ++ x) (tl parts)) in
  if negb (ends_line l) then line l else l.
(** [print(prefix_indent(prefix, block))] (kernel.py:672, 680, 688, 696, 704, 712 and 2003) *)
Definition section (prefix block : text) : text := line (prefix_indent prefix block [32%N]).

(** ** Kernels *)
(** A loop: index, start, end and step. kernel.py:671 *)
Definition loop := (text * (text * text * text))%type.
Definition bounds (b : text * text * text) : text := let '(lo, hi, st) := b in rjust 10 lo ++ [32%N] ++ rjust 10 hi ++ [32%N] ++ rjust 10 st.
Definition loop_row (l : loop) : text := line (rjust 8 (fst l) ++ codes " | " ++ bounds (snd l)).
(** kernel.py:668-672 *)
Definition loop_table (loops : list loop) : text :=
  section (codes "loop stack:        ")
          (line (codes "     idx |        min        max       step") ++ line (codes "---------+---------------------------------") ++ concat (map loop_row loops)).
(** kernel.py:677-679 and 685-687: a variable with the offsets it is accessed with *)
Definition accesses_row (a : text * list text) : text := prefix_indent (rjust 8 (fst a) ++ codes " | ") (join 10 (snd a)) (codes "         | ").
(** kernel.py:674-680 and 682-688 *)
Definition accesses_table (title : text) (accesses : list (text * list text)) : text :=
  section title (line (codes "    name |  offsets   ...") ++ line (codes "---------+------------...") ++ concat (map accesses_row accesses)).
(** kernel.py:693 *)
Definition flops_row (f : text * Z) : text := line (rjust 3 (fst f) ++ codes " | " ++ rjust 4 (show_int (snd f))).
(** kernel.py:690-696 *)
Definition flops_table (flops : list (text * Z)) : text :=
  section (codes "FLOPs:     ")
          (line (codes " op | count ") ++ line (codes "----+-------") ++ concat (map flops_row flops) ++ line (codes "     =======")
           ++ codes "      " ++ rjust 4 (show_int (zsum (map snd flops)))).
(** kernel.py:666-696 *)
Definition print_kernel_info (loops : list loop) (sources destinations : list (text * list text)) (flops : list (text * Z)) : text :=
  loop_table loops ++ accesses_table (codes "data sources:      ") sources ++ accesses_table (codes "data destinations: ") destinations ++ flops_table flops.

(** ** Variables and constants *)
(** kernel.py:703: a variable, the words of its type and the text of its size *)
Definition variable := (text * (list text * text))%type.
Definition variable_row (v : variable) : text :=
  line (rjust 8 (fst v) ++ codes " | " ++ rjust 15 (join 32 (fst (snd v))) ++ [32%N] ++ ljust 10 (snd (snd v))).
(** kernel.py:698-704 *)
Definition print_variables_info (variables : list variable) : text :=
  section (codes "variables: ")
          (line (codes "    name |   type          size             ") ++ line (codes "---------+----------------------------------") ++ concat (map variable_row variables)).
(** kernel.py:711 *)
Definition constant_row (c : text * Z) : text := line (rjust 8 (fst c) ++ codes " | " ++ ljust 10 (show_int (snd c))).
(** kernel.py:706-712 *)
Definition print_constants_info (constants : list (text * Z)) : text :=
  section (codes "constants: ") (line (codes "    name | value     ") ++ line (codes "---------+-----------") ++ concat (map constant_row constants)).

(** ** Regions of the stand-alone tool *)
(** kernel.py:1997-2001 *)
Definition region_rows (r : text * list (text * text * text)) : text :=
  line (rjust 8 (fst r) ++ codes " |                                 ") ++ concat (map (fun b => line (codes "         | " ++ bounds b)) (snd r)).
(** kernel.py:1992-2003. [regions] is a set in the program: here the list of its elements in the order in which they are taken. *)
Definition print_region_info (regions : list (text * list (text * text * text))) : text :=
  section (codes "loop stack:        ")
          (line (codes "  region |        min        max       step") ++ line (codes "---------+---------------------------------") ++ concat (map region_rows regions)).
