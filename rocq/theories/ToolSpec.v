(** Specification for C80-C82, independent of the code. *)
From Verif Require Import ToolModel CtrSpec MarkSpec.
Local Open Scope N_scope.
Local Open Scope list_scope.
(** Of the models, only texts, [str.split], the decimal representation of numbers, [float], dictionaries and the result record are used here. *)

(** b is what stands behind the first occurrence of p in t. *)
Definition first (p t b : text) : Prop :=
  exists a, t = a ++ p ++ b /\ forall a' b', t = a' ++ p ++ b' -> (List.length a <= List.length a')%nat.
(** t begins with something that is none of the characters. *)
Definition ends (P : N -> Prop) (t : text) : Prop := forall c r, t = c :: r -> ~ P c.
(** The words of a line, separated by white space *)
Inductive words : text -> list text -> Prop :=
| W_end s : spaces s -> words s []
| W_next a w r ws : spaces a -> word w -> (forall c r', r = c :: r' -> white c) -> words r ws -> words (a ++ w ++ r) (w :: ws).

(** ** C80: the report of llvm-mca *)
Definition blank (c : N) : Prop := c = 32 \/ c = 9.
Definition blanks (s : text) : Prop := s <> [] /\ Forall blank s.
(** A unit is listed as "[6.0] - SBPort23": identifier, name, and the blanks around the hyphen. *)
Record unit_entry := mkUnit { uid : text; left : text; right : text; uname : text }.
Definition unit_id (u : unit_entry) : text := codes "[" ++ uid u ++ codes "]".
Definition unit_line (u : unit_entry) : text := unit_id u ++ left u ++ codes "-" ++ right u ++ uname u ++ [10].
Definition good_unit (u : unit_entry) : Prop :=
  uid u <> [] /\ Forall (fun c => digit c \/ c = 46) (uid u) /\ blanks (left u) /\ blanks (right u) /\ uname u <> [] /\ Forall letter_or_digit (uname u).
(** The first occurrence of the label is followed by white space and the number n. *)
Definition labelled (label t : text) (n : N) : Prop :=
  exists a rest, first label t (a ++ show_nat n ++ rest) /\ a <> [] /\ spaces a /\ ends digit rest.
Definition line_end (t : text) : Prop := t = [] \/ exists r, t = 10 :: r.
(** The list of units, ended by an empty line, and the two lines with identifiers and pressures *)
Definition report (t : text) (units : list unit_entry) (row : list (text * text)) (cycles iterations uops : N) : Prop :=
  (exists rest, first (codes "Resources:" ++ [10]) t (flat_map unit_line units ++ 10 :: rest))
  /\ units <> [] /\ Forall good_unit units /\ NoDup (map uid units)
  /\ (exists h v rest, first (codes "Resource pressure per iteration:" ++ [10]) t (h ++ 10 :: v ++ rest)
        /\ line_end rest /\ ~ In 10 h /\ ~ In 10 v /\ words h (map fst row) /\ words v (map snd row))
  /\ row <> []
  /\ labelled (codes "Total Cycles:") t cycles /\ labelled (codes "Iterations:") t iterations /\ labelled (codes "Total uOps:") t uops.
(** Unit with identifier i is called n; the pressure p is the number q, where a hyphen is zero. *)
Definition called (units : list unit_entry) (i n : text) : Prop := exists u, In u units /\ unit_id u = i /\ uname u = n.
Definition pressure (p : text) (q : Q) : Prop := (p = codes "-" /\ q = 0%Q) \/ (p <> codes "-" /\ py_float p = Some (Fin q)).
Definition used (units : list unit_entry) (row : list (text * text)) (n : text) (q : Q) : Prop :=
  exists i p, In (i, p) row /\ called units i n /\ pressure p q.
(** The timeline of the first iteration: lines "[0,3]   D==eeeER" *)
Definition in_timeline (t l : text) : Prop :=
  In l (split 10 t) /\ exists i rest, l = codes "[0," ++ i ++ codes "]" ++ rest /\ i <> [] /\ Forall digit i.
(** Column of the first occurrence of a character *)
Definition column (c : N) (l : text) (k : Z) : Prop := exists a b, l = a ++ c :: b /\ ~ In c a /\ k = Z.of_nat (List.length a).
Definition dispatched := column 68.
Definition retired := column 82.
Definition complete (t : text) : Prop := forall l, in_timeline t l -> (exists d, dispatched l d) /\ (exists r, retired l r).
(** Cycles from the first dispatch to the last retirement *)
Definition path_length (t : text) (k : Z) : Prop :=
  exists d r, k = (r - d)%Z
    /\ (exists l, in_timeline t l /\ dispatched l d) /\ (forall l d', in_timeline t l -> dispatched l d' -> (d <= d')%Z)
    /\ (exists l, in_timeline t l /\ retired l r) /\ (forall l r', in_timeline t l -> retired l r' -> (r' <= r)%Z).
(** The number n stands somewhere behind the label. *)
Definition printed (label t : text) (n : N) : Prop :=
  exists a s d b, t = a ++ label ++ s ++ d ++ b /\ s <> [] /\ spaces s /\ d <> [] /\ Forall digit d /\ ends digit b /\ value d = n.

(** ** C81: the report of IACA *)
(** A cell of the row of ports and the cell below it: a port with its cycles, a port with a subunit and two numbers, or an empty pair.
    Texts around names and numbers are blanks (32). *)
Definition padding (s : text) : Prop := Forall (eq 32) s.
Definition plain_char (c : N) : Prop := 33 <= c <= 126 /\ c <> 45 /\ c <> 124.
Definition name (s : text) : Prop := s <> [] /\ Forall plain_char s.
Definition number (s : text) (q : Q) : Prop := name s /\ py_float s = Some (Fin q).
Inductive cell : text -> text -> list (text * num) -> Prop :=
| C_port a n b c d e q : padding a -> padding b -> padding c -> padding e -> name n -> number d q ->
    cell (a ++ n ++ b) (c ++ d ++ e) [(n, Fin q)]
| C_divided a n b s m z c d e f g q r : padding a -> padding b -> padding s -> padding z -> padding c -> padding e -> padding g -> e <> [] ->
    name n -> name m -> number d q -> number f r ->
    cell (a ++ n ++ b ++ codes "-" ++ s ++ m ++ z) (c ++ d ++ e ++ f ++ g) [(n, Fin q); (n ++ m, Fin r)]
| C_empty a b : padding a -> padding b -> cell a b [].
(** The two rows, cell by cell *)
Inductive table : list text -> list text -> list (text * num) -> Prop :=
| T_end : table [] [] []
| T_cell p c e ps cs es : cell p c e -> table ps cs es -> table (p :: ps) (c :: cs) (e ++ es).
(** The first line of t with property P *)
Definition first_line_with (P : text -> Prop) (t l : text) : Prop :=
  exists before after, split 10 t = before ++ l :: after /\ P l /\ Forall (fun x => ~ P x) before.
Definition begins (p l : text) : Prop := exists r, l = p ++ r.
Definition row_of (label : text) (cs : list text) : text := label ++ join 124 cs.
Definition iaca_report (t : text) (tp : text) (pcs ccs : list text) (uops : N) : Prop :=
  (exists r, first_line_with (begins (codes "Block Throughput: ")) t (codes "Block Throughput: " ++ tp ++ codes " Cycles" ++ r))
  /\ (tp <> [] /\ Forall (fun c => digit c \/ c = 46) tp)
  /\ first_line_with (begins (codes "|  Port  |")) t (row_of (codes "|  Port  |") pcs)
  /\ first_line_with (begins (codes "| Cycles |")) t (row_of (codes "| Cycles |") ccs)
  /\ (exists r, first_line_with (begins (codes "Total Num Of Uops: ")) t (codes "Total Num Of Uops: " ++ show_nat uops ++ r) /\ ends digit r).

(** ** C82 *)
(** q is the greatest of a collection of numbers. *)
Definition greatest (P : Q -> Prop) (q : Q) : Prop := P q /\ forall r, P r -> (r <= q)%Q.
