(** How printed tables are read: independent of how they are made. *)
From Coq Require Import String.
From Verif Require Import PyBase PyText PyInt.
Local Open Scope list_scope.

(** Lines, and words separated by blanks *)
Definition lines (s : text) : list text := PyText.split 10 s.
Definition words (s : text) : list text := filter (fun w => match w with [] => false | _ => true end) (PyText.split 32 s).
Definition blank (s : text) : bool := forallb (fun c => (c =? 32)%N) s.
Fixpoint starts (p s : text) : bool :=
  match p, s with [], _ => true | c :: p', d :: s' => ((c =? d)%N && starts p' s')%bool | _ :: _, [] => false end.
(** From the line on which begins with the title *)
Fixpoint from_title (t : text) (ls : list text) : list text :=
  match ls with [] => [] | l :: ls' => if starts t l then ls else from_title t ls' end.
Fixpoint until_blank (ls : list text) : list text :=
  match ls with [] => [] | l :: ls' => if blank l then [] else l :: until_blank ls' end.
(** The rows of the table with this title: behind two lines of headings up to the next blank line *)
Definition rows (t : text) (printed : text) : list text := until_blank (skipn 2 (from_title t (lines printed))).
(** A row consists of two cells on the left and on the right of the first bar; a blank behind the bar does not count. *)
Fixpoint left_cell (s : text) : text := match s with [] => [] | c :: s' => if (c =? 124)%N then [] else c :: left_cell s' end.
Fixpoint behind_bar (s : text) : text := match s with [] => [] | c :: s' => if (c =? 124)%N then s' else behind_bar s' end.
Definition right_cell (s : text) : text := match behind_bar s with c :: s' => if (c =? 32)%N then s' else c :: s' | [] => [] end.
(** Rows with a name on the left begin an entry, those without continue it. *)
Fixpoint groups (rs : list text) : list (text * list text) * list text :=
  match rs with
  | [] => ([], [])
  | r :: rs' =>
      let (g, more) := groups rs' in
      match words (left_cell r) with
      | w :: _ => ((w, right_cell r :: more) :: g, [])
      | [] => (g, right_cell r :: more)
      end
  end.
Definition entries (rs : list text) : list (text * list text) := fst (groups rs).
(** The same where the first row of an entry has a blank cell on the right: the name may be empty. *)
Fixpoint headed (rs : list text) : list (list text * list (list text)) * list (list text) :=
  match rs with
  | [] => ([], [])
  | r :: rs' =>
      let (g, more) := headed rs' in
      if blank (right_cell r) then ((words (left_cell r), more) :: g, []) else (g, words (right_cell r) :: more)
  end.
Definition headed_entries (rs : list text) : list (list text * list (list text)) := fst (headed rs).

(** A word: not empty, and without blanks, line ends and bars. A text in one line *)
Definition word (s : text) : Prop := s <> [] /\ ~ In 32%N s /\ ~ In 10%N s.
Definition name (s : text) : Prop := word s /\ ~ In 124%N s.
Definition one_line (s : text) : Prop := ~ In 10%N s.
(** Start, end and step without blanks; an access: a name with the texts of its offsets, at least one *)
Definition good_bounds (b : text * text * text) : Prop := let '(lo, hi, st) := b in word lo /\ word hi /\ word st.
Definition good_access (a : text * list text) : Prop := name (fst a) /\ snd a <> [] /\ Forall one_line (snd a).
(** Columns of ten characters separated by one: texts which fit into them are read without the blanks in front. *)
Fixpoint drop_blanks (s : text) : text := match s with c :: s' => if (c =? 32)%N then drop_blanks s' else s | [] => [] end.
Definition column (n : nat) (s : text) : text := drop_blanks (firstn 10 (skipn (11 * n) s)).
Definition columns (s : text) : text * text * text := (column 0 s, column 1 s, column 2 s).
Definition fits (s : text) : Prop := (List.length s <= 10)%nat /\ match s with c :: _ => c <> 32%N | [] => True end.
Definition bounds_fit (b : text * text * text) : Prop := let '(lo, hi, st) := b in fits lo /\ fits hi /\ fits st.
Definition bounds_lines (b : text * text * text) : Prop := let '(lo, hi, st) := b in one_line lo /\ one_line hi /\ one_line st.
