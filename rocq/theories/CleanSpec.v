(** Specification of comment removal. *)
From Coq Require Import Ascii.
From Verif Require Import PyBase CleanModel.
(** Of the model only [text] and the newline character [nl] are used here. *)
Local Open Scope char_scope.

Inductive comment := Line (body : text) | Block (body : text).

(** A commented program: code, then comments each followed by code. *)
Definition document := (text * list (comment * text))%type.

Definition render_comment (c : comment) : text :=
  match c with
  | Line b => "/" :: "/" :: b
  | Block b => "/" :: "*" :: b ++ ["*"; "/"]
  end.
(** What remains of a comment: line breaks. *)
Definition kept (c : comment) : text :=
  match c with Line _ => [] | Block b => filter (Ascii.eqb nl) b end.

Fixpoint render_rest (l : list (comment * text)) : text :=
  match l with [] => [] | (c, t) :: l' => render_comment c ++ t ++ render_rest l' end.
Definition render (d : document) : text := fst d ++ render_rest (snd d).

Fixpoint kept_rest (l : list (comment * text)) : text :=
  match l with [] => [] | (c, t) :: l' => kept c ++ t ++ kept_rest l' end.
Definition without_comments (d : document) : text := fst d ++ kept_rest (snd d).

(** Code without comment start (also not together with a following slash). *)
Definition code_text (t : text) : Prop :=
  (forall a b, t <> a ++ "/" :: "/" :: b) /\ (forall a b, t <> a ++ "/" :: "*" :: b)
  /\ (forall a, t <> a ++ ["/"]).

(** Comments as in C: a line comment ends at the line break, a block comment at the first [*/]. *)
Definition wf_comment (c : comment) (next : text) : Prop :=
  match c with
  | Line b => ~ In nl b /\ exists r, next = nl :: r
  | Block b => forall x y, b ++ ["*"] <> x ++ "*" :: "/" :: y
  end.
Fixpoint wf_rest (l : list (comment * text)) : Prop :=
  match l with
  | [] => True
  | (c, t) :: l' => wf_comment c t /\ code_text t /\ wf_rest l'
  end.
Definition wf_document (d : document) : Prop := code_text (fst d) /\ wf_rest (snd d).

(** Restrictions under which the implementation is right; [pos] is the number of characters of
    cleaned code in front of the comment. *)
Definition good_comment (pos : nat) (c : comment) (next : text) (last : bool) : Prop :=
  match c with
  | Line b => (length b <= pos + 1)%nat
  | Block b => (forall b', b <> "/" :: b') /\ (next <> [] \/ In nl b \/ last = true)
  end.
Fixpoint good_rest (pos : nat) (l : list (comment * text)) : Prop :=
  match l with
  | [] => True
  | (c, t) :: l' =>
      good_comment pos c t (match l' with [] => true | _ => false end)
      /\ good_rest (pos + length (kept c) + length t) l'
  end.
Definition good_document (d : document) : Prop := good_rest (length (fst d)) (snd d).

(** Removal of line comments. *)
Fixpoint drop_line_comments (in_comment : bool) (l : text) : text :=
  match l with
  | [] => []
  | c :: l' =>
      if Ascii.eqb c nl then nl :: drop_line_comments false l'
      else if in_comment then drop_line_comments true l'
      else match l' with
           | d :: _ => if (Ascii.eqb c "/" && Ascii.eqb d "/")%bool then drop_line_comments true l'
                       else c :: drop_line_comments false l'
           | [] => [c]
           end
  end.

Definition line_breaks (t : text) : nat := count_occ ascii_dec t nl.

(** White space: blank, tabulator, line feed, vertical tabulator, form feed, carriage return, and the four separators *)
Definition white_space (c : ascii) : Prop := In c [" "; "009"; "010"; "011"; "012"; "013"; "028"; "029"; "030"; "031"].
