(** Words of a text: independent of the code. *)
From Verif Require Import PyBase PyText.
Local Open Scope N_scope.
Local Open Scope list_scope.

(** [consists t ws]: the text consists of the words [ws] in this order, with any number of spaces before, between and after them. *)
Inductive consists : text -> list text -> Prop :=
| of_nothing : consists [] []
| of_space t ws : consists t ws -> consists (32 :: t) ws
| of_word w t ws : w <> [] -> ~ In 32 w -> t = [] \/ (exists u, t = 32 :: u) -> consists t ws -> consists (w ++ t) (w :: ws).
(** One space between words, none before and after them *)
Definition neat (t : text) : Prop := exists ws, ws <> [] /\ (forall w, In w ws -> w <> [] /\ ~ In 32 w) /\ t = join 32 ws.

(** The compiler's flags: those of the command line, otherwise those of the machine file for the compiler, otherwise none *)
Definition chosen_flags (machine : list (text * option text)) (args : option (option text * option text)) (compiler flags : text) : Prop :=
  match args with
  | Some (_, Some f) => flags = f
  | _ => In (compiler, Some flags) machine \/ flags = [] /\ forall f, ~ In (compiler, f) machine
  end.
(** One text occurs in another. *)
Definition occurs_in (p s : text) : Prop := exists a b, s = a ++ p ++ b.
(** Every "p" of a text is written as "v": pieces without "p" between them stay. *)
Inductive rewritten (p v : text) : text -> text -> Prop :=
| same s : ~ occurs_in p s -> rewritten p v s s
| other a b c : ~ occurs_in p a -> rewritten p v b c -> rewritten p v (a ++ p ++ b) (a ++ v ++ c).
