(** Specification of the settings of models *)
From Verif Require Export PyBase PyText PyFloat ArgsModel InitModel.
Local Open Scope string_scope.
Local Open Scope list_scope.

(** Predictor with this name on the command line *)
Inductive predictor_name : text -> predictor -> Prop :=
| name_sim : predictor_name (codes "SIM") SIM
| name_lc : predictor_name (codes "LC") LCP.
(** What a user can write for an option which is one of some words or an integer; the last argument is what it means. *)
Inductive word_or_number (words : list string) : int_or_text -> int_or_text -> Prop :=
| a_word w : In w words -> word_or_number words (IsText (codes w)) (IsText (codes w))
| a_number z : word_or_number words (IsInt z) (IsInt z)
| a_numeral s z : ~ In s (map codes words) -> py_int s = Some z -> word_or_number words (IsText s) (IsInt z).
Definition block_words := ["auto"; "manual"].
Definition increment_words := ["auto"; "auto_with_manual_fallback"; "manual"].
(** Value of --asm-block as a text or number *)
Definition shown_block (b : asm_block) : int_or_text := match b with Auto => IsText (codes "auto") | Manual => IsText (codes "manual") | Number z => IsInt z end.
(** Metric which says that something has to be filled in, as it is written into new machine descriptions (machinemodel.py:136, 144) *)
Definition to_be_filled_in (metric : text) : Prop := exists after, metric = codes "INFORMATION_REQUIRED" ++ after.
