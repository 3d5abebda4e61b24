(** From the text of a kernel to the text that is parsed: kernel.py:750-756 and 879-885, with [_strip_comments] (865-873) of CleanModel. *)
From Coq Require Import Ascii String.
From Verif Require Import PyBase CleanModel.
Local Open Scope char_scope.

(** Texts of the source (kernel.py:884) *)
Definition str (s : string) : text := list_ascii_of_string s.
(** kernel.py:879-885, [_as_function], without file name as in line 752 *)
Definition as_function (func_name kernel_code : text) : text :=
  str "#line 0 " ++ nl :: str "void " ++ func_name ++ str "() {" ++ nl :: str "#line 1 " ++ nl :: kernel_code ++ nl :: str "#line 999 " ++ nl :: str "}".
(** The text given to the parser (kernel.py:752) *)
Definition parsed_text (kernel_code : text) : text := strip_comments (as_function (str "test") kernel_code).

(** Text up to the brace that closes [depth] open ones (kernel.py:753) *)
Fixpoint upto (depth : nat) (t : text) : option text :=
  match t with
  | [] => None
  | c :: t' =>
      if Ascii.eqb c "}" then match depth with O => Some [] | S d => option_map (cons c) (upto d t') end
      else option_map (cons c) (upto (if Ascii.eqb c "{" then S depth else depth) t')
  end.
(** [parser.parse(...).ext[0].body], kernel.py:752-753: the body of the first function. Simplification: only the extent of the body is modelled, not
    its syntax; braces in constants of characters and texts are not excluded. *)
Fixpoint first_body (t : text) : option text :=
  match t with [] => None | c :: t' => if Ascii.eqb c "{" then upto 0 t' else first_body t' end.
