(** Model of [clean_code], [/repo/kerncraft/pycparser_utils.py] lines 9-54. *)
From Coq Require Import Ascii.
From Verif Require Import PyBase.
Local Open Scope char_scope.
Local Open Scope Z_scope.

(** Python strings as lists of characters (pycparser_utils.py:9-54). *)
Definition text := list ascii.
Definition nl : ascii := "010".
Definition zlen {A} (l : list A) : Z := Z.of_nat (length l).

(** Python's normalisation of a slice bound and slices [l[a:b]], [l[a:]], [l[:b]] (as used in pycparser_utils.py:37-52). *)
Definition norm (len i : Z) : Z := if i <? 0 then Z.max 0 (len + i) else Z.min len i.
Definition slice (l : text) (a b : Z) : text :=
  let a' := norm (zlen l) a in
  let b' := norm (zlen l) b in
  firstn (Z.to_nat (b' - a')) (skipn (Z.to_nat a') l).
Definition slice_from (l : text) (a : Z) : text := skipn (Z.to_nat (norm (zlen l) a)) l.
Definition slice_to (l : text) (b : Z) : text := firstn (Z.to_nat (norm (zlen l) b)) l.

Fixpoint text_eqb (a b : text) : bool :=
  match a, b with
  | [], [] => true
  | x :: a', y :: b' => (Ascii.eqb x y && text_eqb a' b')%bool
  | _, _ => false
  end.

(** [l.find('\n', start)] (as used in pycparser_utils.py:37-52) *)
Fixpoint index_nl (l : text) : option Z :=
  match l with
  | [] => None
  | c :: l' => if Ascii.eqb c nl then Some 0
               else match index_nl l' with Some i => Some (i + 1) | None => None end
  end.
Definition find_nl (l : text) (start : Z) : Z :=
  let s := norm (zlen l) start in
  match index_nl (skipn (Z.to_nat s) l) with Some i => s + i | None => -1 end.

(** [l.count('\n')] (as used in pycparser_utils.py:37-52) *)
Definition count_nl (l : text) : nat := length (filter (Ascii.eqb nl) l).

(** pycparser_utils.py:37-52, the [while] loop; [cs] is [comment_start]. *)
Fixpoint clean_loop (fuel : nat) (code : text) (idx : Z) (cs : option Z) : res text :=
  match fuel with
  | O => Err OutOfFuel
  | S fuel' =>
      if idx <? zlen code - 1 then
        let two := slice code idx (idx + 2) in
        match cs with
        | None =>
            if text_eqb two ["/"; "/"] then
              let end_idx := find_nl code idx in
              clean_loop fuel' (slice_to code idx ++ slice_from code end_idx)
                (idx - (end_idx - idx) + 1) None
            else if text_eqb two ["/"; "*"] then clean_loop fuel' code (idx + 1) (Some idx)
            else clean_loop fuel' code (idx + 1) None
        | Some c =>
            if text_eqb two ["*"; "/"] then
              clean_loop fuel'
                (slice_to code c ++ repeat nl (count_nl (slice code c idx)) ++ slice_from code (idx + 2))
                (idx - (idx - c) + 1) None
            else clean_loop fuel' code (idx + 1) cs
        end
      else Ok code
  end.

(** [code.split('\n')] and ['\n'.join(lines)] (pycparser_utils.py:21-34) *)
Fixpoint split_nl (l : text) : list text :=
  match l with
  | [] => [[]]
  | c :: l' => if Ascii.eqb c nl then [] :: split_nl l'
               else match split_nl l' with
                    | w :: ws => (c :: w) :: ws
                    | [] => [[c]]
                    end
  end.
Fixpoint join_nl (ls : list text) : text :=
  match ls with
  | [] => []
  | [w] => w
  | w :: ws => w ++ nl :: join_nl ws
  end.

(** [str.strip()] for ASCII, [startswith], [endswith('\\')] (pycparser_utils.py:21-34) *)
Definition is_ws (c : ascii) : bool :=
  let n := Z.of_nat (nat_of_ascii c) in ((9 <=? n) && (n <=? 13)) || ((28 <=? n) && (n <=? 32)).
Fixpoint drop_ws (l : text) : text :=
  match l with c :: l' => if is_ws c then drop_ws l' else l | [] => [] end.
Definition strip_ws (l : text) : text := rev (drop_ws (rev (drop_ws l))).
Fixpoint startswith (p l : text) : bool :=
  match p, l with
  | [], _ => true
  | x :: p', y :: l' => (Ascii.eqb x y && startswith p' l')%bool
  | _, [] => false
  end.
Definition endswith_backslash (l : text) : bool :=
  match rev l with c :: _ => Ascii.eqb c "\" | [] => false end.

Definition hash : text := ["#"].
Definition hash_pragma : text := ["#"; "p"; "r"; "a"; "g"; "m"; "a"].

(** pycparser_utils.py:21-34. *)
Fixpoint clean_lines (macros pragmas in_macro in_pragma : bool) (lines : list text) : list text :=
  match lines with
  | [] => []
  | line :: rest =>
      let l := strip_ws line in
      let m := (macros && ((startswith hash l && negb (startswith hash_pragma l)) || in_macro))%bool in
      let p := (pragmas && (startswith hash_pragma l || in_pragma))%bool in
      (if (m || p)%bool then [] else line)
      :: clean_lines macros pragmas (if m then endswith_backslash l else in_macro)
           (if p then endswith_backslash l else in_pragma) rest
  end.

(** pycparser_utils.py:9-54. *)
Definition clean_code (fuel : nat) (code : text) (comments macros pragmas : bool) : res text :=
  let code1 := if (macros || pragmas)%bool
               then join_nl (clean_lines macros pragmas false false (split_nl code)) else code in
  if comments then clean_loop fuel code1 0 None else Ok code1.

(** kernel.py:865-873, [_strip_comments]: every line is cut at its first [//]. *)
Fixpoint cut_line (l : text) : text :=
  match l with
  | c :: ((d :: _) as l') => if (Ascii.eqb c "/" && Ascii.eqb d "/")%bool then [] else c :: cut_line l'
  | _ => l
  end.
Definition strip_comments (code : text) : text := join_nl (map cut_line (split_nl code)).
