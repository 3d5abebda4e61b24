(** Combinations of constants which are analysed: kerncraft.py:68-71, 347-376 and kernel.py:248-264, 283-288 *)
From Coq Require Export String.
From Verif Require Export PyBase.
Local Open Scope string_scope.
Local Open Scope Z_scope.
Local Open Scope list_scope.

(** An option [-D name values], after AppendStringRange (see RangeModel): kerncraft.py:126-127 *)
Definition opt := (string * list Z)%type.
(** Parsing (kerncraft.py:125-128, 160): argparse gives every namespace the default of the option, which is one list object of the parser, and the action
    appends to it. Returns the options of the namespace and the list held by the parser. *)
Definition parse (default options : list opt) : list opt * list opt := (default ++ options, default ++ options).

(** Comparison of lists of Python: [list.sort] of [\[name, values\]] (kerncraft.py:350). Simplification: names are ASCII. *)
Fixpoint values_leb (a b : list Z) : bool :=
  match a, b with
  | [], _ => true
  | _ :: _, [] => false
  | x :: a', y :: b' => if x <? y then true else if y <? x then false else values_leb a' b'
  end.
Definition opt_leb (a b : opt) : bool :=
  match String.compare (fst a) (fst b) with Lt => true | Gt => false | Eq => values_leb (snd a) (snd b) end.

(** OrderedDict: keys in the order of their first insertion (as used in kerncraft.py:347-373) *)
Section Dict.
  Context {V : Type}.
  Fixpoint lookup (k : string) (d : list (string * V)) : option V :=
    match d with [] => None | (k', v) :: d' => if String.eqb k k' then Some v else lookup k d' end.
  Fixpoint put (k : string) (v : V) (d : list (string * V)) : list (string * V) :=
    match d with [] => [(k, v)] | (k', v') :: d' => if String.eqb k k' then (k, v) :: d' else (k', v') :: put k v d' end.
End Dict.

(** [dict(args.define)['.']] (kerncraft.py:353): the last one *)
Definition of_list (l : list opt) : list opt := fold_left (fun d o => put (fst o) (snd o) d) l [].
Definition mem (n : string) (l : list string) : bool := existsb (String.eqb n) l.
Definition pairs (n : string) (vs : list Z) : list (string * Z) := map (fun v => (n, v)) vs.
(** kerncraft.py:352-356. [required] is the set of constants of the kernel in the order in which Python iterates over it. *)
Definition prefill (required : list string) (sorted : list opt) : list (string * list (string * Z)) :=
  match lookup "." (of_list sorted) with
  | Some vs => fold_left (fun d n => put n (pairs n vs) d) required []
  | None => []
  end.
(** [v not in define_dict\[name\]] (kerncraft.py:365): the list contains pairs [\[name, value\]], no numbers, and a number is never equal to a list. *)
Definition same_object (v : Z) (p : string * Z) : bool := false.
Definition add_values (n : string) (vs : list Z) (l : list (string * Z)) : list (string * Z) :=
  fold_left (fun l v => if existsb (same_object v) l then l else l ++ [(n, v)]) vs l.
(** kerncraft.py:357-366 *)
Definition add_option (required : list string) (d : list (string * list (string * Z))) (o : opt) : list (string * list (string * Z)) :=
  if negb (mem (fst o) required) then d else
  match lookup (fst o) d with
  | None => put (fst o) (pairs (fst o) (snd o)) d
  | Some l => put (fst o) (add_values (fst o) (snd o) l) d
  end.
(** [itertools.product] (kerncraft.py:367) *)
Fixpoint product {A} (l : list (list A)) : list (list A) :=
  match l with [] => [[]] | x :: l' => flat_map (fun a => map (cons a) (product l')) x end.
(** kerncraft.py:347-373. Without constants the product is [\[{}\]]: one combination without values. *)
Definition combinations (required : list string) (options : list opt) : res (list (list (string * Z))) :=
  match required with
  | [] => Ok [[]]
  | _ =>
      let sorted := sort_with opt_leb options in
      let d := fold_left (add_option required) sorted (prefill required sorted) in
      if forallb (fun n => mem n (map fst d)) required then Ok (product (map snd d)) else Err ValueError
  end.

(** [uniquify]: kerncraft.py:68-71 *)
Fixpoint uniquify_from (seen l : list string) : list string :=
  match l with [] => [] | x :: l' => if mem x seen then uniquify_from seen l' else x :: uniquify_from (x :: seen) l' end.
Definition uniquify (l : list string) : list string := uniquify_from [] l.

(** [set_constant] (kernel.py:248-264): the constants are sorted after every change. *)
Definition name_leb (a b : string * Z) : bool := String.leb (fst a) (fst b).
Definition set_constant (constants : list (string * Z)) (p : string * Z) : list (string * Z) := sort_with name_leb (put (fst p) (snd p) constants).
(** [clear_state] (kernel.py:283-288) and lines 375-381 *)
Definition constants_of (define : list (string * Z)) : list (string * Z) := fold_left set_constant define [].
(** The analyses which are made (kerncraft.py:375-402): the constants of the kernel and the model *)
Definition analyses (required : list string) (options : list opt) (models : list string) : res (list (list (string * Z) * string)) :=
  do ds <- combinations required options;
  Ok (flat_map (fun d => map (fun m => (constants_of d, m)) (uniquify models)) ds).
