(** Pointer increment of AArch64 blocks: incore_model.py:257-490, and the metric of blocks 259-285.
    Instructions as parsed by OSACA: operands in the order of the parser, and those which are only read, only written, and both (semantic operands).
    Simplifications: registers are equal if prefix and name are (shapes and lanes of vector registers are left out); lines without instruction have no operands. *)
From Verif Require Export PyBase PyText.
Local Open Scope Z_scope.
Local Open Scope list_scope.

Record reg := mkReg { prefix : option text; rname : text }.
Inductive offset := Immediate (z : Z) | Identifier.
(** [post_indexed]: False, True (or something else), or a dictionary with the value (as read by incore_model.py:297-490) *)
Inductive post := NotPost | Post | PostBy (z : Z).
Record mem := mkMem { base : option reg; index : option reg; shift : option Z; disp : option offset; pre_indexed : bool; post_indexed : post }.
Inductive operand := Reg (r : reg) | Imm (z : Z) | Mem (m : mem) | Other.
Record line := mkLine { mnemonic : option text; operands : list operand; sources : list operand; destinations : list operand; both : list operand }.

Definition tx := codes.
(** incore_model.py:287-294: 32 and 64 bit registers are the same; the test [prefix in "wx"] is one for substrings. *)
Definition normalize (r : reg) : res text :=
  match prefix r with
  | None => Err TypeError
  | Some p => Ok ((if existsb (text_eqb p) [tx ""; tx "w"; tx "x"; tx "wx"] then tx "x" else p) ++ rname r)
  end.
Definition normalize_option (r : option reg) : res (option text) :=
  match r with None => Ok None | Some r => do n <- normalize r; Ok (Some n) end.

(** Dictionaries (of Python, as used in incore_model.py:297-490) *)
Definition dict := list (text * Z).
Fixpoint dict_get (k : text) (d : dict) : option Z :=
  match d with [] => None | (x, v) :: d' => if text_eqb k x then Some v else dict_get k d' end.
Fixpoint dict_set (k : text) (v : Z) (d : dict) : dict :=
  match d with [] => [(k, v)] | (x, w) :: d' => if text_eqb k x then (x, v) :: d' else (x, w) :: dict_set k v d' end.
Definition dict_in (k : text) (d : dict) : bool := match dict_get k d with Some _ => true | None => false end.
Definition count_of (k : text) (d : dict) : Z := match dict_get k d with Some v => v | None => 0 end.
Definition bump (k : text) (d : dict) : dict := dict_set k (count_of k d + 1) d.

Fixpoint foldM {A B} (f : A -> B -> res A) (l : list B) (a : A) : res A :=
  match l with [] => Ok a | x :: l' => do a' <- f a x; foldM f l' a' end.

(** incore_model.py:303-311 *)
Definition count_destination (d : dict) (o : operand) : res dict :=
  match o with Reg r => do n <- normalize r; Ok (bump n d) | _ => Ok d end.
(** incore_model.py:312-322: pre- and post-indexed operands change the base register. *)
Definition indexing (m : mem) : bool := match post_indexed m with NotPost => pre_indexed m | _ => true end.
Definition index_step (m : mem) : res Z :=
  if pre_indexed m then match disp m with Some (Immediate z) => Ok z | _ => Err AttributeError end
  else Ok (match post_indexed m with PostBy z => z | _ => 1 end).
(** The step for the base [None] is stored under the key None, which is never looked up; it is left out here (incore_model.py:312-322). *)
Definition count_indexing (st : dict * dict) (o : operand) : res (dict * dict) :=
  match o with
  | Mem m => if indexing m then
               do n <- normalize_option (base m); do z <- index_step m;
               Ok (match n with Some n => (bump n (fst st), dict_set n z (snd st)) | None => st end)
             else Ok st
  | _ => Ok st
  end.
Definition modifications (block : list line) : res (dict * dict) :=
  do d <- foldM count_destination (flat_map destinations block) [];
  foldM count_indexing (flat_map operands block) (d, []).

(** incore_model.py:329-349: stores whose base or index changes *)
Definition mems (l : list operand) : list mem := flat_map (fun o => match o with Mem m => [m] | _ => [] end) l.
Definition known (n : option text) (d : dict) : bool := match n with Some n => dict_in n d | None => false end.
Fixpoint moving_stores (modified : dict) (l : list mem) : res (list mem) :=
  match l with
  | [] => Ok []
  | m :: l' =>
      do b <- normalize_option (base m);
      do skip <- (if known b modified then Ok false else do i <- normalize_option (index m); Ok (negb (known i modified)));
      do r <- moving_stores modified l';
      Ok (if (skip || match disp m with Some Identifier => true | _ => false end)%bool then r else m :: r)
  end.
Definition nth_operand (l : line) (i : nat) : res operand := match nth_error (operands l) i with Some o => Ok o | None => Err IndexError end.
Definition option_eqb (a b : option text) : bool := match a, b with Some x, Some y => text_eqb x y | None, None => true | _, _ => false end.
Definition operand_eqb (a b : operand) : bool :=
  match a, b with
  | Reg r, Reg s => (option_eqb (prefix r) (prefix s) && text_eqb (rname r) (rname s))%bool
  | Imm x, Imm y => x =? y
  | _, _ => false
  end.
(** Simplification: memory operands and identifiers are never equal; instructions with them in the first places end with an AttributeError (incore_model.py:366-384). *)
Definition register_of (o : operand) : res text := match o with Reg r => normalize r | _ => Err AttributeError end.
Definition one_of (m : text) (l : list text) : bool := existsb (text_eqb m) l.
(** Register and number of [add r, r, #z] and the like (incore_model.py:366-384) *)
Definition immediate_form (l : line) : res (option (text * Z)) :=
  do a <- nth_operand l 0; do b <- nth_operand l 1;
  if operand_eqb a b then
    do c <- nth_operand l 2;
    match c with Imm z => do n <- register_of a; Ok (Some (n, z)) | _ => Ok None end
  else Ok None.
Record scan := mkScan { increments : dict; references : list mem; stores_only : bool }.
(** incore_model.py:324-384 *)
Definition scan_line (modified : dict) (st : scan) (l : line) : res scan :=
  match mnemonic l with
  | None => Ok st
  | Some m =>
      do dst <- moving_stores modified (mems (destinations l ++ both l));
      let found := match dst with [] => false | _ => true end in
      let refs := (if (found && negb (stores_only st))%bool then [] else references st) ++ dst in
      let only := (stores_only st || found)%bool in
      let refs := if only then refs else refs ++ mems (sources l ++ both l) in
      do is_add <- (if one_of m [tx "add"; tx "adds"] then immediate_form l else Ok None);
      match is_add with
      | Some (n, z) => Ok (mkScan (dict_set n z (increments st)) refs only)
      | None =>
          do is_sub <- (if one_of m [tx "sub"; tx "subs"] then immediate_form l else Ok None);
          (* lines 383-384: a new value is only stored if it is there already *)
          Ok (match is_sub with
              | Some (n, z) => mkScan (match dict_get n (increments st) with Some v => if v =? - z then dict_set n (- z) (increments st) else increments st | None => increments st end) refs only
              | None => mkScan (increments st) refs only
              end)
      end
  end.
(** incore_model.py:386-391 and 434-439: registers which are modified once; reading the counter adds registers to it. *)
Definition once (st : dict * dict) : dict * dict :=
  (fold_left (fun d x => if dict_in (fst x) d then d else dict_set (fst x) 0 d) (snd st) (fst st), filter (fun x => count_of (fst x) (fst st) =? 1) (snd st)).
(** incore_model.py:393-405 and 441-455; a negative shift, which no program has, would give a float and is an error here; [only]: registers that may be shifted *)
Definition shift_line (only : option (list text)) (increments : dict) (l : line) : res dict :=
  match mnemonic l with
  | Some m =>
      if text_eqb m (tx "lsl") then
        do c <- nth_operand l 2;
        match c with
        | Imm z =>
            do b <- nth_operand l 1;
            match only, b with
            | Some _, (Imm _ | Mem _ | Other) => Ok increments
            | _, _ =>
                do s <- register_of b;
                match dict_get s increments with
                | Some v =>
                    if match only with Some names => one_of s names | None => true end then
                      do a <- nth_operand l 0; do d <- register_of a;
                      if z <? 0 then Err TypeError else Ok (dict_set d (v * 2 ^ z) increments)
                    else Ok increments
                | None => Ok increments
                end
            end
        | _ => Ok increments
        end
      else Ok increments
  | None => Ok increments
  end.
(** incore_model.py:407-432 *)
Record sums := mkSums { smodified : dict; sincrements : dict; snew : list text }.
Definition sum_pair (factor : Z) (a : operand) (st : sums) (ij : text * text) : res sums :=
  match dict_get (fst ij) (sincrements st) with
  | Some v =>
      if dict_in (snd ij) (smodified st) then Ok st else
      do d <- register_of a;
      let inc := factor * v in
      let m := match dict_get d (sincrements st) with Some w => if w =? inc then dict_set d (count_of d (smodified st) - 1) (smodified st) else smodified st | None => smodified st end in
      Ok (mkSums m (dict_set d inc (sincrements st)) (snew st ++ [d]))
  | None => Ok st
  end.
Definition sum_line (st : sums) (l : line) : res sums :=
  match mnemonic l with
  | Some m =>
      let add := one_of m [tx "add"; tx "adds"] in
      if (add || one_of m [tx "sub"; tx "subs"])%bool then
        do b <- nth_operand l 1;
        match b with
        | Reg r =>
            do c <- nth_operand l 2;
            match c with
            | Reg s =>
                do x <- normalize r; do y <- normalize s; do a <- nth_operand l 0;
                foldM (sum_pair (if add then 1 else -1) a) [(x, y); (y, x)] st
            | _ => Ok st
            end
        | _ => Ok st
        end
      else Ok st
  | None => Ok st
  end.
(** incore_model.py:457-477: registers of the addresses, with the scale *)
Definition address_register (increments : dict) (m : mem) : res (option text * option Z) :=
  do b <- normalize_option (base m);
  match index m with
  | Some i => do n <- normalize i; Ok (if dict_in n increments then (Some n, option_map (Z.pow 2) (shift m)) else (b, None))
  | None => Ok (b, None)
  end.
Definition record_address (modified increments : dict) (st : list text * dict) (m : mem) : res (list text * dict) :=
  do r <- address_register increments m;
  match r with
  | (Some n, s) => Ok (if dict_in n modified then fst st ++ [n] else fst st, match s with Some z => dict_set n z (snd st) | None => snd st end)
  | (None, _) => Ok st
  end.
Fixpoint all_equal (l : list (option Z)) : bool :=
  match l with
  | Some a :: (Some b :: _) as l' => ((a =? b) && all_equal l')%bool
  | [Some _] => true
  | _ => false
  end.
(** The whole function without the last resort, incore_model.py:296-484 *)
Definition detect (block : list line) : res (option Z) :=
  do mi <- modifications block;
  do st <- foldM (scan_line (fst mi)) block (mkScan (snd mi) [] false);
  let (m1, i1) := once (fst mi, increments st) in
  do i2 <- foldM (shift_line None) block i1;
  do s <- foldM sum_line block (mkSums m1 i2 []);
  let (m2, i3) := once (smodified s, sincrements s) in
  do i4 <- foldM (shift_line (Some (snew s))) block i3;
  do a <- foldM (record_address m2 i4) (references st) ([], []);
  Ok (match fst a with
      | [] => None
      | r :: _ => if all_equal (map (fun r => dict_get r i4) (fst a)) then option_map (fun v => v * match dict_get r (snd a) with Some z => z | None => 1 end) (dict_get r i4) else None
      end).
(** incore_model.py:486-490; [cached]: the increment from the cache file *)
Definition pointer_increment (cached : option Z) (block : list line) : res (option Z) :=
  do r <- detect block; Ok (match r with Some z => Some z | None => cached end).

(** ** Metric: incore_model.py:259-285; the test of the prefix is one for substrings. *)
Definition counted (l : line) : bool := match mnemonic l with Some _ => true | None => false end.
Definition vector_register (o : operand) : bool :=
  match o with Reg r => match prefix r with Some p => one_of p [tx ""; tx "z"; tx "v"; tx "zv"] | None => false end | _ => false end.
Definition has_mnemonic (names : list text) (l : line) : bool := match mnemonic l with Some m => one_of m names | None => false end.
Definition metric (block : list line) : list Z :=
  [Z.of_nat (length (filter vector_register (flat_map operands (filter counted block))));
   Z.of_nat (length (filter (has_mnemonic [tx "fmul"; tx "fdiv"; tx "fadd"; tx "fsub"]) block));
   Z.of_nat (length (filter (has_mnemonic [tx "add"; tx "sub"; tx "mul"]) block));
   Z.of_nat (length (filter counted block))].
