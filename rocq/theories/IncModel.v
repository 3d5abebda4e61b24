(** Analysis of assembly blocks: incore_model.py:28-29 and 46-254 (selection of a block, pointer increment of x86 blocks). *)
From Verif Require Export PyBase PyText.
Local Open Scope Z_scope.
Local Open Scope list_scope.

(** Instructions as parsed by OSACA: the operands in the order of the parser, and the operands that are only read and only written
    (OSACA's semantic operands 'source' and 'destination'; operands that are read and written are not looked at for x86) (as used in incore_model.py:92-254). *)
Inductive offset := NoOffset | Displacement (z : Z) | Symbol.
Record mem := mkMem { base : option text; index : option text; mscale : Z; disp : offset }.
Inductive operand := Reg (name : text) | Imm (value : Z) | Mem (m : mem) | Ident (name : text).
Record line := mkLine { mnemonic : option text; operands : list operand; sources : list operand; destinations : list operand }.

(** incore_model.py:28-29 *)
Fixpoint list_eqb {A} (eqb : A -> A -> bool) (l m : list A) : bool :=
  match l, m with [], [] => true | a :: l', b :: m' => eqb a b && list_eqb eqb l' m' | _, _ => false end.
Definition items_equal (l : list Z) : bool := list_eqb Z.eqb (tl l) (removelast l).

(** ** Selection: incore_model.py:62-82. Comparison of tuples of the same length *)
Fixpoint tuple_ltb (a b : list Z) : bool :=
  match a, b with
  | x :: a', y :: b' => if x =? y then tuple_ltb a' b' else x <? y
  | [], _ :: _ => true
  | _, _ => false
  end.
Section Select.
  Context {B : Type}.
  Variable metric : B -> list Z.
  Fixpoint best_of (label : text) (best : list Z) (blocks : list (text * B)) : text :=
    match blocks with
    | [] => label
    | (l, b) :: rest => if tuple_ltb best (metric b) then best_of l (metric b) rest else best_of label best rest
    end.
  Definition select_best_block (blocks : list (text * B)) : res text :=
    match blocks with
    | [] => Err ValueError
    | (l, b) :: rest => Ok (best_of l (metric b) rest)
    end.
End Select.

(** ** x86 metric: incore_model.py:90-127 *)
Fixpoint starts_with (prefix s : text) : bool :=
  match prefix, s with
  | [], _ => true
  | p :: prefix', c :: s' => (p =? c)%N && starts_with prefix' s'
  | _, [] => false
  end.
Definition tx := codes.
(** The regular expression of incore_model.py:111, as the list of all prefixes it matches. *)
Definition packed_prefixes : list text :=
  flat_map (fun v => flat_map (fun o => flat_map (fun h => map (fun d => v ++ o ++ h ++ d) [tx "pd"; tx "ps"]) [tx "h"; []])
    [tx "movu"; tx "mul"; tx "add"; tx "sub"; tx "div"; tx "fmadd132"; tx "fmadd213"; tx "fmadd231"; tx "fmadd"]) [tx "v"; []].
Definition is_packed (m : text) : bool := existsb (fun p => starts_with p m) packed_prefixes.
Definition is_avx (m : text) : bool := starts_with (tx "v") m.
Definition instructions (block : list line) : list (text * list operand) :=
  flat_map (fun l => match mnemonic l with Some m => [(m, operands l)] | None => [] end) block.
Definition registers_with (prefix : text) (block : list line) : list text :=
  flat_map (fun i => flat_map (fun o => match o with Reg n => if starts_with prefix n then [n] else [] | _ => [] end) (snd i)) (instructions block).
Definition count {A} (f : A -> bool) (l : list A) : Z := Z.of_nat (length (filter f l)).
Definition size_of_set (l : list text) : Z := Z.of_nat (length (nodup text_dec l)).
Definition x86_metric (block : list line) : list Z :=
  [count (fun i => is_packed (fst i)) (instructions block);
   count (fun i => is_packed (fst i) && is_avx (fst i)) (instructions block);
   size_of_set (registers_with (tx "zmm") block);
   size_of_set (registers_with (tx "ymm") block);
   size_of_set (registers_with (tx "xmm") block);
   Z.of_nat (length (instructions block))].

(** ** x86 pointer increment: incore_model.py:129-254 *)
(** [^name[bwlq]?$] (incore_model.py:159-183) *)
Definition sized (name m : text) : bool :=
  existsb (text_eqb m) [name; name ++ tx "b"; name ++ tx "w"; name ++ tx "l"; name ++ tx "q"].
(** [operands[i]] and attributes; a missing attribute is an AttributeError (incore_model.py:159-201). *)
Definition operand_at (l : line) (i : nat) : res operand :=
  match nth_error (operands l) i with Some o => Ok o | None => Err IndexError end.
Definition name_of (o : operand) : res text :=
  match o with Reg n | Ident n => Ok n | _ => Err AttributeError end.
Definition memory_of (o : operand) : res mem := match o with Mem m => Ok m | _ => Err AttributeError end.
Definition value_of (d : offset) : res Z := match d with Displacement z => Ok z | _ => Err AttributeError end.
Definition is_name (r : option text) (n : text) : bool := match r with Some x => text_eqb x n | None => false end.

(** incore_model.py:159-205 for one instruction: the register that is modified, and its increment. *)
Definition modification (m : text) (l : line) : res (option (text * Z)) :=
  if sized (tx "inc") m then do o <- operand_at l 0; do r <- name_of o; Ok (Some (r, 1))
  else
    do is_add <- (if sized (tx "add") m then
                    do a <- operand_at l 0;
                    match a with
                    | Imm z => do b <- operand_at l 1; Ok (match b with Reg r => Some (r, z) | _ => None end)
                    | _ => Ok None
                    end
                  else Ok None);
    match is_add with
    | Some x => Ok (Some x)
    | None =>
        if sized (tx "dec") m then do o <- operand_at l 0; do r <- name_of o; Ok (Some (r, -1))
        else
          do is_sub <- (if sized (tx "sub") m then
                          do a <- operand_at l 0;
                          match a with
                          | Imm z => do b <- operand_at l 1; Ok (match b with Reg r => Some (r, - z) | _ => None end)
                          | _ => Ok None
                          end
                        else Ok None);
          match is_sub with
          | Some x => Ok (Some x)
          | None =>
              if sized (tx "lea") m then
                do o <- operand_at l 0;
                do a <- memory_of o;
                match base a, index a with
                | Some b, None =>
                    do d <- operand_at l 1; do r <- name_of d;
                    if text_eqb b r then do z <- value_of (disp a); Ok (Some (r, z)) else Ok None
                | None, Some i =>
                    do d <- operand_at l 1; do r <- name_of d;
                    if text_eqb i r then do z <- value_of (disp a); Ok (Some (r, z)) else Ok None
                | _, _ => Ok None (* with both registers the name of the second operand may be read, without effect *)
                end
              else Ok None
          end
    end.

(** Memory operands: incore_model.py:137-157 *)
Definition mems (l : list operand) : list mem := flat_map (fun o => match o with Mem m => [m] | _ => [] end) l.
(** incore_model.py:142-147: references to [var(%rip)] are ignored (for stores only) *)
Definition stores (l : line) : list mem := filter (fun m => negb (is_name (base m) (tx "rip"))) (mems (destinations l)).
Definition loads (l : line) : list mem := mems (sources l).

Record scan := mkScan { increments : list (text * Z); references : list mem; stores_only : bool; modified : list text }.
Fixpoint dict_set (k : text) (v : Z) (d : list (text * Z)) : list (text * Z) :=
  match d with
  | [] => [(k, v)]
  | (x, w) :: d' => if text_eqb k x then (x, v) :: d' else (x, w) :: dict_set k v d'
  end.
Fixpoint dict_get (k : text) (d : list (text * Z)) : res Z :=
  match d with [] => Err KeyError | (x, w) :: d' => if text_eqb k x then Ok w else dict_get k d' end.
(** incore_model.py:137-205 *)
Definition scan_line (st : scan) (l : line) : res scan :=
  match mnemonic l with
  | None => Ok st
  | Some m =>
      let dst := stores l in
      let found := match dst with [] => false | _ => true end in
      let refs := if found then (if stores_only st then references st else []) ++ dst else references st in
      let only := stores_only st || found in
      let refs := if only then refs else refs ++ loads l in
      do x <- modification m l;
      Ok (match x with
          | Some (r, z) => mkScan (dict_set r z (increments st)) refs only (modified st ++ [r])
          | None => mkScan (increments st) refs only (modified st)
          end)
  end.
Fixpoint scan_block (st : scan) (block : list line) : res scan :=
  match block with [] => Ok st | l :: rest => do st' <- scan_line st l; scan_block st' rest end.

Definition names_of (refs : list mem) : list text :=
  flat_map (fun m => match base m with Some n => [n] | None => [] end) refs
  ++ flat_map (fun m => match index m with Some n => [n] | None => [] end) refs.
Definition member (n : text) (l : list text) : bool := existsb (text_eqb n) l.
Definition uses (r : text) (m : mem) : bool := is_name (base m) r || is_name (index m) r.
(** incore_model.py:211-250. [order] is the order in which the set of candidate registers is enumerated; it depends on the hash seed. *)
Definition deduce (order : list text -> list text) (st : scan) : res (option Z) :=
  match references st with
  | [] => Ok None
  | refs =>
      let candidates := order (filter (fun r => member r (names_of refs)) (map fst (increments st))) in
      let possible := fold_left (fun p m => match base m, index m with Some _, Some _ => filter (fun r => uses r m) p | _, _ => p end) refs candidates in
      do idx <- (match possible with
                 | [] => Ok None
                 | [r] => Ok (Some r)
                 | r :: _ => do incs <- mapM (fun p => dict_get p (increments st)) possible;
                             Ok (if items_equal incs then Some r else None)
                 end);
      match idx with
      | None => Ok None
      | Some r =>
          if negb (text_eqb r []) && (length (filter (text_eqb r) (modified st)) =? 1)%nat then
            let scales := map mscale (filter (uses r) refs) in
            if items_equal scales then
              match scales with
              | [] => Err IndexError
              | s :: _ => do i <- dict_get r (increments st); Ok (Some (s * i))
              end
            else Ok None
          else Ok None
      end
  end.
Definition detect (order : list text -> list text) (block : list line) : res (option Z) :=
  do st <- scan_block (mkScan [] [] false []) block; deduce order st.
(** incore_model.py:252-254; [cached] is the increment found in the cache. *)
Definition x86_pointer_increment (order : list text -> list text) (cached : option Z) (block : list line) : res (option Z) :=
  do r <- detect order block; Ok (match r with Some z => Some z | None => cached end).
