(** Meaning of the selection of blocks and of pointer increments: independent of the code. *)
From Verif Require Import IncModel.
Local Open Scope Z_scope.
Local Open Scope list_scope.

(** Lexicographic order of scores *)
Inductive lex_lt : list Z -> list Z -> Prop :=
| lex_here x y a b : x < y -> lex_lt (x :: a) (y :: b)
| lex_later x a b : lex_lt a b -> lex_lt (x :: a) (x :: b)
| lex_end y b : lex_lt [] (y :: b).

(** A packed instruction: an optional v, one of the operations, an optional h, p, and d or s, possibly followed by more. *)
Definition packed_name (m : text) : Prop :=
  exists v o h d rest, m = v ++ o ++ h ++ d ++ rest /\ (v = [] \/ v = codes "v") /\ (h = [] \/ h = codes "h") /\ (d = codes "pd" \/ d = codes "ps") /\
    In o (map codes ["movu"; "mul"; "add"; "sub"; "div"; "fmadd"; "fmadd132"; "fmadd213"; "fmadd231"]%string).

(** ** Register semantics: a state gives the contents of the registers. Contents are unbounded integers, and registers with
    different names are different (both simplifications). *)
Definition state := text -> Z.
Definition reg_value (s : state) (r : option text) : Z := match r with Some n => s n | None => 0 end.
(** base + index * scale + displacement; the address of a symbol is the same everywhere, so it can be left out in differences. *)
Definition address (m : mem) (s : state) : Z :=
  reg_value s (base m) + reg_value s (index m) * mscale m + match disp m with Displacement z => z | _ => 0 end.

(** Instructions that add a constant to a register and do nothing else to it (operands in AT&T order) *)
Definition with_size (name : string) (m : option text) : Prop :=
  exists n, m = Some (codes n) /\ In n [name; name ++ "b"; name ++ "w"; name ++ "l"; name ++ "q"]%string.
Inductive adds : line -> text -> Z -> Prop :=
| adds_inc l r : with_size "inc" (mnemonic l) -> operands l = [Reg r] -> adds l r 1
| adds_dec l r : with_size "dec" (mnemonic l) -> operands l = [Reg r] -> adds l r (-1)
| adds_add l r z : with_size "add" (mnemonic l) -> operands l = [Imm z; Reg r] -> adds l r z
| adds_sub l r z : with_size "sub" (mnemonic l) -> operands l = [Imm z; Reg r] -> adds l r (- z)
| adds_lea l r s z : with_size "lea" (mnemonic l) -> operands l = [Mem (mkMem (Some r) None s (Displacement z)); Reg r] -> adds l r z
| adds_lea_index l r z : with_size "lea" (mnemonic l) -> operands l = [Mem (mkMem None (Some r) 1 (Displacement z)); Reg r] -> adds l r z.

Section Semantics.
  (** What instructions do *)
  Variable step : line -> state -> state.
  Definition respects_additions (block : list line) : Prop := forall l r c s, In l block -> adds l r c -> step l s r = s r + c.
  (** Register [r] is changed by additions of constants only, or not at all. *)
  Definition only_additions (block : list line) (r : text) : Prop :=
    forall l, In l block -> (exists c, adds l r c) \/ forall s, step l s r = s r.
  Definition unchanged (block : list line) (r : option text) : Prop :=
    forall n, r = Some n -> forall l s, In l block -> step l s n = s n.
  Fixpoint run (block : list line) (s : state) : state :=
    match block with [] => s | l :: rest => run rest (step l s) end.
  (** How far an address, evaluated after the first instructions [pre] of the block, moves from one iteration to the next. *)
  Definition advance (block pre : list line) (m : mem) (s : state) : Z :=
    address m (run pre (run block s)) - address m (run pre s).
End Semantics.

(** References that decide on the increment: all stores (except to symbols relative to the instruction pointer); all loads if there are
    no such stores. *)
Definition is_store (block : list line) (m : mem) : Prop :=
  exists l, In l block /\ mnemonic l <> None /\ In (Mem m) (destinations l) /\ base m <> Some (codes "rip").
Definition considered (block : list line) (m : mem) : Prop :=
  is_store block m \/
  (forall m', ~ is_store block m') /\ exists l, In l block /\ mnemonic l <> None /\ In (Mem m) (sources l).

(** Well formed instructions, for which the analysis does not fail: lea has a number as displacement, inc and dec a register. *)
Definition shape (l : line) : Prop :=
  (with_size "inc" (mnemonic l) \/ with_size "dec" (mnemonic l) -> exists r, operands l = [Reg r]) /\
  (with_size "add" (mnemonic l) \/ with_size "sub" (mnemonic l) -> exists a b, operands l = [a; b]) /\
  (with_size "lea" (mnemonic l) -> exists m r, operands l = [Mem m; Reg r] /\
     (base m = Some r \/ index m = Some r -> exists z, disp m = Displacement z)).
(** lea with a scaled register, which is no addition *)
Definition scaled_lea (l : line) : Prop :=
  with_size "lea" (mnemonic l) /\ exists m r, operands l = [Mem m; Reg r] /\ base m = None /\ index m = Some r /\ mscale m <> 1.

(** A concrete semantics of a few instructions, for examples. *)
Definition assign (s : state) (r : text) (v : Z) : state := fun n => if text_eqb n r then v else s n.
Definition x86_step (l : line) (s : state) : state :=
  match mnemonic l, operands l with
  | Some m, [Reg r] =>
      if sized (codes "inc") m then assign s r (s r + 1) else if sized (codes "dec") m then assign s r (s r - 1) else s
  | Some m, [Imm z; Reg r] =>
      if sized (codes "add") m then assign s r (s r + z) else if sized (codes "sub") m then assign s r (s r - z)
      else if sized (codes "mov") m then assign s r z else if sized (codes "shl") m then assign s r (s r * 2 ^ z) else s
  | Some m, [Reg a; Reg r] =>
      if sized (codes "add") m then assign s r (s r + s a) else if sized (codes "mov") m then assign s r (s a) else s
  | Some m, [Mem a; Reg r] => if sized (codes "lea") m then assign s r (address a s) else s
  | _, _ => s
  end.

(** ** Scores *)
(** [n] elements of the list have the property. *)
Inductive amount {A} (P : A -> Prop) : list A -> Z -> Prop :=
| amount_nil : amount P [] 0
| amount_yes : forall x l n, P x -> amount P l n -> amount P (x :: l) (n + 1)
| amount_no : forall x l n, ~ P x -> amount P l n -> amount P (x :: l) n.
(** [n] different registers with this prefix are operands of instructions. *)
Definition registers_used (prefix : text) (block : list line) (n : Z) : Prop :=
  exists names, NoDup names /\ Z.of_nat (List.length names) = n /\
    forall r, In r names <-> (exists rest, r = prefix ++ rest) /\ exists l m, In l block /\ mnemonic l = Some m /\ In (Reg r) (operands l).
Definition instruction_like (P : text -> Prop) (l : line) : Prop := exists m, mnemonic l = Some m /\ P m.
