(** Meaning of pointer increments for AArch64: independent of the code. *)
From Verif Require Import A64Model.
Local Open Scope Z_scope.
Local Open Scope list_scope.

(** ** Registers *)
(** The name of the 64 bit register; w and x registers of the same number are the same. *)
Definition named (r : reg) (n : text) : Prop := normalize r = Ok n.
(** How often an instruction writes a register: as destination, and as base with pre- or post-indexing. *)
Definition is_named (n : text) (r : reg) : bool := match normalize r with Ok x => text_eqb x n | Err _ => false end.
Definition writes_of (n : text) (l : line) : nat :=
  length (filter (fun o => match o with Reg r => is_named n r | _ => false end) (destinations l)) +
  length (filter (fun o => match o with Mem m => (indexing m && match base m with Some r => is_named n r | None => false end)%bool | _ => false end) (operands l)).
Definition writes (n : text) (block : list line) : nat := list_sum (map (writes_of n) block).
(** No instruction writes it. *)
Definition constant (block : list line) (r : option reg) : Prop := forall x n, r = Some x -> named x n -> writes n block = 0%nat.

(** ** Instructions *)
Definition called (names : list string) (l : line) : Prop := exists n, mnemonic l = Some (codes n) /\ In n names.
(** d = a + z *)
Definition adds_number (l : line) (d a : text) (z : Z) : Prop :=
  called ["add"; "adds"]%string l /\ exists x y, operands l = [Reg x; Reg y; Imm z] /\ named x d /\ named y a.
(** d = a * 2^z *)
Definition shifts (l : line) (d a : text) (z : Z) : Prop :=
  called ["lsl"%string] l /\ exists x y, operands l = [Reg x; Reg y; Imm z] /\ named x d /\ named y a.
(** d = a + b, d = a - b *)
Definition sums_up (l : line) (d a b : text) : Prop :=
  called ["add"; "adds"]%string l /\ exists x y z, operands l = [Reg x; Reg y; Reg z] /\ named x d /\ named y a /\ named z b.
Definition subtracts (l : line) (d a b : text) : Prop :=
  called ["sub"; "subs"]%string l /\ exists x y z, operands l = [Reg x; Reg y; Reg z] /\ named x d /\ named y a /\ named z b.
(** The base of a memory operand is changed by a number. *)
Definition indexes (l : line) (b : text) (z : Z) : Prop :=
  exists m r, In (Mem m) (operands l) /\ base m = Some r /\ named r b /\
    (pre_indexed m = true /\ disp m = Some (Immediate z) \/ pre_indexed m = false /\ post_indexed m = PostBy z).

Definition state := text -> Z.
Definition value (s : state) (r : option reg) : Z := match r with Some x => match normalize x with Ok n => s n | Err _ => 0 end | None => 0 end.
Definition scale (m : mem) : Z := match shift m with Some k => 2 ^ k | None => 1 end.
Definition address (m : mem) (s : state) : Z :=
  value s (base m) + value s (index m) * scale m + match disp m with Some (Immediate z) => z | _ => 0 end.

Section Semantics.
  Variable step : line -> state -> state.
  (** What is assumed of the effect of the instructions of a block *)
  Definition respects (block : list line) : Prop := forall l, In l block -> forall s,
    (forall n, writes_of n l = 0%nat -> step l s n = s n) /\
    (forall d a z, adds_number l d a z -> step l s d = s a + z) /\
    (forall d a z, shifts l d a z -> step l s d = s a * 2 ^ z) /\
    (forall d a b, sums_up l d a b -> step l s d = s a + s b) /\
    (forall d a b, subtracts l d a b -> step l s d = s a - s b) /\
    (forall b z, indexes l b z -> writes_of b l = 1%nat -> step l s b = s b + z).
  Fixpoint run (block : list line) (s : state) : state := match block with [] => s | l :: rest => run rest (step l s) end.
  Fixpoint iterations (block : list line) (n : nat) (s : state) : state := match n with O => s | S k => run block (iterations block k s) end.
  (** How far an address, evaluated after the instructions [pre] of the block, moves from iteration n to the next. *)
  Definition advance (block pre : list line) (m : mem) (n : nat) (s : state) : Z :=
    address m (run pre (iterations block (S n) s)) - address m (run pre (iterations block n s)).
End Semantics.

(** ** Blocks *)
(** add, sub and lsl have three operands and write the first, a register; shifts are not negative; steps of indexing are numbers. *)
Definition shape (l : line) : Prop :=
  (called ["add"; "adds"; "sub"; "subs"; "lsl"]%string l -> exists x b c, operands l = [Reg x; b; c] /\ In (Reg x) (destinations l)) /\
  (forall d a z, shifts l d a z -> 0 <= z) /\
  (forall m, In (Mem m) (operands l) -> pre_indexed m = true -> post_indexed m = NotPost) /\
  (forall m, In (Mem m) (operands l) -> post_indexed m <> Post) /\
  (mnemonic l = None -> operands l = [] /\ destinations l = []).
(** Registers computed from others are computed once, and nothing that changes is the first operand of a subtraction of registers. *)
Definition derived_once (block : list line) : Prop :=
  (forall l d a z, In l block -> shifts l d a z -> writes d block = 1%nat) /\
  (forall l d a b, In l block -> sums_up l d a b -> writes d block = 1%nat) /\
  (forall l d a b, In l block -> subtracts l d a b -> writes d block = 1%nat /\ writes a block = 0%nat).

(** References that decide: stores with a register that changes and without symbol, or else all loads. *)
Definition moving (block : list line) (r : option reg) : Prop := exists x n, r = Some x /\ named x n /\ writes n block <> 0%nat.
Definition is_store (block : list line) (m : mem) : Prop :=
  exists l, In l block /\ mnemonic l <> None /\ (In (Mem m) (destinations l) \/ In (Mem m) (both l)) /\
    (moving block (base m) \/ moving block (index m)) /\ disp m <> Some Identifier.
Definition considered (block : list line) (m : mem) : Prop :=
  is_store block m \/
  (forall m', ~ is_store block m') /\ exists l, In l block /\ mnemonic l <> None /\ (In (Mem m) (sources l) \/ In (Mem m) (both l)).
(** The register is changed by one addition of a number and nothing else. *)
Definition counter (block : list line) (r : option reg) : Prop :=
  exists x n l z, r = Some x /\ named x n /\ writes n block = 1%nat /\ In l block /\ adds_number l n n z /\ (exists y, operands l = [Reg y; Reg y; Imm z]).
(** References that move by their base only, or by a counter as index only *)
Definition by_base (block : list line) (m : mem) : Prop := moving block (base m) /\ constant block (index m).
Definition by_index (block : list line) (m : mem) : Prop := counter block (index m) /\ constant block (base m).
Definition still (block : list line) (m : mem) : Prop := constant block (base m) /\ constant block (index m).

(** All registers have a prefix; pre-indexing is by a number; lsl by a number shifts a register. *)
Definition named_operand (o : operand) : Prop :=
  match o with Reg r => exists n, named r n | Mem m => forall r, base m = Some r \/ index m = Some r -> exists n, named r n | _ => True end.
Definition complete (l : line) : Prop :=
  shape l /\ (forall o, In o (operands l ++ sources l ++ destinations l ++ both l) -> named_operand o) /\
  (forall m, In (Mem m) (operands l) -> pre_indexed m = true -> exists z, disp m = Some (Immediate z)) /\
  (called ["lsl"%string] l -> forall x b z, operands l = [x; b; Imm z] -> exists y, b = Reg y).

(** ** A concrete semantics of a few instructions, for examples *)
Definition assign (s : state) (r : option reg) (v : Z) : state :=
  match r with Some x => match normalize x with Ok k => fun n => if text_eqb n k then v else s n | Err _ => s end | None => s end.
Definition is_one_of (names : list string) (l : line) : bool := match mnemonic l with Some m => existsb (text_eqb m) (map codes names) | None => false end.
Definition index_update (m : mem) (s : state) : state :=
  if pre_indexed m then match disp m with Some (Immediate z) => assign s (base m) (value s (base m) + z) | _ => s end
  else match post_indexed m with PostBy z => assign s (base m) (value s (base m) + z) | _ => s end.
Definition a64_step (l : line) (s : state) : state :=
  match operands l with
  | [Reg x; Reg y; Imm z] =>
      if is_one_of ["add"; "adds"]%string l then assign s (Some x) (value s (Some y) + z) else if is_one_of ["sub"; "subs"]%string l then assign s (Some x) (value s (Some y) - z)
      else if is_one_of ["lsl"%string] l then assign s (Some x) (value s (Some y) * 2 ^ z) else s
  | [Reg x; Reg y; Reg z] =>
      if is_one_of ["add"; "adds"]%string l then assign s (Some x) (value s (Some y) + value s (Some z))
      else if is_one_of ["sub"; "subs"]%string l then assign s (Some x) (value s (Some y) - value s (Some z)) else s
  | [Reg _; Mem m] => index_update m s
  | _ => s
  end.

(** The same register, in 32 or 64 bits. All prefixes of registers are single letters. *)
Definition letter (r : reg) (c : N) : Prop := prefix r = Some [c].
Definition general (c : N) : Prop := [c] = codes "w" \/ [c] = codes "x".
Definition same_register (r s : reg) : Prop := rname r = rname s /\ exists a b, letter r a /\ letter s b /\ (a = b \/ general a /\ general b).
