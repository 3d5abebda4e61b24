(** Specification for C78 and C79: a semantics of the C code, for the kernel as it was written and for the generated program. *)
From Coq Require Import String.
From Verif Require Import AstSpec LoopSpec GenModel.
Local Open Scope string_scope.
Local Open Scope list_scope.
Local Open Scope Z_scope.
(** Of the models, only syntax is used here, and [find_refs] (the references of an expression), [kernel_args], [kernel_function], [array_allocations], [array_initialization],
    [scalar_initialization] and [main_template], the generated code that is executed. *)

Definition obind {A B} (o : option A) (f : A -> option B) : option B := match o with Some a => f a | None => None end.
Notation "'let?' x := o 'in' k" := (obind o (fun x => k)) (at level 200, x pattern, o at level 100, k at level 200).

(** ** Integers: loop indices and constants *)
Definition ienv := list (string * Z).
Fixpoint lookup {A} (n : string) (l : list (string * A)) : option A :=
  match l with [] => None | (m, a) :: l' => if String.eqb n m then Some a else lookup n l' end.
Fixpoint index_value (env : ienv) (e : expr) : option Z :=
  match e with
  | EID n => lookup n env
  | EConst z => z
  | EBin op l r =>
      let? a := index_value env l in
      let? b := index_value env r in
      if String.eqb op "*" then Some (a * b) else if String.eqb op "+" then Some (a + b) else if String.eqb op "-" then Some (a - b) else None
  | _ => None
  end.
Fixpoint index_values (env : ienv) (es : list expr) : option (list Z) :=
  match es with [] => Some [] | e :: es' => let? z := index_value env e in let? zs := index_values env es' in Some (z :: zs) end.

(** Values of the index of a loop, from a first value on; the bound is evaluated in every iteration. *)
Inductive values (l : cloop) (env : ienv) : Z -> list Z -> Prop :=
| values_stop z b : index_value ((cindex l, z) :: env) (cbound l) = Some b -> b <= z -> values l env z []
| values_step z b zs : index_value ((cindex l, z) :: env) (cbound l) = Some b -> z < b -> values l env (z + cstep l) zs -> values l env z (z :: zs).
(** Environments of the executions of the innermost statements, in order *)
Fixpoint iterations (ls : list cloop) (env : ienv) (its : list ienv) : Prop :=
  match ls with
  | [] => its = [env]
  | l :: ls' => exists z zs itss, index_value env (cstart l) = Some z /\ values l env z zs
      /\ Forall2 (fun z its => iterations ls' ((cindex l, z) :: env) its) zs itss /\ its = concat itss
  end.

(** ** Statements, for any memory *)
Section Semantics.
  Context {V : Type}.
  (** Arithmetic of the elements. All numbers in the code which are no integers have one value [number]. *)
  Record arithmetic := mkArith { binary : string -> V -> V -> V; negative : V -> V; of_int : Z -> V; number : V }.
  Record machine (S : Type) := mkMachine {
    load : S -> string -> list Z -> option V;
    store : S -> string -> list Z -> V -> option S;
    get_var : S -> string -> option V;
    set_var : S -> string -> V -> option S
  }.
  Arguments load {S}. Arguments store {S}. Arguments get_var {S}. Arguments set_var {S}.
  Context {S : Type} (A : arithmetic) (M : machine S).

  (** An array element, or a variable that is no loop index or constant *)
  Definition place_of (env : ienv) (e : expr) : option (string * list Z) :=
    match reference e with
    | Some (n, []) => match lookup n env with Some _ => None | None => Some (n, []) end
    | Some (n, subs) => let? zs := index_values env subs in Some (n, zs)
    | None => None
    end.
  Definition read (p : string * list Z) (s : S) : option V := match snd p with [] => get_var M s (fst p) | zs => load M s (fst p) zs end.
  Definition write (p : string * list Z) (v : V) (s : S) : option S := match snd p with [] => set_var M s (fst p) v | zs => store M s (fst p) zs v end.
  (** Operands are evaluated from left to right, always both. *)
  Fixpoint eval (env : ienv) (e : expr) (s : S) : option (V * S) :=
    match e with
    | EID n => match lookup n env with
               | Some z => Some (of_int A z, s)
               | None => let? p := place_of env e in let? v := read p s in Some (v, s)
               end
    | EConst (Some z) => Some (of_int A z, s)
    | EConst None => Some (number A, s)
    | EArr _ _ => let? p := place_of env e in let? v := read p s in Some (v, s)
    | EBin op l r =>
        let? (a, s1) := eval env l s in
        let? (b, s2) := eval env r s1 in
        Some (binary A op a b, s2)
    | EUn op e1 =>
        if String.eqb op "-" then let? (a, s1) := eval env e1 s in Some (negative A a, s1)
        else
          let? p := place_of env e1 in
          let? v := read p s in
          let? w := (if (String.eqb op "++" || String.eqb op "p++")%bool then Some (binary A "+" v (of_int A 1))
                     else if (String.eqb op "--" || String.eqb op "p--")%bool then Some (binary A "-" v (of_int A 1)) else None) in
          let? s1 := write p w s in
          Some (if (String.eqb op "++" || String.eqb op "--")%bool then w else v, s1)
    | EOther => None
    end.
  Definition execute (env : ienv) (a : assignment) (s : S) : option S :=
    let? (v, s1) := eval env (rvalue a) s in
    let? p := place_of env (lvalue a) in
    if String.eqb (aop a) "=" then write p v s1
    else match compound_operator (aop a) with
         | [op] => let? w := read p s1 in write p (binary A op w v) s1
         | _ => None
         end.
  Fixpoint execute_all (env : ienv) (l : list assignment) (s : S) : option S :=
    match l with [] => Some s | a :: l' => let? s1 := execute env a s in execute_all env l' s1 end.
  Fixpoint repeat_all (its : list ienv) (l : list assignment) (s : S) : option S :=
    match its with [] => Some s | env :: its' => let? s1 := execute_all env l s in repeat_all its' l s1 end.
  Definition runs (ls : list cloop) (l : list assignment) (env : ienv) (s s' : S) : Prop :=
    exists its, iterations ls env its /\ repeat_all its l s = Some s'.
End Semantics.
Arguments arithmetic : clear implicits.
Arguments machine : clear implicits.

Section Programs.
  Context {V : Type} (A : arithmetic V).

  (** ** The kernel as it was written: arrays with all their dimensions, None is not initialized *)
  Record memory := mkMemory { elements : string -> list Z -> option V; variables : string -> option V }.
  Definition inside (dims zs : list Z) : bool := (Nat.eqb (length dims) (length zs) && forallb (fun x => (0 <=? snd x) && (snd x <? fst x))%bool (combine dims zs))%bool.
  Definition declared (k : kernel) (env : ienv) (n : string) : option (list Z) :=
    let? dims := lookup n (arrays k) in index_values env dims.
  Definition indices_eqb (a b : list Z) : bool := if list_eq_dec Z.eq_dec a b then true else false.
  Definition source_machine (k : kernel) (env : ienv) : machine V memory :=
    mkMachine memory
      (fun s n zs => let? dims := declared k env n in if inside dims zs then elements s n zs else None)
      (fun s n zs v => let? dims := declared k env n in
         if inside dims zs then Some (mkMemory (fun m ys => if (String.eqb m n && indices_eqb ys zs)%bool then Some v else elements s m ys) (variables s)) else None)
      (fun s n => let? _ := lookup n (scalars k) in variables s n)
      (fun s n v => let? _ := lookup n (scalars k) in
         Some (mkMemory (elements s) (fun m => if String.eqb m n then Some v else variables s m))).
  (** [swap(a, b)] exchanges two arrays. *)
  Definition swapped (p : string * string) (s : memory) : memory :=
    mkMemory (fun n => if String.eqb n (fst p) then elements s (snd p) else if String.eqb n (snd p) then elements s (fst p) else elements s n) (variables s).
  Definition kernel_runs (k : kernel) (env : ienv) (s s' : memory) : Prop :=
    exists s1, runs A (source_machine k env) (loops k) (body k) env s s1 /\ s' = fold_left (fun s p => swapped p s) (swaps k) s1.

  (** ** The generated program: blocks of allocated memory, pointers of main to them, variables of main and local static variables *)
  Record process := mkProcess {
    blocks : string -> Z -> option V;
    pointers : list (string * string);
    cells : string -> option V;
    locals : string -> option V
  }.
  Definition with_blocks (t : process) b := mkProcess b (pointers t) (cells t) (locals t).
  Definition with_locals (t : process) l := mkProcess (blocks t) (pointers t) (cells t) l.
  Definition with_cells (t : process) c := mkProcess (blocks t) (pointers t) c (locals t).
  Definition with_pointers (t : process) p := mkProcess (blocks t) p (cells t) (locals t).
  (** A block has the name of the array for which it was allocated. *)
  Definition block_size (k : kernel) (env : ienv) (b : string) : option Z :=
    let? e := lookup b (array_allocations k) in let? e := e in index_value env e.
  (** Code with pointers [ptrs] to blocks and local variables [vars] *)
  Definition target_machine (k : kernel) (env : ienv) (ptrs : list (string * string)) (vars : list string) : machine V process :=
    mkMachine process
      (fun t n zs => match zs with
                     | [z] => let? b := lookup n ptrs in let? size := block_size k env b in
                              if ((0 <=? z) && (z <? size))%bool then blocks t b z else None
                     | _ => None
                     end)
      (fun t n zs v => match zs with
                       | [z] => let? b := lookup n ptrs in let? size := block_size k env b in
                                if ((0 <=? z) && (z <? size))%bool
                                then Some (with_blocks t (fun c y => if (String.eqb c b && (y =? z))%bool then Some v else blocks t c y)) else None
                       | _ => None
                       end)
      (fun t n => if existsb (String.eqb n) vars then locals t n else None)
      (fun t n v => if existsb (String.eqb n) vars then Some (with_locals t (fun m => if String.eqb m n then Some v else locals t m)) else None).
  Definition swap_pointers (p : string * string) (ptrs : list (string * string)) : list (string * string) :=
    map (fun x => if String.eqb (fst x) (fst p) then (fst x, match lookup (snd p) ptrs with Some b => b | None => snd x end)
                  else if String.eqb (fst x) (snd p) then (fst x, match lookup (fst p) ptrs with Some b => b | None => snd x end) else x) ptrs.

  (** *** Function calls: arguments are bound to parameters one by one. *)
  Inductive value := VBlock (b : string) | VCell (c : string) | VInt (z : Z).
  Definition arg_value (k : kernel) (env : ienv) (t : process) (a : arg) : option value :=
    match a with
    | AVar n => match lookup n (pointers t) with
                | Some b => Some (VBlock b)
                | None => let? z := lookup n env in Some (VInt z)
                end
    | AAddr n => let? _ := lookup n (scalars k) in Some (VCell n)
    end.
  Definition bind_param (p : param) (v : value) : option (string * value) :=
    match p, v with
    | PArray n, VBlock _ | PScalar n, VCell _ | PConst n, VInt _ => Some (n, v)
    | _, _ => None
    end.
  Fixpoint bind_params (ps : list param) (vs : list value) : option (list (string * value)) :=
    match ps, vs with
    | [], [] => Some []
    | p :: ps', v :: vs' => let? x := bind_param p v in let? xs := bind_params ps' vs' in Some (x :: xs)
    | _, _ => None
    end.
  Fixpoint all_args (k : kernel) (env : ienv) (t : process) (l : list arg) : option (list value) :=
    match l with [] => Some [] | a :: l' => let? v := arg_value k env t a in let? vs := all_args k env t l' in Some (v :: vs) end.
  Definition frame_blocks (fr : list (string * value)) : list (string * string) :=
    flat_map (fun x => match snd x with VBlock b => [(fst x, b)] | _ => [] end) fr.
  Definition frame_ints (fr : list (string * value)) : ienv := flat_map (fun x => match snd x with VInt z => [(fst x, z)] | _ => [] end) fr.
  (** [*pointer] of a parameter *)
  Definition pointed (fr : list (string * value)) (t : process) (p : string) : option V :=
    let? v := lookup p fr in match v with VCell c => cells t c | _ => None end.
  Fixpoint copy_in (fr : list (string * value)) (l : list (string * string)) (t : process) : option process :=
    match l with
    | [] => Some t
    | (n, p) :: l' => let? v := pointed fr t p in copy_in fr l' (with_locals t (fun m => if String.eqb m n then Some v else locals t m))
    end.
  Fixpoint copy_out (fr : list (string * value)) (l : list (string * string)) (t : process) : option process :=
    match l with
    | [] => Some t
    | (n, p) :: l' =>
        let? v := locals t n in
        let? c := (let? x := lookup p fr in match x with VCell c => Some c | _ => None end) in
        copy_out fr l' (with_cells t (fun m => if String.eqb m c then Some v else cells t m))
    end.
  (** Parameters and local variables of a C function have different names. The swaps change the pointers of the function only. *)
  Definition calls (k : kernel) (env : ienv) (f : func) (t t' : process) : Prop :=
    NoDup (map param_name (params f) ++ map fst (statics f))
    /\ exists vs fr t1 t2, all_args k env t (kernel_args k) = Some vs /\ bind_params (params f) vs = Some fr
      /\ copy_in fr (statics f) t = Some t1
      /\ runs A (target_machine k env (frame_blocks fr) (map fst (statics f))) (floops f) (fbody f) (frame_ints fr) t1 t2
      /\ (forall a b, In (a, b) (fswaps f) -> lookup a (frame_blocks fr) <> None /\ lookup b (frame_blocks fr) <> None)
      /\ copy_out fr (statics f) t2 = Some t'.

  (** *** The main program *)
  Definition int_value (argv1 : Z) (ints : string -> Z) (e : iexpr) : Z :=
    match e with INum z => z | IArgv1 => argv1 | IMinus1 x => ints x - 1 end.
  Definition holds (ints : string -> Z) (b : icond) : Prop := match b with IGe x z => z <= ints x | IGt x z => z < ints x | IEq x z => ints x = z end.
  (** [does argv1 c ints trace ints']: executing c performs the actions of the trace. *)
  Inductive does (argv1 : Z) : command -> (string -> Z) -> list action -> (string -> Z) -> Prop :=
  | does_act a ints : does argv1 (Act a) ints [a] ints
  | does_set x e ints : does argv1 (SetInt x e) ints [] (fun y => if String.eqb y x then int_value argv1 ints e else ints y)
  | does_seq c d ints t1 ints1 t2 ints2 : does argv1 c ints t1 ints1 -> does argv1 d ints1 t2 ints2 -> does argv1 (Seq c d) ints (t1 ++ t2) ints2
  | does_then b c ints tr ints' : holds ints b -> does argv1 c ints tr ints' -> does argv1 (If b c) ints tr ints'
  | does_else b c ints : ~ holds ints b -> does argv1 (If b c) ints [] ints
  | does_end b c ints : ~ holds ints b -> does argv1 (While b c) ints [] ints
  | does_loop b c ints t1 ints1 t2 ints2 : holds ints b -> does argv1 c ints t1 ints1 -> does argv1 (While b c) ints1 t2 ints2 ->
      does argv1 (While b c) ints (t1 ++ t2) ints2.
  Definition initializes (k : kernel) (env : ienv) (t t' : process) : Prop :=
    exists i t1, array_initialization k = Ok i /\ runs A (target_machine k env (pointers t) []) (iloops i) (ibody i) env t t1
      /\ t' = fold_left (fun t p => with_pointers t (swap_pointers p (pointers t))) (iswaps i) t1.
  Inductive performs (k : kernel) (env : ienv) : action -> process -> process -> Prop :=
  | performs_init t t' : initializes k env t t' -> performs k env InitArrays t t'
  | performs_call f t t' : kernel_function k = Ok f -> calls k env f t t' -> performs k env KernelCall t t'
  | performs_start t : performs k env StartRegion t t
  | performs_stop t : performs k env StopRegion t t.
  Inductive performs_all (k : kernel) (env : ienv) : list action -> process -> process -> Prop :=
  | performs_none t : performs_all k env [] t t
  | performs_cons a l t t1 t2 : performs k env a t t1 -> performs_all k env l t1 t2 -> performs_all k env (a :: l) t t2.
  (** After the declarations: allocated arrays without contents, scalars with their initial values *)
  Definition after_declarations (k : kernel) : process :=
    mkProcess (fun _ _ => None) (map (fun a => (fst a, fst a)) (array_allocations k))
      (fun n => let? e := lookup n (scalar_initialization k) in match e with EConst None => Some (number A) | _ => None end) (fun _ => None).
  Definition main_runs (k : kernel) (env : ienv) (argv1 : Z) (trace : list action) (t' : process) : Prop :=
    exists ints ints', does argv1 main_template ints trace ints' /\ performs_all k env trace (after_declarations k) t'.

  (** ** Correspondence *)
  (** Row-major position of an element *)
  Fixpoint position (dims zs : list Z) : Z :=
    match dims, zs with
    | _ :: dims', z :: zs' => z * zprod dims' + position dims' zs'
    | _, _ => 0
    end.
  (** The process has the contents of the memory, for the elements of a set and all scalars. *)
  Definition agrees (k : kernel) (env : ienv) (T : string -> list Z -> Prop) (s : memory) (t : process) : Prop :=
    (forall n dims zs, declared k env n = Some dims -> inside dims zs = true -> T n zs ->
       exists b, lookup n (pointers t) = Some b /\ blocks t b (position dims zs) = elements s n zs)
    /\ (forall n, lookup n (scalars k) <> None -> cells t n = variables s n).
  Definition everywhere (n : string) (zs : list Z) : Prop := True.
  (** Elements which the kernel accesses in its iterations *)
  Definition accessed (k : kernel) (env : ienv) (n : string) (zs : list Z) : Prop :=
    zs <> [] /\ exists its it s r, iterations (loops k) env its /\ In it its /\ In s (body k) /\ In r (find_refs (lvalue s) ++ find_refs (rvalue s)) /\ place_of it r = Some (n, zs).

  Fixpoint identifiers (e : expr) : list string :=
    match e with EID n => [n] | EBin _ l r => identifiers l ++ identifiers r | EUn _ e' => identifiers e' | EArr a i => identifiers a ++ identifiers i | _ => [] end.
  (** Names of arrays, scalars, constants and pointers to scalars are different, and dimensions do not depend on loop indices. *)
  Definition well_named (k : kernel) (env : ienv) : Prop :=
    NoDup (map fst (arrays k) ++ map (fun s => scalar_pointer (fst s)) (scalars k) ++ constants k ++ map fst (scalars k))
    /\ map fst env = constants k
    /\ (forall l n dims d, In l (loops k) -> In (n, dims) (arrays k) -> In d dims -> ~ In (cindex l) (identifiers d)).
  (** The arrays of the process are those that were allocated. *)
  Definition unswapped (k : kernel) (t : process) : Prop := pointers t = map (fun a => (fst a, fst a)) (arrays k).
  (** Repeated execution of the kernel *)
  Inductive kernel_repeats (k : kernel) (env : ienv) : nat -> memory -> memory -> Prop :=
  | repeats_none s : kernel_repeats k env 0 s s
  | repeats_more n s s1 s2 : kernel_runs k env s s1 -> kernel_repeats k env n s1 s2 -> kernel_repeats k env (Datatypes.S n) s s2.
  (** Every element and scalar has the number [number]. *)
  Definition filled : memory := mkMemory (fun _ _ => Some (number A)) (fun _ => Some (number A)).
End Programs.
(** Two runs of the kernel before the measured region, and the requested number of runs in it *)
Definition measured_trace (argv1 : Z) : list action :=
  InitArrays :: KernelCall :: KernelCall :: StartRegion :: repeat KernelCall (Z.to_nat argv1) ++ [StopRegion].
(** The kernel without its calls of swap *)
Definition without_swaps (k : kernel) : kernel := mkKernel (arrays k) (scalars k) (constants k) (loops k) (body k) [].
(** Every scalar has a value. *)
Definition assigned {V} (k : kernel) (s : @memory V) : Prop := forall n, lookup n (scalars k) <> None -> variables s n <> None.
(** Every reference is to a declared array, with no more subscripts than it has dimensions. *)
Definition well_referenced (k : kernel) : Prop :=
  forall s r, In s (body k) -> In r (find_refs (lvalue s) ++ find_refs (rvalue s)) ->
    exists n subs dims, reference r = Some (n, subs) /\ lookup n (arrays k) = Some dims /\ (length subs <= length dims)%nat.
