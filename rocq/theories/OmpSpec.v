(** Specification for C108 to C110: division of iterations among the threads of a team, and a semantics of the generated kernel function when
    it is called by all threads of a team. Built on the semantics in [GenSpec]; of the model only [nest] and its projections are used. *)
From Coq Require Import String.
From Verif Require Import AstSpec LoopSpec GenSpec OmpModel.
Local Open Scope string_scope.
Local Open Scope list_scope.
Local Open Scope Z_scope.

(** ** Directives *)
(** Words of a directive, separated by blanks and tabulators *)
Definition blank (c : N) : bool := (c =? 32)%N || (c =? 9)%N.
Fixpoint words (s : text) : list text :=
  match s with
  | [] => []
  | c :: s' =>
      if blank c then words s'
      else match s' with
           | [] => [[c]]
           | d :: _ => if blank d then [c] :: words s' else match words s' with w :: ws => (c :: w) :: ws | [] => [[c]] end
           end
  end.
(** OpenMP: [omp for ...] divides the iterations of the following loop among the threads which execute it. All other directives that can
    stand before a loop do not: without a directive, after one of another compiler extension and after [omp simd] every thread of the team executes the
    whole loop; after [omp parallel ...] every thread becomes a new team of one thread (nested parallelism is off by default) and executes it. *)
Definition worksharing (p : text) : bool :=
  match words p with w1 :: w2 :: _ => (text_eqb w1 (codes "omp") && text_eqb w2 (codes "for"))%bool | _ => false end.
(** Loops whose iterations are divided *)
Definition shared_loops (n : nest) : list cloop := map snd (filter (fun l => existsb worksharing (fst l)) (levels n)).
(** Iterations thread t executes, if an iteration that is executed by one thread only is executed by the one [owner] says. The owner can
    depend on all indices, which covers all schedules and [collapse]. A divided loop in a divided loop is not allowed. *)
Definition thread_iterations (n : nest) (owner : ienv -> nat) (its : list ienv) (t : nat) : option (list ienv) :=
  match shared_loops n with
  | [] => Some its
  | [_] => Some (filter (fun it => Nat.eqb (owner it) t) its)
  | _ => None
  end.
(** Every element of the last list belongs to exactly one of the parts, in the same order. *)
Definition set_nth {A} (i : nat) (x : A) (l : list A) : list A := firstn i l ++ x :: skipn (S i) l.
Inductive merge {A} : list (list A) -> list A -> Prop :=
| merge_nil parts : Forall (eq []) parts -> merge parts []
| merge_cons parts i x rest l : nth_error parts i = Some (x :: rest) -> merge (set_nth i rest parts) l -> merge parts (x :: l).

(** Pragmas a user writes: OpenMP directives begin with [omp], only the word [parallel] begins with it, and other pragmas do not mention omp. *)
Definition ordinary (p : text) : Prop :=
  (exists ws, words p = codes "omp" :: ws /\ ~ In 9%N p /\ forall w x, In w ws -> w = codes "parallel" ++ x -> x = [])
  \/ (forall a b, p <> (a ++ codes "omp" ++ b)%list).
Definition is_omp (p : text) : bool := match words p with w :: _ => text_eqb w (codes "omp") | [] => false end.
(** The directive inside a parallel region: without its word [parallel] *)
Definition divides (p : text) : bool :=
  match filter (fun w => negb (text_eqb w (codes "parallel"))) (words p) with
  | w1 :: w2 :: _ => (text_eqb w1 (codes "omp") && text_eqb w2 (codes "for"))%bool
  | _ => false
  end.
Definition dividing (n : nest) : list (list text * cloop) := filter (fun l => existsb divides (fst l)) (levels n).

(** ** Threads *)
Section Threads.
  Context {V : Type} (A : arithmetic V).

  (** Memory shared by all threads of the process: allocated blocks, variables of main, and [static] local variables *)
  Inductive location := Elem (b : string) (z : Z) | Local (n : string) | Cell (c : string).
  Definition contents (t : @process V) (l : location) : option V :=
    match l with Elem b z => blocks t b z | Local n => locals t n | Cell c => cells t c end.
  Definition put (t : @process V) (l : location) (v : V) : @process V :=
    match l with
    | Elem b z => with_blocks t (fun c y => if (String.eqb c b && (y =? z))%bool then Some v else blocks t c y)
    | Local n => with_locals t (fun m => if String.eqb m n then Some v else locals t m)
    | Cell c => with_cells t (fun m => if String.eqb m c then Some v else cells t m)
    end.
  Definition same_process (t u : @process V) : Prop := pointers t = pointers u /\ forall l, contents t l = contents u l.

  (** Operations of a thread, with a stack of its own for intermediate results; every access to memory is an operation. *)
  Inductive op := Push (v : V) | Get (l : location) | Put (l : location) | Apply (o : string) | ApplyTo (o : string) | Negate | Dup.
  Definition step (o : op) (s : @process V * list V) : option (@process V * list V) :=
    let (t, st) := s in
    match o, st with
    | Push v, _ => Some (t, v :: st)
    | Get l, _ => let? v := contents t l in Some (t, v :: st)
    | Put l, v :: st' => Some (put t l v, st')
    | Apply o, b :: a :: st' => Some (t, binary A o a b :: st')
    | ApplyTo o, b :: a :: st' => Some (t, binary A o b a :: st')
    | Negate, a :: st' => Some (t, negative A a :: st')
    | Dup, a :: st' => Some (t, a :: a :: st')
    | _, _ => None
    end.
  (** A schedule is a sequence of numbers of threads; each executes its next operation, if there is one. The barriers of OpenMP are left out:
      more schedules are possible than with them. *)
  Fixpoint interleave (sched : list nat) (t : @process V) (ths : list (list op * list V)) : option (@process V * list (list op * list V)) :=
    match sched with
    | [] => Some (t, ths)
    | i :: sched' =>
        match nth_error ths i with
        | Some (o :: ops, st) => let? (t', st') := step o (t, st) in interleave sched' t' (set_nth i (ops, st') ths)
        | _ => interleave sched' t ths
        end
    end.
  Definition finished (ths : list (list op * list V)) : Prop := Forall (fun th => fst th = []) ths.

  (** *** Code of a thread: as [eval] and [execute], with accesses by parameters [ptrs] and local variables [vars] *)
  Section Code.
    Context (k : kernel) (env : ienv) (ptrs : list (string * string)) (vars : list string).
    Definition location_of (p : string * list Z) : option location :=
      match snd p with
      | [] => if existsb (String.eqb (fst p)) vars then Some (Local (fst p)) else None
      | [z] => let? b := lookup (fst p) ptrs in let? size := block_size k env b in if ((0 <=? z) && (z <? size))%bool then Some (Elem b z) else None
      | _ => None
      end.
    Definition place_location (it : ienv) (e : expr) : option location := let? p := place_of it e in location_of p.
    Fixpoint expr_code (it : ienv) (e : expr) : option (list op) :=
      match e with
      | EID n => match lookup n it with
                 | Some z => Some [Push (of_int A z)]
                 | None => let? l := place_location it e in Some [Get l]
                 end
      | EConst (Some z) => Some [Push (of_int A z)]
      | EConst None => Some [Push (number A)]
      | EArr _ _ => let? l := place_location it e in Some [Get l]
      | EBin o x y => let? a := expr_code it x in let? b := expr_code it y in Some (a ++ b ++ [Apply o])
      | EUn o x =>
          if String.eqb o "-" then let? a := expr_code it x in Some (a ++ [Negate])
          else
            let? l := place_location it x in
            if String.eqb o "++" then Some [Get l; Push (of_int A 1); Apply "+"; Dup; Put l]
            else if String.eqb o "p++" then Some [Get l; Dup; Push (of_int A 1); Apply "+"; Put l]
            else if String.eqb o "--" then Some [Get l; Push (of_int A 1); Apply "-"; Dup; Put l]
            else if String.eqb o "p--" then Some [Get l; Dup; Push (of_int A 1); Apply "-"; Put l]
            else None
      | EOther => None
      end.
    Definition stmt_code (it : ienv) (a : assignment) : option (list op) :=
      let? c := expr_code it (rvalue a) in
      let? l := place_location it (lvalue a) in
      if String.eqb (aop a) "=" then Some (c ++ [Put l])
      else match compound_operator (aop a) with [o] => Some (c ++ [Get l; ApplyTo o; Put l]) | _ => None end.
    Fixpoint body_code (it : ienv) (b : list assignment) : option (list op) :=
      match b with [] => Some [] | a :: b' => let? c := stmt_code it a in let? d := body_code it b' in Some (c ++ d) end.
    Fixpoint loop_code (its : list ienv) (b : list assignment) : option (list op) :=
      match its with [] => Some [] | it :: its' => let? c := body_code it b in let? d := loop_code its' b in Some (c ++ d) end.
  End Code.
  (** [static] variables with the variables of main they are copied from and to *)
  Fixpoint scalar_cells (fr : list (string * value)) (l : list (string * string)) : option (list (string * string)) :=
    match l with
    | [] => Some []
    | (n, p) :: l' =>
        let? c := (let? x := lookup p fr in match x with VCell c => Some c | _ => None end) in
        let? cs := scalar_cells fr l' in Some ((n, c) :: cs)
    end.
  Definition copy_in_code (cs : list (string * string)) : list op := flat_map (fun x => [Get (Cell (snd x)); Put (Local (fst x))]) cs.
  Definition copy_out_code (cs : list (string * string)) : list op := flat_map (fun x => [Get (Local (fst x)); Put (Cell (snd x))]) cs.
  Definition thread_code (k : kernel) (env : ienv) (f : func) (fr : list (string * value)) (its : list ienv) : option (list op) :=
    let? cs := scalar_cells fr (statics f) in
    let? c := loop_code k env (frame_blocks fr) (map fst (statics f)) its (fbody f) in
    Some (copy_in_code cs ++ c ++ copy_out_code cs).
  (** All threads of a team call the kernel function; thread i executes the iterations [nth i parts]. *)
  Definition team_calls (k : kernel) (env : ienv) (f : func) (t : @process V) (parts : list (list ienv)) (codes : list (list op)) : Prop :=
    NoDup (map param_name (params f) ++ map fst (statics f))
    /\ exists vs fr, all_args k env t (kernel_args k) = Some vs /\ bind_params (params f) vs = Some fr
      /\ Forall2 (fun its c => thread_code k env f fr its = Some c) parts codes.
  Definition start (codes : list (list op)) : list (list op * list V) := map (fun c => (c, [])) codes.
End Threads.

(** ** Independent iterations of the kernel as it was written *)
(** Variables and elements that are read, and those that are changed by increments *)
Fixpoint operands (e : expr) : list expr :=
  match e with EID _ | EArr _ _ => [e] | EBin _ l r => operands l ++ operands r | EUn _ e' => operands e' | _ => [] end.
Fixpoint incremented (e : expr) : list expr :=
  match e with EBin _ l r => incremented l ++ incremented r | EUn o e' => if String.eqb o "-" then incremented e' else [e'] | _ => [] end.
Definition written_refs (a : assignment) : list expr := lvalue a :: incremented (rvalue a).
Definition accessed_refs (a : assignment) : list expr := lvalue a :: operands (rvalue a).
Definition writes_place (k : kernel) (it : ienv) (p : string * list Z) : Prop := exists a r, In a (body k) /\ In r (written_refs a) /\ place_of it r = Some p.
Definition accesses_place (k : kernel) (it : ienv) (p : string * list Z) : Prop := exists a r, In a (body k) /\ In r (accessed_refs a) /\ place_of it r = Some p.
(** No element written by an iteration of one thread is accessed by an iteration of another one. *)
Definition independent (k : kernel) (parts : list (list ienv)) : Prop :=
  forall i j pi pj a b p, i <> j -> nth_error parts i = Some pi -> nth_error parts j = Some pj -> In a pi -> In b pj ->
    writes_place k a p -> ~ (accesses_place k b p /\ snd p <> []).
(** Only elements of arrays are assigned. *)
Definition scalars_constant (k : kernel) : Prop := forall a r n, In a (body k) -> In r (written_refs a) -> r <> EID n.

(** ** Texts of code *)
Definition newline : N := 10%N.
Definition line_free (s : text) : Prop := ~ In newline s.
(** A line of the code: one with an OpenMP directive behind its indentation, or another one *)
Inductive code_line := Directive (indent : nat) (rest : text) | Plain (s : text).
Definition line_text (l : code_line) : text :=
  match l with Directive i r => List.repeat 32%N i ++ codes "#pragma omp" ++ r ++ [newline] | Plain s => s ++ [newline] end.
Definition kept (l : code_line) : text := match l with Directive i _ => List.repeat 32%N i | Plain s => s ++ [newline] end.
Definition proper_line (l : code_line) : Prop :=
  match l with Directive _ r => line_free r | Plain s => line_free s /\ forall a b, s <> (a ++ codes "#pragma omp" ++ b)%list end.
