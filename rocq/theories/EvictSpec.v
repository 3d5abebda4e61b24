(** Specification for C135: caches with least recently used replacement which write modified lines back when they are replaced. Of the models, only the
    written references of a kernel (FrontModel) are used; lines, references and positions are those of [LruSpec], [needed] that of [LCSpec]. *)
From Coq Require Import String.
From Verif Require Import PyBase AstModel LCModel LCSpec FrontModel FrontSpec LruSpec.
Local Open Scope list_scope.
Local Open Scope Z_scope.

(** ** Caches *)
(** An access: line and whether it is written. The cache holds lines and whether they were modified, from the most to the least recently used one. *)
Notation event := (line * bool)%type.
Definition same_line (a x : event) : bool := line_eqb (fst x) (fst a).
(** The line comes first; it is modified if it is written now or was modified before. *)
Definition entered (c : list event) (a : event) : list event :=
  (fst a, (snd a || existsb (fun x => same_line a x && snd x) c)%bool) :: filter (fun x => negb (same_line a x)) c.
(** A cache of n lines keeps the first n lines, the others are replaced, and written back if they were modified. *)
Definition wb_touch (n : nat) (c : list event) (a : event) : list event := firstn n (entered c a).
Definition written_back (n : nat) (c : list event) (a : event) : Z := Z.of_nat (List.length (filter snd (skipn n (entered c a)))).
Definition wb_after (n : nat) (past : list event) : list event := fold_left (wb_touch n) past [].
(** Number of lines written back by accesses which follow [past] *)
Fixpoint evictions_after (n : nat) (past future : list event) : Z :=
  match future with [] => 0 | a :: future' => written_back n (wb_after n past) a + evictions_after n (past ++ [a]) future' end.

(** ** Accesses *)
(** References, and whether they are written, in the order of the statements *)
Notation wref := (ref * bool)%type.
Definition waccess (width t : Z) (r : wref) : event := (line_of width t (fst r), snd r).
Definition wtrace (width : Z) (refs : list wref) (ts : list Z) : list event := flat_map (fun t => map (waccess width t) refs) ts.
Definition written (refs : list wref) : list ref := map fst (filter snd refs).
(** Number of different references *)
Fixpoint distinct (l : list ref) : Z := match l with [] => 0 | r :: l' => (if existsb (ref_eqb r) l' then 0 else 1) + distinct l' end.
(** Written references to elements of the array before ... *)
Definition ahead (r q : ref) : bool := (Nat.eqb (fst q) (fst r) && (snd r <? snd q))%bool.
(** There is none: each element is written first by this reference. *)
Definition leading (refs : list wref) (r : ref) : bool := negb (existsb (ahead r) (written refs)).
(** The lines used between the last access to the element and this one do not fit. *)
Definition replaced (n : nat) (width : Z) (refs : list wref) (r : ref) : bool :=
  match minimum (larger (map fst refs) r) with None => true | Some v => ((width <=? v) && (Z.of_nat n * width <=? needed (distances (map fst refs)) (v - width)))%bool end.
(** All streams fit until the element is written again, so the line is still in the cache. *)
Definition kept (n : nat) (width : Z) (refs : list wref) (r : ref) : bool :=
  existsb (fun q => ahead r q && (needed (distances (map fst refs)) (snd q - snd r + 1) + 2 * Z.of_nat (List.length refs) * (width - 1) <=? Z.of_nat n * width))%bool (written refs).
(** Two elements of all streams fit. *)
Definition streams_fit (n : nat) (width : Z) (refs : list wref) : Prop :=
  needed (distances (map fst refs)) 2 + 2 * Z.of_nat (List.length refs) * (width - 1) <= Z.of_nat n * width.

(** ** Written references of a kernel *)
Definition kernel_writes (number : string -> nat) (env : string -> Z) (k : front) (vars : list (string * option (list sym))) : list ref :=
  flat_map (fun v => match v with (n, Some dims) => map (fun idx => (number n, place env dims idx)) (subscripts (entries (destinations k) n)) | (_, None) => [] end) vars.
(** At most one element of each array is written in an iteration. *)
Definition one_written (k : front) : Prop :=
  forall n dims, In (n, Some dims) (variables k) -> entries (destinations k) n = [] \/ exists idx, entries (destinations k) n = [Some idx].
