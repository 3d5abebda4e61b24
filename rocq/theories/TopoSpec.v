(** Vocabulary of the properties C89 to C95, independent of how the texts are read. *)
From Verif Require Export TopoModel.
Local Open Scope Z_scope.
Local Open Scope list_scope.

(** ** Texts *)
Definition begins (p s : text) : Prop := exists t, s = p ++ t.
Definition part (p s : text) : Prop := exists a b, s = a ++ p ++ b.
(** Blanks and tabulators *)
Definition blanks (s : text) : Prop := Forall (fun c => c = 32%N \/ c = 9%N) s.
Definition white (c : N) : Prop := (9 <= c <= 13 \/ 28 <= c <= 32)%N.
(** A place at the start of a line: the text before it is empty or ends with a line feed. *)
Definition line_start (a : text) : Prop := a = [] \/ exists a', a = a' ++ [10%N].
(** [p] is found at the start of [rest] for the first time: neither at the start of the text nor of a later line of [a] *)
Definition first_line (label a rest : text) : Prop :=
  line_start a /\ forall x y, a = x ++ y -> y <> [] -> line_start x -> ~ begins label (y ++ rest).
(** The first line that begins with the label shows the value [v]. *)
Definition shows (label : string) (v topology : text) : Prop :=
  exists a w w' b, topology = a ++ codes label ++ w ++ v ++ w' ++ b /\ first_line (codes label) a (codes label ++ w ++ v ++ w' ++ b) /\
    blanks w /\ w <> [] /\ blanks w' /\ (b = [] \/ exists b', b = 10%N :: b').

(** ** What likwid-topology prints about the caches (C89) *)
(** A cache level: its number, its size and the threads of each group *)
Record shown := mkShown { sh_level : Z; sh_size : text; sh_groups : list (list Z) }.
Definition groups_text (g : list (list Z)) : text :=
  flat_map (fun ids => codes "( " ++ flat_map (fun i => show_int i ++ codes " ") ids ++ codes ") ") g.
Definition plain (l : text) : Prop :=
  ~ In 10%N l /\ ~ begins (codes "Level:") l /\ ~ begins (codes "Size:") l /\ ~ begins (codes "Cache groups:") l.
Definition block (s : shown) (lines : list text) : Prop :=
  exists a b c w1 w2 w3, Forall plain a /\ Forall plain b /\ Forall plain c /\ blanks w1 /\ blanks w2 /\ blanks w3 /\
    lines = (codes "Level:" ++ w1 ++ show_int (sh_level s)) :: a ++
            (codes "Size:" ++ w2 ++ sh_size s) :: b ++
            (codes "Cache groups:" ++ w3 ++ groups_text (sh_groups s)) :: c.
(** The size is written without colon and line feed and can be read as a quantity. *)
Definition size_is (s : text) (q : UnitModel.quantity) : Prop :=
  ~ In 58%N s /\ ~ In 10%N s /\ (exists c r, s = c :: r /\ ~ white c) /\ (exists c r, s = r ++ [c] /\ ~ white c) /\ UnitModel.parse (as_string s) = Ok q.
Definition section (l : list shown) (lines : list text) : Prop :=
  exists head rest, lines = head ++ concat rest /\ Forall plain head /\ Forall2 block l rest.
(** The whole output: the caches are described between the first "Cache Topology" and the first "NUMA Topology". *)
Definition first_part (p a rest : text) : Prop := forall x y, a = x ++ y -> y <> [] -> ~ begins p (y ++ rest).
Definition topology_of (l : list shown) (topology : text) : Prop :=
  exists a lines b, topology = a ++ join 10 lines ++ b /\ section l lines /\
    begins (codes "Cache Topology") (join 10 lines) /\ begins (codes "NUMA Topology") b /\
    first_part (codes "Cache Topology") a (join 10 lines ++ b) /\ first_part (codes "NUMA Topology") (a ++ join 10 lines) b.
(** A level as it should be described, for a machine with so many cores in all sockets and threads per core *)
Definition describes (cores threads : Z) (s : shown) (v : level) : Prop :=
  v_name v = codes "L" ++ show_int (sh_level s) /\
  (exists first rest, v_throughput v = Some (first :: rest) /\ (first = codes "architecture code analyzer" <-> sh_level s = 1)) /\
  (exists q, v_size v = Some (Some q) /\ UnitModel.parse (as_string (sh_size s)) = Ok q) /\
  v_groups v = Some (Z.of_nat (List.length (sh_groups s))) /\
  v_cores v = Some (cores / Z.of_nat (List.length (sh_groups s))) /\
  v_threads v = Some (cores / Z.of_nat (List.length (sh_groups s)) * threads).
(** Data come from the next level and go to it; the last one has no next. *)
Fixpoint chained (l : list level) : Prop :=
  match l with
  | [] => True
  | [v] => v_cache v = Some (mkCache None None)
  | v :: ((w :: _) as l') => v_cache v = Some (mkCache (Some (v_name w)) (Some (v_name w))) /\ chained l'
  end.
Fixpoint consecutive (l : list shown) : Prop :=
  match l with s :: ((t :: _) as l') => sh_level t = sh_level s + 1 /\ consecutive l' | _ => True end.

(** ** The machine at a moment, without memory of earlier calls (C90, C91) *)
Section Fresh.
Variable topology : text.
Variable cpuinfo : text -> res text.
Definition machine (w : world) (p : text) : res readout := do c <- cpuinfo p; readouts topology c w.
Definition taken (r : readout) (old : readout) : readout :=
  mkReadout (r_type r) (r_name r) (r_threads r) (r_sockets r) (r_cores r) (r_domains r) (r_domain_cores r)
            (match r_clock r with Some c => Some c | None => r_clock old end) (r_hugepage r).
(** One update of one model. If the readouts cannot be made, nothing changes; if the hierarchy cannot be read, only the readouts change. *)
Definition fresh_update (w : world) (read hier overwrite : bool) (p : text) (md : model) : model :=
  let r := machine w p in
  let md1 := if read then match r with Ok r => mkModel (taken r (m_read md)) (m_hier md) | Err _ => md end else md in
  match hier, r with
  | true, Ok r => match hierarchy overwrite r topology with Ok h => mkModel (m_read md1) (Some h) | Err _ => md1 end
  | _, _ => md1
  end.
Fixpoint at_nth {A} (f : A -> A) (i : nat) (l : list A) : list A :=
  match i, l with O, x :: l' => f x :: l' | Datatypes.S i', x :: l' => x :: at_nth f i' l' | _, [] => [] end.
Definition fresh_step (w : world) (l : list model) (e : event) : list model :=
  match e with Update m r h o p => at_nth (fresh_update w r h o p) m l | _ => l end.
Definition steady (e : event) : Prop := match e with Change _ => False | _ => True end.
End Fresh.
(** The eight keys of the documentation of the check *)
Definition agrees (a b : readout) : Prop :=
  r_type a = r_type b /\ r_name a = r_name b /\ r_sockets a = r_sockets b /\ r_cores a = r_cores b /\ r_threads a = r_threads b /\
  r_domains a = r_domains b /\ r_domain_cores a = r_domain_cores b /\ r_hugepage a = r_hugepage b.

(** ** Bandwidths (C92) *)
(** likwid-bench prints the bandwidth as digits with a decimal part. *)
Definition number_text (whole : N) (fraction : text) : text := show_nat whole ++ 46%N :: fraction.
Definition number_value (whole : N) (fraction : text) : Q :=
  (inject_Z (Z.of_N whole) + inject_Z (Z.of_N (value fraction)) / inject_Z (10 ^ Z.of_nat (List.length fraction)))%Q.

(** ** Names of kernels (C93) *)
(** What likwid-bench -a prints: one line per kernel, name and description *)
Definition listing (l : list (text * text)) : text := flat_map (fun nd => fst nd ++ codes " - " ++ snd nd ++ [10%N]) l.
Definition kernel_name (n : text) : Prop := n <> [] /\ Forall (fun c => ~ white c) n.
Definition description (d : text) : Prop := ~ In 10%N d /\ exists c r, d = r ++ [c] /\ ~ white c.
Definition wanted (prefix : text) (excludes : list text) (n : text) : Prop :=
  begins prefix n /\ forall e, In e excludes -> ~ part e n.
