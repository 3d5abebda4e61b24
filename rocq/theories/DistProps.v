(** C145: references to arrays and the distances between them. *)
From Coq Require Import String Permutation.
From Verif Require Import PyBase DistModel DistSpec DistProofs.
Local Open Scope Z_scope.

(** Flattened references are the elements that are referenced, in C's order of elements, for all values of constants and indices; sources come first. *)
Theorem C145_accesses : forall vars srcs dsts, NoDup (map fst vars) ->
  exists acc, compile_sympy_accesses vars srcs dsts true true = Ok acc /\
  forall name sizes v, In (name, sizes) vars -> indices_match sizes srcs dsts name ->
    map (value v) (entry name acc) = referenced v sizes srcs dsts name.
Proof.
  intros vars srcs dsts D. destruct (relative (fun e => e) vars srcs dsts (fun v e => eq_refl) D) as (acc & E & H). exists acc. split; [exact E|]. intros n sizes v I M. now apply H.
Qed.
Print Assumptions C145_accesses.

(** There is one distance less than references, and between any two references they add up to the distance of the elements. *)
Theorem C145_distances : forall simplify vars srcs dsts, sound simplify -> NoDup (map fst vars) ->
  exists acc, compile_sympy_accesses vars srcs dsts true true = Ok acc /\
  forall name sizes v, In (name, sizes) vars -> indices_match sizes srcs dsts name ->
    let o := referenced v sizes srcs dsts name in
    let d := map (value v) (entry name (compile_relative_distances simplify acc)) in
    length d = (length o - 1)%nat /\
    forall i k, (i + k < length o)%nat -> sum (firstn k (skipn i d)) = nth i o 0 - nth (i + k) o 0.
Proof.
  intros simplify vars srcs dsts S D. destruct (relative simplify vars srcs dsts S D) as (acc & E & H). exists acc. split; [exact E|]. intros n sizes v I M o d.
  destruct (H n sizes v I M) as [_ V]. subst d. rewrite V. fold o. split; [apply differences_length|]. intros i k L. now apply telescope.
Qed.
Print Assumptions C145_distances.

(** Variables without at least two references have no entry. *)
Theorem C145_entries : forall simplify acc name d, In (name, d) (compile_relative_distances simplify acc) ->
  exists l, In (name, l) acc /\ (2 <= length l)%nat /\ S (length d) = length l.
Proof.
  intros simplify acc name d I. unfold compile_relative_distances in I. apply in_flat_map in I. destruct I as ([m l] & I & J). cbn [fst snd] in J.
  assert (L : forall l, length (distances simplify l) = (length l - 1)%nat).
  { clear. induction l as [|a [|b l] IH]; [reflexivity..|]. change (distances simplify (a :: b :: l)) with (simplify (Sub a b) :: distances simplify (b :: l)). cbn [length] in *. rewrite IH. lia. }
  specialize (L l). destruct (distances simplify l) as [|x t]; [destruct J|]. destruct J as [J|[]]. injection J as <- <-. exists l. cbn [length] in *. repeat split; [exact I|lia|lia].
Qed.
Print Assumptions C145_entries.

(** The references of a five-point stencil, as in the documentation of the function: a[j+1][i], a[j][i+1], a[j][i-1], a[j-1][i] *)
Definition s (x : string) (n : Z) : expr := Add (Sym x) (Num n).
Definition down := Some [s "j" 1; Sym "i"]. Definition right_ := Some [Sym "j"; s "i" 1].
Definition left_ := Some [Sym "j"; s "i" (-1)]. Definition up := Some [s "j" (-1); Sym "i"].
Definition grid : sizes_of := [("a", [Sym "M"; Sym "N"]); ("b", [Sym "M"; Sym "N"]); ("s", [])]%string.
Definition reads (l : list (option (list expr))) : references := [("a"%string, l); ("s"%string, [None])].
Definition writes : references := [("b"%string, [Some [Sym "j"; Sym "i"]])].
Definition result (l : list (option (list expr))) : list (string * list expr) :=
  match compile_sympy_accesses grid (reads l) writes true true with Ok acc => compile_relative_distances (fun e => e) acc | Err _ => [] end.
(** Distances [N-1, 2, N-1], for all values; the only entry is that of a. *)
Example C145_documented : forall v, map (value v) (entry "a" (result [down; right_; left_; up])) = [v "N"%string - 1; 2; v "N"%string - 1]
  /\ map fst (result [down; right_; left_; up]) = ["a"%string].
Proof. intros v. split; [|reflexivity]. cbn -[Z.mul Z.add Z.sub]. apply f_equal2; [ring|apply f_equal2; [ring|apply f_equal2; [ring|reflexivity]]]. Qed.
Example C145_case : NoDup (map fst grid) /\ indices_match [Sym "M"; Sym "N"] (reads [down; right_; left_; up]) writes "a" /\ sound (fun e => e).
Proof. split; [repeat constructor; cbn; intuition discriminate|]. split; [|now intros v e]. intros a I. cbn in I. repeat destruct I as [<-|I]; try reflexivity. destruct I. Qed.

(** Sources and destinations of kernel code are sets (kernel.py:1114-1140), which have no order: with another order of the same references there are other distances, and
    negative ones. *)
Theorem C145_order_refuted : exists l l' v, Permutation l l' /\
  (forall x, In x (map (value v) (entry "a" (result l))) -> 0 < x) /\
  (exists x, In x (map (value v) (entry "a" (result l'))) /\ x < 0) /\
  ~ Permutation (map Z.abs (map (value v) (entry "a" (result l)))) (map Z.abs (map (value v) (entry "a" (result l')))).
Proof.
  exists [down; right_; left_; up], [right_; down; left_; up], (fun _ => 100). split; [apply perm_swap|]. vm_compute. split; [|split].
  - intros x H. repeat destruct H as [<-|H]; try reflexivity. destruct H.
  - exists (-99). split; [now left|reflexivity].
  - intros P. apply (Permutation_in 2) in P; [|right; now left]. repeat destruct P as [P|P]; try discriminate; exact P.
Qed.
Print Assumptions C145_order_refuted.

(** An element which is both read and written is counted twice, with distance 0 if the references are neighbours. *)
Theorem C145_twice_refuted : forall simplify name sizes a, sound simplify -> length a = length sizes ->
  exists acc d, compile_sympy_accesses [(name, sizes)] [(name, [Some a])] [(name, [Some a])] true true = Ok acc /\
  compile_relative_distances simplify acc = [(name, [d])] /\ forall v, value v d = 0.
Proof.
  intros simplify name sizes a S L. unfold compile_sympy_accesses. cbn. unfold get, access_to_sympy. cbn. rewrite String.eqb_refl. cbn.
  eexists. eexists. split; [reflexivity|]. split; [reflexivity|]. intros v. rewrite S. cbn. ring.
Qed.
Print Assumptions C145_twice_refuted.
Example C145_twice_example : length [Sym "i"; Sym "j"] = length [Sym "N"; Sym "N"].
Proof. reflexivity. Qed.

(** The order of indices has one entry for each reference to an array, sources first; and an index depends on no other symbols than the listed ones. *)
Theorem C145_indices : forall srcs dsts,
  index_order srcs dsts true true = index_order srcs dsts true false ++ index_order srcs dsts false true /\
  index_order srcs dsts false false = [] /\
  (forall b, index_order srcs dsts true b = index_order srcs [] true false ++ index_order [] dsts false b) /\
  forall n a, nth_error (present (flat_map snd srcs ++ flat_map snd dsts)) n = Some a ->
    exists r, nth_error (index_order srcs dsts true true) n = Some r /\ length r = length a /\
    forall k e l v v', nth_error a k = Some e -> nth_error r k = Some l -> (forall x, In x l -> v x = v' x) -> value v e = value v' e.
Proof.
  assert (P : forall (l l' : list (option (list expr))), present (l ++ l') = present l ++ present l') by (intros; unfold present; apply flat_map_app).
  intros srcs dsts. unfold index_order. repeat split.
  - now rewrite app_nil_r, P, map_app.
  - intros b. cbn. rewrite app_nil_r, P, map_app. reflexivity.
  - intros n a H. exists (map free_symbols a). split; [now apply map_nth_error|]. split; [apply map_length|].
    intros k e l v v' A B C. rewrite (map_nth_error _ _ _ A) in B. injection B as <-. now apply free_value.
Qed.
Print Assumptions C145_indices.
Example C145_indices_example : index_order (reads [down; left_]) writes true true = [[["j"]; ["i"]]; [["j"]; ["i"]]; [["j"]; ["i"]]]%string.
Proof. reflexivity. Qed.
