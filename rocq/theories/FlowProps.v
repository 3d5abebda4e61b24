(** Property C118: the layer conditions of accepted kernel code and the misses while it is executed. *)
From Coq Require Import String Permutation Lia.
From Verif Require Import PyBase AstModel AstSpec AstProofs LCModel LCSpec LCProofs LCProps CodeModel CodeSpec CodeProofs CodeProps FrontModel FrontSpec FrontDistance FrontProps LruSpec LruProofs LruLink FlowModel FlowSpec FlowProofs FlowLink.
Local Open Scope string_scope.
Local Open Scope list_scope.
Local Open Scope Z_scope.

(** ** C118 *)
(** Lines which executed code touches: those of the recorded references, moving with the position of the iterations. Missing: kernels which are no stencils of
    full dimension (references without one of the indices, indices in another order), octal literals. *)
Theorem C118_trace_partial : forall eqb items ds ps s ws ls body k, eqb_sound eqb -> Forall c_tree items ->
  items = map SDecl ds ++ map SPragma ps ++ s :: map swap_call ws -> nest s ls body -> process_code eqb (Some items) = Ok k ->
  forall e sizes rho number order, well_behaved e ds ls body -> stencil (front_of k) sizes -> incl sizes (map fst e) -> constants e rho -> any_order order body ->
  exists refs, same_in refs (kernel_refs number rho (front_of k) (variables (front_of k))) /\
    forall width evs e', exec e s evs e' -> lines width number e ds order evs =
      trace width refs (map (fun it => position_of sizes (map index ls) it - row_major (map rho sizes) (map rho (map index ls))) (iterations (stack (kernel_nest k)) e)).
Proof.
  intros eqb items ds ps s ws ls body k ES T E N H e sizes rho number order WB ST SE RHO OR. destruct (recorded_of eqb items ds ps s ws ls body k T E N H) as (R & K & DC).
  assert (ND : NoDup (map dname ds)) by apply WB. specialize (DC ND). exists (executed_refs ds body e rho number order).
  split; [exact (same_refs eqb ds _ ls _ body _ s e rho number order sizes ES N R K DC WB ST SE RHO OR)|].
  intros width evs e' X. apply (runs ds ls _ body s e N R WB) in X as [-> ->].
  pose proof (lines_before eqb ds _ ls _ body _ s e rho number order sizes width ES N R K DC WB ST SE RHO OR (iterations (stack (kernel_nest k)) e) [] []) as L. rewrite L by now rewrite !app_nil_r.
  f_equal. apply map_ext. intros it. exact (shift_position (CodeModel.variables (kernel_variables k)) ls _ (accesses (kernel_nest k)) rho sizes R ST it).
Qed.
Print Assumptions C118_trace_partial.

(** At most as many lines are missed while the iterations pass one line as the layer conditions of a slightly smaller cache predict, once the elements which are used again were accessed.
    [es] is the size of elements in bytes, the cache has [n] lines of [width] elements. Missing: as above, iterations at ends of rows, evictions. Caches with sets: C138. *)
Theorem C118_upper_partial : forall eqb items ds ps s ws ls body k, eqb_sound eqb -> Forall c_tree items ->
  items = map SDecl ds ++ map SPragma ps ++ s :: map swap_call ws -> nest s ls body -> process_code eqb (Some items) = Ok k ->
  forall e sizes rho number order, well_behaved e ds ls body -> stencil (front_of k) sizes -> incl sizes (map fst e) -> constants e rho -> any_order order body ->
  (forall a b, In a ds -> In b ds -> number (dname a) = number (dname b) -> dname a = dname b) ->
  forall less decide dd w es tails total n width cs c, less_sound less -> sound decide -> reuse_distances less (front_of k) = Ok (dd, w) ->
  Forall (not_negative rho) dd -> consistent rho (map (scale_dist es) dd) -> 0 < es -> 0 < width -> (forall d, In d tails <-> In d (map (scale_dist es) dd)) ->
  needed (map (dist_value rho) dd) 2 + 2 * Z.of_nat (List.length dd) * (width - 1) <= Z.of_nat n * width ->
  build_level decide dd es w tails total (es * (Z.of_nat n * width - Z.of_nat (List.length dd) * (2 * width - 1))) = Ok cs -> desymbolize rho cs = Ok c ->
  es * (Z.of_nat n * width - Z.of_nat (List.length dd) * (2 * width - 1)) <= eval rho total ->
  forall before window after t evs e', iterations (stack (kernel_nest k)) e = before ++ window ++ after -> line_by_line (position_of sizes (map index ls)) width t before window ->
  (forall v i, In (Some v) (map (dist_value rho) dd) -> 0 <= i < width -> In (t + i - v) (map (position_of sizes (map index ls)) (before ++ window))) ->
  exec e s evs e' -> no_overrun e ds evs ->
  evs = events body before ++ events body window ++ events body after /\
  misses_after n (lines width number e ds order (events body before)) (lines width number e ds order (events body window)) <= misses c.
Proof.
  intros eqb items ds ps s ws ls body k ES T E N H e sizes rho number order WB ST SE RHO OR INJ less decide dd w es tails total n width cs c LS SD RD NN CO EP WP TL FIT BL DE TO
    before window after t evs e' IT LB WARM X OV.
  destruct (recorded_of eqb items ds ps s ws ls body k T E N H) as (R & K & DC). assert (ND : NoDup (map dname ds)) by apply WB. specialize (DC ND).
  apply (runs ds ls _ body s e N R WB) in X as [-> ->]. split; [now rewrite IT, !events_app|].
  destruct (level_missing _ _ _ _ _ _ _ _ _ _ SD (proj2 RHO) EP TL CO BL DE) as [_ L]. rewrite (L TO).
  exact (flow_upper eqb ds _ ls _ body _ s e rho number order sizes width ES N R K DC WB ST SE RHO OR INJ WP before window after t IT less dd w n LS RD NN LB OV FIT WARM).
Qed.
Print Assumptions C118_upper_partial.

(** At least as many are missed as the layer conditions of a slightly larger cache predict, if the iterations had consecutive positions so far. Missing: as above, later rows. *)
Theorem C118_lower_partial : forall eqb items ds ps s ws ls body k, eqb_sound eqb -> Forall c_tree items ->
  items = map SDecl ds ++ map SPragma ps ++ s :: map swap_call ws -> nest s ls body -> process_code eqb (Some items) = Ok k ->
  forall e sizes rho number order, well_behaved e ds ls body -> stencil (front_of k) sizes -> incl sizes (map fst e) -> constants e rho -> any_order order body ->
  (forall a b, In a ds -> In b ds -> number (dname a) = number (dname b) -> dname a = dname b) ->
  forall less decide dd w es tails total n width cs c, less_sound less -> sound decide -> reuse_distances less (front_of k) = Ok (dd, w) ->
  Forall (not_negative rho) dd -> consistent rho (map (scale_dist es) dd) -> 0 < es -> 0 < width -> (forall d, In d tails <-> In d (map (scale_dist es) dd)) ->
  build_level decide dd es w tails total (es * (Z.of_nat n * width + Z.of_nat (List.length dd) * width)) = Ok cs -> desymbolize rho cs = Ok c ->
  forall before window after start t evs e', iterations (stack (kernel_nest k)) e = before ++ window ++ after -> start <= t ->
  map (position_of sizes (map index ls)) before = positions start t -> map (position_of sizes (map index ls)) window = positions t (t + width) ->
  exec e s evs e' ->
  evs = events body before ++ events body window ++ events body after /\
  misses c <= misses_after n (lines width number e ds order (events body before)) (lines width number e ds order (events body window)).
Proof.
  intros eqb items ds ps s ws ls body k ES T E N H e sizes rho number order WB ST SE RHO OR INJ less decide dd w es tails total n width cs c LS SD RD NN CO EP WP TL BL DE
    before window after start t evs e' IT LE EB EW X.
  destruct (recorded_of eqb items ds ps s ws ls body k T E N H) as (R & K & DC). assert (ND : NoDup (map dname ds)) by apply WB. specialize (DC ND).
  apply (runs ds ls _ body s e N R WB) in X as [-> ->]. split; [now rewrite IT, !events_app|].
  destruct (level_missing _ _ _ _ _ _ _ _ _ _ SD (proj2 RHO) EP TL CO BL DE) as [L _]. etransitivity; [exact L|].
  exact (flow_lower eqb ds _ ls _ body _ s e rho number order sizes width ES N R K DC WB ST SE RHO OR INJ WP before window after t IT less dd w n LS RD NN start LE EB EW).
Qed.
Print Assumptions C118_lower_partial.

(** ** Example: the five point stencil
    double a[M][N]; double b[M][N]; double s; for(j=1; j<M-1; ++j) for(i=1; i<N-1; ++i) b[j][i] = s * (a[j][i-1] + a[j][i+1] + a[j-1][i] + a[j+1][i]);
    with M = 6 and N = 20 *)
Definition stencil_body : list cassign :=
  [mkAssign "=" (at2 "b" (CId "j") (CId "i")) (CBin "*" (CId "s") (plus (plus (plus (at2 "a" (CId "j") (minus (CId "i") (lit "1"))) (at2 "a" (CId "j") (plus (CId "i") (lit "1"))))
    (at2 "a" (minus (CId "j") (lit "1")) (CId "i"))) (at2 "a" (plus (CId "j") (lit "1")) (CId "i"))))].
Definition stencil_inner : stmt :=
  for_ "i" (lit "1") (minus (CId "N") (lit "1")) (pp "i") (SCompound (Some (map (fun a => SAssign (operator a) (left_side a) (right_side a)) stencil_body))).
Definition stencil_nest : stmt := for_ "j" (lit "1") (minus (CId "M") (lit "1")) (pp "j") stencil_inner.
Definition stencil_decls : list decl := [arr "a" [CId "M"; CId "N"]; arr "b" [CId "M"; CId "N"]; mkDecl "s" dbl None].
Definition stencil_code : list stmt := map SDecl stencil_decls ++ map SPragma [] ++ stencil_nest :: map swap_call [].
Definition stencil_loops : list cloop := [mkLoop "j" int (lit "1") (minus (CId "M") (lit "1")) None; mkLoop "i" int (lit "1") (minus (CId "N") (lit "1")) None].
Definition stencil_kernel : kernel := match process_code structural (Some stencil_code) with Ok k => k | Err _ => mkKernel (mkDeclared None []) (mkParsed [] empty_state) [] end.
Definition stencil_env : env := [("M", 6); ("N", 20)].
Definition stencil_sizes (s : string) : Z := if String.eqb s "M" then 6 else if String.eqb s "N" then 20 else 1.
Definition stencil_numbers (n : string) : nat := if String.eqb n "a" then 1%nat else if String.eqb n "b" then 2%nat else 3%nat.
Example C118_code : Forall c_tree stencil_code /\ nest stencil_nest stencil_loops stencil_body /\ process_code structural (Some stencil_code) = Ok stencil_kernel.
Proof.
  split; [|split; [|vm_compute; reflexivity]].
  - repeat (apply Forall_cons; [cbn; intuition discriminate|]). apply Forall_nil.
  - eapply nest_loop; [eexists; split; [reflexivity|now left]|]. eapply nest_block; [eexists; split; [reflexivity|now left]|discriminate|]. repeat constructor.
Qed.
Ltac cases := repeat match goal with H : _ \/ _ |- _ => destruct H as [H|H] | H : (_, _) = (_, _) |- _ => injection H as <- <- | H : False |- _ => contradiction end.
Example C118_behaves : well_behaved stencil_env stencil_decls stencil_loops stencil_body.
Proof.
  unfold well_behaved. split; [|split; [|split; [|split; [|split; [|split; [|split]]]]]].
  - apply Forall_cons; [|apply Forall_cons; [|apply Forall_nil]]; unfold plain_loop; cbn [first bound increment literals lit minus app]; plains.
  - repeat (apply Forall_cons; [vm_compute; reflexivity|]). apply Forall_nil.
  - split; [intros x; cbn; tauto|]. split; [cbn; intuition discriminate|]. split; [intros x; cbn; tauto|]. split; [cbn; intuition discriminate|exact I].
  - intros a n [<-|[]]; cbn; intuition (subst; discriminate).
  - intros a t [<-|[]] I1; vm_compute in I1; cases; subst; left; plain_now.
  - intros a n subs s [<-|[]] I1 I2; vm_compute in I1; cases; vm_compute in I2; cases; subst s; intros x X; vm_compute in X |- *; tauto.
  - cbn. repeat constructor; cbn; intuition discriminate.
  - intros d x [<-|[<-|[<-|[]]]] I1; cbn in I1; cases; injection I1 as <-; (split; [apply Forall_nil|]); intros y; cbn; tauto.
Qed.
Example C118_stencil : stencil (front_of stencil_kernel) ["M"; "N"].
Proof.
  split; [vm_compute; repeat constructor; cbn; intuition discriminate|]. split; [reflexivity|]. split; [intros s; vm_compute; intuition (subst; discriminate)|].
  intros n arefs I1. vm_compute in I1. cases; [now left|right|right]; exists "M"; (split; [reflexivity|]; split; [vm_compute; intuition discriminate|]); intros a I2; vm_compute in I2; cases; subst a; eexists; (split; [reflexivity|]);
    (apply Forall2_cons; [eexists; reflexivity|]; apply Forall2_cons; [eexists; reflexivity|apply Forall2_nil]).
Qed.
Example C118_constants : constants stencil_env stencil_sizes /\ incl ["M"; "N"] (map fst stencil_env) /\ any_order element_refs stencil_body
  /\ forall a b, In a stencil_decls -> In b stencil_decls -> stencil_numbers (dname a) = stencil_numbers (dname b) -> dname a = dname b.
Proof.
  split; [split|split; [|split]].
  - intros m z. cbn [stencil_env CodeSpec.lookup]. unfold stencil_sizes. intros L. destruct (String.eqb_spec m "M"); [now injection L|]. destruct (String.eqb_spec m "N"); [now injection L|discriminate].
  - intros m. unfold stencil_sizes. destruct (String.eqb m "M"); [reflexivity|]. destruct (String.eqb m "N"); reflexivity.
  - intros x; cbn; tauto.
  - intros a _. apply Permutation_refl.
  - intros a b [<-|[<-|[<-|[]]]] [<-|[<-|[<-|[]]]] E; vm_compute in E; try reflexivity; discriminate.
Qed.
Definition stencil_distances : list dist := [Poly [([], -1); (["N"], 1)]; Poly [([], 2)]; Poly [(["N"], 1); ([], -1)]; Inf; Inf].
Definition stencil_total : poly := [(["M"; "N"], 16)].
Example C118_distances : reuse_distances numbers_only (front_of stencil_kernel) = Ok (stencil_distances, 1) /\ Forall (not_negative stencil_sizes) stencil_distances
  /\ consistent stencil_sizes (map (scale_dist 8) stencil_distances).
Proof.
  split; [vm_compute; reflexivity|]. split; [repeat (apply Forall_cons; [vm_compute; try discriminate; exact I|]); apply Forall_nil|].
  intros a b ka kb Ia Ib Ka Kb. cbn [map scale_dist stencil_distances In] in Ia, Ib.
  repeat destruct Ia as [<-|Ia]; try contradiction; repeat destruct Ib as [<-|Ib]; try contradiction;
    vm_compute in Ka, Kb; injection Ka as <-; injection Kb as <-; vm_compute; split; intros H;
    try reflexivity; try discriminate; try exact I; try (exfalso; apply H; reflexivity); exact H.
Qed.
Definition stencil_iterations : list env := Eval vm_compute in iterations (stack (kernel_nest stencil_kernel)) stencil_env.
Definition inside (e : env) (ds : list decl) (ev : event) (r : string * list expr) : bool :=
  let dims := extents e ds (fst r) in let zs := index_values (fst ev) (snd r) in
  (Nat.eqb (List.length dims) (List.length zs) && forallb (fun p => (0 <=? snd p) && (snd p <? fst p)) (combine dims zs))%bool.
Lemma inside_bounds dims : forall zs, (Nat.eqb (List.length dims) (List.length zs) && forallb (fun p => (0 <=? snd p) && (snd p <? fst p)) (combine dims zs))%bool = true -> in_bounds dims zs.
Proof.
  induction dims as [|d dims IH]; intros [|z zs] H; try discriminate; [constructor|]. apply Bool.andb_true_iff in H as [L H]. cbn [combine forallb fst snd] in H. apply Bool.andb_true_iff in H as [B H].
  constructor; [lia|]. apply IH. apply Bool.andb_true_iff. now split.
Qed.
Lemma inside_all e ds evs : forallb (fun ev => forallb (inside e ds ev) (element_refs (snd ev))) evs = true -> no_overrun e ds evs.
Proof. intros H ev r I1 I2. apply inside_bounds. rewrite forallb_forall in H. specialize (H ev I1). rewrite forallb_forall in H. exact (H r I2). Qed.
Lemma stencil_runs evs e' : exec stencil_env stencil_nest evs e' -> no_overrun stencil_env stencil_decls evs.
Proof.
  intros X. destruct C118_code as (T & N & H). destruct (recorded_of structural stencil_code stencil_decls [] stencil_nest [] stencil_loops stencil_body stencil_kernel T eq_refl N H) as (R & _).
  apply (runs stencil_decls stencil_loops _ stencil_body stencil_nest stencil_env N R C118_behaves) in X as [-> ->]. apply inside_all. vm_compute. reflexivity.
Qed.
Lemma existsb_in (x : Z) l : existsb (Z.eqb x) l = true <-> In x l.
Proof. rewrite existsb_exists. split; [intros (y & I1 & E); apply Z.eqb_eq in E; now subst|intros I1; exists x; split; [exact I1|apply Z.eqb_refl]]. Qed.
(** The iterations (3, 5) and (3, 6) at positions 65 and 66 (lines of two elements): two of the five streams miss in a cache of 60 lines, four in one of 20 lines. *)
Definition stencil_level (size : Z) := build_level decide_numbers stencil_distances 8 1 (map (scale_dist 8) stencil_distances) stencil_total size.
Example C118_third_row : forall size p, In (size, p) [(60%nat, 2); (20%nat, 4)] -> forall evs e', exec stencil_env stencil_nest evs e' ->
  evs = events stencil_body (firstn 40 stencil_iterations) ++ events stencil_body (firstn 2 (skipn 40 stencil_iterations)) ++ events stencil_body (skipn 42 stencil_iterations) /\
  misses_after size (lines 2 stencil_numbers stencil_env stencil_decls element_refs (events stencil_body (firstn 40 stencil_iterations)))
    (lines 2 stencil_numbers stencil_env stencil_decls element_refs (events stencil_body (firstn 2 (skipn 40 stencil_iterations)))) <= p.
Proof.
  intros size p IP evs e' X. destruct C118_code as (T & N & H). destruct C118_constants as (CO & SE & OR & INJ). destruct C118_distances as (RD & NN & CS).
  assert (C : exists cs c, stencil_level (8 * (Z.of_nat size * 2 - 5 * (2 * 2 - 1))) = Ok cs /\ desymbolize stencil_sizes cs = Ok c /\ misses c = p).
  { destruct IP as [[= <- <-]|[[= <- <-]|[]]]; do 2 eexists; (split; [vm_compute; reflexivity|]); split; vm_compute; reflexivity. }
  destruct C as (cs & c & B & D & M). rewrite <- M. clear M.
  eapply (C118_upper_partial structural stencil_code stencil_decls [] stencil_nest [] stencil_loops stencil_body stencil_kernel structural_sound T eq_refl N H stencil_env ["M"; "N"] stencil_sizes stencil_numbers element_refs
    C118_behaves C118_stencil SE CO OR INJ numbers_only decide_numbers stencil_distances 1 8 (map (scale_dist 8) stencil_distances) stencil_total size 2 cs c numbers_only_sound decide_numbers_sound RD NN CS eq_refl eq_refl
    (fun d => conj (fun x => x) (fun x => x))) with (t := 65); try exact X; try exact B; try exact D.
  all: try (match goal with |- _ <= _ => idtac end; destruct IP as [[= <- <-]|[[= <- <-]|[]]]; vm_compute; discriminate).
  all: try (vm_compute; reflexivity). all: try exact (stencil_runs _ _ X).
  all: try (split; [exists (firstn 39 stencil_iterations); eexists; split; vm_compute; reflexivity|vm_compute; reflexivity]).
  all: clear B; intros v i IV B; assert (i = 0 \/ i = 1) as [-> | ->] by lia; vm_compute in IV; cases; try discriminate IV; injection IV as <-; apply (proj1 (existsb_in _ _)); vm_compute; reflexivity.
Qed.
(** In the first row the iterations have consecutive positions: at least four streams miss in a cache of 20 lines. *)
Example C118_first_row : forall evs e', exec stencil_env stencil_nest evs e' ->
  evs = events stencil_body (firstn 4 stencil_iterations) ++ events stencil_body (firstn 2 (skipn 4 stencil_iterations)) ++ events stencil_body (skipn 6 stencil_iterations) /\
  4 <= misses_after 20 (lines 2 stencil_numbers stencil_env stencil_decls element_refs (events stencil_body (firstn 4 stencil_iterations)))
    (lines 2 stencil_numbers stencil_env stencil_decls element_refs (events stencil_body (firstn 2 (skipn 4 stencil_iterations)))).
Proof.
  intros evs e' X. destruct C118_code as (T & N & H). destruct C118_constants as (CO & SE & OR & INJ). destruct C118_distances as (RD & NN & CS).
  assert (C : exists cs c, stencil_level (8 * (20 * 2 + 5 * 2)) = Ok cs /\ desymbolize stencil_sizes cs = Ok c /\ misses c = 4) by (do 2 eexists; split; [vm_compute; reflexivity|split; vm_compute; reflexivity]).
  destruct C as (cs & c & B & D & M). rewrite <- M. clear M.
  eapply (C118_lower_partial structural stencil_code stencil_decls [] stencil_nest [] stencil_loops stencil_body stencil_kernel structural_sound T eq_refl N H stencil_env ["M"; "N"] stencil_sizes stencil_numbers element_refs
    C118_behaves C118_stencil SE CO OR INJ numbers_only decide_numbers stencil_distances 1 8 (map (scale_dist 8) stencil_distances) stencil_total 20%nat 2 cs c numbers_only_sound decide_numbers_sound RD NN CS eq_refl eq_refl
    (fun d => conj (fun x => x) (fun x => x))) with (start := 21) (t := 25); try exact X; try exact B; try exact D.
  all: try (match goal with |- _ <= _ => idtac end; vm_compute; discriminate). all: vm_compute; reflexivity.
Qed.
(** The lines touched are those of the references b[j][i], a[j][i-1], a[j][i+1], a[j-1][i], a[j+1][i]. *)
Example C118_lines : exists refs, same_in refs (kernel_refs stencil_numbers stencil_sizes (front_of stencil_kernel) (variables (front_of stencil_kernel))) /\
  forall evs e', exec stencil_env stencil_nest evs e' ->
  lines 2 stencil_numbers stencil_env stencil_decls element_refs evs = trace 2 refs (map (fun it => position_of ["M"; "N"] ["j"; "i"] it - 21) stencil_iterations).
Proof.
  destruct C118_code as (T & N & H). destruct C118_constants as (CO & SE & OR & _).
  destruct (C118_trace_partial structural stencil_code stencil_decls [] stencil_nest [] stencil_loops stencil_body stencil_kernel structural_sound T eq_refl N H stencil_env ["M"; "N"] stencil_sizes stencil_numbers element_refs
    C118_behaves C118_stencil SE CO OR) as (refs & S1 & L).
  exists refs. split; [exact S1|]. intros evs e' X. exact (L 2 evs e' X).
Qed.
