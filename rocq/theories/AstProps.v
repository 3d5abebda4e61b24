(** Properties C10, C15, C16: generated indices, FLOP counts, data sources and destinations. *)
From Coq Require Import String.
From Verif Require Import PyBase LoopModel LoopSpec AstModel AstSpec AstProofs.
Local Open Scope string_scope.
Local Open Scope Z_scope.

(** C10: a rewritten reference addresses the row-major element of the original reference, inside the
    rewritten declaration, and this is the offset used by the cache model ([access_to_sympy]). *)
Theorem C10_same_element : forall env dict n dims vdims aref subs vsubs,
  reference aref = Some (n, subs) -> subs <> [] -> dict n = Some dims ->
  Forall2 (fun e v => ceval env e = Some v) dims vdims ->
  Forall2 (fun e v => ceval env e = Some v) subs vsubs ->
  in_range vdims vsubs ->
  exists idx v d size,
    transform_ref dict aref = Ok (EArr (EID n) idx) /\ ceval env idx = Some v /\
    transform_decl dims = Some d /\ ceval env d = Some size /\
    nth_error (row_major vdims) (Z.to_nat v) = Some vsubs /\ 0 <= v < size.
Proof. exact transform_in_bounds. Qed.
Print Assumptions C10_same_element.

Theorem C10_agrees_with_cache_model : forall env dict n dims vdims aref subs vsubs,
  reference aref = Some (n, subs) -> subs <> [] -> dict n = Some dims ->
  length subs = length dims ->
  Forall2 (fun e v => ceval env e = Some v) dims vdims ->
  Forall2 (fun e v => ceval env e = Some v) subs vsubs ->
  exists idx, transform_ref dict aref = Ok (EArr (EID n) idx)
    /\ ceval env idx = Some (access_to_sympy vdims vsubs).
Proof. exact transform_ref_exact. Qed.
Print Assumptions C10_agrees_with_cache_model.

(** [a[k][j+1][i]] with [double a[L][M][N]] *)
Definition C10_ref :=
  EArr (EArr (EArr (EID "a") (EID "k")) (EBin "+" (EID "j") (EConst (Some 1)))) (EID "i").
Definition C10_dims := [EID "L"; EID "M"; EID "N"].
Definition C10_env (n : string) : Z :=
  if String.eqb n "L" then 4 else if String.eqb n "M" then 5 else if String.eqb n "N" then 6
  else if String.eqb n "k" then 3 else if String.eqb n "j" then 1 else 2.
Example C10_case :
  reference C10_ref = Some ("a", [EID "k"; EBin "+" (EID "j") (EConst (Some 1)); EID "i"])
  /\ Forall2 (fun e v => ceval C10_env e = Some v) C10_dims [4; 5; 6]
  /\ Forall2 (fun e v => ceval C10_env e = Some v)
       [EID "k"; EBin "+" (EID "j") (EConst (Some 1)); EID "i"] [3; 2; 2]
  /\ in_range [4; 5; 6] [3; 2; 2]
  /\ transform_ref (fun _ => Some C10_dims) C10_ref
     = Ok (EArr (EID "a")
         (EBin "+" (EBin "+" (EID "i")
                     (EBin "*" (EBin "+" (EID "j") (EConst (Some 1))) (EID "N")))
            (EBin "*" (EID "k") (EBin "*" (EID "N") (EID "M"))))).
Proof.
  split; [reflexivity|]. split; [repeat constructor|]. split; [repeat constructor|].
  split; [repeat constructor; cbn; lia|reflexivity].
Qed.

(** C15: without increment/decrement operators the FLOP dictionary counts each operator. *)
Theorem C15_flops_partial : forall eqb stmts st,
  p_assignments eqb stmts empty_state = Ok st ->
  Forall (fun s => arithmetic_assignment (aop s) /\ no_incdec (stmt_operators s)) stmts ->
  forall op, dget (flops st) op = occurrences op (flat_map stmt_operators stmts).
Proof. exact flops_exact. Qed.
Print Assumptions C15_flops_partial.

Definition simple_eqb (a b : access) : bool :=
  match a, b with None, None => true | _, _ => false end.

(** [b[i] += a[i+1] * s - -a[i]] *)
Definition C15_stmt := mkassign "+=" (EArr (EID "b") (EID "i"))
  (EBin "-" (EBin "*" (EArr (EID "a") (EBin "+" (EID "i") (EConst (Some 1)))) (EID "s"))
            (EUn "-" (EArr (EID "a") (EID "i")))).
Example C15_case :
  arithmetic_assignment (aop C15_stmt) /\ no_incdec (stmt_operators C15_stmt) /\
  stmt_operators C15_stmt = ["+"; "-"; "*"; "-"] /\
  (exists st, p_assignments simple_eqb [C15_stmt] empty_state = Ok st
              /\ flops st = [("+", 1); ("*", 1); ("-", 2)]).
Proof.
  repeat split.
  - cbn; tauto.
  - intros op H. cbn in H. cbn. intuition (subst; discriminate).
  - eexists. split; reflexivity.
Qed.

(** Missing for the full property: ++ and --, for which the count is wrong:
    [a = b + c + d++] has three operators, four are counted. *)
Theorem C15_flops_refuted : exists stmt st,
  p_assignments simple_eqb [stmt] empty_state = Ok st /\
  length (stmt_operators stmt) = 3%nat /\ zsum (map snd (flops st)) = 4.
Proof.
  exists (mkassign "=" (EID "a") (EBin "+" (EBin "+" (EID "b") (EID "c")) (EUn "p++" (EID "d")))).
  eexists. split; [reflexivity|]. split; reflexivity.
Qed.
Print Assumptions C15_flops_refuted.

(** C16: listed sources and destinations are exactly the references read and written by the
    assignments.  [access_eqb] is the equality Python sets use; all that is assumed is that equal
    accesses describe the same references. *)
Theorem C16_sources_destinations : forall access_eqb,
  eqb_sound access_eqb ->
  forall stmts st,
  p_assignments access_eqb stmts empty_state = Ok st ->
  (forall n subs, In (n, subs) (flat_map stmt_reads stmts) ->
     exists a, listed (sources st) n a /\ describes a subs) /\
  (forall n a, listed (sources st) n a ->
     exists subs, In (n, subs) (flat_map stmt_reads stmts) /\ describes a subs) /\
  (forall n subs, In (n, subs) (flat_map stmt_writes stmts) ->
     exists a, listed (destinations st) n a /\ describes a subs) /\
  (forall n a, listed (destinations st) n a ->
     exists subs, In (n, subs) (flat_map stmt_writes stmts) /\ describes a subs).
Proof. exact analysis_exact. Qed.
Print Assumptions C16_sources_destinations.

Example C16_case : eqb_sound simple_eqb /\
  (exists st, p_assignments simple_eqb [C15_stmt] empty_state = Ok st
   /\ sources st = [("b", [Some [SVar "i"]]);
                    ("a", [Some [SAdd (SVar "i") (SInt 1)]; Some [SVar "i"]]); ("s", [None])]
   /\ destinations st = [("b", [Some [SVar "i"]])]).
Proof.
  split.
  - intros [a|] [b|] subs H; try discriminate. auto.
  - eexists. repeat split.
Qed.

(** Writes by ++ and -- inside an expression are not listed: [a = b++]. *)
Theorem C16_incdec_refuted : exists stmt st,
  p_assignments simple_eqb [stmt] empty_state = Ok st /\
  In ("b", []) (side_writes (rvalue stmt)) /\ (forall a, ~ listed (destinations st) "b" a).
Proof.
  exists (mkassign "=" (EID "a") (EUn "p++" (EID "b"))). eexists. split; [reflexivity|].
  split; [cbn; tauto|]. intros a (s & [[=]|[]] & _).
Qed.
Print Assumptions C16_incdec_refuted.
