(** C44: Stored results are identified by the arguments that matter *)
From Verif Require Import PyBase PyVal DefineModel DefineSpec DefineProofs IdentModel IdentSpec IdentProofs.
From Coq Require Import Lia.
Local Open Scope string_scope.
Local Open Scope Z_scope.
Local Open Scope list_scope.

(** Two analyses of a kernel with constants have the same identifier exactly if they have the same values of the constants, the same model and the same
    arguments other than the ignored ones; where files are the same if their names are, and lists and tuples are not distinguished. *)
Theorem C44_identifier : forall a b required c c' m m', NoDup (map fst a) -> NoDup (map fst b) -> required <> [] ->
  (exists v, In ("define", v) a) -> (exists v, In ("pmodel", v) a) -> (exists v, In ("define", v) b) -> (exists v, In ("pmodel", v) b) ->
  exists enough, forall n, (enough <= n)%nat -> exists i j, result_identifier n a required c m = Ok i /\ result_identifier n b required c' m' = Ok j /\
  (i = j <-> c = c' /\ m = m' /\ same_arguments a b).
Proof.
  intros a b required c c' m m' DA DB NE A1 A2 B1 B2. exists (largest a + largest b + vsize (define_value required c) + vsize (define_value required c'))%nat. intros n L.
  do 2 eexists. split; [apply result_identifier_picked; [apply largest_enough|]; lia|]. split; [apply result_identifier_picked; [apply largest_enough|]; lia|].
  rewrite identifier_value_inj. now apply picked_equal.
Qed.
Print Assumptions C44_identifier.

(** Converting nested lists: the results are equal exactly if the objects are equal up to the kind of their sequences, and can be used as keys. *)
Theorem C44_tuples : forall a b, exists enough, forall n, (enough <= n)%nat -> exists x y, to_tuple n a = Ok x /\ to_tuple n b = Ok y /\ (x = y <-> alike a b) /\ (no_dict a -> hashable x).
Proof.
  intros a b. exists (vsize a + vsize b)%nat. intros n L. exists (frozen a), (frozen b). split; [apply to_tuple_frozen; lia|]. split; [apply to_tuple_frozen; lia|].
  split; [apply frozen_alike|apply frozen_hashable].
Qed.
Print Assumptions C44_tuples.

(** The results of a kernel with constants can be stored. *)
Theorem C44_stored : forall R (eqb : value -> value -> bool) args required c m (r : R) d, required <> [] -> (forall k v, In (k, v) args -> no_dict v) ->
  exists enough, forall n, (enough <= n)%nat -> exists i d', result_identifier n args required c m = Ok i /\ store_result eqb i r d = Ok d'.
Proof.
  intros R eqb args required c m r d NE ND. exists (largest args + vsize (define_value required c))%nat. intros n L. do 2 eexists.
  split; [apply result_identifier_picked; [apply largest_enough|]; lia|]. unfold store_result. rewrite (proj2 (hashableb_spec _)); [reflexivity|]. now apply picked_hashable.
Qed.
Print Assumptions C44_stored.
(** A stored result replaces that with the same identifier, if there is one, and all others stay. *)
Theorem C44_others_kept : forall R (eqb : value -> value -> bool) i (r : R) d d', (forall a b, eqb a b = true <-> a = b) -> NoDup (map fst d) -> store_result eqb i r d = Ok d' ->
  NoDup (map fst d') /\ (forall x, In (i, x) d' <-> x = r) /\ forall j x, j <> i -> In (j, x) d' <-> In (j, x) d.
Proof. intros R eqb i r d d' E N H. unfold store_result in H. destruct (hashableb i); [|discriminate]. injection H as <-. now apply store_put_spec. Qed.
Print Assumptions C44_others_kept.
(** Refuted: "the results of every analysis can be stored": those of a kernel without constants cannot, a TypeError is raised after the analysis. *)
Theorem C44_stored_refuted : forall R (eqb : value -> value -> bool) args c m (r : R) d, (exists v, In ("define", v) args) ->
  exists enough, forall n, (enough <= n)%nat -> exists i, result_identifier n args [] c m = Ok i /\ store_result eqb i r d = Err TypeError.
Proof.
  intros R eqb args c m r d D. exists (largest args + 1)%nat. intros n L. eexists.
  split; [apply result_identifier_picked; [apply largest_enough|cbn]; lia|]. unfold store_result. now rewrite picked_unhashable.
Qed.
Print Assumptions C44_stored_refuted.

(** Missing: runs with a default. Runs which differ only in the order of the -D options, or in the order in which Python iterates over the set of
    constants, have the same identifiers, if no default is given. *)
Theorem C44_runs_agree_partial : forall n args required required' options options' models, Permutation required required' -> Permutation options options' ->
  (forall vs, ~ In (".", vs) options) -> run_identifiers n args required options models = run_identifiers n args required' options' models.
Proof. exact run_identifiers_agree. Qed.
Print Assumptions C44_runs_agree_partial.

(** ** Examples and refutations *)
Definition some_args (source : string) : list (string * value) :=
  [("verbose", VInt 2); ("machine", VFile "snb.yml" "..."); ("code_file", VFile "2d.c" source); ("define", VList []); ("pmodel", VList [VStr "ECM"]);
   ("cores", VInt 4); ("json", VNone); ("unit", VStr "cy/CL"); ("store", VFile "out.pickle" "")].

(** Refuted: "the same arguments, the same identifier": with a default the order of the set of constants decides, which changes with Python's hash seed. *)
Theorem C44_default_refuted : exists i j, run_identifiers 10 (some_args "") ["M"; "N"] [(".", [100])] ["ECM"] = Ok [i] /\
  run_identifiers 10 (some_args "") ["N"; "M"] [(".", [100])] ["ECM"] = Ok [j] /\ i <> j.
Proof. do 2 eexists. split; [reflexivity|]. split; [reflexivity|]. intros [=]. Qed.
Print Assumptions C44_default_refuted.
(** Refuted: "different kernels, different identifiers": only the name of the file counts. *)
Theorem C44_content_refuted : forall s t, exists i, result_identifier 10 (some_args s) ["N"] [("N", 1)] "ECM" = Ok i /\ result_identifier 10 (some_args t) ["N"] [("N", 1)] "ECM" = Ok i.
Proof. intros s t. eexists. split; reflexivity. Qed.
Print Assumptions C44_content_refuted.
(** Refuted: "arguments which do not change the results do not change the identifier": the name of the JSON file does. *)
Theorem C44_json_refuted : exists i j, result_identifier 10 (("json", VFile "a.json" "") :: nil ++ [("define", VList []); ("pmodel", VList [])]) ["N"] [("N", 1)] "ECM" = Ok i /\
  result_identifier 10 (("json", VFile "b.json" "") :: nil ++ [("define", VList []); ("pmodel", VList [])]) ["N"] [("N", 1)] "ECM" = Ok j /\ i <> j.
Proof. do 2 eexists. split; [reflexivity|]. split; [reflexivity|]. intros [=]. Qed.
Print Assumptions C44_json_refuted.

Example C44_identifier_ex : result_identifier 10 (some_args "") ["N"] [("N", 1)] "ECM" =
  Ok (VTuple [VTuple [VStr "code_file"; VStr "2d.c"]; VTuple [VStr "cores"; VInt 4]; VTuple [VStr "define"; VTuple [VTuple [VStr "N"; VInt 1]]];
              VTuple [VStr "json"; VNone]; VTuple [VStr "machine"; VStr "snb.yml"]; VTuple [VStr "pmodel"; VStr "ECM"]]).
Proof. reflexivity. Qed.
Example C44_identifier_hyps : NoDup (map fst (some_args "")) /\ (exists v, In ("define", v) (some_args "")) /\ (exists v, In ("pmodel", v) (some_args "")).
Proof.
  split; [|split; eexists; cbn; eauto 10]. cbn. repeat (constructor; [cbn; intuition discriminate|]). constructor.
Qed.
Example C44_tuples_ex : to_tuple 20 (VList [VInt 1; VTuple [VList [VStr "a"]; VInt 2]; VList []]) = Ok (VTuple [VInt 1; VTuple [VTuple [VStr "a"]; VInt 2]; VTuple []]).
Proof. reflexivity. Qed.
Example C44_stored_ex : forall k v, In (k, v) (some_args "") -> no_dict v.
Proof.
  cbn. intros k v H. assert (A : forall w, elements w = None -> (forall l, w <> VDict l) -> no_dict w) by (intros w E D; now apply nd_atom).
  repeat (destruct H as [H|H]; [injection H as <- <-; (apply A; easy) || (eapply nd_elements; [reflexivity|repeat (constructor; [apply A; easy|]); constructor])|]). easy.
Qed.
Example C44_stored_refuted_ex : exists i, result_identifier 10 (some_args "") [] [] "LC" = Ok i /\ store_result (fun _ _ => true) i tt [] = Err TypeError.
Proof. eexists. split; reflexivity. Qed.
Example C44_runs_agree_ex : run_identifiers 10 (some_args "") ["M"; "N"] [("N", [3]); ("M", [4; 5])] ["ECM"; "LC"] = run_identifiers 10 (some_args "") ["N"; "M"] [("M", [4; 5]); ("N", [3])] ["ECM"; "LC"]
  /\ exists l, run_identifiers 10 (some_args "") ["M"; "N"] [("N", [3]); ("M", [4; 5])] ["ECM"; "LC"] = Ok l /\ List.length l = 4%nat.
Proof. split; [reflexivity|]. eexists. split; reflexivity. Qed.
Example C44_others_kept_ex : store_result (fun a b => match a, b with VInt x, VInt y => x =? y | _, _ => false end) (VInt 2) "new" [(VInt 1, "a"); (VInt 2, "old"); (VInt 3, "c")]
  = Ok [(VInt 1, "a"); (VInt 2, "new"); (VInt 3, "c")].
Proof. reflexivity. Qed.
