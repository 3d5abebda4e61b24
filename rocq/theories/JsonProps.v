(** C53: JSON export keeps results *)
From Verif Require Import PyBase PyNum PyVal JsonModel JsonSpec JsonProofs.
Local Open Scope string_scope.
Local Open Scope Z_scope.
Local Open Scope list_scope.

(** The result can be written as JSON, whatever [str] returns. *)
Theorem C53_json : forall str v, is_json (jsonify str v).
Proof. exact jsonify_json. Qed.
Print Assumptions C53_json.

(** What is JSON already is not changed. *)
Theorem C53_unchanged : forall str v, is_json v -> well_formed v -> jsonify str v = v.
Proof. exact jsonify_same. Qed.
Print Assumptions C53_unchanged.

(** Missing: dictionaries whose keys are no longer different as texts. Otherwise every entry is kept, in order, with its value converted; *)
Theorem C53_entries_partial : forall str l, distinct_keys (map (fun p => json_key str (fst p)) l) ->
  jsonify str (VDict l) = VDict (map (fun p => (json_key str (fst p), jsonify str (snd p))) l).
Proof. exact jsonify_dict. Qed.
Print Assumptions C53_entries_partial.
(** and so is every element of a list or tuple. *)
Theorem C53_elements : forall str l, jsonify str (VList l) = VList (map (jsonify str) l) /\ jsonify str (VTuple l) = VTuple (map (jsonify str) l).
Proof. split; reflexivity. Qed.
Print Assumptions C53_elements.

(** Refuted: "no entry is lost": keys which are equal as texts are merged, the first value is lost. *)
Theorem C53_entries_refuted : forall str k v w, is_key k = false -> jsonify str (VDict [(k, v); (VStr (str k), w)]) = VDict [(VStr (str k), jsonify str w)].
Proof.
  intros str k v w K. cbn [jsonify map fst snd fold_left]. unfold json_key at 2. rewrite K. cbn [put_key is_key]. unfold json_key. cbn [is_key key_eqb]. now rewrite String.eqb_refl.
Qed.
Print Assumptions C53_entries_refuted.
(** Refuted: "JSON data is not changed": null becomes a text. *)
Theorem C53_null_refuted : forall str, jsonify str VNone = VStr (str VNone).
Proof. reflexivity. Qed.
Print Assumptions C53_null_refuted.
(** Refuted: "the result is valid JSON": infinities and NaN are kept, and written as Infinity and NaN, which are not JSON. *)
Theorem C53_infinity_refuted : forall str, jsonify str (VFloat PInf) = VFloat PInf /\ jsonify str (VFloat NaN) = VFloat NaN.
Proof. split; reflexivity. Qed.
Print Assumptions C53_infinity_refuted.

(** ** Examples *)
Definition some_str (v : value) : string := match v with VNone => "None" | VObj _ => "4.0 cy/CL" | VTuple _ => "('N', 10)" | _ => "?" end.
Definition some_result : value := VDict [(VTuple [VStr "N"; VInt 10], VDict [(VStr "cycles", VList [VTuple [VStr "L1-L2"; VFloat (Fin (3 # 2))]]); (VStr "perf", VObj 7); (VInt 3, VNone)]); (VNone, VInt 3)].
Example C53_json_ex : jsonify some_str some_result =
  VDict [(VStr "('N', 10)", VDict [(VStr "cycles", VList [VTuple [VStr "L1-L2"; VFloat (Fin (3 # 2))]]); (VStr "perf", VStr "4.0 cy/CL"); (VInt 3, VStr "None")]); (VStr "None", VInt 3)].
Proof. reflexivity. Qed.
Example C53_unchanged_ex : let v := VDict [(VStr "a", VInt 1); (VInt 1, VList [VBool true; VStr "x"])] in is_json v /\ well_formed v.
Proof.
  split; [repeat constructor|]. apply wf_dict.
  - repeat constructor; cbn; intros k H; repeat (destruct H as [<-|H]; [reflexivity|]); easy.
  - constructor; [apply wf_atom; easy|]. constructor; [|constructor]. eapply wf_elements; [reflexivity|]. repeat (constructor; [apply wf_atom; easy|]). constructor.
Qed.
Example C53_entries_ex : distinct_keys (map (fun p => json_key some_str (fst p)) [(VNone, VInt 1); (VTuple [], VInt 2); (VInt 0, VInt 3)]).
Proof. repeat constructor; cbn; intros k H; repeat (destruct H as [<-|H]; [reflexivity|]); easy. Qed.
Example C53_entries_refuted_ex : jsonify some_str (VDict [(VNone, VInt 1); (VStr "None", VInt 2)]) = VDict [(VStr "None", VInt 2)].
Proof. reflexivity. Qed.
