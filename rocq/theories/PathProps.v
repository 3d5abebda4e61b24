(** C19: different analyses never share an intermediate file. *)
From Coq Require Import String Ascii.
From Verif Require Import PyBase PathModel PathSpec PathProofs.
Local Open Scope string_scope.

(** For all pairs of requests made of usual names: the same file means the same kind of content, the
    same kernel, and the same value of every input that [get_intermediate_location] is given.
    Missing: unusual names, and the inputs that determine the content but are not given (below). *)
Theorem C19_same_file_partial k1 k2 a b :
  usual_request a -> usual_request b -> location k1 a = location k2 b ->
  k1 = k2 /\ components (kernel_dir a) = components (kernel_dir b) /\ kernel_file a = kernel_file b
  /\ same_visible k1 a b.
Proof. exact (location_injective k1 k2 a b). Qed.
Print Assumptions C19_same_file_partial.

Definition C19_a : request :=
  mkRequest "kernels" "2d-5pt.c" "machines" "SNB.yml" "icc" ["-O3"; "-xAVX"; "-fno-alias"] 1
    [("M", 1000); ("N", 100)] "OSACA" "SNB" "auto" "auto" false.
Definition C19_b : request :=
  mkRequest "kernels" "2d-5pt.c" "machines" "SNB.yml" "icc" ["-O3"; "-xAVX"; "-fno-alias"] 1
    [("M", 1000); ("N", -7)] "IACA" "SNB" "auto" "auto" false.
Lemma C19_usual r : In r [C19_a; C19_b] -> usual_request r.
Proof.
  assert (U : forall s c s', s = String c s' -> ~ contains "/" s -> c <> "."%char -> usual s).
  { intros s c s' -> H1 H2. now repeat split. }
  assert (N : forall c s, (if List.existsb (Ascii.eqb c) (list_ascii_of_string s) then False else True) -> ~ contains c s).
  { intros c s. induction s as [|d s IH]; cbn; [tauto|]. intros H [->|E].
    - now rewrite Ascii.eqb_refl in H.
    - destruct (Ascii.eqb c d); cbn in H; [contradiction|]. now apply IH. }
  intros [<-|[<-|[]]]; cbn;
    (repeat split; try discriminate; try (apply N; vm_compute; exact I); try (intros f [<-|[<-|[<-|[]]]]; split;
      [eapply U; [reflexivity|apply N; vm_compute; exact I|discriminate]|apply N; vm_compute; exact I]));
    try (destruct H as [[= <- _]|[[= <- _]|[]]]; apply N; vm_compute; exact I);
    try (destruct H as [<-|[<-|[<-|[]]]]; try discriminate; apply N; vm_compute; exact I);
    try (destruct H as [<-|[<-|[<-|[]]]]; discriminate).
Qed.
Example C19_case :
  usual_request C19_a /\ usual_request C19_b
  /\ location IncoreAnalysis C19_a = ["kernels"; ".2d-5pt.c_kerncraft"; "SNB.yml"; "icc"; "-O3_-xAVX_-fno-alias";
                                      "OSACA"; "SNB"; "incore_analysis.pickle.lzma"]
  /\ location CSIMAnalysis C19_b = ["kernels"; ".2d-5pt.c_kerncraft"; "1"; "(M, 1000)"; "(N, -7)";
                                    "CSIM_analysis.pickle.lzma"]
  /\ location KernelO C19_a = location KernelO C19_b
  /\ location IncoreAnalysis C19_a <> location IncoreAnalysis C19_b.
Proof.
  split; [apply C19_usual; cbn; auto|]. split; [apply C19_usual; cbn; auto|].
  split; [reflexivity|]. split; [reflexivity|]. split; [reflexivity|]. vm_compute. discriminate.
Qed.

(** Changes of a request *)
Definition with_machine (d f : string) (r : request) : request :=
  mkRequest (kernel_dir r) (kernel_file r) d f (compiler r) (flags r) (cores r) (constants r)
    (incore_model r) (model_parameter r) (asm_block r) (pointer_increment r) (openmp r).
Definition with_block (b i : string) (r : request) : request :=
  mkRequest (kernel_dir r) (kernel_file r) (machine_dir r) (machine_file r) (compiler r) (flags r) (cores r)
    (constants r) (incore_model r) (model_parameter r) b i (openmp r).
Definition with_flags (f : list string) (r : request) : request :=
  mkRequest (kernel_dir r) (kernel_file r) (machine_dir r) (machine_file r) (compiler r) f (cores r)
    (constants r) (incore_model r) (model_parameter r) (asm_block r) (pointer_increment r) (openmp r).

(** Both predictions of cache traffic depend on the caches of the machine, but all machines share
    the file. *)
Theorem C19_machine_refuted r d f :
  location LCAnalysis (with_machine d f r) = location LCAnalysis r
  /\ location CSIMAnalysis (with_machine d f r) = location CSIMAnalysis r.
Proof. split; reflexivity. Qed.
Print Assumptions C19_machine_refuted.

(** Machine files with the same name in different directories share all files. *)
Theorem C19_machine_directory_refuted k r d : location k (with_machine d (machine_file r) r) = location k r.
Proof. destruct k; reflexivity. Qed.
Print Assumptions C19_machine_directory_refuted.

(** The result of the in-core analysis and the marked object file depend on the chosen block and
    pointer increment, but all choices share the file. *)
Theorem C19_block_refuted r b i :
  location IncoreAnalysis (with_block b i r) = location IncoreAnalysis r
  /\ location MarkedO (with_block b i r) = location MarkedO r.
Proof. split; reflexivity. Qed.
Print Assumptions C19_block_refuted.

(** Different compiler flags can share all files: slashes are dropped, and '_' separates flags. *)
Theorem C19_flags_refuted k r :
  location k (with_flags ["-I/opt/a"] r) = location k (with_flags ["-Iopt/a"] r)
  /\ location k (with_flags ["-DA"; "B"] r) = location k (with_flags ["-DA_B"] r).
Proof. destruct k; split; reflexivity. Qed.
Print Assumptions C19_flags_refuted.
