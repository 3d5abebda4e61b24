(** Specification of the location of intermediate files. *)
From Coq Require Import String Ascii.
From Verif Require Import PyBase PathModel.
Local Open Scope string_scope.

Fixpoint contains (c : ascii) (s : string) : Prop :=
  match s with EmptyString => False | String d s' => d = c \/ contains c s' end.
(** A name as usual: not empty, no slash, not hidden. *)
Definition usual (s : string) : Prop :=
  s <> "" /\ ~ contains "/"%char s /\ match s with String c _ => c <> "."%char | EmptyString => True end.
(** Usual values of everything that appears in paths. *)
Definition usual_request (r : request) : Prop :=
  usual (machine_file r) /\ usual (compiler r)
  /\ flags r <> [] /\ (forall f, In f (flags r) -> usual f /\ ~ contains "_"%char f)
  /\ usual (incore_model r) /\ usual (model_parameter r) /\ usual (asm_block r) /\ usual (pointer_increment r)
  /\ forall n v, In (n, v) (constants r) -> ~ contains "/"%char n /\ ~ contains ","%char n.

(** Inputs that appear in the location of a content. *)
Definition same_compilation (a b : request) : Prop :=
  machine_file a = machine_file b /\ compiler a = compiler b /\ flags a = flags b.
Definition same_visible (k : content) (a b : request) : Prop :=
  match k with
  | KernelH | MainC => True
  | KernelC => openmp a = openmp b
  | KernelS | KernelO | Executable => same_compilation a b /\ openmp a = openmp b
  | MarkedO => same_compilation a b
  | MarkedS => same_compilation a b /\ asm_block a = asm_block b /\ pointer_increment a = pointer_increment b
  | IncoreAnalysis => same_compilation a b /\ incore_model a = incore_model b /\ model_parameter a = model_parameter b
  | LCAnalysis => cores a = cores b
  | CSIMAnalysis => cores a = cores b /\ constants a = constants b
  end.
