(** What installing and using IACA should do, for all schedules, crash points and histories. *)
From Coq Require Import Ascii String.
From Verif Require Import PyBase IacaModel.
Local Open Scope string_scope.
Local Open Scope list_scope.

(** [p] is [b] or something in the directory [b]. *)
Definition below (b p : path) : Prop := exists q, p = b ++ q.

Section Spec.
  Variables home package : path.
  Variable system : string.
  Variable fix_script : string -> string.
  (** Name of the operating system for IACA *)
  Definition own (o : string) : Prop := (system = "Linux" /\ o = "lin64") \/ (system = "Darwin" /\ o = "mac").
  Definition in_home (b : path) : Prop := exists o, own o /\ b = home ++ [".kerncraft"; "iaca"; o].
  Definition in_package (b : path) : Prop := exists o, own o /\ b = package ++ ["iaca"; o].
  Definition location (b : path) : Prop := in_home b \/ in_package b.
  (** The locations are two directories, none of them inside the other. *)
  Definition apart : Prop := forall a b, in_home a -> in_package b -> ~ below a b /\ ~ below b a.

  (** ** Histories *)
  (** One call of iaca_get: where it installs, its arguments and what it downloads *)
  Record call := Call { place : path; arguments : list string; downloads : string -> string -> res zip }.
  (** Files, installations which are going on (with the steps still to be done), and all calls so far which began to install *)
  Record state := State { files : fs; running : list (path * list op); calls : list call }.
  (** Calls of iaca_get begin at any time and go on in any order, next to each other. Those which are interrupted just never go on. Other programs do what they like outside of the locations. *)
  Inductive step : state -> state -> Prop :=
  | Begin : forall st args permitted archives b first rest s',
      main home package system fix_script args permitted archives (files st) = Install b (first :: rest) -> apply first (files st) = Ok s' ->
      step st (State s' ((b, rest) :: running st) (Call b args archives :: calls st))
  | GoOn : forall st l1 l2 b o rest s',
      running st = l1 ++ (b, o :: rest) :: l2 -> apply o (files st) = Ok s' -> step st (State s' (l1 ++ (b, rest) :: l2) (calls st))
  | Other : forall st s', (forall b p, location b -> below b p -> s' p = files st p) -> step st (State s' (running st) (calls st)).
  Inductive later (st : state) : state -> Prop :=
  | Now : later st st
  | Then : forall st1 st2, later st st1 -> step st1 st2 -> later st st2.
  (** A machine on which nothing has been installed yet *)
  Definition fresh (st : state) : Prop := running st = [] /\ calls st = [] /\ forall b p, location b -> below b p -> files st p = None.
  Definition reachable (st : state) : Prop := exists st0, fresh st0 /\ later st0 st.

  (** ** Complete installations *)
  (** The file [q] in the directory [dir] of an archive has the content [c]; the last file of this name counts. Hidden files do not belong to it. *)
  Definition visible (q : path) : Prop := forall n, In n q -> forall r, n <> String "."%char r.
  Definition archived (z : zip) (dir : string) (q : path) (c : string) : Prop :=
    q <> [] /\ visible q /\ exists z1 z2, z = z1 ++ (dir :: q, c) :: z2 /\ forall c', ~ In (dir :: q, c') z2.
  Definition script_name : path := ["bin"; "iaca.sh"].
  (** The directory [d] holds the files of the archive and nothing else, with the script (if there is one) corrected and the programs executable. *)
  Definition holds (s : fs) (d : path) (z : zip) (dir : string) (script : bool) : Prop :=
    (forall q c, archived z dir q c -> exists x, s (d ++ q) = Some (File x (if script then if path_eqb q script_name then fix_script c else c else c))) /\
    (forall q n, q <> [] -> s (d ++ q) = Some n -> exists c, archived z dir q c) /\
    (forall q, In q (if script then [["bin"; "iaca"]; script_name] else [["iaca"]]) -> exists c, s (d ++ q) = Some (File true c)).
  (** A complete installation for the operating system [o] from the given archives *)
  Definition directory (v o : string) : string := if String.eqb v "v2.1" then if String.eqb o "mac" then "iaca-mac64" else "iaca-" ++ o else "iaca-" ++ o.
  Definition complete (s : fs) (b : path) (o : string) (archives : string -> string -> res zip) : Prop :=
    (forall v, In v ["v2.1"; "v2.2"; "v2.3"; "v3.0"] -> exists z, archives v o = Ok z /\ holds s (b ++ [v]) z (directory v o) (negb (String.eqb v "v3.0"))) /\
    resolve s (b ++ ["bin"; "iaca2.1"]) = s (b ++ ["v2.1"; "bin"; "iaca.sh"]) /\ resolve s (b ++ ["bin"; "iaca2.2"]) = s (b ++ ["v2.2"; "bin"; "iaca.sh"]) /\
    resolve s (b ++ ["bin"; "iaca2.3"]) = s (b ++ ["v2.3"; "bin"; "iaca.sh"]) /\ resolve s (b ++ ["bin"; "iaca3.0"]) = s (b ++ ["v3.0"; "iaca"]).
  (** Archives with all programs *)
  Definition usable (o : string) (archives : string -> string -> res zip) : Prop :=
    (forall v, In v ["v2.1"; "v2.2"; "v2.3"] -> exists z c c', archives v o = Ok z /\ archived z (directory v o) ["bin"; "iaca"] c /\ archived z (directory v o) script_name c') /\
    exists z c, archives "v3.0" o = Ok z /\ archived z (directory "v3.0" o) ["iaca"] c.
End Spec.

(** ** Use *)
(** The version of IACA for a microarchitecture, as the installation says (iaca_get.py:163, 197, 231), and the option for 64 bit code which versions 2 need *)
Definition supports (arch exec version : string) (options : list string) : Prop :=
  (In arch ["NHM"; "WSM"] /\ exec = "iaca2.2" /\ version = "v2.2" /\ options = ["-64"]) \/
  (In arch ["SNB"; "IVB"] /\ exec = "iaca2.3" /\ version = "v2.3" /\ options = ["-64"]) \/
  (In arch ["HSW"; "BDW"; "SKL"; "SKX"] /\ exec = "iaca3.0" /\ version = "v3.0" /\ options = []).
(** PATH after several analyses *)
Fixpoint analyses (home package : path) (system : string) (s : fs) (env : environment) (l : list (string * string)) : environment :=
  match l with [] => env | (arch, file) :: l' => analyses home package system s (snd (analyse home package system s env arch file)) l' end.
