(** Search of block lengths: cachetile.py:46-126 and the start of ECMData in models/ecm.py:68-77 *)
From Coq Require Export String QArith.
From Verif Require Export PyBase PyNum.
Local Open Scope string_scope.
Local Open Scope Z_scope.
Local Open Scope list_scope.

Section Search.
  (** [simulate]: the sum of the cycles of an analysis with this block length (cachetile.py:32-43) *)
  Variable simulate : Z -> Q.

  (** cachetile.py:89-99: widen the window. Returns [length] and [max_length]. *)
  Fixpoint widen (fuel : nat) (min_runtime : Q) (length max_length : Z) : res (Z * Z) :=
    if negb (length <? max_length) then Ok (length, max_length) else
    match fuel with
    | O => Err OutOfFuel
    | S fuel =>
        let runtime := simulate length in
        if Qltb min_runtime runtime then widen fuel min_runtime length length
        else widen fuel min_runtime (length * 2) max_length
    end.
  (** cachetile.py:102-116: bisect. Returns [length] and [max_length]. *)
  Fixpoint bisect (fuel : nat) (min_length : Z) (min_runtime : Q) (max_length length : Z) : res (Z * Z) :=
    if negb (10 <? max_length - min_length) then Ok (length, max_length) else
    match fuel with
    | O => Err OutOfFuel
    | S fuel =>
        let length := (max_length - min_length) / 2 + min_length in
        let runtime := simulate length in
        if Qle_bool runtime min_runtime then bisect fuel length runtime max_length length
        else bisect fuel min_length min_runtime length length
    end.
  (** cachetile.py:80-126. [Some length] if it is printed and the exit code is 0, [None] if nothing was found. *)
  Definition search (fuel : nat) (min_length upper : Z) : res (option Z) :=
    let min_runtime := simulate min_length in
    do (length, max_length) <- widen fuel min_runtime (min_length * 3) upper;
    do (length, max_length) <- bisect fuel min_length min_runtime max_length length;
    Ok (if length <=? max_length then Some length else None).
End Search.

(** The arguments of the command line: cachetile.py:14-29 *)
Definition cachetile_arguments : list string := ["machine"; "define"; "min_block_length"; "verbose"; "cores"; "description_file"].
(** [ECMData.__init__] (models/ecm.py:68-77) reads these attributes of the arguments; it is called in line 63. *)
Definition read_attribute (args : list string) (name : string) : res unit := if existsb (String.eqb name) args then Ok tt else Err AttributeError.
Definition ecmdata_init (args : list string) : res unit :=
  do _ <- read_attribute args "verbose";
  do _ <- read_attribute args "cores";
  read_attribute args "cache_predictor".
(** The program, as far as the arguments and the search are concerned (cachetile.py:46-126) *)
Definition cachetile (simulate : Z -> Q) (fuel : nat) (min_length upper : Z) : res (option Z) :=
  do _ <- ecmdata_init cachetile_arguments;
  search simulate fuel min_length upper.
