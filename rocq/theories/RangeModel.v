(** Values of constants on the command line: kerncraft.py:29-57 and 88-128 *)
From Verif Require Export PyBase PyNum PyText PyInt.
Local Open Scope N_scope.
Local Open Scope list_scope.

(** ** The regular expression (kerncraft.py:105-107): a match of the beginning of the text. As a group only fails where no shorter match of what is before
    helps, there is no backtracking. Simplification: only ASCII digits. *)
Fixpoint take_digits (s : text) : text * text :=
  match s with
  | c :: s' => if is_decimal c then (c :: fst (take_digits s'), snd (take_digits s')) else ([], s)
  | [] => ([], [])
  end.
Definition digits1 (s : text) : option (text * text) := match take_digits s with ([], _) => None | x => Some x end.
(** One character, if it is there: [c?] (kerncraft.py:105-107) *)
Definition skip (c : N) (s : text) : text := match s with x :: s' => if x =? c then s' else s | [] => [] end.
Record range := mkRange { start : text; stop : option text; count : option text; log : bool; base : option text }.
(** [(:?(?P<log>log)(:?(?P<base>\d+))?)?] (kerncraft.py:105-107) *)
Definition read_log (s : text) : bool * option text :=
  match skip 58 s with
  | 108 :: 111 :: 103 :: r => (true, match digits1 (skip 58 r) with Some (d, _) => Some d | None => None end)
  | _ => (false, None)
  end.
Definition read_range (s : text) : option range :=
  match digits1 s with
  | None => None
  | Some (a, r) =>
      match r with
      | 45 :: r1 =>
          match digits1 r1 with
          | None => Some (mkRange a None None false None)
          | Some (b, r2) =>
              match r2 with
              | 58 :: r3 =>
                  match digits1 r3 with
                  | None => Some (mkRange a (Some b) None false None)
                  | Some (n, r4) => Some (mkRange a (Some b) (Some n) (fst (read_log r4)) (snd (read_log r4)))
                  end
              | _ => Some (mkRange a (Some b) None false None)
              end
          end
      | _ => Some (mkRange a None None false None)
      end
  end.

(** ** [space]: kerncraft.py:29-57 *)
(** Exact numbers instead of floats. [logarithm] and [power] are [math.log(x, base)] and [base ** x] (kerncraft.py:29-57). *)
Section Space.
  Variable logarithm : Z -> Z -> res Q.
  Variable power : Z -> Q -> Q.
  Definition int_q (z : Z) : Q := inject_Z z.
  Definition steps (num : Z) : list Z := map Z.of_nat (seq 0 (Z.to_nat num)).
  Definition space (start stop num : Z) (endpoint log : bool) (base : Z) : res (list Z) :=
    if (num <? 2)%Z then Err AssertionError else
    do a <- (if log then logarithm start base else Ok (int_q start));
    do b <- (if log then logarithm stop base else Ok (int_q stop));
    let step := ((b - a) / (if endpoint then int_q (num - 1) else int_q num))%Q in
    Ok (map (fun i => round_even (if log then power base (a + int_q i * step) else a + int_q i * step)%Q) (steps num)).

  (** kerncraft.py:99-123: the values. An ArgumentError ends the program. *)
  Definition int_of (s : text) : Z := Z.of_N (PyInt.value s).
  Definition int_range (a b : Z) : list Z := map (fun i => (a + Z.of_nat i)%Z) (seq 0 (Z.to_nat (b - a))).
  Definition range_values (s : text) : res (list Z) :=
    match read_range s with
    | None => Err SystemExit
    | Some r =>
        match stop r with
        | None => Ok [int_of (start r)]
        | Some b =>
            match count r with
            | None => Ok (int_range (int_of (start r)) (int_of b + 1))
            | Some n => space (int_of (start r)) (int_of b) (int_of n) true (log r) (match base r with Some x => int_of x | None => 10%Z end)
            end
        end
    end.
End Space.
