(** Specification for C28-C32, independent of the code. *)
From Verif Require Import CtrModel.
From Coq Require Import Permutation.
Local Open Scope N_scope.
Local Open Scope list_scope.

(** ** C28 *)
Definition digit (c : N) : Prop := 48 <= c <= 57.
Definition upper (c : N) : Prop := 65 <= c <= 90.
Definition lower (c : N) : Prop := 97 <= c <= 122.
Definition identifier_char (c : N) : Prop := digit c \/ upper c \/ lower c \/ c = 95.
Definition identifier (s : text) : Prop := Forall identifier_char s /\ forall c, hd_error s = Some c -> ~ digit c.

(** ** C30: descriptions of registers
    Alternatives, which are sequences of characters and groups; a group has single characters and ranges. *)
Inductive member := One (c : N) | Range (a b : N).
Inductive item := Lit (c : N) | Grp (ms : list member).
Definition description := list (list item).

Definition letter_or_digit (c : N) : Prop := lower c \/ upper c \/ digit c.
(** The order a-z, A-Z, 0-9. *)
Definition rank (c : N) : N := if 97 <=? c then c - 97 else if 65 <=? c then 26 + (c - 65) else 52 + (c - 48).
Definition in_member (c : N) (m : member) : Prop :=
  match m with One d => c = d | Range a b => letter_or_digit c /\ rank a <= rank c <= rank b end.
Definition in_item (c : N) (i : item) : Prop :=
  match i with Lit d => c = d | Grp ms => exists m, In m ms /\ in_member c m end.
Definition describes (d : description) (w : text) : Prop := exists a, In a d /\ Forall2 in_item w a.

(** The text of a description. *)
Definition member_text (m : member) : text := match m with One c => [c] | Range a b => [a; 45; b] end.
Definition item_text (i : item) : text := match i with Lit c => [c] | Grp ms => 91 :: flat_map member_text ms ++ [93] end.
Definition description_text (d : description) : text := join 124 (map (flat_map item_text) d).

(** Literals are not '[', '|' or newline; members are not ']', '|', '-' or newline; no part is empty. *)
Definition good_member (m : member) : Prop :=
  match m with One c => ~ In c [93; 124; 45; 10] | Range a b => letter_or_digit a /\ letter_or_digit b end.
Definition good_item (i : item) : Prop :=
  match i with Lit c => ~ In c [91; 124; 10] | Grp ms => ms <> [] /\ Forall good_member ms end.
Definition good (d : description) : Prop := d <> [] /\ Forall (fun a => a <> [] /\ Forall good_item a) d.

(** ** C31: a schedule assigns every distinct event once to one of its registers, and no register twice in a run. *)
Definition registers_of (e : event) : list (option text) := let '(_, rs, _) := e in fst (register_options rs).
Definition measured (x : event * option text) : counter := let '((e, _, ps), r) := x in (e, r, ps).
Definition is_schedule (events : list event) (runs : list (list counter)) : Prop :=
  exists a : list (list (event * option text)),
    runs = map (map measured) a
    /\ Permutation (map fst (concat a)) (nodup event_eq_dec events)
    /\ (forall e r, In (e, r) (concat a) -> In r (registers_of e))
    /\ Forall (fun run => NoDup (map snd run)) a.
(** Events with at least one register, whose enumeration does not fail. *)
Definition usable (e : event) : Prop := let '(_, rs, _) := e in fst (register_options rs) <> [] /\ snd (register_options rs) = None.
