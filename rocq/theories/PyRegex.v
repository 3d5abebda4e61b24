(** Regular expressions with groups, matched by backtracking as in [re.match]: alternatives from left to right, repetitions as long as possible.
    Nothing in here is specific to kerncraft. Simplification: characters are ASCII (classes of Unicode are not modelled). *)
From Coq Require Import Lia String.
From Verif Require Export PyText PyInt.
Local Open Scope N_scope.
Local Open Scope list_scope.

Definition groups := list (string * text).
Inductive rx :=
| RChr (p : N -> bool)
| REmpty
| RSeq (a b : rx)
| RAlt (a b : rx)
| RStar (a : rx)
| RGroup (name : string) (a : rx)
| REnd.
Definition orelse {A} (a b : option A) : option A := match a with Some x => Some x | None => b end.

Section M.
Context {A : Type}.
Definition cont := text -> groups -> option A.
(** Repetition; an iteration without progress ends it. [n] is at least the length of the text. *)
Fixpoint star_with (body : text -> groups -> cont -> option A) (k : cont) (n : nat) (s : text) (g : groups) : option A :=
  match n with
  | O => k s g
  | S n' => orelse (body s g (fun s' g' => if (List.length s' <? List.length s)%nat then star_with body k n' s' g' else None)) (k s g)
  end.
Fixpoint rmatch (r : rx) (s : text) (g : groups) (k : cont) {struct r} : option A :=
  match r with
  | RChr p => match s with c :: s' => if p c then k s' g else None | [] => None end
  | REmpty => k s g
  | RSeq a b => rmatch a s g (fun s' g' => rmatch b s' g' k)
  | RAlt a b => orelse (rmatch a s g k) (rmatch b s g k)
  | RStar a => star_with (fun s g k => rmatch a s g k) k (List.length s) s g
  | RGroup name a => rmatch a s g (fun s' g' => k s' ((name, firstn (List.length s - List.length s') s) :: g'))
  | REnd => match s with [] => k s g | [10] => k s g | _ => None end
  end.
End M.
(** [re.match(r, s)]: the groups, and the rest of the text *)
Definition re_match (r : rx) (s : text) : option (text * groups) := rmatch r s [] (fun s g => Some (s, g)).
(** [m.groupdict()[name]] *)
Fixpoint group (name : string) (g : groups) : option text :=
  match g with [] => None | (n, t) :: g' => if String.eqb name n then Some t else group name g' end.

Definition rplus (a : rx) : rx := RSeq a (RStar a).
Definition ropt (a : rx) : rx := RAlt a REmpty.
Definition rlit (c : N) : rx := RChr (N.eqb c).
Fixpoint rword (s : text) : rx := match s with [] => REmpty | c :: s' => RSeq (rlit c) (rword s') end.
Definition is_alpha (c : N) : bool := ((65 <=? c) && (c <=? 90)) || ((97 <=? c) && (c <=? 122)).
Definition is_word (c : N) : bool := is_alpha c || is_decimal c || (c =? 95).
Definition not_decimal (c : N) : bool := negb (is_decimal c).
Definition is_blank (c : N) : bool := ((9 <=? c) && (c <=? 13)) || ((28 <=? c) && (c <=? 32)).
Definition not_blank (c : N) : bool := negb (is_blank c).

(** ** Facts *)
Section F.
Context {A : Type}.
Implicit Types (k : @cont A) (s w : text) (g : groups).
(** A repetition of a class takes all characters of the class, or less if the rest does not match. *)
Fixpoint back w (rest : text) g k : option A :=
  match w with [] => k rest g | c :: w' => orelse (back w' rest g k) (k (w ++ rest) g) end.
Definition stops (p : N -> bool) (rest : text) : Prop := match rest with c :: _ => p c = false | [] => True end.
Lemma star_class p k n w rest g : forallb p w = true -> stops p rest -> (List.length (w ++ rest) <= n)%nat ->
  star_with (fun s g k => rmatch (RChr p) s g k) k n (w ++ rest) g = back w rest g k.
Proof.
  intros P T. revert n. induction w as [|c w IH]; intros n L.
  - cbn [back app]. destruct n as [|n]; [reflexivity|]. cbn [star_with rmatch app]. destruct rest as [|d rest]; [reflexivity|]. cbn in T. now rewrite T.
  - cbn [app List.length] in L. destruct n as [|n]; [lia|]. cbn [forallb] in P. apply andb_true_iff in P as [P0 P].
    change ((c :: w) ++ rest) with (c :: (w ++ rest)). cbn [star_with rmatch back]. rewrite P0. cbn [List.length].
    destruct (Nat.ltb_spec (List.length (w ++ rest)) (S (List.length (w ++ rest)))) as [_|X]; [|lia]. now rewrite IH by (assumption || lia).
Qed.
Lemma match_star p k w rest g : forallb p w = true -> stops p rest -> rmatch (RStar (RChr p)) (w ++ rest) g k = back w rest g k.
Proof. intros P T. cbn [rmatch]. now apply star_class. Qed.
Lemma back_some w rest g k x : k rest g = Some x -> back w rest g k = Some x.
Proof. intros H. induction w as [|c w IH]; cbn [back]; [exact H|]. now rewrite IH. Qed.
Lemma back_none w rest g k : (forall u v, w = u ++ v -> k (v ++ rest) g = None) -> back w rest g k = None.
Proof.
  intros H. induction w as [|c w IH]; cbn [back]; [exact (H [] [] eq_refl)|].
  rewrite IH by (intros u v ->; exact (H (c :: u) v eq_refl)). cbn. exact (H [] (c :: w) eq_refl).
Qed.
Lemma star_some p k w rest g x : forallb p w = true -> stops p rest -> k rest g = Some x -> rmatch (RStar (RChr p)) (w ++ rest) g k = Some x.
Proof. intros P T K. rewrite match_star by assumption. now apply back_some. Qed.
Lemma star_none p k w rest g : forallb p w = true -> stops p rest -> (forall u v, w = u ++ v -> k (v ++ rest) g = None) -> rmatch (RStar (RChr p)) (w ++ rest) g k = None.
Proof. intros P T K. rewrite match_star by assumption. now apply back_none. Qed.
(** One or more characters of a class *)
Lemma plus_some p k w rest g x : forallb p w = true -> w <> [] -> stops p rest -> k rest g = Some x -> rmatch (rplus (RChr p)) (w ++ rest) g k = Some x.
Proof.
  intros P N T K. destruct w as [|c w]; [easy|]. cbn [forallb] in P. apply andb_true_iff in P as [P0 P].
  unfold rplus. cbn [rmatch app]. rewrite P0. now apply star_some.
Qed.
Lemma plus_none p k w rest g : forallb p w = true -> stops p rest -> (forall u v, w = u ++ v -> u <> [] -> k (v ++ rest) g = None) -> rmatch (rplus (RChr p)) (w ++ rest) g k = None.
Proof.
  intros P T K. destruct w as [|c w].
  - unfold rplus. cbn [rmatch app]. destruct rest as [|d rest]; [reflexivity|]. cbn in T. now rewrite T.
  - cbn [forallb] in P. apply andb_true_iff in P as [P0 P]. unfold rplus. cbn [rmatch app]. rewrite P0.
    apply star_none; [assumption|assumption|]. intros u v ->. now apply (K (c :: u) v).
Qed.
(** Literals *)
Lemma word_match s k rest g : rmatch (rword s) (s ++ rest) g k = k rest g.
Proof. induction s as [|c s IH]; cbn [rword rmatch app rlit]; [reflexivity|]. now rewrite N.eqb_refl. Qed.
Lemma group_match name r k w rest g x : rmatch r (w ++ rest) g (fun s' g' => k s' ((name, firstn (List.length (w ++ rest) - List.length s') (w ++ rest)) :: g')) = x ->
  rmatch (RGroup name r) (w ++ rest) g k = x.
Proof. intros H. exact H. Qed.
Lemma consumed (w rest : text) : firstn (List.length (w ++ rest) - List.length rest) (w ++ rest) = w.
Proof. rewrite app_length, Nat.add_sub. rewrite firstn_app, firstn_all, Nat.sub_diag. cbn. apply app_nil_r. Qed.
(** If the rest never matches, nothing does. *)
Lemma star_fails body k n : (forall s g k', (forall u s' g', s = u ++ s' -> k' s' g' = None) -> body s g k' = None) ->
  forall s g, (forall u s' g', s = u ++ s' -> k s' g' = None) -> star_with body k n s g = None.
Proof.
  intros B. induction n as [|n IH]; intros s g K; cbn [star_with]; [exact (K [] s g eq_refl)|].
  rewrite B; [exact (K [] s g eq_refl)|]. intros u s' g' ->. destruct (_ <? _)%nat; [|reflexivity]. apply IH. intros u' s2 g2 ->. apply (K (u ++ u')). apply app_assoc.
Qed.
Lemma match_fails r : forall s g k, (forall u s' g', s = u ++ s' -> k s' g' = None) -> rmatch r s g k = None.
Proof.
  induction r; intros s g k K; cbn [rmatch].
  - destruct s as [|c s]; [reflexivity|]. destruct (p c); [|reflexivity]. exact (K [c] s g eq_refl).
  - exact (K [] s g eq_refl).
  - apply IHr1. intros u s' g' ->. apply IHr2. intros u' s2 g2 ->. apply (K (u ++ u')). apply app_assoc.
  - rewrite IHr1, IHr2 by assumption. reflexivity.
  - apply star_fails; [|assumption]. intros s0 g0 k' H. now apply IHr.
  - apply IHr. intros u s' g' ->. now apply (K u).
  - destruct s as [|c [|d s]]; [exact (K [] [] g eq_refl)| |]; destruct c as [|c]; try reflexivity;
      repeat (destruct c as [c|c|]; try reflexivity). exact (K [] [10] g eq_refl).
Qed.
End F.
