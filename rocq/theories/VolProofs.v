(** Proofs for C139 and C140. *)
From Coq Require Import String Permutation Sorted QArith Qabs Lqa Lia.
From Verif Require Import PyBase PyBaseFacts PyNum PyNumFacts PyText PyInt PyFloat PyStr EcmModel InfoModel InfoSpec InfoProofs VolModel VolSpec.
Local Open Scope list_scope.

(** ** Transfers *)
Lemma fixed0_int q : (0 <= q)%Q -> fixed0 q = show_int (round_even q).
Proof.
  intros H. unfold fixed0. destruct (Qltb_spec q 0) as [L|_]; [lra|]. cbn [app]. assert (R : (0 <= round_even q)%Z).
  { pose proof (round_even_near q) as N. apply Qabs_Qle_condition in N as [N _]. destruct (Z.le_gt_cases 0 (round_even q)) as [|G]; [assumption|]. exfalso.
    assert (inject_Z (round_even q) <= inject_Z (-1))%Q by (rewrite <- Zle_Qle; lia). change (inject_Z (-1)) with (-1 # 1)%Q in *. lra. }
  rewrite Z.abs_eq by exact R. destruct (round_even q) as [|p|p]; [reflexivity|reflexivity|lia].
Qed.
Lemma round_rounded q : rounded (round_even q) q.
Proof. pose proof (round_even_near q) as N. apply Qabs_Qle_condition in N. unfold rounded. lra. Qed.
Lemma minus_word a b : word a -> word b -> word (a ++ codes "-" ++ b).
Proof.
  intros (A1 & A2 & A3) (B1 & B2 & B3). split; [destruct a; [contradiction|discriminate]|].
  split; intros I; apply in_app_or in I as [I|I]; [contradiction|destruct I as [I|I]; [discriminate|contradiction]|contradiction|destruct I as [I|I]; [discriminate|contradiction]].
Qed.
Lemma transfer_says line_size upper lower l s : word upper -> word lower -> (0 <= l * inject_Z line_size)%Q -> (0 <= s * inject_Z line_size)%Q ->
  says (transfer_row line_size upper lower l s) upper lower (round_even (l * inject_Z line_size)) (round_even (s * inject_Z line_size)).
Proof.
  intros U L PL PS. unfold transfer_row. rewrite (fixed0_int _ PL), (fixed0_int _ PS). set (a := show_int (round_even (l * inject_Z line_size))). set (b := show_int (round_even (s * inject_Z line_size))).
  exists a, b. split; [|split; apply show_int_read].
  rewrite words_bar, words_rjust, (words_word _ (minus_word _ _ U L)). cbn [app]. f_equal. f_equal.
  replace (rjust 3 a ++ codes " B/CL | " ++ rjust 3 b ++ codes " B/CL |") with ((rjust 3 a ++ 32%N :: codes "B/CL") ++ codes " | " ++ (rjust 3 b ++ 32%N :: codes "B/CL |")) by (rewrite <- !app_assoc; reflexivity).
  rewrite words_bar, !words_app, !words_rjust, (words_word a (show_word _)), (words_word b (show_word _)). reflexivity.
Qed.
Lemma fixed0_one_line q : one_line (fixed0 q).
Proof.
  unfold fixed0. apply one_line_app; [destruct (Qltb q 0); intros I; [destruct I as [I|[]]; discriminate|destruct I]|]. intros I.
  destruct (show_nat_spec (Z.to_N (Z.abs (round_even q)))) as (_ & H & _). rewrite forallb_forall in H. specialize (H _ I). discriminate.
Qed.
Lemma transfer_one_line line_size upper lower l s : word upper -> word lower -> one_line (transfer_row line_size upper lower l s).
Proof.
  intros U L. unfold transfer_row. apply one_line_app; [apply rjust_one_line, word_one_line, minus_word; assumption|].
  apply one_line_app; [apply concrete_one_line; reflexivity|]. apply one_line_app; [apply rjust_one_line, fixed0_one_line|].
  apply one_line_app; [apply concrete_one_line; reflexivity|]. apply one_line_app; [apply rjust_one_line, fixed0_one_line|apply concrete_one_line; reflexivity].
Qed.
Lemma rows_say line_size loads stores : forall levels upper i, word upper -> Forall word levels -> (i + List.length levels <= List.length loads)%nat -> (i + List.length levels <= List.length stores)%nat ->
  exists rows, transfer_rows line_size upper i levels loads stores = Ok (unlines rows) /\ Forall one_line rows /\ List.length rows = List.length levels /\
    forall j u d l s, nth_error (upper :: levels) j = Some u -> nth_error levels j = Some d -> nth_error loads (i + j) = Some l -> nth_error stores (i + j) = Some s ->
      nth_error rows j = Some (transfer_row line_size u d l s).
Proof.
  induction levels as [|lower levels IH]; intros upper i U F LL LS; cbn [transfer_rows].
  - exists []. split; [reflexivity|]. split; [constructor|]. split; [reflexivity|]. intros [|j] u d l s _ D; discriminate D.
  - cbn [List.length] in LL, LS. inversion F as [|? ? W F']; subst. unfold nth_res. destruct (nth_error loads i) as [l|] eqn:EL; [|apply nth_error_None in EL; lia]. destruct (nth_error stores i) as [s|] eqn:ES; [|apply nth_error_None in ES; lia]. cbn [bind].
    destruct (IH lower (S i) W F' ltac:(lia) ltac:(lia)) as (rows & -> & O & LR & N). cbn [bind]. exists (transfer_row line_size upper lower l s :: rows). rewrite unlines_cons. split; [reflexivity|]. split; [constructor; [now apply transfer_one_line|assumption]|].
    split; [cbn; now rewrite LR|]. intros [|j] u d l' s' HU HD HL HS; cbn [nth_error] in *; [rewrite Nat.add_0_r in HL, HS; congruence|]. apply (N j u d); try assumption; replace (S i + j)%nat with (i + S j)%nat by lia; assumption.
Qed.

(** ** Order of accesses *)
Lemma from_end_pad n a k : from_end (repeat 0%Z n ++ a) k = from_end a k.
Proof.
  unfold from_end. rewrite rev_app_distr. destruct (Nat.lt_ge_cases k (List.length (rev a))) as [L|G]; [now rewrite app_nth1|]. rewrite app_nth2 by assumption. rewrite (nth_overflow (rev a)) by assumption.
  destruct (nth_in_or_default (k - List.length (rev a)) (rev (repeat 0%Z n)) 0%Z) as [I|E]; [|exact E]. apply in_rev, repeat_spec in I. exact I.
Qed.
Lemma from_end_top x a : from_end (x :: a) (List.length a) = x.
Proof. unfold from_end. cbn [rev]. rewrite app_nth2; rewrite rev_length; [now rewrite Nat.sub_diag|lia]. Qed.
Lemma from_end_rest x a k : k <> List.length a -> from_end (x :: a) k = from_end a k.
Proof.
  intros N. unfold from_end. cbn [rev]. destruct (Nat.lt_ge_cases k (List.length a)) as [L|G]; [now rewrite app_nth1 by (rewrite rev_length; lia)|].
  rewrite !nth_overflow; [reflexivity| |]; rewrite ?app_length, ?rev_length; cbn; lia.
Qed.
Lemma from_end_over a k : (List.length a <= k)%nat -> from_end a k = 0%Z.
Proof. intros H. apply nth_overflow. now rewrite rev_length. Qed.
Lemma compare_spec : forall a b, List.length a = List.length b ->
  match compare_tuples a b with Lt => before a b | Gt => before b a | Eq => forall k, from_end a k = from_end b k end.
Proof.
  induction a as [|x a IH]; intros [|y b] L; try discriminate L; cbn [compare_tuples]; [reflexivity|]. cbn [List.length] in L. injection L as L.
  destruct (Z.compare_spec x y) as [->|H|H].
  - specialize (IH b L). destruct (compare_tuples a b).
    + intros k. destruct (Nat.eq_dec k (List.length a)) as [->|N]; [rewrite from_end_top, L, from_end_top; reflexivity|]. rewrite !from_end_rest by congruence. apply IH.
    + destruct IH as (k & K & J). assert (k < List.length a)%nat by (destruct (Nat.lt_ge_cases k (List.length a)); [assumption|]; rewrite !from_end_over in K; lia).
      exists k. rewrite !from_end_rest by lia. split; [assumption|]. intros j HJ. destruct (Nat.eq_dec j (List.length a)) as [->|N]; [rewrite from_end_top, L, from_end_top; reflexivity|]. rewrite !from_end_rest by congruence. auto.
    + destruct IH as (k & K & J). assert (k < List.length a)%nat by (destruct (Nat.lt_ge_cases k (List.length a)); [assumption|]; rewrite !from_end_over in K; lia).
      exists k. rewrite !from_end_rest by lia. split; [assumption|]. intros j HJ. destruct (Nat.eq_dec j (List.length a)) as [->|N]; [rewrite from_end_top, L, from_end_top; reflexivity|]. rewrite !from_end_rest by congruence. auto.
  - exists (List.length a). rewrite from_end_top, L, from_end_top. split; [assumption|]. intros j HJ. rewrite !from_end_over; cbn [List.length]; try lia; reflexivity.
  - exists (List.length a). rewrite from_end_top, L, from_end_top. split; [assumption|]. intros j HJ. rewrite !from_end_over; cbn [List.length]; try lia; reflexivity.
Qed.
Lemma before_not a b : before a b -> before b a -> False.
Proof.
  intros (k & K & J) (k' & K' & J'). destruct (Nat.lt_trichotomy k k') as [H|[->|H]]; [rewrite (J k' H) in K'; lia|lia|rewrite (J' k H) in K; lia].
Qed.
Lemma before_differ a b : before a b -> (forall k, from_end a k = from_end b k) -> False.
Proof. intros (k & K & _) E. rewrite E in K. lia. Qed.
Lemma before_trans a b c : before a b -> before b c -> before a c.
Proof.
  intros (k & K & J) (k' & K' & J'). destruct (Nat.lt_trichotomy k k') as [H|[->|H]].
  - exists k'. split; [rewrite (J k' H); exact K'|]. intros j HJ. rewrite J by lia. apply J'; lia.
  - exists k'. split; [lia|]. intros j HJ. rewrite J by lia. apply J'; lia.
  - exists k. split; [rewrite <- (J' k H); exact K|]. intros j HJ. rewrite J by lia. apply J'; lia.
Qed.
Lemma before_same_l a a' b : (forall k, from_end a k = from_end a' k) -> before a b -> before a' b.
Proof. intros E (k & K & J). exists k. rewrite <- E. split; [assumption|]. intros j HJ. rewrite <- E. auto. Qed.
Lemma before_same_r a b b' : (forall k, from_end b k = from_end b' k) -> before a b -> before a b'.
Proof. intros E (k & K & J). exists k. rewrite <- E. split; [assumption|]. intros j HJ. rewrite <- E. auto. Qed.
Lemma cmp_cases a b : (uneven_tuple_cmp a b = (-1)%Z /\ before a b) \/ (uneven_tuple_cmp a b = 1%Z /\ before b a) \/ (uneven_tuple_cmp a b = 0%Z /\ forall k, from_end a k = from_end b k).
Proof.
  unfold uneven_tuple_cmp. set (n := (Nat.max (List.length a) (List.length b) - Nat.min (List.length a) (List.length b))%nat).
  set (a' := if (List.length a <? List.length b)%nat then _ else a). set (b' := if (List.length a <? List.length b)%nat then b else _).
  assert (EA : forall k, from_end a' k = from_end a k) by (intros k; unfold a'; destruct (List.length a <? List.length b)%nat; [apply from_end_pad|reflexivity]).
  assert (EB : forall k, from_end b' k = from_end b k) by (intros k; unfold b'; destruct (List.length a <? List.length b)%nat; [reflexivity|]; destruct (List.length b <? List.length a)%nat; [apply from_end_pad|reflexivity]).
  assert (L : List.length a' = List.length b').
  { unfold a', b', n. destruct (Nat.ltb_spec (List.length a) (List.length b)); [rewrite app_length, repeat_length; lia|]. destruct (Nat.ltb_spec (List.length b) (List.length a)); [rewrite app_length, repeat_length; lia|lia]. }
  pose proof (compare_spec a' b' L) as C. destruct (compare_tuples a' b').
  - right; right. split; [reflexivity|]. intros k. rewrite <- EA, <- EB. apply C.
  - left. split; [reflexivity|]. apply (before_same_l a' a b EA), (before_same_r a' b' b EB), C.
  - right; left. split; [reflexivity|]. apply (before_same_r b a' a EA), (before_same_l b' b a' EB), C.
Qed.
Notation leq := (fun a b => (uneven_tuple_cmp a b <=? 0)%Z).
Lemma leq_spec a b : leq a b = true <-> ~ before b a.
Proof.
  cbv beta. destruct (cmp_cases a b) as [(-> & B)|[(-> & B)|(-> & E)]]; split; intros H; try reflexivity; try discriminate H.
  - intros B'. exact (before_not _ _ B B').
  - contradiction.
  - intros B. apply (before_differ _ _ B). intros k. now rewrite E.
Qed.
Lemma before_total a b : before a b \/ before b a \/ forall k, from_end a k = from_end b k.
Proof. destruct (cmp_cases a b) as [(_ & B)|[(_ & B)|(_ & E)]]; auto. Qed.
Lemma leq_total a b : leq a b = true \/ leq b a = true.
Proof. rewrite !leq_spec. destruct (before_total a b) as [B|[B|E]]; [left; intros C; exact (before_not _ _ B C)|right; intros C; exact (before_not _ _ B C)|left; intros C; apply (before_differ _ _ C); intros k; now rewrite E]. Qed.
Lemma leq_trans a b c : leq a b = true -> leq b c = true -> leq a c = true.
Proof.
  rewrite !leq_spec. intros A B C. destruct (before_total a b) as [D|[D|D]]; [|contradiction|].
  - apply B. exact (before_trans _ _ _ C D).
  - apply B. exact (before_same_r _ _ _ D C).
Qed.
Lemma same_length_eq : forall a b, List.length a = List.length b -> (forall k, from_end a k = from_end b k) -> a = b.
Proof.
  intros a b L E. rewrite <- (rev_involutive a), <- (rev_involutive b). f_equal. apply (nth_ext _ _ 0%Z 0%Z); [now rewrite !rev_length|]. intros k _. apply E.
Qed.
Lemma sorted_once (l1 : list (list Z)) : forall l2, StronglySorted (fun a b => leq a b = true) l1 -> StronglySorted (fun a b => leq a b = true) l2 ->
  (forall a b, In a l1 -> In b l1 -> (forall k, from_end a k = from_end b k) -> a = b) -> Permutation l1 l2 -> l1 = l2.
Proof.
  induction l1 as [|x l1 IH]; intros l2 S1 S2 D P; [now apply Permutation_nil in P|]. destruct l2 as [|y l2]; [symmetry in P; now apply Permutation_nil in P|].
  apply StronglySorted_inv in S1 as [S1 F1]. pose proof S2 as S2'. apply StronglySorted_inv in S2 as [S2 F2]. rewrite Forall_forall in F1, F2.
  assert (E : x = y).
  { assert (Ix : In x (y :: l2)) by (apply (Permutation_in x P); now left). assert (Iy : In y (x :: l1)) by (apply (Permutation_in y (Permutation_sym P)); now left).
    destruct Ix as [->|Ix]; [reflexivity|]. destruct Iy as [->|Iy]; [reflexivity|]. apply D; [now left|now right|].
    pose proof (F1 y Iy) as A. pose proof (F2 x Ix) as B. apply leq_spec in A, B. destruct (before_total x y) as [C|[C|C]]; [contradiction|contradiction|exact C]. }
  subst y. f_equal. apply IH; [assumption|assumption| |now apply Permutation_cons_inv in P]. intros a b Ia Ib. apply D; now right.
Qed.
