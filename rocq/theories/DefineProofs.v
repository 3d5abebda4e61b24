From Coq Require Import Lia.
From Verif Require Import PyBase PyBaseFacts PyStr DefineModel DefineSpec.
Local Open Scope string_scope.
Local Open Scope Z_scope.
Local Open Scope list_scope.

(** ** The order of options *)
Lemma values_leb_spec a b : values_leb a b = true <-> lex_le a b.
Proof.
  revert b. induction a as [|x a IH]; intros [|y b]; cbn.
  - split; [constructor|easy].
  - split; [constructor|easy].
  - split; [discriminate|inversion 1].
  - destruct (Z.ltb_spec x y); [split; [now constructor|easy]|]. destruct (Z.ltb_spec y x).
    + split; [discriminate|]. inversion 1; lia.
    + assert (x = y) by lia. subst y. rewrite IH. split; [now constructor|]. inversion 1; [lia|easy].
Qed.
Lemma lex_total a b : lex_le a b \/ lex_le b a.
Proof.
  revert b. induction a as [|x a IH]; intros [|y b]; [left; constructor|left; constructor|right; constructor|].
  destruct (Z.lt_trichotomy x y) as [L|[->|L]]; [left; now constructor| |right; now constructor].
  destruct (IH b); [left|right]; now apply lex_eq.
Qed.
Lemma lex_trans a b c : lex_le a b -> lex_le b c -> lex_le a c.
Proof.
  intros H. revert c. induction H as [b|x y a b L|x a b H IH]; intros c K; [constructor| |].
  - inversion K; subst; [apply lex_lt; lia|now apply lex_lt].
  - inversion K; subst; [now apply lex_lt|apply lex_eq; auto].
Qed.
Lemma lex_antisym a b : lex_le a b -> lex_le b a -> a = b.
Proof.
  intros H. induction H as [b|x y a b L|x a b H IH]; intros K; [now inversion K| |].
  - inversion K; subst; lia.
  - inversion K; subst; [lia|]. f_equal. auto.
Qed.
Lemma opt_leb_spec a b : opt_leb a b = true <-> String.leb (fst a) (fst b) = true /\ (fst a = fst b -> lex_le (snd a) (snd b)).
Proof.
  unfold opt_leb, String.leb. destruct (String.compare (fst a) (fst b)) eqn:E.
  - apply String.compare_eq_iff in E. rewrite values_leb_spec. split; [auto|]. intros [_ H]. auto.
  - split; [|easy]. intros _. split; [easy|]. intros F. rewrite F, str_compare_refl in E. discriminate.
  - split; [discriminate|]. now intros [H _].
Qed.
Lemma str_leb_antisym a b : String.leb a b = true -> String.leb b a = true -> a = b.
Proof. apply String.leb_antisym. Qed.
Lemma opt_total a b : opt_leb a b = true \/ opt_leb b a = true.
Proof.
  rewrite !opt_leb_spec. destruct (string_dec (fst a) (fst b)) as [E|E].
  - rewrite E, str_leb_refl. destruct (lex_total (snd a) (snd b)); auto.
  - destruct (String.leb_total (fst a) (fst b)); [left|right]; split; auto; congruence.
Qed.
Lemma opt_trans a b c : opt_leb a b = true -> opt_leb b c = true -> opt_leb a c = true.
Proof.
  rewrite !opt_leb_spec. intros [A AE] [B BE]. split; [now apply str_leb_trans with (fst b)|]. intros E.
  assert (F : fst a = fst b) by (apply str_leb_antisym; [easy|]; now rewrite E). apply lex_trans with (snd b); [now apply AE|]. apply BE. congruence.
Qed.
Lemma opt_antisym a b : opt_leb a b = true -> opt_leb b a = true -> a = b.
Proof.
  rewrite !opt_leb_spec. intros [A AE] [B BE]. assert (E : fst a = fst b) by now apply str_leb_antisym. destruct a, b; cbn in *. subst. f_equal. apply lex_antisym; auto.
Qed.
Notation sorted_options l := (sort_with opt_leb l).
Lemma sorted_perm l : Permutation l (sorted_options l). Proof. apply sort_with_perm'. Qed.
Lemma sorted_in o l : In o (sorted_options l) <-> In o l.
Proof. split; apply Permutation_in; [symmetry|]; apply sorted_perm. Qed.
Lemma sorted_canonical l l' : Permutation l l' -> sorted_options l = sorted_options l'.
Proof.
  intros P. apply (sorted_unique opt_leb opt_antisym).
  - apply (sort_with_sorted opt_leb opt_total opt_trans).
  - apply (sort_with_sorted opt_leb opt_total opt_trans).
  - now rewrite <- !sorted_perm.
Qed.

(** ** Dictionaries *)
Section Dict.
  Context {V : Type}.
  Implicit Type d : list (string * V).
  Lemma lookup_put k v k' d : lookup k (put k' v d) = if String.eqb k k' then Some v else lookup k d.
  Proof.
    induction d as [|[j w] d IH]; cbn; [easy|]. destruct (String.eqb_spec k' j) as [->|N]; cbn.
    - now destruct (String.eqb k j).
    - rewrite IH. destruct (String.eqb_spec k j) as [->|]; [|easy]. destruct (String.eqb_spec j k') as [->|]; [easy|easy].
  Qed.
  Lemma lookup_in k d : lookup k d <> None <-> In k (map fst d).
  Proof.
    induction d as [|[j w] d IH]; cbn; [easy|]. destruct (String.eqb_spec k j) as [->|N]; [split; [auto|discriminate]|]. rewrite IH. split; [auto|].
    intros [E|I]; [congruence|easy].
  Qed.
  Lemma lookup_some k v d : lookup k d = Some v -> In (k, v) d.
  Proof. induction d as [|[j w] d IH]; cbn; [easy|]. destruct (String.eqb_spec k j) as [->|N]; [intros [= <-]; auto|auto]. Qed.
  Lemma lookup_nodup k v d : NoDup (map fst d) -> In (k, v) d -> lookup k d = Some v.
  Proof.
    induction d as [|[j w] d IH]; cbn; [easy|]. intros D [E|I].
    - injection E as -> ->. now rewrite String.eqb_refl.
    - inversion D as [|? ? NI D']; subst. destruct (String.eqb_spec k j) as [->|N]; [|auto]. destruct NI. now apply (in_map fst) in I.
  Qed.
  Lemma put_keys k v d : map fst (put k v d) = if mem k (map fst d) then map fst d else map fst d ++ [k].
  Proof.
    induction d as [|[j w] d IH]; cbn; [easy|]. destruct (String.eqb_spec k j) as [->|N]; cbn; [easy|]. rewrite IH. unfold mem. now destruct (existsb _ _).
  Qed.
  Lemma mem_in k l : mem k l = true <-> In k l.
  Proof.
    unfold mem. rewrite existsb_exists. split; [intros (x & I & E); apply String.eqb_eq in E; now subst|]. intros I. exists k. split; [easy|apply String.eqb_refl].
  Qed.
  Lemma mem_nin k l : mem k l = false <-> ~ In k l.
  Proof. rewrite <- mem_in. destruct (mem k l); split; intros; congruence. Qed.
  Lemma put_nodup k v d : NoDup (map fst d) -> NoDup (map fst (put k v d)).
  Proof.
    intros D. rewrite put_keys. destruct (mem k (map fst d)) eqn:M; [easy|]. apply mem_nin in M. apply (Permutation_NoDup (Permutation_cons_append (map fst d) k)). now constructor.
  Qed.
End Dict.

(** ** Defaults *)
Lemma of_list_from (l : list opt) d k :
  (exists l1 vs l2, l = l1 ++ (k, vs) :: l2 /\ ~ In k (map fst l2) /\ lookup k (fold_left (fun d o => put (fst o) (snd o) d) l d) = Some vs) \/
  (~ In k (map fst l) /\ lookup k (fold_left (fun d o => put (fst o) (snd o) d) l d) = lookup k d).
Proof.
  revert d. induction l as [|[j w] l IH]; intros d; cbn; [now right|]. destruct (IH (put j w d)) as [(l1 & vs & l2 & -> & N & E)|[N E]].
  - left. exists ((j, w) :: l1), vs, l2. auto.
  - rewrite lookup_put in E. destruct (String.eqb_spec k j) as [->|NE].
    + left. exists [], w, l. auto.
    + right. split; [|easy]. intros [X|X]; [congruence|easy].
Qed.
Lemma default_some l vs : lookup "." (of_list (sorted_options l)) = Some vs -> default_given l vs.
Proof.
  intros H. unfold of_list in H. destruct (of_list_from (sorted_options l) [] ".") as [(l1 & ws & l2 & S & N & E)|[_ E]].
  - rewrite E in H. injection H as ->. split.
    + apply sorted_in. rewrite S. apply in_elt.
    + intros vs' I. apply sorted_in in I. assert (T := sort_with_sorted opt_leb opt_total opt_trans l). rewrite S in I, T. apply in_app_or in I as [I|[I|I]].
      * clear - T I. induction l1 as [|x l1 IH]; [easy|]. cbn in T. inversion T as [|? ? T' F]; subst. destruct I as [->|I]; [|auto].
        rewrite Forall_forall in F. assert (L := F (".", vs) (in_elt _ _ _)). apply opt_leb_spec in L as [_ L]. now apply L.
      * injection I as ->. destruct (lex_total vs' vs'); easy.
      * destruct N. now apply (in_map fst) in I.
  - rewrite E in H. discriminate.
Qed.
Lemma default_none l vs : lookup "." (of_list (sorted_options l)) = None -> ~ In (".", vs) l.
Proof.
  intros H I. unfold of_list in H. destruct (of_list_from (sorted_options l) [] ".") as [(l1 & ws & l2 & S & N & E)|[N E]]; [congruence|].
  apply N. apply sorted_in in I. now apply (in_map fst) in I.
Qed.
Lemma default_unique l vs vs' : default_given l vs -> default_given l vs' -> vs = vs'.
Proof. intros [I M] [I' M']. apply lex_antisym; auto. Qed.

(** ** The dictionary of values *)
Lemma prefill_from required (vs : list Z) d n : NoDup (map fst d) ->
  let d' := fold_left (fun d m => put m (pairs m vs) d) required d in
  NoDup (map fst d') /\ lookup n d' = if mem n required then Some (pairs n vs) else lookup n d.
Proof.
  revert d. induction required as [|m required IH]; intros d D; cbn; [easy|]. destruct (IH (put m (pairs m vs) d) (put_nodup _ _ _ D)) as [D' E]. split; [easy|].
  rewrite E. rewrite lookup_put. fold (mem n required). destruct (String.eqb_spec n m) as [->|N]; cbn; [now destruct (mem m required)|easy].
Qed.
Lemma prefill_spec required l n :
  NoDup (map fst (prefill required l)) /\
  lookup n (prefill required l) = match lookup "." (of_list l) with Some vs => if mem n required then Some (pairs n vs) else None | None => None end.
Proof.
  unfold prefill. destruct (lookup "." (of_list l)) as [vs|]; [|split; [constructor|easy]]. apply (prefill_from required vs [] n). constructor.
Qed.
Lemma add_values_app n vs l : add_values n vs l = l ++ pairs n vs.
Proof.
  unfold add_values. revert l. induction vs as [|v vs IH]; intros l; cbn; [now rewrite app_nil_r|].
  assert (E : existsb (same_object v) l = false) by (induction l; cbn; auto). rewrite E, IH. now rewrite <- app_assoc.
Qed.
Lemma pairs_app n a b : pairs n (a ++ b) = pairs n a ++ pairs n b. Proof. apply map_app. Qed.
Lemma add_option_spec required d o n : NoDup (map fst d) -> NoDup (map fst (add_option required d o)) /\
  lookup n (add_option required d o) = if mem n required && String.eqb (fst o) n then
     (match lookup n d with Some x => Some (x ++ pairs n (snd o)) | None => Some (pairs n (snd o)) end) else lookup n d.
Proof.
  intros D. unfold add_option. destruct (mem (fst o) required) eqn:M; cbn [negb].
  - assert (E : forall l, lookup n (put (fst o) l d) = if String.eqb (fst o) n then Some l else lookup n d) by (intros l; rewrite lookup_put, String.eqb_sym; easy).
    destruct (lookup (fst o) d) as [l|] eqn:L; (split; [now apply put_nodup|]); rewrite E; (destruct (String.eqb_spec (fst o) n) as [<-|N]; [|now rewrite andb_false_r]);
      rewrite M, L; cbn; [now rewrite add_values_app|easy].
  - split; [easy|]. destruct (String.eqb_spec (fst o) n) as [<-|N]; [now rewrite M|now rewrite andb_false_r].
Qed.
Lemma all_given_cons o l n : all_given (o :: l) n = (if String.eqb (fst o) n then snd o else []) ++ all_given l n.
Proof. unfold all_given. cbn. now destruct (String.eqb (fst o) n). Qed.
Lemma options_spec required l d n : NoDup (map fst d) -> let d' := fold_left (add_option required) l d in NoDup (map fst d') /\
  lookup n d' = if mem n required then
     (match lookup n d with
      | Some x => Some (x ++ pairs n (all_given l n))
      | None => if mem n (map fst l) then Some (pairs n (all_given l n)) else None
      end) else lookup n d.
Proof.
  revert d. induction l as [|o l IH]; intros d D; cbn [fold_left].
  - cbv zeta. split; [easy|]. destruct (mem n required); [|easy]. destruct (lookup n d); cbn; [now rewrite app_nil_r|easy].
  - destruct (add_option_spec required d o n D) as [D1 E1]. destruct (IH _ D1) as [D2 E2]. split; [easy|]. cbv zeta in E2. rewrite E2, E1. clear E2 E1 IH.
    destruct (mem n required); [|easy]. cbn [andb]. rewrite all_given_cons. cbn [map mem existsb]. fold (mem n (map fst l)). rewrite (String.eqb_sym n (fst o)).
    destruct (String.eqb (fst o) n); cbn [orb app]; [|easy]. destruct (lookup n d) as [x|]; rewrite pairs_app; [now rewrite app_assoc|easy].
Qed.

Lemma all_given_in l n v : In v (all_given l n) <-> values_given l n v.
Proof.
  unfold all_given, values_given. rewrite in_concat. split.
  - intros (vs & I & V). apply in_map_iff in I as ([m ws] & <- & I). apply filter_In in I as [I E]. cbn in E. apply String.eqb_eq in E as ->. now exists ws.
  - intros (vs & I & V). exists vs. split; [|easy]. apply in_map_iff. exists (n, vs). split; [easy|]. apply filter_In. split; [easy|apply String.eqb_refl].
Qed.
Lemma all_given_perm l l' n : Permutation l l' -> Permutation (all_given l n) (all_given l' n).
Proof.
  intros P. unfold all_given. rewrite <- !flat_map_concat_map. induction P; cbn.
  - easy.
  - destruct (String.eqb (fst x) n); cbn; [now apply Permutation_app_head|easy].
  - destruct (String.eqb (fst x) n), (String.eqb (fst y) n); cbn; try easy. rewrite !app_assoc. apply Permutation_app_tail, Permutation_app_comm.
  - etransitivity; eassumption.
Qed.

(** All values of a constant *)
Definition default_of (options : list opt) : list Z := match lookup "." (of_list (sorted_options options)) with Some vs => vs | None => [] end.
Definition values_of (options : list opt) (n : string) : list Z := default_of options ++ all_given (sorted_options options) n.
Definition dictionary (required : list string) (options : list opt) :=
  fold_left (add_option required) (sorted_options options) (prefill required (sorted_options options)).
Definition has_default (options : list opt) : bool := match lookup "." (of_list (sorted_options options)) with Some _ => true | None => false end.
Lemma dictionary_spec required options : NoDup (map fst (dictionary required options)) /\ forall n,
  lookup n (dictionary required options) = if mem n required && (has_default options || mem n (map fst (sorted_options options))) then Some (pairs n (values_of options n)) else None.
Proof.
  split.
  - destruct (prefill_spec required (sorted_options options) ".") as [D _]. now destruct (options_spec required (sorted_options options) _ "." D).
  - intros n. destruct (prefill_spec required (sorted_options options) n) as [D E]. destruct (options_spec required (sorted_options options) _ n D) as [_ F]. cbv zeta in F. unfold dictionary. rewrite F, E.
    unfold values_of, default_of, has_default. destruct (lookup "." (of_list (sorted_options options))) as [vs|]; destruct (mem n required); cbn; try easy. now rewrite pairs_app.
Qed.
Lemma has_default_spec options : has_default options = true <-> exists vs, In (".", vs) options.
Proof.
  unfold has_default. destruct (lookup "." (of_list (sorted_options options))) as [vs|] eqn:E.
  - split; [|easy]. intros _. apply default_some in E as [I _]. now exists vs.
  - split; [discriminate|]. intros [vs I]. now apply (default_none options vs E) in I.
Qed.
Lemma named_spec options n : mem n (map fst (sorted_options options)) = true <-> exists vs, In (n, vs) options.
Proof.
  rewrite mem_in, in_map_iff. split.
  - intros ([m vs] & <- & I). apply (proj1 (sorted_in _ _)) in I. exists vs. exact I.
  - intros [vs I]. exists (n, vs). split; [easy|now apply sorted_in].
Qed.
Lemma values_of_spec options n v : In v (values_of options n) <-> requested options n v.
Proof.
  unfold values_of, default_of, requested. rewrite in_app_iff, all_given_in.
  assert (G : values_given (sorted_options options) n v <-> values_given options n v) by (unfold values_given; split; intros (vs & I & V); exists vs; rewrite sorted_in in *; easy).
  rewrite G. destruct (lookup "." (of_list (sorted_options options))) as [vs|] eqn:E.
  - apply default_some in E. split.
    + intros [I|I]; [right; now exists vs|now left].
    + intros [I|(ws & D & I)]; [now right|]. rewrite (default_unique _ _ _ E D). now left.
  - split; [intros [[]|I]; now left|]. intros [I|(ws & [D _] & I)]; [now right|]. now apply (default_none options ws E) in D.
Qed.

(** ** Products *)
Lemma product_in {A} (l : list (list A)) c : In c (product l) <-> Forall2 (@In A) c l.
Proof.
  revert c. induction l as [|x l IH]; intros c; cbn.
  - split; [intros [<-|[]]; constructor|]. inversion 1. now left.
  - rewrite in_flat_map. split.
    + intros (a & I & M). apply in_map_iff in M as (c' & <- & C). constructor; [easy|now apply IH].
    + intros F. inversion F as [|a ? c' ? I C]; subst. exists a. split; [easy|]. apply in_map, IH, C.
Qed.
Lemma product_nodup {A} (l : list (list A)) : Forall (@NoDup A) l -> NoDup (product l).
Proof.
  induction 1 as [|x l N F IH]; cbn; [repeat constructor; easy|]. induction N as [|a x NI N IHx]; cbn; [constructor|].
  assert (DJ : forall c, In c (map (cons a) (product l)) -> ~ In c (flat_map (fun a0 => map (cons a0) (product l)) x)).
  { intros c I J. apply in_map_iff in I as (c1 & <- & _). apply in_flat_map in J as (b & B & J). apply in_map_iff in J as (c2 & E & _). injection E as -> _. easy. }
  assert (D1 : NoDup (map (cons a) (product l))) by (apply FinFun.Injective_map_NoDup; [intros u v E; now injection E|easy]).
  clear - DJ D1 IHx. induction (map (cons a) (product l)) as [|c m IHm]; cbn; [easy|]. inversion D1; subst. constructor.
  - rewrite in_app_iff. intros [I|I]; [easy|]. apply (DJ c); [now left|easy].
  - apply IHm; [|easy]. intros c' I. apply DJ. now right.
Qed.

(** ** Combinations *)
Lemma dictionary_in required options n ps : In (n, ps) (dictionary required options) -> In n required /\ ps = pairs n (values_of options n).
Proof.
  destruct (dictionary_spec required options) as [D L]. intros I. apply (lookup_nodup n ps _ D) in I. rewrite L in I.
  destruct (mem n required) eqn:M; [|discriminate]. apply mem_in in M. cbn in I. destruct (_ || _); [|discriminate]. split; congruence.
Qed.
Lemma combinations_ok required options l : required <> [] -> NoDup required -> combinations required options = Ok l ->
  Permutation (map fst (dictionary required options)) required /\ l = product (map snd (dictionary required options)).
Proof.
  intros NE ND H. unfold combinations in H. destruct required as [|r0 required]; [easy|]. set (req := r0 :: required) in *. cbv zeta in H. fold (dictionary req options) in H.
  destruct (forallb _ req) eqn:F; [|discriminate]. split; [|congruence]. apply NoDup_Permutation; [apply dictionary_spec|easy|].
  intros n. split.
  - intros I. apply in_map_iff in I as ([m ps] & <- & I). now apply dictionary_in in I.
  - intros I. rewrite forallb_forall in F. apply mem_in. now apply F.
Qed.
Lemma combinations_err required options : combinations required options = Err ValueError <->
  exists n, In n required /\ (forall vs, ~ In (n, vs) options) /\ (forall vs, ~ In (".", vs) options).
Proof.
  unfold combinations. destruct required as [|r0 required]; [split; [discriminate|intros (n & [] & _)]|]. set (req := r0 :: required). cbv zeta. fold (dictionary req options).
  destruct (forallb _ req) eqn:F.
  - split; [discriminate|]. intros (n & I & N & D). rewrite forallb_forall in F. specialize (F n I). apply mem_in, lookup_in in F.
    destruct (dictionary_spec req options) as [_ L]. rewrite L in F. apply mem_in in I. rewrite I in F. cbn in F.
    destruct (has_default options) eqn:HD; [apply has_default_spec in HD as [vs HD]; now apply D in HD|].
    destruct (mem n (map fst (sorted_options options))) eqn:M; [apply named_spec in M as [vs M]; now apply N in M|]. easy.
  - split; [|easy]. intros _. assert (X : exists n, In n req /\ mem n (map fst (dictionary req options)) = false).
    { clear - F. set (d := dictionary req options) in *. clearbody d. induction req as [|n req IH]; [discriminate|]. cbn in F. apply andb_false_iff in F as [F|F]; [exists n; split; [now left|easy]|]. destruct (IH F) as (m & I & M). exists m. split; [now right|easy]. }
    destruct X as (n & I & M). exists n. split; [easy|]. apply mem_nin in M. rewrite <- lookup_in in M. destruct (dictionary_spec req options) as [_ L]. rewrite L in M. apply mem_in in I. rewrite I in M. cbn in M.
    split; intros vs J; apply M; [rewrite (proj2 (named_spec options n)) by (now exists vs)|rewrite (proj2 (has_default_spec options)) by (now exists vs)]; [now rewrite orb_true_r|easy].
Qed.
Lemma combinations_total required options : (exists l, combinations required options = Ok l) \/ combinations required options = Err ValueError.
Proof. unfold combinations. destruct required; [left; eauto|]. cbv zeta. destruct (forallb _ _); [left; eauto|now right]. Qed.
Lemma F2_in_pairs (d : list (string * list (string * Z))) (val : string -> list Z) c : (forall n ps, In (n, ps) d -> ps = pairs n (val n)) -> Forall2 (@In (string * Z)) c (map snd d) ->
  map fst c = map fst d /\ forall n v, In (n, v) c -> In v (val n).
Proof.
  revert c. induction d as [|[m ps] d IH]; intros c E F; cbn in *; inversion F as [|[n v] ? c' ? I C]; subst; [split; [easy|intros ? ? []]|].
  destruct (IH c' (fun n ps H => E n ps (or_intror H)) C) as [M V]. rewrite (E m ps (or_introl eq_refl)) in I. apply in_map_iff in I as (w & EQ & W). injection EQ as <- <-.
  cbn. split; [now f_equal|]. intros n v [[= -> ->]|J]; [easy|now apply V].
Qed.
Lemma F2_pairs_in (d : list (string * list (string * Z))) (val : string -> list Z) (f : string -> Z) : (forall n ps, In (n, ps) d -> ps = pairs n (val n) /\ In (f n) (val n)) ->
  Forall2 (@In (string * Z)) (map (fun n => (n, f n)) (map fst d)) (map snd d).
Proof.
  induction d as [|[m ps] d IH]; intros E; cbn; constructor; [|apply IH; intros n qs I; apply E; now right].
  destruct (E m ps (or_introl eq_refl)) as [-> V]. now apply in_map.
Qed.

(** ** Constants *)
Notation name_le := (fun a b => String.leb a b = true).
Lemma name_total (a b : string * Z) : name_leb a b = true \/ name_leb b a = true.
Proof. apply String.leb_total. Qed.
Lemma name_trans (a b c : string * Z) : name_leb a b = true -> name_leb b c = true -> name_leb a c = true.
Proof. apply str_leb_trans. Qed.
Lemma sorted_names l : StronglySorted (fun a b => name_leb a b = true) l -> StronglySorted name_le (map fst l).
Proof.
  induction 1 as [|x l S IH F]; cbn; constructor; [easy|]. rewrite Forall_forall in *. intros n I. apply in_map_iff in I as (y & <- & I). now apply F.
Qed.
Lemma put_new {V} k (v : V) d : ~ In k (map fst d) -> put k v d = d ++ [(k, v)].
Proof.
  induction d as [|[j w] d IH]; cbn; [easy|]. intros N. destruct (String.eqb_spec k j) as [->|]; [tauto|]. now rewrite IH by tauto.
Qed.
Lemma constants_from c acc : NoDup (map fst (acc ++ c)) -> StronglySorted (fun a b => name_leb a b = true) acc ->
  Permutation (fold_left set_constant c acc) (acc ++ c) /\ StronglySorted (fun a b => name_leb a b = true) (fold_left set_constant c acc).
Proof.
  revert acc. induction c as [|[n v] c IH]; intros acc D S; cbn [fold_left]; [now rewrite app_nil_r|].
  assert (NI : ~ In n (map fst acc)). { rewrite map_app in D. apply NoDup_remove_2 in D. rewrite in_app_iff in D. tauto. }
  assert (P : Permutation (acc ++ [(n, v)]) (set_constant acc (n, v))) by (unfold set_constant; cbn; rewrite put_new by easy; apply sort_with_perm').
  destruct (IH (set_constant acc (n, v))) as [P' S'].
  - apply (Permutation_NoDup (l := map fst (acc ++ (n, v) :: c))); [|easy]. apply Permutation_map. rewrite <- P. now rewrite <- app_assoc.
  - apply (sort_with_sorted name_leb name_total name_trans).
  - split; [|easy]. rewrite P', <- P. now rewrite <- app_assoc.
Qed.
Lemma constants_spec c : NoDup (map fst c) -> Permutation (constants_of c) c /\ StronglySorted name_le (map fst (constants_of c)).
Proof. intros D. destruct (constants_from c [] D (SSorted_nil _)) as [P S]. split; [easy|now apply sorted_names]. Qed.
Lemma assignment_unique required f k k' : assignment required f k -> assignment required f k' -> k = k'.
Proof.
  intros (P & S & V) (P' & S' & V').
  assert (M : map fst k = map fst k') by (apply (sorted_unique String.leb str_leb_antisym); [easy|easy|now rewrite P, P']).
  assert (R : forall l, (forall n v, In (n, v) l -> v = f n) -> l = map (fun n => (n, f n)) (map fst l)).
  { clear. induction l as [|[n v] l IH]; intros V; cbn; [easy|]. rewrite <- (V n v) by now left. f_equal. apply IH. intros m w I. apply V. now right. }
  rewrite (R k V), (R k' V'). now rewrite M.
Qed.

(** ** Unique lists *)
Lemma uniquify_from_spec seen l : NoDup (uniquify_from seen l) /\ forall x, In x (uniquify_from seen l) <-> In x l /\ ~ In x seen.
Proof.
  revert seen. induction l as [|y l IH]; intros seen; cbn; [split; [constructor|easy]|]. destruct (mem y seen) eqn:M.
  - apply mem_in in M. destruct (IH seen) as [D I]. split; [easy|]. intros x. rewrite I. split; [tauto|]. intros [[->|J] N]; tauto.
  - apply mem_nin in M. destruct (IH (y :: seen)) as [D I]. split.
    + constructor; [|easy]. rewrite I. intros [_ N]. apply N. now left.
    + intros x. cbn. rewrite I. cbn. destruct (string_dec y x) as [->|NE]; [tauto|tauto].
Qed.
Lemma uniquify_nodup l : NoDup (uniquify l). Proof. apply uniquify_from_spec. Qed.
Lemma uniquify_in l x : In x (uniquify l) <-> In x l.
Proof. destruct (uniquify_from_spec [] l) as [_ I]. unfold uniquify. rewrite I. cbn. tauto. Qed.
Definition first_before (x y : string) (l : list string) : Prop := exists a b, l = a ++ x :: b /\ ~ In x a /\ ~ In y a.
Lemma uniquify_order seen x y l : ~ In x seen -> ~ In y seen -> x <> y -> first_before x y l -> first_before x y (uniquify_from seen l).
Proof.
  intros X Y NE (a & b & -> & XA & YA). revert seen X Y. induction a as [|z a IH]; intros seen X Y; cbn.
  - rewrite (proj2 (mem_nin x seen)) by easy. exists [], (uniquify_from (x :: seen) b). auto.
  - cbn in XA, YA. destruct (mem z seen); [apply IH; tauto|]. destruct (IH ltac:(tauto) ltac:(tauto) (z :: seen)) as (a' & b' & E & XA' & YA'); [cbn; tauto|cbn; tauto|].
    exists (z :: a'), b'. rewrite E. cbn. tauto.
Qed.

(** ** Analyses *)
Lemma list_prod_nodup {A B} (l : list A) (m : list B) : NoDup l -> NoDup m -> NoDup (flat_map (fun a => map (fun b => (a, b)) m) l).
Proof.
  intros L M. induction L as [|a l NI L IH]; cbn; [constructor|].
  assert (DJ : forall p, In p (map (fun b => (a, b)) m) -> ~ In p (flat_map (fun a0 => map (fun b => (a0, b)) m) l)).
  { intros p I J. apply in_map_iff in I as (b & <- & _). apply in_flat_map in J as (a' & A' & J). apply in_map_iff in J as (b' & E & _). injection E as -> _. easy. }
  assert (D1 : NoDup (map (fun b => (a, b)) m)) by (apply FinFun.Injective_map_NoDup; [intros u v E; now injection E|easy]).
  clear - DJ D1 IH. induction (map (fun b => (a, b)) m) as [|c r IHr]; cbn; [easy|]. inversion D1; subst. constructor.
  - rewrite in_app_iff. intros [I|I]; [easy|]. apply (DJ c); [now left|easy].
  - apply IHr; [|easy]. intros c' I. apply DJ. now right.
Qed.
Lemma analyses_in required options models l : required <> [] -> NoDup required -> analyses required options models = Ok l -> forall k m,
  In (k, m) l <-> In m models /\ exists f, assignment required f k /\ forall n, In n required -> requested options n (f n).
Proof.
  intros NE ND H k m. unfold analyses in H. destruct (combinations required options) as [ds|] eqn:C; [|discriminate]. cbn in H. injection H as <-.
  destruct (combinations_ok required options ds NE ND C) as [P ->]. rewrite in_flat_map. split.
  - intros (c & I & J). apply in_map_iff in J as (m' & EQ & M). injection EQ as <- <-. split; [now apply uniquify_in|].
    apply product_in in I. destruct (F2_in_pairs _ (values_of options) c (fun n ps X => proj2 (dictionary_in required options n ps X)) I) as [K V].
    assert (D : NoDup (map fst c)) by (rewrite K; apply (Permutation_NoDup (Permutation_sym P) ND)).
    destruct (constants_spec c D) as [PC SC]. exists (fun n => match lookup n c with Some v => v | None => 0 end). split; [split; [|split]|].
    + rewrite (Permutation_map fst PC), K. exact P.
    + exact SC.
    + intros n v J. apply (Permutation_in _ PC) in J. now rewrite (lookup_nodup n v c D J).
    + intros n J. apply (Permutation_in _ (Permutation_sym P)) in J. rewrite <- K in J. apply in_map_iff in J as ([n' v] & E & J). cbn in E. subst n'.
      rewrite (lookup_nodup n v c D J). apply values_of_spec. now apply V.
  - intros (M & f & A & R). exists (map (fun n => (n, f n)) (map fst (dictionary required options))). split.
    + apply product_in, (F2_pairs_in _ (values_of options)). intros n ps I. apply dictionary_in in I as [J ->]. split; [easy|]. apply values_of_spec. now apply R.
    + apply in_map_iff. exists m. split; [|now apply uniquify_in]. f_equal. apply (assignment_unique required f); [|easy].
      set (c := map (fun n => (n, f n)) (map fst (dictionary required options))).
      assert (K : map fst c = map fst (dictionary required options)) by (unfold c; rewrite map_map; cbn; apply map_id).
      assert (D : NoDup (map fst c)) by (rewrite K; apply (Permutation_NoDup (Permutation_sym P) ND)).
      destruct (constants_spec c D) as [PC SC]. split; [|split].
      * rewrite (Permutation_map fst PC), K. exact P.
      * exact SC.
      * intros n v I. apply (Permutation_in _ PC) in I. apply in_map_iff in I as (n' & E & _). now injection E as <- <-.
Qed.
Lemma pairs_nodup n vs : NoDup vs -> NoDup (pairs n vs).
Proof. intros D. apply FinFun.Injective_map_NoDup; [|easy]. intros u v E. now injection E. Qed.
Lemma values_of_nodup options n : NoDup (all_given options n) ->
  (forall vs, In (".", vs) options -> NoDup vs /\ forall v, In v vs -> ~ values_given options n v) -> NoDup (values_of options n).
Proof.
  intros G D. unfold values_of. assert (G' : NoDup (all_given (sorted_options options) n)) by (apply (Permutation_NoDup (all_given_perm _ _ n (sorted_perm options)) G)).
  unfold default_of. destruct (lookup "." (of_list (sorted_options options))) as [vs|] eqn:E; [|easy]. apply default_some in E as [I _]. destruct (D vs I) as [DV N].
  assert (DJ : forall v, In v vs -> ~ In v (all_given (sorted_options options) n)).
  { intros v V J. apply (N v V). apply all_given_in. apply (Permutation_in _ (Permutation_sym (all_given_perm _ _ n (sorted_perm options))) J). }
  clear - DV DJ G'. induction DV as [|v vs NI DV IH]; cbn; [easy|]. constructor.
  - rewrite in_app_iff. intros [I|I]; [easy|]. apply (DJ v); [now left|easy].
  - apply IH. intros w W. apply DJ. now right.
Qed.
Lemma analyses_nodup required options models l : required <> [] -> NoDup required -> analyses required options models = Ok l ->
  (forall n, In n required -> NoDup (all_given options n)) ->
  (forall vs, In (".", vs) options -> NoDup vs /\ forall n v, In n required -> In v vs -> ~ values_given options n v) -> NoDup l.
Proof.
  intros NE ND H G DF. unfold analyses in H. destruct (combinations required options) as [ds|] eqn:C; [|discriminate]. cbn in H. injection H as <-.
  destruct (combinations_ok required options ds NE ND C) as [P ->].
  assert (E : forall ds (g : list (string * Z) -> list (string * Z)) (ms : list string), flat_map (fun d => map (fun m => (g d, m)) ms) ds = flat_map (fun a => map (fun b => (a, b)) ms) (map g ds)).
  { clear. intros ds g ms. induction ds; cbn; [easy|]. now f_equal. }
  rewrite E. apply list_prod_nodup; [|apply uniquify_nodup].
  assert (DP : NoDup (product (map snd (dictionary required options)))).
  { apply product_nodup. apply Forall_forall. intros ps I. apply in_map_iff in I as ([n ps'] & <- & I). apply dictionary_in in I as [J ->]. apply pairs_nodup, values_of_nodup; [now apply G|].
    intros vs V. destruct (DF vs V) as [A B]. split; [easy|]. intros v W. now apply B. }
  assert (INJ : forall c c', In c (product (map snd (dictionary required options))) -> In c' (product (map snd (dictionary required options))) -> constants_of c = constants_of c' -> c = c').
  { intros c c' I I' EQ. apply product_in in I. apply product_in in I'.
    destruct (F2_in_pairs _ (values_of options) c (fun n ps X => proj2 (dictionary_in required options n ps X)) I) as [K _].
    destruct (F2_in_pairs _ (values_of options) c' (fun n ps X => proj2 (dictionary_in required options n ps X)) I') as [K' _].
    assert (D : NoDup (map fst c)) by (rewrite K; apply (Permutation_NoDup (Permutation_sym P) ND)).
    assert (D' : NoDup (map fst c')) by (rewrite K'; apply (Permutation_NoDup (Permutation_sym P) ND)).
    destruct (constants_spec c D) as [PC _]. destruct (constants_spec c' D') as [PC' _]. assert (PP : Permutation c c') by (now rewrite <- PC, EQ, PC').
    assert (KK : map fst c = map fst c') by congruence. clear - KK PP D D'.
    assert (X : forall n v, In (n, v) c -> In (n, v) c') by (intros n v; apply (Permutation_in _ PP)). clear PP. revert c' KK D' X. induction c as [|[n v] c IH]; intros [|[n' v'] c'] KK D' X; cbn in *; try discriminate; [easy|].
    injection KK as <- KK. inversion D; subst. inversion D'; subst. destruct (X n v (or_introl eq_refl)) as [EQ|J]; [|apply (in_map fst) in J; easy].
    f_equal; [easy|]. apply IH; auto. intros m w J. destruct (X m w (or_intror J)) as [EQ'|J']; [|easy]. injection EQ' as <- <-. apply (in_map fst) in J. easy. }
  clear - DP INJ. induction DP as [|c cs NI DP IH]; cbn; constructor.
  - intros I. apply in_map_iff in I as (c' & EQ & I). apply NI. rewrite (INJ c c'); [easy|now left|now right|easy].
  - apply IH. intros a b A B. apply INJ; now right.
Qed.
Lemma combinations_order required options options' : Permutation options options' -> combinations required options = combinations required options'.
Proof. intros P. unfold combinations. now rewrite (sorted_canonical _ _ P). Qed.
Lemma combinations_set_order required required' options : Permutation required required' -> (forall vs, ~ In (".", vs) options) -> combinations required options = combinations required' options.
Proof.
  intros P N. assert (MM : forall n, mem n required = mem n required').
  { intros n. destruct (mem n required) eqn:M; symmetry; [apply mem_in in M; apply mem_in; now apply (Permutation_in n P)|].
    apply mem_nin in M. apply mem_nin. intros I. apply M. now apply (Permutation_in n (Permutation_sym P)). }
  assert (PF : forall req, prefill req (sorted_options options) = []).
  { intros req. unfold prefill. destruct (lookup "." (of_list (sorted_options options))) as [vs|] eqn:E; [|easy]. apply default_some in E as [I _]. now apply N in I. }
  assert (FA : forall l d, fold_left (add_option required) l d = fold_left (add_option required') l d).
  { induction l as [|o l IH]; intros d; cbn; [easy|]. rewrite IH. f_equal. unfold add_option. now rewrite MM. }
  unfold combinations. cbv zeta. rewrite !PF, FA.
  assert (FB : forall g, forallb g required = forallb g required').
  { intros g. destruct (forallb g required) eqn:F; symmetry.
    - rewrite forallb_forall in *. intros x I. apply F. now apply (Permutation_in x (Permutation_sym P)).
    - destruct (forallb g required') eqn:F'; [|easy]. rewrite forallb_forall in F'. rewrite <- F. symmetry. apply forallb_forall. intros x I. apply F'. now apply (Permutation_in x P). }
  rewrite FB. destruct required, required'; try easy; [now apply Permutation_nil in P|symmetry in P; now apply Permutation_nil in P].
Qed.
Lemma product_empty {A} (l : list (list A)) : In [] l -> product l = [].
Proof.
  induction l as [|x l IH]; cbn; [easy|]. intros [->|I]; [easy|]. rewrite (IH I). induction x; cbn; easy.
Qed.
Lemma analyses_empty required options models n : NoDup required -> In n required -> (forall v, ~ requested options n v) ->
  (forall m, In m required -> exists vs, In (m, vs) options \/ In (".", vs) options) -> analyses required options models = Ok [].
Proof.
  intros ND I NV GV. assert (NE : required <> []) by (intros ->; easy). destruct (combinations_total required options) as [[ds C]|C].
  - assert (H : exists l, analyses required options models = Ok l) by (unfold analyses; rewrite C; cbn; eauto). destruct H as [l H]. rewrite H. f_equal. destruct l as [|[k m] l]; [easy|exfalso].
    destruct (proj1 (analyses_in required options models _ NE ND H k m) (or_introl eq_refl)) as (_ & f & _ & R). now apply (NV (f n)), R.
  - apply combinations_err in C as (m & M & A & B). destruct (GV m M) as (vs & [X|X]); [now apply A in X|now apply B in X].
Qed.
Lemma analyses_err required options models : analyses required options models = Err ValueError <-> combinations required options = Err ValueError.
Proof. unfold analyses. destruct (combinations required options); cbn; split; congruence. Qed.
