(** What the cache of increments and marked assembly are to mean. Independent of the model except for the shape of texts. *)
From Verif Require Export PyText.
Local Open Scope N_scope.
Local Open Scope list_scope.

Definition white (c : N) : Prop := In c [32; 9; 10; 11; 12; 13; 28; 29; 30; 31].
Definition word (w : text) : Prop := w <> [] /\ (forall c, In c w -> ~ white c).
Definition spaces (s : text) : Prop := forall c, In c s -> white c.
(** The first two words of a line *)
Definition entry (l h v : text) : Prop :=
  exists a b r, l = a ++ h ++ b ++ v ++ r /\ spaces a /\ spaces b /\ b <> [] /\ word h /\ word v /\ (forall c r', r = c :: r' -> white c).
(** A file has an entry for a block. *)
Definition mentions (h : text) (s : text) : Prop := exists l v, In l (split 10 s) /\ entry l h v.
(** The file is empty or ends with a line feed. *)
Definition ended (s : text) : Prop := s = [] \/ exists s', s = s' ++ [10].

(** Histories of stores: block, increment, comment *)
Definition history := list (text * Z * option text).
Definition wellformed (hist : history) : Prop :=
  forall h z c, In (h, z, c) hist -> word h /\ (forall t, c = Some t -> ~ In 10 t).
(** The first and the last value stored for a block *)
Definition first_stored (h : text) (hist : history) (z : Z) : Prop :=
  exists before c after, hist = before ++ (h, z, c) :: after /\ (forall z' c', ~ In (h, z', c') before).
Definition last_stored (h : text) (hist : history) (z : Z) : Prop :=
  exists before c after, hist = before ++ (h, z, c) :: after /\ (forall z' c', ~ In (h, z', c') after).
Definition never_stored (h : text) (hist : history) : Prop := forall z c, ~ In (h, z, c) hist.

(** A text is part of another. *)
Definition occurs (k s : text) : Prop := exists a b, s = a ++ k ++ b.
(** A block is a part of the lines. *)
Definition part_of {L} (block lines : list L) : Prop := block <> [] /\ exists pre post, lines = pre ++ block ++ post.
