(** Combinators for proofs about readers that work on a bit vector and an index. *)
From Verif Require Import Base BitsModel BitsSpec BitsProof BitsVecProof FloatBase FloatModel TypesModel SemanticModel
  MetaModel.
Ltac Zify.zify_post_hook ::= Z.div_mod_to_equations.

(** The bits [b] are at index [i] of the vector [bs]. *)
Definition at_ (bs : bits) (i : nat) (b : bits) : Prop :=
  exists pre post, bs = pre ++ b ++ post /\ i = length pre.
(** The reader consumes exactly [b] and returns [x]. *)
Definition vreads {A} (r : bits -> nat -> outcome (A * nat)) (b : bits) (x : A) : Prop :=
  forall bs i, at_ bs i b -> r bs i = Ok (x, (i + length b)%nat).

Lemma at_app bs i a b : at_ bs i (a ++ b) -> at_ bs i a /\ at_ bs (i + length a) b.
Proof.
  intros (pre & post & -> & ->). split.
  - exists pre, (b ++ post). rewrite <- app_assoc. auto.
  - exists (pre ++ a), post. rewrite app_length, <- !app_assoc. auto.
Qed.
Lemma at_0 b post : at_ (b ++ post) 0 b.
Proof. exists [], post. auto. Qed.
Lemma at_pre pre b post : at_ (pre ++ b ++ post) (length pre) b.
Proof. exists pre, post. auto. Qed.

Lemma slice_at bs i b n : at_ bs i b -> n = length b -> slice bs i n = Ok b.
Proof. intros (pre & post & -> & ->) ->. apply slice_app. Qed.

Lemma vreads_uint n b : length b = n -> (1 <= n <= 31)%nat -> vreads (fun bs i => readUInt bs i n) b (bits_val b).
Proof. intros Hb Hn bs i (pre & post & -> & ->). rewrite <- Hb at 1. rewrite readUInt_app by lia. reflexivity. Qed.
Lemma vreads_uint32 b : length b = 32%nat -> vreads (fun bs i => readUInt bs i 32) b (to_signed 32 (bits_val b)).
Proof. intros Hb bs i (pre & post & -> & ->). rewrite <- Hb at 1. rewrite readUInt_app32 by lia. reflexivity. Qed.
Lemma vreads_int n b : length b = n -> (1 <= n <= 31)%nat -> vreads (fun bs i => readInt bs i n) b (to_signed n (bits_val b)).
Proof. intros Hb Hn bs i (pre & post & -> & ->). subst n. rewrite readInt_app by lia. reflexivity. Qed.

(** A field of [n] bits. *)
Definition fits (n : nat) (z : Z) : Prop := 0 <= z < 2 ^ Z.of_nat n.
Lemma vreads_field n v : (1 <= n <= 31)%nat -> fits n v -> vreads (fun bs i => readUInt bs i n) (writeNBits n v) v.
Proof.
  intros Hn Hv. rewrite <- (bits_val_writeNBits_small n v) at 2 by exact Hv.
  apply vreads_uint; [apply writeNBits_length|exact Hn].
Qed.
Lemma vreads_field_mod n v : (1 <= n <= 31)%nat ->
  vreads (fun bs i => readUInt bs i n) (writeNBits n v) (v mod 2 ^ Z.of_nat n).
Proof.
  intros Hn. rewrite <- bits_val_writeNBits. apply vreads_uint; [apply writeNBits_length|exact Hn].
Qed.
Lemma vreads_field32 v : vreads (fun bs i => readUInt bs i 32) (writeNBits 32 v) (to_signed 32 v).
Proof.
  intros bs i H. rewrite (vreads_uint32 (writeNBits 32 v) (writeNBits_length 32 v) bs i H).
  rewrite bits_val_writeNBits. f_equal. f_equal.
  now rewrite to_signed_mod by lia.
Qed.
Lemma vreads_sfield n v : (1 <= n <= 31)%nat -> - 2 ^ (Z.of_nat n - 1) <= v < 2 ^ (Z.of_nat n - 1) ->
  vreads (fun bs i => readInt bs i n) (writeNBits n v) v.
Proof.
  intros Hn Hv. rewrite <- (to_signed_id n v) at 2 by (try exact Hv; lia).
  rewrite <- (to_signed_mod n v) by lia. rewrite <- bits_val_writeNBits.
  apply vreads_int; [apply writeNBits_length|exact Hn].
Qed.

(** Size-prefixed strings. *)
Definition text_ok (s : str) : Prop := Forall is_byte s /\ (length s <= 255)%nat.
Lemma vreads_string s : Forall is_byte s ->
  vreads (fun bs i => readStringBits bs i (length s)) (flat_map byte_bits s) s.
Proof.
  intros Hs bs i (pre & post & -> & ->). rewrite readStringBits_app by exact Hs.
  now rewrite flat_byte_bits_length.
Qed.
Lemma vreads_sized s : text_ok s -> vreads readSized (writeSized s) s.
Proof.
  intros [Hs Hl] bs i H. unfold writeSized, readSized in *. apply at_app in H. destruct H as [H1 H2].
  rewrite (vreads_field 8 (vec_size s) ltac:(lia)) by (try exact H1; unfold fits, vec_size; change (2 ^ Z.of_nat 8) with 256; lia).
  cbn [obind]. replace (Z.to_nat (vec_size s)) with (length s) by (unfold vec_size; lia).
  etransitivity; [exact (vreads_string s Hs _ _ H2)|]. f_equal. f_equal. rewrite app_length. lia.
Qed.

Lemma vreads_many {A B} (w : A -> outcome bits) (r : bits -> nat -> outcome (B * nat)) (R : A -> B -> Prop) l :
  Forall (fun x => exists b y, w x = Ok b /\ vreads r b y /\ R x y) l ->
  exists b ys, writeMany w l = Ok b /\ vreads (readMany r (length l)) b ys /\ Forall2 R l ys.
Proof.
  induction 1 as [|x l (b & y & Hw & Hr & HR) _ (bs & ys & IH1 & IH2 & IH3)].
  - exists [], []. split; [reflexivity|]. split; [|constructor].
    intros bs i _. cbn [readMany length]. f_equal. f_equal. lia.
  - exists (b ++ bs), (y :: ys). split; [cbn [writeMany]; rewrite Hw, IH1; reflexivity|].
    split; [|constructor; assumption].
    intros v i H. apply at_app in H. destruct H as [H1 H2]. cbn [readMany length].
    rewrite (Hr _ _ H1). cbn [obind]. rewrite (IH2 _ _ H2). cbn [obind]. f_equal. f_equal. rewrite app_length. lia.
Qed.
(** The same for writers that are plain functions. *)
Lemma vreads_many_map {A B} (w : A -> bits) (r : bits -> nat -> outcome (B * nat)) (g : A -> B) l :
  Forall (fun x => vreads r (w x) (g x)) l -> vreads (readMany r (length l)) (flat_map w l) (map g l).
Proof.
  induction 1 as [|x l Hx _ IH]; intros v i H; cbn [readMany length flat_map map] in *.
  - f_equal. f_equal. lia.
  - apply at_app in H. destruct H as [H1 H2]. rewrite (Hx _ _ H1). cbn [obind]. rewrite (IH _ _ H2). cbn [obind].
    f_equal. f_equal. rewrite app_length. lia.
Qed.

(** Split [H : at_ bs i (a ++ b)] and rewrite with [L : vreads r a x]. *)
Ltac vstep H L :=
  let H1 := fresh in let H2 := fresh in
  apply at_app in H; destruct H as [H1 H2];
  rewrite (L _ _ H1); cbn [obind]; clear H1; rename H2 into H.
Ltac vlast H L := rewrite (L _ _ H); cbn [obind].
Ltac vdone := f_equal; f_equal; rewrite ?app_length; change (@length bool []) with 0%nat; lia.
