(** Lemmas about the bit-level primitives. *)
From Verif Require Import Base BitsModel BitsSpec.
Ltac Zify.zify_post_hook ::= Z.div_mod_to_equations.

(** ** Bit strings and values *)

Lemma bits_val_acc bs : forall a,
  fold_left (fun acc b => 2 * acc + Z.b2z b) bs a = a * 2 ^ Z.of_nat (length bs) + bits_val bs.
Proof.
  unfold bits_val; induction bs as [|b bs IH]; intros a.
  - cbn. lia.
  - cbn [fold_left length]. rewrite IH, (IH (2 * 0 + Z.b2z b)).
    rewrite Nat2Z.inj_succ, Z.pow_succ_r by lia. lia.
Qed.

Lemma bits_val_nil : bits_val [] = 0.
Proof. reflexivity. Qed.

Lemma bits_val_cons b bs : bits_val (b :: bs) = Z.b2z b * 2 ^ Z.of_nat (length bs) + bits_val bs.
Proof. unfold bits_val at 1. cbn [fold_left]. rewrite bits_val_acc. lia. Qed.

Lemma bits_val_app a b : bits_val (a ++ b) = bits_val a * 2 ^ Z.of_nat (length b) + bits_val b.
Proof. unfold bits_val at 1. rewrite fold_left_app, bits_val_acc. reflexivity. Qed.

Lemma pow2_pos n : 0 < 2 ^ Z.of_nat n.
Proof. apply Z.pow_pos_nonneg; lia. Qed.

Lemma pow2_S n : 2 ^ Z.of_nat (S n) = 2 * 2 ^ Z.of_nat n.
Proof. rewrite Nat2Z.inj_succ, Z.pow_succ_r by lia. reflexivity. Qed.

Lemma bits_val_bound bs : 0 <= bits_val bs < 2 ^ Z.of_nat (length bs).
Proof.
  induction bs as [|b bs IH]; [cbn; lia|].
  rewrite bits_val_cons. cbn [length]. rewrite pow2_S. destruct b; cbn [Z.b2z]; lia.
Qed.

Lemma bits_val_inj a b : length a = length b -> bits_val a = bits_val b -> a = b.
Proof.
  revert b; induction a as [|x a IH]; intros [|y b] Hl Hv; try discriminate; [reflexivity|].
  cbn [length] in Hl. injection Hl as Hl. rewrite !bits_val_cons in Hv.
  pose proof (bits_val_bound a) as Ba. pose proof (bits_val_bound b) as Bb.
  rewrite Hl in Hv, Ba. set (p := 2 ^ Z.of_nat (length b)) in *.
  assert (x = y) as -> by (destruct x, y; cbn [Z.b2z] in Hv; (reflexivity || nia)).
  f_equal. apply IH; [exact Hl|]. lia.
Qed.

Lemma writeNBits_length n v : length (writeNBits n v) = n.
Proof. induction n as [|n IH]; cbn [writeNBits length]; congruence. Qed.

Lemma odd_shiftr v m : Z.odd (Z.shiftr v (Z.of_nat m)) = Z.testbit v (Z.of_nat m).
Proof. rewrite Z.testbit_odd. reflexivity. Qed.

Lemma mod_pow2_S v n :
  v mod 2 ^ Z.of_nat (S n) = Z.b2z (Z.testbit v (Z.of_nat n)) * 2 ^ Z.of_nat n + v mod 2 ^ Z.of_nat n.
Proof.
  rewrite Z.testbit_spec' by lia. rewrite pow2_S.
  rewrite (Z.mul_comm 2). rewrite Z.rem_mul_r by (pose proof (pow2_pos n); lia). lia.
Qed.

Lemma bits_val_writeNBits n v : bits_val (writeNBits n v) = v mod 2 ^ Z.of_nat n.
Proof.
  induction n as [|n IH].
  - cbn. rewrite Z.mod_1_r. reflexivity.
  - cbn [writeNBits]. rewrite bits_val_cons, writeNBits_length, IH, odd_shiftr, mod_pow2_S.
    reflexivity.
Qed.

Lemma bits_val_writeNBits_small n v :
  0 <= v < 2 ^ Z.of_nat n -> bits_val (writeNBits n v) = v.
Proof. intros H. rewrite bits_val_writeNBits. apply Z.mod_small; exact H. Qed.

Lemma writeNBits_bits_val bs : writeNBits (length bs) (bits_val bs) = bs.
Proof.
  apply bits_val_inj; [apply writeNBits_length|].
  apply bits_val_writeNBits_small, bits_val_bound.
Qed.

Lemma writeNBits_mod n v : writeNBits n (v mod 2 ^ Z.of_nat n) = writeNBits n v.
Proof.
  apply bits_val_inj; [now rewrite !writeNBits_length|].
  rewrite !bits_val_writeNBits. apply Z.mod_mod. pose proof (pow2_pos n); lia.
Qed.

Lemma byte_bits_write b : byte_bits b = writeNBits 8 b.
Proof. unfold byte_bits. cbn [byte_bits_from writeNBits]. rewrite !odd_shiftr. reflexivity. Qed.

Lemma byte_bits_length b : length (byte_bits b) = 8%nat.
Proof. reflexivity. Qed.

Lemma bits_val_byte b : is_byte b -> bits_val (byte_bits b) = b.
Proof. intros H. rewrite byte_bits_write. apply bits_val_writeNBits_small. exact H. Qed.

Lemma flat_byte_bits_length l : length (flat_map byte_bits l) = (8 * length l)%nat.
Proof.
  induction l as [|b l IH]; [reflexivity|].
  cbn [flat_map]. rewrite app_length, IH, byte_bits_length. cbn [length]. lia.
Qed.

(** ** Conversions *)

Lemma cast_u w v : 0 <= v < 2 ^ Z.of_nat w -> cast (CT w false) v = v.
Proof. intros H. unfold cast, to_unsigned. cbn. apply Z.mod_small; exact H. Qed.

Lemma pow2_half w : (0 < w)%nat -> 2 ^ Z.of_nat w = 2 * 2 ^ (Z.of_nat w - 1).
Proof.
  intros H. rewrite <- Z.pow_succ_r by lia. f_equal. lia.
Qed.

Lemma to_signed_id w v :
  (0 < w)%nat -> - 2 ^ (Z.of_nat w - 1) <= v < 2 ^ (Z.of_nat w - 1) -> to_signed w v = v.
Proof.
  intros Hw H. unfold to_signed. rewrite Z.mod_small; [lia|].
  rewrite pow2_half by exact Hw. lia.
Qed.

Lemma to_signed_mod w v : (0 < w)%nat -> to_signed w (v mod 2 ^ Z.of_nat w) = to_signed w v.
Proof.
  intros Hw. unfold to_signed. f_equal. rewrite Z.add_mod_idemp_l; [reflexivity|].
  pose proof (pow2_pos w); lia.
Qed.

Lemma to_unsigned_mod w v : to_unsigned w (v mod 2 ^ Z.of_nat w) = to_unsigned w v.
Proof. unfold to_unsigned. apply Z.mod_mod. pose proof (pow2_pos w); lia. Qed.

Lemma to_signed_small w v : (0 < w)%nat -> 0 <= v < 2 ^ (Z.of_nat w - 1) -> to_signed w v = v.
Proof. intros Hw H. apply to_signed_id; [exact Hw|lia]. Qed.

(** ** The readNBits loop *)

Lemma lor_disjoint a b : Z.land a b = 0 -> Z.lor a b = a + b.
Proof. intros H. rewrite Z.add_nocarry_lxor by exact H. symmetry. apply Z.lxor_lor. exact H. Qed.

Lemma lor_double_1 v : Z.lor (2 * v) 1 = 2 * v + 1.
Proof.
  apply lor_disjoint. change 1 with (Z.ones 1). rewrite Z.land_ones by lia.
  change (2 ^ 1) with 2. rewrite Z.mul_comm. apply Z.mod_mul. lia.
Qed.

Lemma lor_shift_add v k :
  Z.lor (v * 2 ^ Z.of_nat (S k)) (Z.shiftl 1 (Z.of_nat k)) = (2 * v + 1) * 2 ^ Z.of_nat k.
Proof.
  rewrite pow2_S. replace (v * (2 * 2 ^ Z.of_nat k)) with (Z.shiftl (2 * v) (Z.of_nat k)).
  - rewrite <- Z.shiftl_lor, <- (Z.shiftl_mul_pow2 (2 * v + 1)) by lia. f_equal.
    apply lor_double_1.
  - rewrite Z.shiftl_mul_pow2 by lia. lia.
Qed.

Lemma readNBits_loop_skip n bs : forall i v un, (n <= i)%nat ->
  readNBits_loop n i bs v un = (v, un ++ bs).
Proof.
  induction bs as [|b bs IH]; intros i v un Hi; cbn [readNBits_loop].
  - now rewrite app_nil_r.
  - destruct (Nat.ltb_spec i n); [lia|]. rewrite IH by lia. now rewrite <- app_assoc.
Qed.

Lemma readNBits_loop_spec n k : forall i bs v un, (i + k = n)%nat -> (k <= length bs)%nat ->
  readNBits_loop n i bs (v * 2 ^ Z.of_nat k) un
  = (v * 2 ^ Z.of_nat k + bits_val (firstn k bs), un ++ skipn k bs).
Proof.
  induction k as [|k IH]; intros i bs v un Hi Hl.
  - rewrite readNBits_loop_skip by lia. cbn [firstn skipn]. rewrite bits_val_nil.
    f_equal; lia.
  - destruct bs as [|b bs]; cbn [length] in Hl; [lia|].
    cbn [readNBits_loop firstn skipn]. destruct (Nat.ltb_spec i n) as [_|]; [|lia].
    replace (n - i - 1)%nat with k by lia.
    rewrite bits_val_cons, firstn_length_le by lia.
    destruct b; cbn [Z.b2z].
    + rewrite lor_shift_add, IH by lia. rewrite pow2_S. f_equal; lia.
    + replace (v * 2 ^ Z.of_nat (S k)) with ((2 * v) * 2 ^ Z.of_nat k) by (rewrite pow2_S; lia).
      rewrite IH by lia. f_equal; lia.
Qed.

Lemma readNBits_loop_0 n bs : (n <= length bs)%nat ->
  readNBits_loop n 0 bs 0 [] = (bits_val (firstn n bs), skipn n bs).
Proof.
  intros H. replace 0 with (0 * 2 ^ Z.of_nat n) at 1 by lia.
  rewrite readNBits_loop_spec by lia. f_equal.
Qed.

(** ** The reader as a bit stream *)

(** All bits still to come. *)
Definition stream (st : rstate) : bits := rs_unused st ++ flat_map byte_bits (rs_file st).

(** Well-formed reader state: fewer than 8 leftover bits. *)
Definition rs_ok (st : rstate) : Prop := (length (rs_unused st) < 8)%nat.

Lemma read_bytes_spec k : forall file, (k <= length file)%nat ->
  read_bytes k file = (firstn k file, skipn k file).
Proof.
  induction k as [|k IH]; intros file H; [reflexivity|].
  destruct file as [|b f]; cbn [length] in H; [lia|].
  cbn [read_bytes firstn skipn]. rewrite IH by lia. reflexivity.
Qed.

Lemma read_bytes_eof k : read_bytes k [] = (repeat 0 k, []).
Proof. induction k as [|k IH]; [reflexivity|]. cbn [read_bytes repeat]. rewrite IH. reflexivity. Qed.

Lemma firstn_repeat' {A} (x : A) m : forall k, firstn m (repeat x k) = repeat x (Nat.min m k).
Proof.
  induction m as [|m IH]; intros [|k]; cbn [firstn repeat Nat.min]; try reflexivity.
  f_equal. apply IH.
Qed.

Lemma read_bytes_pad k : forall file,
  read_bytes k file = (firstn k (file ++ repeat 0 k), skipn k file).
Proof.
  induction k as [|k IH]; intros file; [reflexivity|].
  destruct file as [|b f]; cbn [read_bytes].
  - rewrite read_bytes_eof. cbn [app repeat firstn skipn]. f_equal. f_equal.
    rewrite firstn_all2; [reflexivity|]. rewrite repeat_length. lia.
  - rewrite IH. cbn [app firstn skipn]. f_equal. f_equal.
    rewrite !firstn_app. f_equal. rewrite !firstn_repeat'. f_equal. lia.
Qed.

Definition ceil8 (t : nat) : nat := if (t mod 8 =? 0)%nat then (t / 8)%nat else (t / 8 + 1)%nat.

Lemma ceil8_bound t : (t <= 8 * ceil8 t < t + 8)%nat.
Proof. unfold ceil8. destruct (Nat.eqb_spec (t mod 8) 0); lia. Qed.

Lemma flat_map_firstn_skipn k l :
  flat_map byte_bits l = flat_map byte_bits (firstn k l) ++ flat_map byte_bits (skipn k l).
Proof. rewrite <- flat_map_app, firstn_skipn. reflexivity. Qed.

(** Main reader lemma: reading [n] bits takes the next [n] bits of the stream. *)
Lemma readNBits_stream T n st b rest :
  rs_ok st -> stream st = b ++ rest -> length b = n ->
  exists st', readNBits T n st = (cast T (bits_val b), st') /\ rs_ok st' /\ stream st' = rest.
Proof.
  intros Hok Hs Hb. unfold rs_ok in Hok. unfold stream in Hs.
  destruct st as [file un]; cbn [rs_file rs_unused] in *.
  assert (Hlen : (n <= length un + 8 * length file)%nat).
  { apply (f_equal (@length bool)) in Hs. rewrite !app_length, flat_byte_bits_length in Hs. lia. }
  unfold readNBits; cbn [rs_file rs_unused]. fold (ceil8 (n - length un)).
  destruct (Nat.ltb_spec (length un) n) as [Hlt|Hge].
  - set (k := ceil8 (n - length un)). pose proof (ceil8_bound (n - length un)) as Hc. fold k in Hc.
    rewrite read_bytes_spec by lia.
    rewrite (flat_map_firstn_skipn k file), app_assoc in Hs.
    set (bs := un ++ flat_map byte_bits (firstn k file)) in *.
    assert (Hbs : length bs = (length un + 8 * k)%nat).
    { unfold bs. rewrite app_length, flat_byte_bits_length, firstn_length_le by lia. lia. }
    rewrite readNBits_loop_0 by lia.
    exists (RS (skipn k file) (skipn n bs)). cbn [rs_file rs_unused].
    assert (Hf : firstn n bs = b).
    { apply (f_equal (firstn n)) in Hs. rewrite !firstn_app in Hs.
      replace (n - length bs)%nat with 0%nat in Hs by lia.
      replace (n - length b)%nat with 0%nat in Hs by lia.
      cbn [firstn] in Hs. rewrite !app_nil_r in Hs. rewrite Hs. apply firstn_all2. lia. }
    split; [|split].
    + rewrite Hf. reflexivity.
    + unfold rs_ok; cbn [rs_unused]. rewrite skipn_length. lia.
    + unfold stream; cbn [rs_file rs_unused].
      apply (f_equal (skipn n)) in Hs. rewrite !skipn_app in Hs.
      replace (n - length bs)%nat with 0%nat in Hs by lia.
      replace (n - length b)%nat with 0%nat in Hs by lia.
      rewrite (skipn_all2 b) in Hs by lia. exact Hs.
  - rewrite readNBits_loop_0 by lia.
    exists (RS file (skipn n un)). cbn [rs_file rs_unused].
    split; [|split].
    + f_equal. f_equal. f_equal. apply (f_equal (firstn n)) in Hs. rewrite !firstn_app in Hs.
      replace (n - length un)%nat with 0%nat in Hs by lia.
      replace (n - length b)%nat with 0%nat in Hs by lia.
      cbn [firstn] in Hs. rewrite !app_nil_r in Hs. rewrite Hs. apply firstn_all2. lia.
    + unfold rs_ok; cbn [rs_unused]. rewrite skipn_length. lia.
    + unfold stream; cbn [rs_file rs_unused].
      apply (f_equal (skipn n)) in Hs. rewrite !skipn_app in Hs.
      replace (n - length un)%nat with 0%nat in Hs by lia.
      replace (n - length b)%nat with 0%nat in Hs by lia.
      rewrite (skipn_all2 b) in Hs by lia. exact Hs.
Qed.

(** ** Writing whole bytes *)

Lemma byte_of_bits_val j : forall bs, (length bs <= j)%nat ->
  byte_of_bits j bs = bits_val bs * 2 ^ Z.of_nat (j - length bs).
Proof.
  induction j as [|j IH]; intros bs H.
  - destruct bs; [|cbn [length] in H; lia]. cbn. reflexivity.
  - destruct bs as [|b bs]; cbn [byte_of_bits]; [reflexivity|]. cbn [length] in *.
    rewrite IH by lia. cbn [Nat.sub]. rewrite bits_val_cons.
    set (d := (j - length bs)%nat). pose proof (bits_val_bound bs) as Hb.
    assert (Hj : 2 ^ Z.of_nat j = 2 ^ Z.of_nat (length bs) * 2 ^ Z.of_nat d).
    { rewrite <- Z.pow_add_r by lia. f_equal. lia. }
    destruct b; cbn [Z.b2z].
    + assert (Hlt : 0 <= bits_val bs * 2 ^ Z.of_nat d < 2 ^ Z.of_nat j).
      { rewrite Hj. pose proof (pow2_pos d). nia. }
      rewrite Z.shiftl_mul_pow2, Z.mul_1_l by lia.
      rewrite lor_disjoint.
      * rewrite Hj. lia.
      * apply Z.bits_inj'. intros i Hi. rewrite Z.land_spec, Z.bits_0.
        rewrite Z.pow2_bits_eqb by lia. destruct (Z.eqb_spec (Z.of_nat j) i) as [<-|]; [|reflexivity].
        cbn [andb]. rewrite <- (Z.mod_small _ _ Hlt).
        apply Z.mod_pow2_bits_high. lia.
    + rewrite Z.lor_0_l. lia.
Qed.

Lemma byte_of_bits_8 bs : length bs = 8%nat -> byte_of_bits 8 bs = bits_val bs.
Proof. intros H. rewrite byte_of_bits_val by lia. rewrite H. cbn [Nat.sub]. rewrite Z.mul_1_r. reflexivity. Qed.

Lemma list_ind8 (P : bits -> Prop) :
  (forall l, (length l < 8)%nat -> P l) ->
  (forall b0 b1 b2 b3 b4 b5 b6 b7 l, P l ->
     P (b0 :: b1 :: b2 :: b3 :: b4 :: b5 :: b6 :: b7 :: l)) ->
  forall l, P l.
Proof.
  intros H0 H1 l. remember (length l) as n eqn:Hn.
  revert l Hn. induction n as [n IH] using lt_wf_ind. intros l ->.
  do 8 (destruct l as [|? l]; [apply H0; cbn [length]; lia|]).
  apply H1. eapply IH; [|reflexivity]. cbn [length]. lia.
Qed.

Lemma writeBitset_bits bs : exists pad,
  flat_map byte_bits (writeBitset bs) = bs ++ repeat false pad /\ (pad < 8)%nat
  /\ Forall is_byte (writeBitset bs).
Proof.
  induction bs as [l Hl | b0 b1 b2 b3 b4 b5 b6 b7 l IH] using list_ind8.
  - destruct l as [|b0 l].
    + exists 0%nat. cbn. split; [reflexivity|]. split; [lia|constructor].
    + exists (8 - length (b0 :: l))%nat.
      assert (Hw : writeBitset (b0 :: l) = [byte_of_bits 8 (b0 :: l)]).
      { clear - Hl. do 7 (destruct l as [|? l]; [reflexivity|]). cbn [length] in Hl. lia. }
      rewrite Hw. set (m := b0 :: l) in *.
      assert (Hm : (1 <= length m < 8)%nat) by (split; [cbn [length m]; subst m; cbn [length]; lia|exact Hl]).
      assert (E : byte_of_bits 8 m = bits_val (m ++ repeat false (8 - length m))).
      { rewrite byte_of_bits_val by lia. rewrite bits_val_app, repeat_length.
        assert (Hz : forall k, bits_val (repeat false k) = 0).
        { induction k as [|k IHk]; [reflexivity|]. cbn [repeat]. rewrite bits_val_cons, IHk. reflexivity. }
        rewrite Hz. lia. }
      cbn [flat_map]. rewrite app_nil_r, byte_bits_write, E.
      assert (Hlen : length (m ++ repeat false (8 - length m)) = 8%nat)
        by (rewrite app_length, repeat_length; lia).
      split; [|split].
      * rewrite <- Hlen at 1. apply writeNBits_bits_val.
      * lia.
      * constructor; [|constructor]. pose proof (bits_val_bound (m ++ repeat false (8 - length m))) as B.
        rewrite Hlen in B. exact B.
  - destruct IH as (pad & E & Hp & Hb). exists pad.
    cbn [writeBitset]. rewrite byte_of_bits_8 by reflexivity.
    set (m := [b0; b1; b2; b3; b4; b5; b6; b7]).
    split; [|split; [exact Hp|]].
    + cbn [flat_map]. rewrite E, byte_bits_write.
      change 8%nat with (length m). rewrite writeNBits_bits_val. reflexivity.
    + constructor; [|exact Hb]. pose proof (bits_val_bound m) as B. exact B.
Qed.

Lemma writeBitset_pad_len bs pad :
  flat_map byte_bits (writeBitset bs) = bs ++ repeat false pad -> (pad < 8)%nat ->
  (pad = (8 - length bs mod 8) mod 8)%nat.
Proof.
  intros E Hp. apply (f_equal (@length bool)) in E.
  rewrite flat_byte_bits_length, app_length, repeat_length in E. lia.
Qed.

Lemma writeBitset_fill bs :
  flat_map byte_bits (writeBitset bs) = fillBitset bs /\ Forall is_byte (writeBitset bs).
Proof.
  destruct (writeBitset_bits bs) as (pad & E & Hp & Hb).
  split; [|exact Hb]. pose proof (writeBitset_pad_len _ _ E Hp) as ->. exact E.
Qed.

Lemma fillBitset_length bs : (length (fillBitset bs) mod 8 = 0)%nat.
Proof. unfold fillBitset. rewrite app_length, repeat_length. lia. Qed.

Lemma fillBitset_idem bs : fillBitset (fillBitset bs) = fillBitset bs.
Proof.
  unfold fillBitset at 1. rewrite fillBitset_length. cbn. apply app_nil_r.
Qed.

Lemma writeBitset_fillBitset bs : flat_map byte_bits (writeBitset (fillBitset bs)) = fillBitset bs.
Proof. destruct (writeBitset_fill (fillBitset bs)) as [E _]. rewrite E. apply fillBitset_idem. Qed.

(** ** A reader combinator view *)

(** [reads r b x]: from any state whose stream starts with the bits [b], the reader [r]
    returns [x] and leaves exactly the bits after [b]. *)
Definition reads {A} (r : rstate -> A * rstate) (b : bits) (x : A) : Prop :=
  forall st rest, rs_ok st -> stream st = b ++ rest ->
  exists st', r st = (x, st') /\ rs_ok st' /\ stream st' = rest.

Lemma reads_nbits T n b : length b = n -> reads (readNBits T n) b (cast T (bits_val b)).
Proof. intros Hb st rest Hok Hs. eapply readNBits_stream; eauto. Qed.

Lemma pow2_le a b : (a <= b)%nat -> 2 ^ Z.of_nat a <= 2 ^ Z.of_nat b.
Proof. intros H. apply Z.pow_le_mono_r; lia. Qed.

Lemma cast_writeNBits T n v : field_ok T n v -> cast T (bits_val (writeNBits n v)) = v.
Proof.
  unfold field_ok, cast. rewrite bits_val_writeNBits. destruct (ct_signed T).
  - intros (Hn & [(-> & H) | (Hl & H)]).
    + rewrite to_signed_mod by exact Hn. apply to_signed_id; assumption.
    + rewrite Z.mod_small by exact H. apply to_signed_small; [lia|].
      split; [lia|]. eapply Z.lt_le_trans; [apply H|].
      apply Z.pow_le_mono_r; lia.
  - intros (Hl & H). rewrite Z.mod_small by exact H. unfold to_unsigned.
    apply Z.mod_small. pose proof (pow2_le _ _ Hl). lia.
Qed.

Lemma reads_field T n v : field_ok T n v -> reads (readNBits T n) (writeNBits n v) v.
Proof.
  intros H. rewrite <- (cast_writeNBits T n v H) at 2. apply reads_nbits, writeNBits_length.
Qed.

Definition rbind {A B} (r : rstate -> A * rstate) (k : A -> rstate -> B * rstate) : rstate -> B * rstate :=
  fun st => let '(a, st1) := r st in k a st1.

Lemma reads_bind {A B} (r : rstate -> A * rstate) (k : A -> rstate -> B * rstate) b1 b2 x y :
  reads r b1 x -> reads (k x) b2 y -> reads (rbind r k) (b1 ++ b2) y.
Proof.
  intros H1 H2 st rest Hok Hs. rewrite <- app_assoc in Hs.
  destruct (H1 st _ Hok Hs) as (st1 & E1 & Hok1 & Hs1).
  destruct (H2 st1 _ Hok1 Hs1) as (st2 & E2 & Hok2 & Hs2).
  exists st2. unfold rbind. rewrite E1. auto.
Qed.

Lemma reads_ret {A} (x : A) : reads (fun st => (x, st)) [] x.
Proof. intros st rest Hok Hs. exists st. auto. Qed.

Lemma reads_string_loop s : Forall is_byte s ->
  reads (readString_loop (length s)) (flat_map byte_bits s) s.
Proof.
  induction 1 as [|c s Hc Hs IH]; cbn [readString_loop length flat_map]; [apply reads_ret|].
  change (reads (rbind (readNBits u8 8) (fun c st1 => rbind (readString_loop (length s)) (fun s0 st2 => (c :: s0, st2)) st1))
                (byte_bits c ++ flat_map byte_bits s) (c :: s)).
  apply reads_bind with (x := c).
  - rewrite byte_bits_write. apply reads_field. cbn. split; [lia|exact Hc].
  - rewrite <- (app_nil_r (flat_map byte_bits s)). apply reads_bind with (x := s); [exact IH|apply reads_ret].
Qed.

Lemma reads_string s : Forall is_byte s -> (length s <= 255)%nat ->
  reads readString (writeString s) s.
Proof.
  intros Hs Hl. unfold readString, writeString.
  destruct (Z.ltb_spec 255 (Z.of_nat (length s))) as [|_]; [lia|].
  apply reads_bind with (x := Z.of_nat (length s)).
  - replace (to_unsigned 8 (Z.of_nat (length s))) with (Z.of_nat (length s))
      by (unfold to_unsigned; rewrite Z.mod_small by (cbn; lia); reflexivity).
    apply reads_field. cbn. lia.
  - rewrite Nat2Z.id. apply reads_string_loop; exact Hs.
Qed.

(** A longer string: the first 255 characters are read, the rest stays in the stream. *)
Lemma reads_string_long s st rest : Forall is_byte s -> (255 < length s)%nat ->
  rs_ok st -> stream st = writeString s ++ rest ->
  exists st', readString st = (firstn 255 s, st') /\ rs_ok st' /\
    stream st' = flat_map byte_bits (skipn 255 s) ++ rest.
Proof.
  intros Hs Hl Hok E.
  assert (W : writeString s = writeString (firstn 255 s) ++ flat_map byte_bits (skipn 255 s)).
  { unfold writeString. rewrite firstn_length, Nat.min_l by lia.
    destruct (Z.ltb_spec 255 (Z.of_nat (length s))) as [_|]; [|lia].
    change (Z.of_nat 255) with 255. cbn [Z.ltb Z.compare Pos.compare Pos.compare_cont].
    rewrite <- app_assoc. f_equal. apply flat_map_firstn_skipn. }
  rewrite W, <- app_assoc in E.
  apply (reads_string (firstn 255 s)) with (rest := flat_map byte_bits (skipn 255 s) ++ rest); try assumption.
  - apply Forall_forall. intros x Hx. rewrite Forall_forall in Hs. apply Hs.
    rewrite <- (firstn_skipn 255 s). apply in_or_app. left. exact Hx.
  - rewrite firstn_length. lia.
Qed.

Lemma reads_vector v : vector_ok v -> reads readVector (writeVector v) v.
Proof.
  intros (Hx & Hy & Hz). unfold readVector, writeVector. destruct v as [x y z]; cbn [vx vy vz] in *.
  assert (F : forall c, i8_ok c -> reads (readNBits i8 8) (writeNBits 8 c) c).
  { intros c Hc. apply reads_field. cbn. split; [lia|]. left. split; [reflexivity|exact Hc]. }
  apply reads_bind with (x := x); [apply F; exact Hx|].
  apply reads_bind with (x := y); [apply F; exact Hy|].
  rewrite <- (app_nil_r (writeNBits 8 z)).
  apply (reads_bind (readNBits i8 8) (fun z st => (Vec x y z, st))) with (x := z); [apply F; exact Hz|].
  apply reads_ret.
Qed.

(** ** Sequences of fields *)

Lemma reads_fields fs : Forall (fun f => field_ok (fst (fst f)) (snd (fst f)) (snd f)) fs ->
  reads (read_fields (map fst fs)) (write_fields fs) (map snd fs).
Proof.
  induction 1 as [|[[T n] v] fs Hf Hfs IH]; cbn [map read_fields write_fields flat_map fst snd].
  - apply reads_ret.
  - apply (reads_bind (readNBits T n)
      (fun v st1 => let '(vs, st2) := read_fields (map fst fs) st1 in (v :: vs, st2))) with (x := v).
    + apply reads_field. exact Hf.
    + rewrite <- (app_nil_r (flat_map _ fs)).
      apply (reads_bind (read_fields (map fst fs)) (fun vs st => (v :: vs, st))) with (x := map snd fs).
      * exact IH.
      * apply reads_ret.
Qed.

Lemma stream_file file : stream (RS file []) = flat_map byte_bits file.
Proof. reflexivity. Qed.

(** When the leftover is shorter than a byte and what is left of the stream is
    [pad ++ whole bytes], the state is determined. *)
Lemma stream_split st pad tail :
  rs_ok st -> (length pad < 8)%nat -> Forall is_byte (rs_file st) -> Forall is_byte tail ->
  stream st = pad ++ flat_map byte_bits tail -> rs_unused st = pad /\ rs_file st = tail.
Proof.
  intros Hok Hp Hf Ht Hs. unfold rs_ok, stream in *.
  pose proof (f_equal (@length bool) Hs) as Hl.
  rewrite !app_length, !flat_byte_bits_length in Hl.
  assert (Hlp : length (rs_unused st) = length pad) by lia.
  assert (E : rs_unused st = pad /\ flat_map byte_bits (rs_file st) = flat_map byte_bits tail).
  { apply (f_equal (firstn (length pad))) in Hs as H1. apply (f_equal (skipn (length pad))) in Hs as H2.
    rewrite <- Hlp in H1 at 1. rewrite <- Hlp in H2 at 1.
    rewrite !firstn_app, !Nat.sub_diag in H1. rewrite !skipn_app, !Nat.sub_diag in H2.
    cbn [firstn skipn] in *. rewrite !app_nil_r, !firstn_all in H1. rewrite !skipn_all in H2. auto. }
  destruct E as [-> E]. split; [reflexivity|].
  assert (Hlen : length (rs_file st) = length tail) by lia.
  revert E Hlen Hf Ht. generalize (rs_file st). clear.
  induction tail as [|t tail IH]; intros [|x l] E Hlen Hf Ht; try discriminate; [reflexivity|].
  cbn [flat_map] in E. inversion Hf; inversion Ht; subst.
  assert (E1 : byte_bits x = byte_bits t).
  { apply (f_equal (firstn 8)) in E. rewrite !firstn_app in E. cbn in E. exact E. }
  assert (E2 : flat_map byte_bits l = flat_map byte_bits tail).
  { rewrite E1 in E. apply app_inv_head in E. exact E. }
  f_equal.
  - rewrite <- (bits_val_byte x), <- (bits_val_byte t), E1 by assumption. reflexivity.
  - cbn [length] in Hlen. apply IH; auto.
Qed.

Lemma read_bytes_Forall k : forall file, Forall is_byte file -> Forall is_byte (snd (read_bytes k file)).
Proof.
  intros file H. rewrite read_bytes_pad. cbn [snd]. revert k; induction H as [|x l Hx Hl IH]; intros k.
  - destruct k; constructor.
  - destruct k; cbn [skipn]; [constructor; assumption|apply IH].
Qed.

Lemma readNBits_Forall T n st : Forall is_byte (rs_file st) ->
  Forall is_byte (rs_file (snd (readNBits T n st))).
Proof.
  intros H. unfold readNBits. destruct (length (rs_unused st) <? n)%nat.
  - pose proof (read_bytes_Forall (if ((n - length (rs_unused st)) mod 8 =? 0)%nat
       then ((n - length (rs_unused st)) / 8)%nat else ((n - length (rs_unused st)) / 8 + 1)%nat) _ H) as Hr.
    destruct (read_bytes _ _) as [bytes f']. destruct (readNBits_loop _ _ _ _ _). exact Hr.
  - destruct (readNBits_loop _ _ _ _ _). exact H.
Qed.

Lemma read_fields_Forall ws : forall st, Forall is_byte (rs_file st) ->
  Forall is_byte (rs_file (snd (read_fields ws st))).
Proof.
  induction ws as [|[T n] ws IH]; intros st H; cbn [read_fields]; [exact H|].
  pose proof (readNBits_Forall T n st H) as H1. destruct (readNBits T n st) as [v st1].
  cbn [snd] in H1. specialize (IH st1 H1). destruct (read_fields ws st1) as [vs st2]. exact IH.
Qed.

Lemma fields_file fs tail :
  Forall (fun f => field_ok (fst (fst f)) (snd (fst f)) (snd f)) fs -> Forall is_byte tail ->
  exists pad, (pad < 8)%nat /\
  read_fields (map fst fs) (RS (writeBitset (fillBitset (write_fields fs)) ++ tail) [])
  = (map snd fs, RS tail (repeat false pad)).
Proof.
  intros Hf Ht. set (bs := write_fields fs).
  pose proof (writeBitset_fillBitset bs) as Hw. pose proof (proj2 (writeBitset_fill (fillBitset bs))) as Hb.
  set (pad := ((8 - length bs mod 8) mod 8)%nat).
  exists pad. split; [unfold pad; lia|].
  set (st := RS (writeBitset (fillBitset bs) ++ tail) []).
  assert (Hs : stream st = bs ++ (repeat false pad ++ flat_map byte_bits tail)).
  { unfold st. rewrite stream_file, flat_map_app, Hw. unfold fillBitset. fold pad. now rewrite <- app_assoc. }
  destruct (reads_fields fs Hf st _ ltac:(cbn; unfold rs_ok; cbn; lia) Hs) as (st' & E & Hok & Hs').
  rewrite E. f_equal.
  assert (HF : Forall is_byte (rs_file st')).
  { change st' with (snd (map snd fs, st')). rewrite <- E. apply read_fields_Forall.
    cbn. apply Forall_app. split; assumption. }
  destruct (stream_split st' (repeat false pad) tail Hok) as [E1 E2]; try assumption.
  - rewrite repeat_length. unfold pad. lia.
  - destruct st'; cbn in *. congruence.
Qed.
