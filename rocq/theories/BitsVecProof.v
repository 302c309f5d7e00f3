(** Lemmas about the bit-vector readers and about truncated files. *)
From Verif Require Import Base BitsModel BitsSpec BitsProof.
Ltac Zify.zify_post_hook ::= Z.div_mod_to_equations.

Lemma slice_app pre b post : slice (pre ++ b ++ post) (length pre) (length b) = Ok b.
Proof.
  unfold slice. rewrite !app_length.
  destruct (Nat.leb_spec (length pre + length b) (length pre + (length b + length post))); [|lia].
  f_equal. rewrite skipn_app, skipn_all, Nat.sub_diag. cbn [skipn app].
  rewrite firstn_app, Nat.sub_diag, firstn_all. cbn [firstn]. apply app_nil_r.
Qed.

Lemma readUInt_app pre b post :
  (1 <= length b <= 31)%nat ->
  readUInt (pre ++ b ++ post) (length pre) (length b) = Ok (bits_val b, (length pre + length b)%nat).
Proof.
  intros H. unfold readUInt. rewrite slice_app. cbn [obind].
  destruct (Nat.eqb_spec (length b) 0); [lia|].
  pose proof (bits_val_bound b) as Hb.
  assert (2 ^ Z.of_nat (length b) <= 2 ^ Z.of_nat 31) as H31 by (apply pow2_le; lia).
  change (2 ^ Z.of_nat 31) with 2147483648 in H31.
  destruct (Z.leb_spec (2 ^ 64) (bits_val b)); [change (2 ^ 64) with 18446744073709551616 in *; lia|].
  rewrite to_signed_small; [reflexivity|lia|]. change (2 ^ (Z.of_nat 32 - 1)) with 2147483648. lia.
Qed.

Lemma readUInt_app32 pre b post :
  (1 <= length b <= 32)%nat ->
  readUInt (pre ++ b ++ post) (length pre) (length b)
  = Ok (to_signed 32 (bits_val b), (length pre + length b)%nat).
Proof.
  intros H. unfold readUInt. rewrite slice_app. cbn [obind].
  destruct (Nat.eqb_spec (length b) 0); [lia|].
  pose proof (bits_val_bound b) as Hb.
  assert (2 ^ Z.of_nat (length b) <= 2 ^ Z.of_nat 32) as H31 by (apply pow2_le; lia).
  change (2 ^ Z.of_nat 32) with 4294967296 in H31.
  destruct (Z.leb_spec (2 ^ 64) (bits_val b)); [change (2 ^ 64) with 18446744073709551616 in *; lia|].
  reflexivity.
Qed.

Lemma bits_val_negb b : bits_val (map negb b) = 2 ^ Z.of_nat (length b) - 1 - bits_val b.
Proof.
  induction b as [|x b IH]; [reflexivity|].
  cbn [map]. rewrite !bits_val_cons, IH, map_length. cbn [length]. rewrite pow2_S.
  destruct x; cbn [negb Z.b2z]; lia.
Qed.

Lemma readInt_app pre b post :
  (1 <= length b <= 31)%nat ->
  readInt (pre ++ b ++ post) (length pre) (length b)
  = Ok (to_signed (length b) (bits_val b), (length pre + length b)%nat).
Proof.
  intros H. destruct b as [|x b']; [cbn [length] in H; lia|]. set (b := x :: b') in *.
  unfold readInt. destruct (pre ++ b ++ post) as [|y l] eqn:E.
  { exfalso. destruct pre; discriminate E. }
  rewrite <- E. clear E y l.
  assert (Hn : nth_error (pre ++ b ++ post) (length pre) = Some x).
  { rewrite nth_error_app2, Nat.sub_diag by lia. reflexivity. }
  rewrite Hn. pose proof (bits_val_bound b') as Hb'.
  assert (Hlen : length b = S (length b')) by reflexivity.
  assert (Hw : 2 ^ (Z.of_nat (length b) - 1) = 2 ^ Z.of_nat (length b')) by (f_equal; lia).
  assert (H31 : 2 ^ Z.of_nat (length b') <= 2 ^ Z.of_nat 30) by (apply pow2_le; lia).
  change (2 ^ Z.of_nat 30) with 1073741824 in H31.
  assert (Hv : bits_val b = Z.b2z x * 2 ^ Z.of_nat (length b') + bits_val b') by apply bits_val_cons.
  destruct x; cbn [Z.b2z] in Hv.
  - rewrite !map_app.
    replace (length pre) with (length (map negb pre)) at 1 by apply map_length.
    replace (length b) with (length (map negb b)) at 1 by apply map_length.
    rewrite readUInt_app by (rewrite map_length; exact H). cbn [obind].
    rewrite bits_val_negb, !map_length.
    replace (2 ^ Z.of_nat (length b) - 1 - bits_val b) with (2 ^ Z.of_nat (length b') - 1 - bits_val b')
      by (rewrite Hv, Hlen, pow2_S; lia).
    destruct (Z.eqb_spec (2 ^ Z.of_nat (length b') - 1 - bits_val b') (2 ^ 31 - 1));
      [change (2 ^ 31) with 2147483648 in *; lia|].
    f_equal. f_equal. unfold to_signed. rewrite Hw, Hlen, pow2_S, Hv.
    rewrite <- (Z.mod_add _ (-1)) by lia.
    rewrite Z.mod_small; lia.
  - rewrite readUInt_app by exact H. f_equal. f_equal. rewrite to_signed_small; [reflexivity|lia|].
    rewrite Hw. lia.
Qed.

Lemma readStringBits_app s : Forall is_byte s -> forall pre post,
  readStringBits (pre ++ flat_map byte_bits s ++ post) (length pre) (length s)
  = Ok (s, (length pre + 8 * length s)%nat).
Proof.
  induction 1 as [|c s Hc Hs IH]; intros pre post.
  - cbn. f_equal. f_equal. lia.
  - cbn [readStringBits length flat_map]. rewrite <- app_assoc.
    change 8%nat with (length (byte_bits c)) at 1. rewrite slice_app. cbn [obind].
    rewrite app_assoc.
    replace (length pre + 8)%nat with (length (pre ++ byte_bits c))
      by (rewrite app_length, byte_bits_length; reflexivity).
    rewrite IH. cbn [obind]. rewrite bits_val_byte by exact Hc. f_equal. f_equal.
    rewrite app_length, byte_bits_length. lia.
Qed.

(** Versions with free index and length. *)
Lemma readUInt_at pre b post i n : i = length pre -> n = length b -> (1 <= n <= 31)%nat ->
  readUInt (pre ++ b ++ post) i n = Ok (bits_val b, (i + n)%nat).
Proof. intros -> -> H. apply readUInt_app; exact H. Qed.
Lemma readUInt_at32 pre b post i n : i = length pre -> n = length b -> (1 <= n <= 32)%nat ->
  readUInt (pre ++ b ++ post) i n = Ok (to_signed 32 (bits_val b), (i + n)%nat).
Proof. intros -> -> H. apply readUInt_app32; exact H. Qed.
Lemma readUInt_at0 b post n : n = length b -> (1 <= n <= 31)%nat ->
  readUInt (b ++ post) 0 n = Ok (bits_val b, n).
Proof. intros -> H. exact (readUInt_app [] b post H). Qed.
Lemma readUInt_all b n : n = length b -> (1 <= n <= 31)%nat ->
  readUInt b 0 n = Ok (bits_val b, n).
Proof. intros -> H. rewrite <- (app_nil_r b) at 1. exact (readUInt_app [] b [] H). Qed.
Lemma readUInt_all32 b n : n = length b -> (1 <= n <= 32)%nat ->
  readUInt b 0 n = Ok (to_signed 32 (bits_val b), n).
Proof. intros -> H. rewrite <- (app_nil_r b) at 1. exact (readUInt_app32 [] b [] H). Qed.
Lemma readInt_at pre b post i n : i = length pre -> n = length b -> (1 <= n <= 31)%nat ->
  readInt (pre ++ b ++ post) i n = Ok (to_signed n (bits_val b), (i + n)%nat).
Proof. intros -> -> H. apply readInt_app; exact H. Qed.

(** ** Truncated files *)

Lemma readNBits_zeros T n file un k : exists k',
  fst (readNBits T n (RS (file ++ repeat 0 k) un)) = fst (readNBits T n (RS file un))
  /\ snd (readNBits T n (RS (file ++ repeat 0 k) un))
     = RS (rs_file (snd (readNBits T n (RS file un))) ++ repeat 0 k')
          (rs_unused (snd (readNBits T n (RS file un)))).
Proof.
  unfold readNBits. cbn [rs_file rs_unused]. destruct (length un <? n)%nat.
  - match goal with |- context [read_bytes ?x file] => generalize x end. intros nb. rewrite !read_bytes_pad.
    exists (k - (nb - length file))%nat.
    assert (E : firstn nb ((file ++ repeat 0 k) ++ repeat 0 nb) = firstn nb (file ++ repeat 0 nb)).
    { rewrite <- app_assoc, <- repeat_app, !firstn_app. f_equal. rewrite !firstn_repeat'. f_equal. lia. }
    rewrite E. destruct (readNBits_loop n 0 _ 0 []) as [v u]. cbn [fst snd rs_file rs_unused].
    split; [reflexivity|]. f_equal. rewrite skipn_app. f_equal.
    clear. revert k. generalize (nb - length file)%nat as m. intros m; induction m as [|m IH]; intros k.
    + now rewrite Nat.sub_0_r.
    + destruct k; cbn [repeat skipn Nat.sub]; [reflexivity|apply IH].
  - exists k. destruct (readNBits_loop n 0 un 0 []) as [v u]. cbn. auto.
Qed.

Lemma read_fields_zeros ws : forall file un k,
  fst (read_fields ws (RS (file ++ repeat 0 k) un)) = fst (read_fields ws (RS file un)).
Proof.
  induction ws as [|[T n] ws IH]; intros file un k; cbn [read_fields]; [reflexivity|].
  destruct (readNBits_zeros T n file un k) as (k' & E1 & E2).
  destruct (readNBits T n (RS file un)) as [v [f1 u1]].
  destruct (readNBits T n (RS (file ++ repeat 0 k) un)) as [v' st1].
  cbn [fst snd rs_file rs_unused] in *. subst.
  specialize (IH f1 u1 k').
  destruct (read_fields ws (RS (f1 ++ repeat 0 k') u1)). destruct (read_fields ws (RS f1 u1)).
  cbn [fst] in *. congruence.
Qed.
