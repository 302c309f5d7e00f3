(** The block length of a wavelet band in a binary file: when it survives. *)
From Coq Require Import Reals Psatz.
From Flocq Require Import Core.Core.
From Verif Require Import Base BitsModel BitsSpec BitsProof FloatBase FloatModel FloatSpec FloatProof Float64Proof FloatFields
  SpihtHeader TypesModel MetaModel BandModel MetaSpec VecReads MetaProof BinaryModel BinarySpec BinaryReads BinaryProof.
Ltac Zify.zify_post_hook ::= Z.div_mod_to_equations.
Local Open Scope R_scope.

Lemma tiny150 : bpow radix2 (-150) <= / 1000000000000000000000.
Proof.
  change (-150)%Z with (Z.opp 150). rewrite (bpow_inv 150) by lia. apply Rinv_le_contravar; [lra|].
  apply IZR_le. apply Z.leb_le. reflexivity.
Qed.

(** The computed number of samples is the integer part of a number very close to block * up / 1000. *)
Lemma samples_close block up n : (0 < block < 2 ^ 31)%Z -> (0 < up < 65536)%Z -> blockLengthSamples block 1000 up = Ok n ->
  (0 <= n)%Z -> exists d, n = Zfloor d /\ Rabs (d - IZR (block * up) / 1000) < / 2000.
Proof.
  intros Hb Hu H Hn. change (2 ^ 31)%Z with 2147483648%Z in Hb. unfold blockLengthSamples in H.
  destruct (f64_of_Z_ok block ltac:(lia)) as [Eb Fb]. destruct (f64_of_Z_ok 1000 ltac:(lia)) as [Et Ft].
  destruct (f64_of_Z_ok up ltac:(lia)) as [Eu Fu].
  assert (Rb : 1 <= IZR block <= 2147483648) by (split; apply IZR_le; lia).
  assert (Ru : 1 <= IZR up <= 65536) by (split; apply IZR_le; lia).
  destruct (div64_ok (f64_of_Z block) (f64_of_Z 1000) Fb) as [Eq Fq]; [rewrite Et; lra|rewrite Eb, Et; apply bound1000; lra|].
  rewrite Eb, Et in Eq. set (x := IZR block / 1000) in *.
  assert (Hx : 0 < x <= 2147484) by (unfold x; lra).
  pose proof (err64 x) as He. rewrite (Rabs_pos_eq x) in He by lra. pose proof tiny150 as Ht.
  set (q := rnd64 x) in *. set (tiny := bpow radix2 (-150)) in *. assert (0 <= tiny) by apply bpow_ge_0.
  assert (Hq : Rabs (q - x) <= / 1000000000) by (eapply Rle_trans; [exact He|]; lra).
  apply Rabs_le_inv in Hq.
  destruct (mul64_ok (div64 (f64_of_Z block) (f64_of_Z 1000)) (f64_of_Z up) Fq Fu) as [Em Fm].
  { rewrite Eq, Eu. apply bound1000. nra. }
  rewrite Eq, Eu in Em. pose proof (err64 (q * IZR up)) as He2.
  assert (Hy : 0 <= Rabs (q * IZR up) <= 140737550000).
  { split; [apply Rabs_pos|]. apply Rabs_le. nra. }
  set (d := rnd64 (q * IZR up)) in *. exists d.
  assert (He1 : Rabs (q - x) <= / 9007199254740992 * 2147484 + / 1000000000000000000000) by (eapply Rle_trans; [exact He|]; lra).
  apply Rabs_le_inv in He1. fold tiny in He2.
  assert (Hd : Rabs (d - q * IZR up) <= / 9007199254740992 * 140737550000 + / 1000000000000000000000) by (eapply Rle_trans; [exact He2|]; lra).
  apply Rabs_le_inv in Hd.
  assert (Hclose : Rabs (d - IZR (block * up) / 1000) < / 2000).
  { rewrite mult_IZR. replace (IZR block * IZR up / 1000) with (x * IZR up) by (unfold x; field).
    apply Rabs_def1; nra. }
  split; [|exact Hclose].
  unfold int_of_float in H. rewrite Fm in H. cbv zeta in H.
  destruct (Btrunc (mul64 (div64 (f64_of_Z block) (f64_of_Z 1000)) (f64_of_Z up)) =? _)%Z; [|discriminate].
  assert (Hpos : 0 <= d).
  { apply Rabs_def2 in Hclose. rewrite mult_IZR in Hclose. assert (1 <= IZR block * IZR up) by nra. lra. }
  assert (En : n = Btrunc (mul64 (div64 (f64_of_Z block) (f64_of_Z 1000)) (f64_of_Z up))) by congruence.
  rewrite En, Btrunc_floor; [exact (f_equal Zfloor Em)|exact (Rle_trans _ _ _ Hpos (Req_le _ _ (eq_sym Em)))].
Qed.

Local Open Scope Z_scope.

(** The code that is written: between the number of samples and its double. *)
Lemma code_bounds block up code : 0 < block < 2 ^ 31 -> 0 < up < 65536 -> blockLengthCode block 1000 up = Ok code ->
  -4 <= code <= 26 /\ 1000 * 2 ^ (code + 4) <= block * up.
Proof.
  intros Hb Hu H. unfold blockLengthCode in H. destruct (blockLengthSamples block 1000 up) as [n| | |] eqn:E; try discriminate.
  cbn [obind] in H. destruct (Z.ltb_spec 0 n) as [Hn|]; [|discriminate]. injection H as <-.
  replace (Z.log2 n - 4 + 4) with (Z.log2 n) by lia.
  assert (Hn31 : n < 2 ^ 31).
  { unfold blockLengthSamples, int_of_float in E. destruct (is_finite _); [|discriminate]. cbv zeta in E.
    match type of E with (if ?z =? ?c then _ else _) = _ => destruct (Z.eqb_spec z c) as [Ez|]; [|discriminate]; assert (En : n = z) by congruence end.
    rewrite <- En in Ez. rewrite Ez. unfold cast, i32, ct_signed, ct_width, to_signed.
    change (2 ^ Z.of_nat 32) with 4294967296. change (2 ^ (Z.of_nat 32 - 1)) with 2147483648. change (2 ^ 31) with 2147483648. lia. }
  pose proof (Z.log2_spec n Hn) as [Hl _]. pose proof (Z.log2_nonneg n).
  assert (Z.log2 n < 31) by (apply Z.log2_lt_pow2; [exact Hn|exact Hn31]).
  split; [lia|].
  destruct (samples_close _ _ _ Hb Hu E ltac:(lia)) as (d & Hd & Hclose). apply Rabs_def2 in Hclose.
  assert (IZR n <= d)%R by (rewrite Hd; apply Zfloor_lb).
  assert (Hlt : (1000 * 2 ^ Z.log2 n < block * up + 1)); [|lia].
  apply lt_IZR. rewrite plus_IZR, (mult_IZR 1000). assert (IZR (2 ^ Z.log2 n) <= IZR n)%R by (apply IZR_le; exact Hl). lra.
Qed.

Lemma ticks_back block up code : 0 < block -> 0 < up < 65536 -> -4 <= code <= 26 -> 1000 * 2 ^ (code + 4) <= block * up ->
  blockLengthTicks (code mod 256) 1000 up = Ok block ->
  4 <= code + 4 <= 22 /\ block * up = 1000 * 2 ^ (code + 4).
Proof.
  intros Hb Hu Hc Hle H. unfold blockLengthTicks in H.
  destruct (Z.ltb_spec (2 ^ (code mod 256 + 4)) (2 ^ 31)) as [Hlt|]; [|discriminate].
  destruct (Z.eqb_spec up 0); [discriminate|]. injection H as H.
  assert (Hcode : 0 <= code).
  { apply Z.pow_lt_mono_r_iff in Hlt; [|lia|lia]. lia. }
  rewrite (Z.mod_small code 256) in H by lia. set (X := 2 ^ (code + 4)) in *. assert (0 < X) by (apply Z.pow_pos_nonneg; lia).
  set (W := to_unsigned 32 (X * 1000)) in *.
  assert (HW : 0 <= W < 4294967296 /\ W <= X * 1000).
  { unfold W, to_unsigned. change (2 ^ Z.of_nat 32) with 4294967296. lia. }
  assert (Hq : 0 <= W / up < 4294967296).
  { split; [apply Z.div_pos; lia|]. apply Z.div_lt_upper_bound; nia. }
  assert (Heq : W / up = block).
  { unfold to_signed in H. change (2 ^ Z.of_nat 32) with 4294967296 in H. change (2 ^ (Z.of_nat 32 - 1)) with 2147483648 in H. lia. }
  assert (Hmul : block * up <= W) by (rewrite <- Heq; rewrite Z.mul_comm; apply Z.mul_div_le; lia).
  split; [|lia]. split; [lia|].
  destruct (Z_le_gt_dec (code + 4) 22) as [|G]; [assumption|exfalso].
  assert (2 ^ 23 <= X) by (apply Z.pow_le_mono_r; lia). change (2 ^ 23) with 8388608 in *. lia.
Qed.

(** Reading the header of a wavelet band back. *)
Lemma header_block b block bits b' st' rest st : b_type b = WaveletB -> b_block b = Some block ->
  nbits 16 (b_low b) -> nbits 16 (b_up b) ->
  writeBandHeader 1000 b = Ok bits -> rs_ok st -> stream st = bits ++ rest ->
  readBandHeader 1000 band0 st = Ok (b', st') ->
  exists code t, blockLengthCode block 1000 (b_up b) = Ok code /\ blockLengthTicks (code mod 256) 1000 (b_up b) = Ok t /\ b_block b' = Some t.
Proof.
  intros Ht Hbl Hlow Hup Hw Hok Hs Hr. unfold writeBandHeader in Hw. rewrite Ht, Hbl in Hw. cbn [Z.eqb Pos.eqb CurveB WaveletB] in Hw.
  destruct (blockLengthCode block 1000 (b_up b)) as [code| | |]; try discriminate. cbn [obind] in Hw.
  exists code. match type of Hw with Ok ?x = _ => assert (Ex : bits = x) by congruence end. subst bits. clear Hw.
  unfold readBandHeader in Hr. revert Hr. rstep (rn u8 3 3 eq_refl ltac:(unfold nbits; cbn; lia)).
  cbn [Z.eqb Pos.eqb CurveB WaveletB]. unfold readIf at 1. cbv beta iota.
  match goal with H : stream ?s = _ |- _ => rewrite <- (writeNBits_mod 8 code) in H end. change (2 ^ Z.of_nat 8) with 256 in *.
  rstep (rif _ _ _ (rn u8 8 (code mod 256) eq_refl ltac:(unfold nbits; change (2 ^ Z.of_nat 8) with 256; lia))).
  rstep (rn u16 16 _ eq_refl Hlow). rstep (rn u16 16 _ eq_refl Hup).
  destruct (blockLengthTicks (code mod 256) 1000 (b_up b)) as [t| | |]; cbn [obind]; try discriminate.
  intros Hr. exists t. split; [reflexivity|]. split; [reflexivity|].
  match type of Hr with (let '(_, _) := ?c in _) = _ => destruct c as [n s'] end. injection Hr as <- <-.
  rewrite default_effects by constructor. reflexivity.
Qed.

Lemma block_survives b block bits b' st' rest st : b_type b = WaveletB -> b_block b = Some block -> 0 < block < 2 ^ 31 ->
  nbits 16 (b_low b) -> 0 < b_up b < 65536 ->
  writeBandHeader 1000 b = Ok bits -> rs_ok st -> stream st = bits ++ rest ->
  readBandHeader 1000 band0 st = Ok (b', st') ->
  (b_block b' = Some block <-> exists k, 4 <= k <= 22 /\ block * b_up b = 1000 * 2 ^ k).
Proof.
  intros Ht Hbl Hblock Hlow Hup Hw Hok Hs Hr.
  assert (Hup' : nbits 16 (b_up b)) by (unfold nbits; change (2 ^ 16) with 65536; lia).
  destruct (header_block _ _ _ _ _ _ _ Ht Hbl Hlow Hup' Hw Hok Hs Hr) as (code & t & Hcode & Hticks & E). rewrite E.
  destruct (code_bounds _ _ _ Hblock Hup Hcode) as [Hc Hle]. split.
  - intros [= ->]. destruct (ticks_back _ _ _ (proj1 Hblock) Hup Hc Hle Hticks) as [Hk Hex]. exists (code + 4). auto.
  - intros (k & Hk & Hex). rewrite (block_code _ _ _ Hup Hk Hex) in Hcode. injection Hcode as <-.
    rewrite Z.mod_small in Hticks by lia. rewrite (block_ticks _ _ _ (proj2 Hblock) Hup Hk Hex) in Hticks. congruence.
Qed.
(** When it does not survive it becomes smaller. *)
Lemma block_shrinks b block bits b' st' rest st : b_type b = WaveletB -> b_block b = Some block -> 0 < block < 2 ^ 31 ->
  nbits 16 (b_low b) -> 0 < b_up b < 65536 ->
  writeBandHeader 1000 b = Ok bits -> rs_ok st -> stream st = bits ++ rest ->
  readBandHeader 1000 band0 st = Ok (b', st') -> exists t, b_block b' = Some t /\ t <= block.
Proof.
  intros Ht Hbl Hblock Hlow Hup Hw Hok Hs Hr.
  assert (Hup' : nbits 16 (b_up b)) by (unfold nbits; change (2 ^ 16) with 65536; lia).
  destruct (header_block _ _ _ _ _ _ _ Ht Hbl Hlow Hup' Hw Hok Hs Hr) as (code & t & Hcode & Hticks & E).
  exists t. split; [exact E|]. destruct (code_bounds _ _ _ Hblock Hup Hcode) as [Hc Hle].
  unfold blockLengthTicks in Hticks. destruct (Z.ltb_spec (2 ^ (code mod 256 + 4)) (2 ^ 31)) as [Hlt|]; [|discriminate].
  destruct (Z.eqb_spec (b_up b) 0); [discriminate|]. injection Hticks as <-.
  assert (Hcode' : 0 <= code) by (apply Z.pow_lt_mono_r_iff in Hlt; lia).
  rewrite (Z.mod_small code 256) by lia. set (X := 2 ^ (code + 4)) in *. assert (0 < X) by (apply Z.pow_pos_nonneg; lia).
  set (W := to_unsigned 32 (X * 1000)).
  assert (HW : 0 <= W < 4294967296 /\ W <= X * 1000).
  { unfold W, to_unsigned. change (2 ^ Z.of_nat 32) with 4294967296. lia. }
  assert (Hq : 0 <= W / b_up b <= block).
  { split; [apply Z.div_pos; lia|]. apply Z.div_le_upper_bound; nia. }
  unfold to_signed. change (2 ^ Z.of_nat 32) with 4294967296. change (2 ^ (Z.of_nat 32 - 1)) with 2147483648. change (2 ^ 31) with 2147483648 in Hblock. lia.
Qed.
