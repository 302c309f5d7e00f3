(** Proofs about the header of a wavelet block: the scale factor. *)
From Coq Require Import Reals Psatz.
From Flocq Require Import Core.Core.
Require Import Flocq.Prop.Mult_error.
From Verif Require Import Base FloatBase FloatModel FloatProof Float64Proof ArithModel ArithSpec SpihtModel SpihtSpec SpihtProof.
Ltac Zify.zify_post_hook ::= Z.div_mod_to_equations.
Local Open Scope R_scope.

Lemma one_R : B2R f64_one = 1.
Proof. unfold f64_one, B2R, F2R. cbn -[bpow]. change (-52)%Z with (Z.opp 52). rewrite (bpow_inv 52) by lia. change (2 ^ 52)%Z with 4503599627370496%Z. lra. Qed.
Lemma c128_R : B2R f64_128 = 128.
Proof. unfold f64_128, B2R, F2R. cbn -[bpow]. change (-45)%Z with (Z.opp 45). rewrite (bpow_inv 45) by lia. change (2 ^ 45)%Z with 35184372088832%Z. lra. Qed.
Lemma c8_R : B2R f64_8 = 8.
Proof. unfold f64_8, B2R, F2R. cbn -[bpow]. change (-49)%Z with (Z.opp 49). rewrite (bpow_inv 49) by lia. change (2 ^ 49)%Z with 562949953421312%Z. lra. Qed.
Lemma m7_R : B2R f64_2m7 = / 128.
Proof. unfold f64_2m7, B2R, F2R. cbn -[bpow]. change (-59)%Z with (Z.opp 59). rewrite (bpow_inv 59) by lia. change (2 ^ 59)%Z with 576460752303423488%Z. lra. Qed.
Lemma m3_R : B2R f64_2m3 = / 8.
Proof. unfold f64_2m3, B2R, F2R. cbn -[bpow]. change (-55)%Z with (Z.opp 55). rewrite (bpow_inv 55) by lia. change (2 ^ 55)%Z with 36028797018963968%Z. lra. Qed.

Lemma big1000 : IZR (2 ^ 60) <= bpow radix2 1000.
Proof. rewrite bpow_IZR by lia. apply IZR_le. apply Z.pow_le_mono_r; lia. Qed.
Lemma bound1000 r : -1000000000000000000 <= r <= 1000000000000000000 -> Rabs r <= bpow radix2 1000.
Proof.
  intros H. eapply Rle_trans; [|apply big1000]. apply Rle_trans with 1000000000000000000; [apply Rabs_le; lra|].
  apply IZR_le. cbn. lia.
Qed.

Lemma minus_one x : fmt64 x -> 1 <= x <= 1000000000 -> fmt64 (x - 1).
Proof.
  intros Fx Hx. apply FLT_format_generic in Fx; [|reflexivity]. destruct Fx as [[m e] E Hm He]. cbn [Fnum Fexp] in *.
  unfold F2R in E. cbn [Fnum Fexp] in E. change (radix2 ^ 53)%Z with (2 ^ 53)%Z in Hm.
  destruct (Z_lt_ge_dec e 0) as [N|G].
  - assert (Em : (1 <= m)%Z).
    { destruct (Z_lt_ge_dec m 1) as [L|L]; [|lia]. exfalso. assert (IZR m <= 0) by (apply (IZR_le m 0); lia).
      pose proof (bpow_gt_0 radix2 e). nra. }
    assert (He2 : (-53 < e)%Z).
    { apply (lt_bpow radix2). apply Rnot_le_lt. intros Hle.
      assert (IZR m < bpow radix2 53) by (rewrite bpow_IZR by lia; apply IZR_lt; lia).
      assert (B : bpow radix2 53 * bpow radix2 (-53) = 1) by (rewrite <- bpow_plus; reflexivity).
      pose proof (bpow_gt_0 radix2 e). pose proof (bpow_gt_0 radix2 (-53)). pose proof (bpow_gt_0 radix2 53). nra. }
    replace (x - 1) with (IZR (m - 2 ^ (- e)) * bpow radix2 e).
    + apply fmt_Z; [reflexivity|lia|].
      assert (Hp : (2 ^ (- e) <= 2 ^ 52)%Z) by (apply Z.pow_le_mono_r; lia). pose proof (Z.pow_pos_nonneg 2 (- e) ltac:(lia) ltac:(lia)). lia.
    + rewrite minus_IZR, <- (bpow_IZR (- e)) by lia.
      rewrite Rmult_minus_distr_r, <- bpow_plus. replace (- e + e)%Z with 0%Z by lia. cbn [bpow]. lra.
  - replace (x - 1) with (IZR (m * 2 ^ e - 1)).
    + apply fmt64_Z. rewrite E in Hx. rewrite bpow_IZR in Hx by lia. rewrite <- mult_IZR in Hx.
      destruct Hx as [H1 H2]. apply le_IZR in H1, H2. lia.
    + rewrite minus_IZR, mult_IZR, <- bpow_IZR by lia. lra.
Qed.

Lemma int_of_nonneg (x : f64) : is_finite x = true -> 0 <= B2R x < 2147483648 ->
  int_of_float i32 x = Ok (Zfloor (B2R x)) /\ (0 <= Zfloor (B2R x) < 2 ^ 31)%Z.
Proof.
  intros Fx Hx. assert (H : (0 <= Zfloor (B2R x) < 2 ^ 31)%Z).
  { split; [apply Zfloor_lub; apply Hx|]. apply lt_IZR. eapply Rle_lt_trans; [apply Zfloor_lb|]. apply Hx. }
  split; [|exact H]. unfold int_of_float. rewrite Fx. rewrite (Btrunc_floor x) by apply Hx.
  replace (Zfloor (B2R x) =? cast i32 (Zfloor (B2R x)))%Z with true; [reflexivity|].
  symmetry. apply Z.eqb_eq. unfold cast, i32, ct_signed, ct_width, to_signed.
  change (2 ^ (Z.of_nat 32 - 1))%Z with 2147483648%Z. change (2 ^ Z.of_nat 32)%Z with 4294967296%Z.
  change (2 ^ 31)%Z with 2147483648%Z in H. rewrite Z.mod_small by lia. lia.
Qed.

Lemma floor_small r a : 0 <= r < IZR a -> (0 <= Zfloor r < a)%Z.
Proof.
  intros H. split; [apply Zfloor_lub; apply H|]. apply lt_IZR. eapply Rle_lt_trans; [apply Zfloor_lb|]. apply H.
Qed.

(** A factor below 1. *)
Lemma below_one (q : f64) : is_finite q = true -> 0 <= B2R q < 1 ->
  let v := Zfloor (B2R q * 128) in
  maximumWaveletCoefficient q = Ok (0%Z :: de2bi v 7) /\ (0 <= v < 128)%Z.
Proof.
  intros Fq Hq v. unfold maximumWaveletCoefficient. rewrite flt_true by (try assumption; try reflexivity; rewrite one_R; lra).
  destruct (f64_of_Z_ok 0 ltac:(lia)) as [E0 F0].
  destruct (sub64_ok q (f64_of_Z 0) Fq F0) as [E1 F1]; [rewrite E0; apply bound1000; lra|].
  rewrite E0, Rminus_0_r, rnd64_id in E1 by apply fmt64_B2R.
  destruct (mul64_ok (sub64 q (f64_of_Z 0)) f64_128 F1 eq_refl) as [E2 F2]; [rewrite E1, c128_R; apply bound1000; lra|].
  rewrite E1, c128_R in E2. rewrite rnd64_id in E2.
  2: { replace 128 with (bpow radix2 7) by (cbn; lra). apply mult_bpow_pos_exact_FLT; [apply fmt64_B2R|lia]. }
  destruct (int_of_nonneg _ F2) as [E3 _]; [rewrite E2; lra|]. rewrite E2 in E3. rewrite E3. cbn [obind].
  split; [reflexivity|]. apply floor_small. lra.
Qed.
(** A factor of at least 1. *)
Lemma from_one (q : f64) : is_finite q = true -> 1 <= B2R q < 268435456 ->
  let v := Zfloor ((B2R q - 1) * 8) in
  maximumWaveletCoefficient q = Ok (1%Z :: de2bi v 7) /\ (0 <= v)%Z.
Proof.
  intros Fq Hq v. unfold maximumWaveletCoefficient. rewrite flt_false by (try assumption; try reflexivity; rewrite one_R; lra).
  destruct (f64_of_Z_ok 1 ltac:(lia)) as [E0 F0].
  destruct (sub64_ok q (f64_of_Z 1) Fq F0) as [E1 F1]; [rewrite E0; apply bound1000; lra|].
  rewrite E0, rnd64_id in E1 by (apply minus_one; [apply fmt64_B2R|lra]).
  destruct (mul64_ok (sub64 q (f64_of_Z 1)) f64_8 F1 eq_refl) as [E2 F2]; [rewrite E1, c8_R; apply bound1000; lra|].
  rewrite E1, c8_R in E2. rewrite rnd64_id in E2.
  2: { replace 8 with (bpow radix2 3) by (cbn; lra). apply mult_bpow_pos_exact_FLT; [|lia]. apply minus_one; [apply fmt64_B2R|lra]. }
  destruct (int_of_nonneg _ F2) as [E3 [H3 _]]; [rewrite E2; lra|]. rewrite E2 in E3, H3. rewrite E3. cbn [obind].
  split; [reflexivity|exact H3].
Qed.

Lemma read_below v : (0 <= v)%Z -> B2R (wavmax_of (0%Z :: de2bi v 7)) = IZR (v mod 128) / 128 /\
  is_finite (wavmax_of (0%Z :: de2bi v 7)) = true.
Proof.
  intros Hv. unfold wavmax_of. cbn [hd tl Z.eqb]. destruct (de2bi_ok 7 v Hv) as (_ & _ & E). rewrite E.
  change (2 ^ Z.of_nat 7)%Z with 128%Z. set (w := (v mod 128)%Z). assert (Hw : (0 <= w < 128)%Z) by (unfold w; lia).
  assert (Rw : 0 <= IZR w <= 128) by (split; apply IZR_le; lia).
  destruct (f64_of_Z_ok w ltac:(lia)) as [E0 F0].
  destruct (mul64_ok (f64_of_Z w) f64_2m7 F0 eq_refl) as [E1 F1]; [rewrite E0, m7_R; apply bound1000; lra|].
  rewrite E0, m7_R, rnd64_id in E1; [split; [exact E1|exact F1]|].
  replace (/ 128) with (bpow radix2 (-7)) by (cbn; lra). apply fmt_Z; lia.
Qed.
Lemma read_above v : (0 <= v)%Z -> B2R (wavmax_of (1%Z :: de2bi v 7)) = 1 + IZR (v mod 128) / 8 /\
  is_finite (wavmax_of (1%Z :: de2bi v 7)) = true.
Proof.
  intros Hv. unfold wavmax_of. cbn [hd tl Z.eqb]. destruct (de2bi_ok 7 v Hv) as (_ & _ & E). rewrite E.
  change (2 ^ Z.of_nat 7)%Z with 128%Z. set (w := (v mod 128)%Z). assert (Hw : (0 <= w < 128)%Z) by (unfold w; lia).
  assert (Rw : 0 <= IZR w <= 128) by (split; apply IZR_le; lia).
  destruct (f64_of_Z_ok w ltac:(lia)) as [E0 F0]. destruct (f64_of_Z_ok 1 ltac:(lia)) as [E9 F9].
  destruct (mul64_ok (f64_of_Z w) f64_2m3 F0 eq_refl) as [E1 F1]; [rewrite E0, m3_R; apply bound1000; lra|].
  rewrite E0, m3_R, rnd64_id in E1.
  2: { replace (/ 8) with (bpow radix2 (-3)) by (cbn; lra). apply fmt_Z; lia. }
  destruct (add64_ok (mul64 (f64_of_Z w) f64_2m3) (f64_of_Z 1) F1 F9) as [E2 F2]; [rewrite E1, E9; apply bound1000; lra|].
  rewrite E1, E9, rnd64_id in E2; [split; [rewrite E2; lra|exact F2]|].
  replace (IZR w * / 8 + 1) with (IZR (w + 8) * bpow radix2 (-3)); [apply fmt_Z; lia|]. rewrite plus_IZR. cbn. lra.
Qed.

(** The factor is coded, and read as what the header keeps of it. *)
Lemma scale_round (q : f64) : is_finite q = true -> 0 <= B2R q < 17 ->
  exists bw, maximumWaveletCoefficient q = Ok bw /\ Forall bit bw /\ length bw = 8%nat /\
    B2R (wavmax_of bw) = header_scale (B2R q) /\ is_finite (wavmax_of bw) = true.
Proof.
  intros Fq Hq. unfold header_scale. destruct (Rlt_dec (B2R q) 1) as [L|G].
  - destruct (below_one q Fq ltac:(lra)) as [E Hv]. set (v := Zfloor (B2R q * 128)) in *.
    exists (0%Z :: de2bi v 7). split; [exact E|]. destruct (de2bi_ok 7 v ltac:(lia)) as (Lb & Fb & _).
    split; [constructor; [left; reflexivity|exact Fb]|]. split; [cbn [length]; now rewrite Lb|].
    destruct (read_below v ltac:(lia)) as [E1 F1]. rewrite Z.mod_small in E1 by lia. auto.
  - destruct (from_one q Fq ltac:(lra)) as [E Hv]. set (v := Zfloor ((B2R q - 1) * 8)) in *.
    assert (Hv2 : (0 <= v < 128)%Z) by (apply floor_small; lra).
    exists (1%Z :: de2bi v 7). split; [exact E|]. destruct (de2bi_ok 7 v ltac:(lia)) as (Lb & Fb & _).
    split; [constructor; [right; reflexivity|exact Fb]|]. split; [cbn [length]; now rewrite Lb|].
    destruct (read_above v ltac:(lia)) as [E1 F1]. rewrite Z.mod_small in E1 by lia. auto.
Qed.
(** Larger factors wrap. *)
Lemma scale_wraps (q : f64) : is_finite q = true -> 17 <= B2R q < 268435456 ->
  exists bw, maximumWaveletCoefficient q = Ok bw /\ Forall bit bw /\ length bw = 8%nat /\
    B2R (wavmax_of bw) < 17 /\ is_finite (wavmax_of bw) = true.
Proof.
  intros Fq Hq. destruct (from_one q Fq ltac:(lra)) as [E Hv]. set (v := Zfloor ((B2R q - 1) * 8)) in *.
  exists (1%Z :: de2bi v 7). split; [exact E|]. destruct (de2bi_ok 7 v ltac:(lia)) as (Lb & Fb & _).
  split; [constructor; [right; reflexivity|exact Fb]|]. split; [cbn [length]; now rewrite Lb|].
  destruct (read_above v ltac:(lia)) as [E1 F1]. split; [|exact F1]. rewrite E1.
  assert (IZR (v mod 128) <= 127) by (apply IZR_le; lia). lra.
Qed.
Lemma header_scale_exact j : (0 <= j < 128)%Z -> header_scale (IZR j / 128) = IZR j / 128.
Proof.
  intros Hj. unfold header_scale. assert (IZR j <= 127) by (apply IZR_le; lia).
  destruct (Rlt_dec (IZR j / 128) 1) as [L|G]; [|lra]. replace (IZR j / 128 * 128) with (IZR j) by lra. now rewrite Zfloor_IZR.
Qed.
Lemma header_scale_exact8 j : (0 <= j < 128)%Z -> header_scale (1 + IZR j / 8) = 1 + IZR j / 8.
Proof.
  intros Hj. unfold header_scale. assert (0 <= IZR j) by (apply IZR_le; lia).
  destruct (Rlt_dec (1 + IZR j / 8) 1) as [L|G]; [lra|]. replace ((1 + IZR j / 8 - 1) * 8) with (IZR j) by lra. now rewrite Zfloor_IZR.
Qed.
Lemma nothing_scale : B2R (wavmax_of (repeat 0%Z 8)) = 0.
Proof.
  change (repeat 0%Z 8) with (0%Z :: de2bi 0 7). destruct (read_below 0 ltac:(lia)) as [E _]. rewrite E.
  rewrite Z.mod_0_l by lia. lra.
Qed.

(** *** Statements about whole blocks *)
Lemma header_round md0 md10 block k bits scale old :
  length block = (2 ^ k)%nat -> (3 <= k <= 22)%nat -> (1 <= bits <= 15)%nat ->
  Forall (fun v => (Z.abs v < 2 ^ (Z.of_nat bits + 1))%Z) block -> Exists (fun v => v <> 0%Z) block ->
  is_finite scale = true -> 0 <= B2R scale < 17 ->
  exists bytes coefs scale' cs,
    encodeEffect md0 md10 resetCounter block bits scale old = Ok (bytes, cs) /\
    decodeEffect resetCounter bytes (repeat 0%Z (length block)) (length block) = Ok (coefs, scale', Z.of_nat bits) /\
    B2R scale' = header_scale (B2R scale) /\ is_finite scale' = true.
Proof.
  intros L Hk Hb Hc Hn Fs Hs. destruct (scale_round scale Fs Hs) as (bw & E & Fb & Lb & H).
  destruct (effect_round md0 md10 block k bits scale bw old L Hk Hb Hc Hn E Fb Lb) as (bytes & E1 & _ & E2).
  exists bytes, block, (wavmax_of bw), resetCounter. auto.
Qed.
Lemma header_wraps md0 md10 block k bits scale old :
  length block = (2 ^ k)%nat -> (3 <= k <= 22)%nat -> (1 <= bits <= 15)%nat ->
  Forall (fun v => (Z.abs v < 2 ^ (Z.of_nat bits + 1))%Z) block -> Exists (fun v => v <> 0%Z) block ->
  is_finite scale = true -> 17 <= B2R scale < 268435456 ->
  exists bytes coefs scale' cs,
    encodeEffect md0 md10 resetCounter block bits scale old = Ok (bytes, cs) /\
    decodeEffect resetCounter bytes (repeat 0%Z (length block)) (length block) = Ok (coefs, scale', Z.of_nat bits) /\
    B2R scale' < 17.
Proof.
  intros L Hk Hb Hc Hn Fs Hs. destruct (scale_wraps scale Fs Hs) as (bw & E & Fb & Lb & H & _).
  destruct (effect_round md0 md10 block k bits scale bw old L Hk Hb Hc Hn E Fb Lb) as (bytes & E1 & _ & E2).
  exists bytes, block, (wavmax_of bw), resetCounter. auto.
Qed.
