(** The sample of a decoded wavelet band that is played at each output sample. *)
From Coq Require Import Reals Psatz.
From Flocq Require Import Core.Core.
Require Import Flocq.Prop.Relative.
From Verif Require Import Base FloatBase FloatModel FloatSpec FloatProof Float64Proof TypesModel ToolsModel ToolsFloatProof SynthModel SynthSpec SynthProof.
Local Open Scope R_scope.

Definition u53 : R := / 9007199254740992.
Lemma rel64 x : bpow radix2 (-1022) <= Rabs x -> exists e, Rabs e <= u53 /\ rnd64 x = x * (1 + e).
Proof.
  intros H. destruct (relative_error_N_FLT_ex radix2 (-1074) 53 ltac:(reflexivity) (fun z => negb (Z.even z)) x H) as (e & He & E).
  exists e. split; [|exact E]. apply Rle_trans with (1 := He). unfold u53. change (- (53) + 1)%Z with (Z.opp 52). rewrite (bpow_inv 52) by lia.
  change (2 ^ 52)%Z with 4503599627370496%Z. lra.
Qed.
Lemma bpow_1022 x : / 4294967296 <= x -> bpow radix2 (-1022) <= Rabs x.
Proof.
  intros H. rewrite Rabs_pos_eq by lra. apply Rle_trans with (2 := H). apply Rle_trans with (bpow radix2 (-32)); [apply bpow_le; lia|].
  change (-32)%Z with (Z.opp 32). rewrite (bpow_inv 32) by lia. change (2 ^ 32)%Z with 4294967296%Z. lra.
Qed.
Lemma bpow_1000 x : 0 <= x <= IZR (2 ^ 100) -> Rabs x <= bpow radix2 1000.
Proof.
  intros [H1 H2]. rewrite Rabs_pos_eq by lra. apply Rle_trans with (1 := H2). rewrite <- bpow_IZR by lia. apply bpow_le. lia.
Qed.
Lemma ffloor_R (x : f64) : B2R (ffloor x) = IZR (Zfloor (B2R x)) /\ is_finite (ffloor x) = is_finite x.
Proof.
  unfold ffloor. destruct (Bnearbyint_correct 53 1024 _ mode_DN x) as (H1 & H2 & _). split; [|exact H2].
  rewrite H1. unfold round_mode, round, scaled_mantissa, F2R. cbn [Fnum Fexp]. unfold cexp, FIX_exp. cbn [Z.opp bpow].
  rewrite !Rmult_1_r. reflexivity.
Qed.

(** The relative position computed for output sample [ti] is within 1 of [ti]. *)
Lemma played_position fs ts ti : (1 <= fs < 2 ^ 31)%Z -> (1 <= ts < 2 ^ 32)%Z -> (0 <= ti < 2 ^ 31)%Z ->
  let x := div64 (mul64 (sub64 (sample_position fs 0 ts ti) (f64_of_Z 0)) (f64_of_Z fs)) (f64_of_Z ts) in
  is_finite x = true /\ IZR ti - 1 < B2R x < IZR ti + 1 /\ 0 <= B2R x.
Proof.
  intros Hfs Hts Hti. cbv zeta. unfold sample_position.
  destruct (f64_of_Z_ok ti ltac:(lia)) as [Ei Fi]. destruct (f64_of_Z_ok fs ltac:(lia)) as [Ef Ff]. destruct (f64_of_Z_ok ts ltac:(lia)) as [Es Fs].
  assert (Rfs : 1 <= IZR fs <= 2147483648) by (split; apply IZR_le; lia).
  assert (Rts : 1 <= IZR ts <= 4294967296) by (split; apply IZR_le; lia).
  assert (Rti : 0 <= IZR ti <= 2147483647) by (split; apply IZR_le; lia).
  change (2 ^ 100)%Z with 1267650600228229401496703205376%Z in *.
  change (f64_of_Z 0) with f64_0. change (mul64 f64_0 MS_2_S) with f64_0.
  assert (sub0 : forall y : f64, is_finite y = true -> Rabs (B2R y) <= bpow radix2 1000 -> B2R (sub64 y f64_0) = B2R y /\ is_finite (sub64 y f64_0) = true).
  { intros y Fy By. destruct (sub64_ok y f64_0 Fy eq_refl) as [E F]; [change (B2R f64_0) with 0; rewrite Rminus_0_r; exact By|].
    split; [|exact F]. rewrite E. change (B2R f64_0) with 0. rewrite Rminus_0_r. apply rnd64_id, fmt64_B2R. }
  assert (Q : forall a b, 0 <= a -> 1 <= b -> 0 <= a / b <= a).
  { intros a b Ha Hb. assert (0 < / b <= 1) by (split; [apply Rinv_0_lt_compat; lra|rewrite <- Rinv_1; apply Rinv_le_contravar; lra]). unfold Rdiv. nra. }
  assert (B100 : IZR (2 ^ 100) = 1267650600228229401496703205376) by reflexivity.
  destruct (div64_ok (f64_of_Z ti) (f64_of_Z fs) Fi) as [E1 F1]; [rewrite Ef; lra|rewrite Ei, Ef; apply bpow_1000; rewrite B100; pose proof (Q (IZR ti) (IZR fs)); lra|].
  rewrite Ei, Ef in E1. set (x1 := div64 (f64_of_Z ti) (f64_of_Z fs)) in *.
  destruct (Z.eq_dec ti 0) as [->|Hnz].
  - (* the first sample *)
    replace (IZR 0 / IZR fs) with 0 in E1 by (unfold Rdiv; ring). rewrite rnd64_0 in E1.
    destruct (sub0 x1 F1) as [E2 F2]; [rewrite E1, Rabs_R0; apply bpow_ge_0|]. rewrite E1 in E2. set (x2 := sub64 x1 f64_0) in *.
    destruct (mul64_ok (f64_of_Z ts) x2 Fs F2) as [E3 F3]; [rewrite E2, Rmult_0_r, Rabs_R0; apply bpow_ge_0|]. rewrite E2, Rmult_0_r, rnd64_0 in E3.
    set (x3 := mul64 (f64_of_Z ts) x2) in *.
    destruct (sub0 x3 F3) as [E4 F4]; [rewrite E3, Rabs_R0; apply bpow_ge_0|]. rewrite E3 in E4. set (x4 := sub64 x3 f64_0) in *.
    destruct (mul64_ok x4 (f64_of_Z fs) F4 Ff) as [E5 F5]; [rewrite E4, Rmult_0_l, Rabs_R0; apply bpow_ge_0|]. rewrite E4, Rmult_0_l, rnd64_0 in E5.
    set (x5 := mul64 x4 (f64_of_Z fs)) in *.
    destruct (div64_ok x5 (f64_of_Z ts) F5) as [E6 F6]; [rewrite Es; lra|rewrite E5; unfold Rdiv; rewrite Rmult_0_l, Rabs_R0; apply bpow_ge_0|].
    rewrite E5 in E6. unfold Rdiv in E6. rewrite Rmult_0_l, rnd64_0 in E6. rewrite E6. split; [exact F6|]. lra.
  - assert (R1 : 1 <= IZR ti) by (apply (IZR_le 1); lia).
    set (i := IZR ti) in *. set (f := IZR fs) in *. set (s := IZR ts) in *.
    assert (U : u53 = / 9007199254740992) by reflexivity.
    assert (Hif : / 2147483648 <= i / f).
    { unfold Rdiv. assert (/ 2147483648 <= / f) by (apply Rinv_le_contravar; lra). assert (0 < / f) by (apply Rinv_0_lt_compat; lra). nra. }
    destruct (rel64 (i / f)) as (e1 & He1 & D1); [apply bpow_1022; lra|]. rewrite D1 in E1.
    apply Rabs_le_inv in He1. pose proof (Q i f ltac:(lra) ltac:(lra)) as Qif.
    assert (B1 : / 4294967296 <= B2R x1 <= 2 * i) by (rewrite E1; rewrite U in He1; nra).
    destruct (sub0 x1 F1) as [E2 F2]; [apply bpow_1000; rewrite B100; lra|]. set (x2 := sub64 x1 f64_0) in *.
    assert (B2 : / 4294967296 <= s * B2R x2 <= 18446744073709551616) by (rewrite E2; nra).
    destruct (mul64_ok (f64_of_Z ts) x2 Fs F2) as [E3 F3]; [rewrite Es; apply bpow_1000; rewrite B100; lra|]. rewrite Es in E3.
    destruct (rel64 (s * B2R x2)) as (e2 & He2 & D2); [apply bpow_1022; lra|]. rewrite D2 in E3. apply Rabs_le_inv in He2.
    set (x3 := mul64 (f64_of_Z ts) x2) in *.
    assert (B3 : / 8589934592 <= B2R x3 <= 36893488147419103232) by (rewrite E3; rewrite U in He2; nra).
    destruct (sub0 x3 F3) as [E4 F4]; [apply bpow_1000; rewrite B100; lra|]. set (x4 := sub64 x3 f64_0) in *.
    (* exact value so far: (i / f) * s up to the two errors *)
    assert (V4 : B2R x4 = i / f * s * ((1 + e1) * (1 + e2))) by (rewrite E4, E3, E2, E1; ring).
    assert (V5 : B2R x4 * f = i * s * ((1 + e1) * (1 + e2))) by (rewrite V4; field; lra).
    assert (P2 : 1 - 3 * u53 <= (1 + e1) * (1 + e2) <= 1 + 3 * u53) by (rewrite U in *; nra).
    assert (His : 1 <= i * s <= 9223372036854775808) by nra.
    assert (B5 : / 2 <= B2R x4 * f <= 18446744073709551616) by (rewrite V5; rewrite U in P2; nra).
    destruct (mul64_ok x4 (f64_of_Z fs) F4 Ff) as [E5 F5]; [rewrite Ef; apply bpow_1000; rewrite B100; fold f; lra|]. rewrite Ef in E5. fold f in E5.
    destruct (rel64 (B2R x4 * f)) as (e3 & He3 & D3); [apply bpow_1022; lra|]. rewrite D3 in E5. apply Rabs_le_inv in He3.
    set (x5 := mul64 x4 (f64_of_Z fs)) in *.
    assert (V6 : B2R x5 / s = i * ((1 + e1) * (1 + e2) * (1 + e3))) by (rewrite E5, V5; field; lra).
    assert (P3 : 1 - 4 * u53 - u53 / 2 <= (1 + e1) * (1 + e2) * (1 + e3) <= 1 + 4 * u53 + u53 / 2) by (set (q := (1 + e1) * (1 + e2)) in *; clearbody q; clear - P2 He3 U; rewrite U in *; nra).
    assert (B6 : / 2 <= B2R x5 / s <= 4294967296) by (rewrite V6; rewrite U in P3; nra).
    destruct (div64_ok x5 (f64_of_Z ts) F5) as [E6 F6]; [rewrite Es; fold s; lra|rewrite Es; fold s; apply bpow_1000; rewrite B100; lra|].
    rewrite Es in E6. fold s in E6. destruct (rel64 (B2R x5 / s)) as (e4 & He4 & D4); [apply bpow_1022; lra|]. rewrite D4 in E6. apply Rabs_le_inv in He4.
    rewrite V6 in E6. split; [exact F6|]. rewrite E6.
    assert (P4 : 1 - 6 * u53 <= (1 + e1) * (1 + e2) * (1 + e3) * (1 + e4) <= 1 + 6 * u53) by (set (q := (1 + e1) * (1 + e2) * (1 + e3)) in *; clearbody q; clear - P3 He4 U; rewrite U in *; nra).
    replace (i * ((1 + e1) * (1 + e2) * (1 + e3)) * (1 + e4)) with (i * ((1 + e1) * (1 + e2) * (1 + e3) * (1 + e4))) by ring.
    set (q := (1 + e1) * (1 + e2) * (1 + e3) * (1 + e4)) in *. clearbody q. clear - P4 Rti R1 U. rewrite U in P4. nra.
Qed.
Local Open Scope Z_scope.

Lemma played_index fs ts ti e : (1 <= fs < 2 ^ 31) -> (1 <= ts < 2 ^ 32) -> (0 <= ti < 2 ^ 31) -> e_pos e = 0 -> vec_size (e_samples e) < 2 ^ 31 ->
  exists i, (i = ti \/ i = ti - 1) /\ 0 <= i /\
    EvaluateWavelet e (sample_position fs 0 ts ti) fs ts = Ok (nth (Z.to_nat i) (e_samples e) f64_0).
Proof.
  intros Hfs Hts Hti Hp Hl. destruct (played_position fs ts ti Hfs Hts Hti) as (F & B & N). cbv zeta in F, B, N.
  unfold EvaluateWavelet. rewrite Hp. set (x := div64 _ _) in *. destruct (ffloor_R x) as [E1 E2]. rewrite F in E2.
  set (i := Zfloor (B2R x)) in *. pose proof (Zfloor_lb (B2R x)) as L1. pose proof (Zfloor_ub (B2R x)) as L2. fold i in L1, L2.
  assert (I1 : (IZR ti - 2 < IZR i)%R) by lra. assert (I2 : (IZR i < IZR ti + 1)%R) by lra. assert (I3 : (-1 < IZR i)%R) by lra.
  rewrite <- minus_IZR in I1. rewrite <- plus_IZR in I2. apply lt_IZR in I1, I2, I3.
  exists i. split; [lia|]. split; [lia|].
  unfold int_of_float. rewrite E2. rewrite (trunc_int _ _ E1). rewrite cast_i32 by lia. rewrite Z.eqb_refl. cbn [obind].
  unfold vec_size. destruct (Z.of_nat (length (e_samples e)) <=? i) eqn:Ec.
  - rewrite nth_overflow by lia. reflexivity.
  - replace (i <? 0) with false by lia. destruct (nth_error (e_samples e) (Z.to_nat i)) as [v|] eqn:En.
    + rewrite (nth_error_nth _ _ _ En). reflexivity.
    + apply nth_error_None in En. lia.
Qed.
