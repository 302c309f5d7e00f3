From Coq Require Import Reals Lra Lia.
From Flocq Require Import Core BinarySingleNaN.
From Verif Require Import Base FloatBase FloatModel FloatProof Float64Proof SynthModel SynthProof TypesModel IvsModel IvsSpec.
Local Open Scope R_scope.

Lemma ms_value : B2R MS_2_S = 4611686018427388 / 4611686018427387904.
Proof. unfold MS_2_S, B2R, F2R. cbn -[bpow]. change (-62)%Z with (Z.opp 62). rewrite (bpow_inv 62) by lia. cbn. lra. Qed.
Lemma big1000 x : Rabs x <= 1048576 * 1048576 * 1048576 * 1048576 -> Rabs x <= bpow radix2 1000.
Proof.
  intros H. eapply Rle_trans; [exact H|]. apply Rle_trans with (bpow radix2 80); [|apply bpow_le; lia]. rewrite bpow_IZR by lia. cbn. lra.
Qed.
Lemma i32_small z : (- 2 ^ 31 <= z < 2 ^ 31)%Z -> (z =? cast i32 z)%Z = true.
Proof.
  intros H. apply Z.eqb_eq. symmetry. apply cast_i32, H.
Qed.
Lemma int_of_nonneg (x : f64) : is_finite x = true -> 0 <= B2R x -> B2R x < 2147483648 ->
  exists r, int_of_float i32 x = Ok r /\ (0 <= r < 2 ^ 31)%Z /\ IZR r <= B2R x < IZR r + 1.
Proof.
  intros F H0 H1. exists (Zfloor (B2R x)). pose proof (Zfloor_lb (B2R x)) as L. pose proof (Zfloor_ub (B2R x)) as U.
  assert (G0 : (0 <= Zfloor (B2R x))%Z) by (apply Zfloor_lub; exact H0).
  assert (G1 : (Zfloor (B2R x) < 2 ^ 31)%Z) by (apply lt_IZR; change (IZR (2 ^ 31)) with 2147483648; lra).
  split; [|split; [split; assumption|split; assumption]]. unfold int_of_float. rewrite F, Btrunc_floor by exact H0.
  rewrite i32_small by lia. reflexivity.
Qed.

Lemma ticks_ok ms ts : convertible ts ms -> (0 <= ts < 2 ^ 32)%Z ->
  exists r, millisecondsToTimeScale ms ts = Ok r /\ (0 <= r < 2 ^ 31)%Z /\ ticks ts ms r.
Proof.
  intros ((Hm0 & Hm1) & Hx) (Ht0 & Ht1). unfold millisecondsToTimeScale.
  destruct (f64_of_Z_ok ms) as (Em & Fm); [lia|]. destruct (f64_of_Z_ok ts) as (Et & Ft); [lia|].
  assert (Rm : 0 <= IZR ms <= 2147483648) by (split; [apply IZR_le; lia|change 2147483648 with (IZR (2 ^ 31)); apply IZR_le; lia]).
  assert (Rt : 0 <= IZR ts <= 4294967296) by (split; [apply IZR_le; lia|change 4294967296 with (IZR (2 ^ 32)); apply IZR_le; lia]).
  assert (RX : 0 <= IZR ms * IZR ts <= 2147483646000).
  { rewrite <- mult_IZR. split; [apply IZR_le; nia|]. apply (IZR_le _ 2147483646000). lia. }
  pose proof tiny_pos as T0. pose proof tiny_small as T1. set (eta := bpow radix2 (-150)) in *.
  pose proof (err64 (IZR ms * B2R MS_2_S)) as E1. rewrite ms_value in E1. fold eta in E1.
  assert (P1 : 0 <= IZR ms * (4611686018427388 / 4611686018427387904) <= 2147484) by lra.
  rewrite (Rabs_pos_eq (IZR ms * _)) in E1 by apply P1.
  destruct (mul64_ok (f64_of_Z ms) MS_2_S Fm eq_refl) as (B1 & F1).
  { rewrite Em, ms_value. apply big1000. rewrite Rabs_pos_eq by apply P1. lra. }
  rewrite Em, ms_value in B1. set (p1 := mul64 (f64_of_Z ms) MS_2_S) in *. set (q1 := B2R p1) in *.
  rewrite <- B1 in E1. apply Rabs_le_inv in E1.
  assert (Q1 : 0 <= q1). { rewrite B1. rewrite <- rnd64_0. apply rnd64_le, P1. }
  assert (D1 : Rabs (q1 * IZR ts - IZR ms * IZR ts * (4611686018427388 / 4611686018427387904))
    <= / 9007199254740992 * (IZR ms * IZR ts * (4611686018427388 / 4611686018427387904)) + / 1152921504606846976 * 4294967296).
  { replace (q1 * IZR ts - IZR ms * IZR ts * (4611686018427388 / 4611686018427387904)) with
      ((q1 - IZR ms * (4611686018427388 / 4611686018427387904)) * IZR ts) by ring.
    rewrite Rabs_mult, (Rabs_pos_eq (IZR ts)) by apply Rt.
    apply Rle_trans with ((/ 9007199254740992 * (IZR ms * (4611686018427388 / 4611686018427387904)) + eta) * IZR ts).
    - apply Rmult_le_compat_r; [apply Rt|]. apply Rabs_le. lra.
    - rewrite Rmult_plus_distr_r. apply Rplus_le_compat; [right; ring|]. apply Rmult_le_compat; lra. }
  apply Rabs_le_inv in D1. set (y := q1 * IZR ts) in *. set (X := IZR ms * IZR ts) in *.
  assert (Y0 : 0 <= y) by (apply Rmult_le_pos; [exact Q1|apply Rt]).
  assert (Y1 : Rabs (y - X / 1000) <= / 8192) by (apply Rabs_le; lra). apply Rabs_le_inv in Y1.
  destruct (mul64_ok p1 (f64_of_Z ts) F1 Ft) as (B2 & F2).
  { rewrite Et. fold q1 y. apply big1000. rewrite Rabs_pos_eq by exact Y0. lra. }
  rewrite Et in B2. fold q1 y in B2. pose proof (err64 y) as E2. rewrite <- B2, (Rabs_pos_eq y) in E2 by exact Y0. fold eta in E2.
  apply Rabs_le_inv in E2. set (z := B2R (mul64 p1 (f64_of_Z ts))) in *.
  assert (Z0 : 0 <= z). { rewrite B2, <- rnd64_0. apply rnd64_le, Y0. }
  assert (Zx : X / 1000 - / 4096 <= z <= X / 1000 + / 4096) by (split; lra).
  destruct (int_of_nonneg _ F2 Z0) as (r & Er & Hr & Hf); [fold z; lra|]. fold z in Hf. exists r. split; [exact Er|]. split; [exact Hr|].
  unfold ticks. split.
  - apply Zlt_succ_le, lt_IZR. rewrite succ_IZR, !mult_IZR. fold X. lra.
  - apply Zlt_succ_le, lt_IZR. rewrite succ_IZR, !mult_IZR, plus_IZR. fold X. lra.
Qed.

Lemma fmt32_Z z : (Z.abs z <= 2 ^ 24)%Z -> fmt32 (IZR z).
Proof.
  intros H. replace (IZR z) with (IZR z * bpow radix2 0) by (cbn; ring). apply fmt_Z; lia.
Qed.
Lemma frequency_ok p : (1 <= p <= 2 ^ 24)%Z ->
  exists r, int_of_float i32 (div64 f64_1 (mul64 (f64_of_f32 (f32_of_Z p)) MS_2_S)) = Ok r /\ (0 <= r)%Z /\ (p * r <= 1000 <= p * (r + 1))%Z.
Proof.
  intros Hp. destruct (f32_of_Z_ok p) as (E0 & F0); [lia|]. rewrite rnd32_id in E0 by (apply fmt32_Z; lia).
  destruct (f64_of_f32_ok _ F0) as (Ep & Fp). rewrite E0 in Ep.
  assert (Rp : 1 <= IZR p <= 16777216) by (split; [apply (IZR_le 1); lia|apply (IZR_le _ 16777216); lia]).
  pose proof tiny_pos as T0. pose proof tiny_small as T1. set (eta := bpow radix2 (-150)) in *.
  pose proof (err64 (IZR p * B2R MS_2_S)) as E1. rewrite ms_value in E1. fold eta in E1.
  rewrite (Rabs_pos_eq (IZR p * _)) in E1 by lra.
  destruct (mul64_ok (f64_of_f32 (f32_of_Z p)) MS_2_S Fp eq_refl) as (B1 & F1).
  { rewrite Ep, ms_value. apply big1000. rewrite Rabs_pos_eq by lra. lra. }
  rewrite Ep, ms_value in B1. set (p1 := mul64 _ MS_2_S) in *. set (q := B2R p1) in *. rewrite <- B1 in E1. apply Rabs_le_inv in E1.
  assert (Q : 999 / 1000000 * IZR p <= q) by lra. assert (Q' : q <= 1001 / 1000000 * IZR p) by lra.
  assert (Qp : 0 < q) by lra. set (w := 1 / q).
  assert (W : w * q = 1) by (unfold w; field; lra).
  assert (Wp : 0 < w) by (unfold w; apply Rdiv_lt_0_compat; lra).
  assert (Gq : q * 1000 - / 1000000000 * IZR p <= IZR p <= q * 1000 + / 1000000000 * IZR p) by lra.
  assert (V : Rabs (IZR p * w - 1000) <= / 100).
  { apply Rabs_le. assert (V0 : 0 < IZR p * w) by (apply Rmult_lt_0_compat; lra).
    assert (Vl : q * 1000 * w - / 1000000000 * (IZR p * w) <= IZR p * w) by (replace (q * 1000 * w - / 1000000000 * (IZR p * w)) with ((q * 1000 - / 1000000000 * IZR p) * w) by ring; apply Rmult_le_compat_r; lra).
    assert (Vh : IZR p * w <= q * 1000 * w + / 1000000000 * (IZR p * w)) by (replace (q * 1000 * w + / 1000000000 * (IZR p * w)) with ((q * 1000 + / 1000000000 * IZR p) * w) by ring; apply Rmult_le_compat_r; lra).
    replace (q * 1000 * w) with 1000 in Vl, Vh by (rewrite <- (Rmult_1_r 1000) at 1; rewrite <- W; ring). lra. }
  apply Rabs_le_inv in V.
  assert (W1 : w <= 1001). { apply Rmult_le_reg_r with q; [lra|]. rewrite W. lra. }
  assert (One : B2R f64_1 = 1). { unfold f64_1, B2R, F2R. cbn -[bpow]. change (-52)%Z with (Z.opp 52). rewrite (bpow_inv 52) by lia. cbn. lra. }
  destruct (div64_ok f64_1 p1 eq_refl) as (B2 & F2).
  { fold q. lra. } { rewrite One. fold q w. apply big1000. rewrite Rabs_pos_eq by lra. lra. }
  rewrite One in B2. fold q w in B2. pose proof (err64 w) as E2. rewrite <- B2, (Rabs_pos_eq w) in E2 by lra. fold eta in E2.
  apply Rabs_le_inv in E2. set (z := B2R (div64 f64_1 p1)) in *.
  assert (Z0 : 0 <= z). { rewrite B2, <- rnd64_0. apply rnd64_le. lra. }
  destruct (int_of_nonneg _ F2 Z0) as (r & Er & Hr & Hf); [fold z; lra|]. fold z in Hf. exists r. split; [exact Er|]. split; [lia|].
  assert (PZ : Rabs (IZR p * z - IZR p * w) <= / 100).
  { replace (IZR p * z - IZR p * w) with (IZR p * (z - w)) by ring. rewrite Rabs_mult, (Rabs_pos_eq (IZR p)) by lra.
    apply Rle_trans with (16777216 * (/ 9007199254740992 * w + eta)); [|lra].
    apply Rmult_le_compat; [lra|apply Rabs_pos|lra|apply Rabs_le; lra]. }
  apply Rabs_le_inv in PZ.
  assert (Lo : IZR p * IZR r <= IZR p * z) by (apply Rmult_le_compat_l; lra).
  assert (Hi : IZR p * z <= IZR p * (IZR r + 1)) by (apply Rmult_le_compat_l; lra).
  split.
  - apply Zlt_succ_le, lt_IZR. rewrite succ_IZR, !mult_IZR. lra.
  - apply Zlt_succ_le, lt_IZR. rewrite succ_IZR, !mult_IZR, plus_IZR. lra.
Qed.
