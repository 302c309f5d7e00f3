(** The settings of the encoder of audio files. *)
From Coq Require Import Reals Psatz.
From Flocq Require Import Core.Core.
From Verif Require Import Base FloatBase FloatModel FloatSpec FloatProof Float64Proof TypesModel ToolsModel ToolsFloatProof SynthModel SynthIndex SpihtModel WaveletModel WaveletSpec WaveletLength PcmModel PcmSpec.
Local Open Scope R_scope.

Ltac num := unfold B2R, F2R; cbn -[bpow]; match goal with |- context [bpow radix2 (Zneg ?p)] => change (Zneg p) with (Z.opp (Zpos p)); rewrite (bpow_inv (Zpos p)) by lia end; cbn.
Lemma PARAM_D_R : Rabs (B2R PARAM_D - 2573 / 10000000) <= / 36893488147419103232.
Proof. unfold PARAM_D. num. apply Rabs_le. lra. Qed.
Lemma PARAM_C_R : Rabs (B2R PARAM_C - - (4421 / 100000)) <= / 288230376151711744.
Proof. unfold PARAM_C. num. apply Rabs_le. lra. Qed.
Lemma PARAM_B_R : Rabs (B2R PARAM_B - 3433 / 1000) <= / 4503599627370496.
Proof. unfold PARAM_B. num. apply Rabs_le. lra. Qed.
Lemma PARAM_A_R : Rabs (B2R PARAM_A - - (6506 / 1000)) <= / 2251799813685248.
Proof. unfold PARAM_A. num. apply Rabs_le. lra. Qed.

Lemma prod_err a A e t T : Rabs (a - A) <= e -> Rabs t <= T -> Rabs (a * t - A * t) <= e * T.
Proof. intros H1 H2. replace (a * t - A * t) with ((a - A) * t) by ring. rewrite Rabs_mult. apply Rmult_le_compat; try apply Rabs_pos; assumption. Qed.
Lemma poly_near cube square r : exact_powers cube square -> (Z.abs r <= 131072)%Z ->
  is_finite (budget_poly cube square r) = true /\ Rabs (B2R (budget_poly cube square r) - bits_for (IZR r)) <= / 1000.
Proof.
  intros H Hr. destruct (H r Hr) as (F3 & E3 & F2 & E2). destruct (f64_of_Z_ok r ltac:(change (2 ^ 53)%Z with 9007199254740992%Z; lia)) as [E1 F1].
  unfold budget_poly. set (c3 := cube (f64_of_Z r)) in *. set (c2 := square (f64_of_Z r)) in *. set (c1 := f64_of_Z r) in *.
  set (t := IZR r) in *. assert (Ht : Rabs t <= 131072) by (unfold t; rewrite <- abs_IZR; apply IZR_le; exact Hr).
  assert (P2 : IZR (r ^ 2) = t ^ 2) by (unfold t; exact (eq_sym (pow_IZR r 2))). assert (P3 : IZR (r ^ 3) = t ^ 3) by (unfold t; exact (eq_sym (pow_IZR r 3))). rewrite P2 in E2. rewrite P3 in E3.
  assert (T2 : Rabs (t ^ 2) <= 17179869184). { rewrite <- RPow_abs. replace 17179869184 with (131072 ^ 2) by (cbn; lra). apply pow_incr. split; [apply Rabs_pos|exact Ht]. }
  assert (T3 : Rabs (t ^ 3) <= 2251799813685248). { rewrite <- RPow_abs. replace 2251799813685248 with (131072 ^ 3) by (cbn; lra). apply pow_incr. split; [apply Rabs_pos|exact Ht]. }
  pose proof (prod_err _ _ _ _ _ PARAM_D_R T3) as D. pose proof (prod_err _ _ _ _ _ PARAM_C_R T2) as C. pose proof (prod_err _ _ _ _ _ PARAM_B_R Ht) as B. pose proof PARAM_A_R as A.
  rewrite <- E3 in D. rewrite <- E2 in C. rewrite <- E1 in B.
  assert (R3 := Raux.Rabs_le_inv _ _ T3). assert (R2 := Raux.Rabs_le_inv _ _ T2). assert (R1 := Raux.Rabs_le_inv _ _ Ht).
  rewrite <- E3 in R3. rewrite <- E2 in R2. rewrite <- E1 in R1.
  apply Raux.Rabs_le_inv in D, C, B, A. pose proof tiny_small as Ty. pose proof (bpow_ge_0 radix2 (-150)) as Tp.
  unfold bits_for. rewrite <- E3, <- E2, <- E1.
  destruct (mul64_ok PARAM_D c3 eq_refl F3) as [M3 G3]; [apply SpihtHeader.bound1000; lra|].
  destruct (mul64_ok PARAM_C c2 eq_refl F2) as [M2 G2]; [apply SpihtHeader.bound1000; lra|].
  destruct (mul64_ok PARAM_B c1 eq_refl F1) as [M1 G1]; [apply SpihtHeader.bound1000; lra|].
  assert (Er : forall x X, Rabs x <= X -> Rabs (rnd64 x - x) <= / 9007199254740992 * X + / 1152921504606846976).
  { intros x X Hx. eapply Rle_trans; [apply err64|]. lra. }
  assert (N3 := Er (B2R PARAM_D * B2R c3) 600000000000 ltac:(apply Rabs_le; lra)). assert (N2 := Er (B2R PARAM_C * B2R c2) 1000000000 ltac:(apply Rabs_le; lra)). assert (N1 := Er (B2R PARAM_B * B2R c1) 1000000 ltac:(apply Rabs_le; lra)).
  rewrite <- M3 in N3. rewrite <- M2 in N2. rewrite <- M1 in N1. apply Raux.Rabs_le_inv in N3, N2, N1.
  set (m3 := mul64 PARAM_D c3) in *. set (m2 := mul64 PARAM_C c2) in *. set (m1 := mul64 PARAM_B c1) in *.
  destruct (add64_ok m3 m2 G3 G2) as [S1 H1]; [apply SpihtHeader.bound1000; lra|].
  assert (V1 := Er (B2R m3 + B2R m2) 610000000000 ltac:(apply Rabs_le; lra)). rewrite <- S1 in V1. apply Raux.Rabs_le_inv in V1. set (s1 := add64 m3 m2) in *.
  destruct (add64_ok s1 m1 H1 G1) as [S2 H2]; [apply SpihtHeader.bound1000; lra|].
  assert (V2 := Er (B2R s1 + B2R m1) 620000000000 ltac:(apply Rabs_le; lra)). rewrite <- S2 in V2. apply Raux.Rabs_le_inv in V2. set (s2 := add64 s1 m1) in *.
  destruct (add64_ok s2 PARAM_A H2 eq_refl) as [S3 H3]; [apply SpihtHeader.bound1000; lra|].
  assert (V3 := Er (B2R s2 + B2R PARAM_A) 630000000000 ltac:(apply Rabs_le; lra)). rewrite <- S3 in V3. apply Raux.Rabs_le_inv in V3.
  split; [exact H3|]. apply Rabs_le. lra.
Qed.
(** The polynomial rises by at least 4/5 from one integer to the next. *)
Lemma bits_step x : bits_for (x + 1) - bits_for x >= 4 / 5.
Proof.
  unfold bits_for. replace (2573 / 10000000 * (x + 1) ^ 3 - 4421 / 100000 * (x + 1) ^ 2 + 3433 / 1000 * (x + 1) - 6506 / 1000 - (2573 / 10000000 * x ^ 3 - 4421 / 100000 * x ^ 2 + 3433 / 1000 * x - 6506 / 1000))
    with (2573 / 10000000 * (3 * (x * x) + 3 * x + 1) - 4421 / 100000 * (2 * x + 1) + 3433 / 1000) by ring.
  pose proof (Rle_0_sqr (x - 876481 / 15438)) as Q. unfold Rsqr in Q. lra.
Qed.
Lemma bits_mono (a b : Z) : (a < b)%Z -> bits_for (IZR a) + 4 / 5 <= bits_for (IZR b).
Proof.
  intros H. replace b with (a + 1 + Z.of_nat (Z.to_nat (b - a - 1)))%Z by lia. induction (Z.to_nat (b - a - 1)) as [|n IH].
  - rewrite Z.add_0_r, plus_IZR. pose proof (bits_step (IZR a)). lra.
  - pose proof (bits_step (IZR (a + 1 + Z.of_nat n))) as St. replace (a + 1 + Z.of_nat (S n))%Z with (a + 1 + Z.of_nat n + 1)%Z by lia. rewrite (plus_IZR _ 1). lra.
Qed.
Lemma floor_budget cube square r : exact_powers cube square -> (Z.abs r <= 20000)%Z ->
  exists z, int_of_float i32 (ffloor (budget_poly cube square r)) = Ok z /\ bits_for (IZR r) - 1 - / 1000 <= IZR z <= bits_for (IZR r) + / 1000 /\
    (z = Zfloor (B2R (budget_poly cube square r))).
Proof.
  intros H Hr. destruct (poly_near cube square r H ltac:(lia)) as [F E]. apply Raux.Rabs_le_inv in E. set (p := budget_poly cube square r) in *.
  destruct (ffloor_R p) as [Rp Fp]. rewrite F in Fp. exists (Zfloor (B2R p)).
  pose proof (Zfloor_lb (B2R p)) as Lb. pose proof (Zfloor_ub (B2R p)) as Ub.
  assert (M1 : bits_for (IZR (-20000)) <= bits_for (IZR r)) by (destruct (Z.eq_dec (-20000) r) as [->|]; [lra|]; pose proof (bits_mono (-20000) r ltac:(lia)); lra).
  assert (M2 : bits_for (IZR r) <= bits_for (IZR 20000)) by (destruct (Z.eq_dec r 20000) as [->|]; [lra|]; pose proof (bits_mono r 20000 ltac:(lia)); lra).
  unfold bits_for in M1, M2. fold (bits_for (IZR r)) in M1, M2.
  assert (B1 : (- 2147483648 <= Zfloor (B2R p))%Z) by (apply Zfloor_lub; lra).
  assert (B2 : (Zfloor (B2R p) <= 2147483647)%Z) by (apply le_IZR; lra).
  split; [apply ok_int; [exact Fp|exact Rp|lia]|]. split; [lra|reflexivity].
Qed.
Theorem config_budget cube square r cf w v bl : exact_powers cube square -> (Z.abs r <= 20000)%Z -> (8 <= bl)%Z ->
  exists b, generateConfigParam cube square r cf w v bl = Ok (Config cf bl b w v) /\ rounded_down (bits_for (IZR r)) (15 * (Z.log2 bl - 1)) b.
Proof.
  intros H Hr Hb. destruct (floor_budget cube square r H Hr) as (z & E & B & _). unfold generateConfigParam. rewrite E. cbn [obind].
  rewrite (proj2 (Z.ltb_ge bl 1)) by lia. exists (limit_budget (max_bitbudget bl) z). split; [reflexivity|].
  assert (L : (3 <= Z.log2 bl)%Z) by (change 3%Z with (Z.log2 8); apply Z.log2_le_mono; lia).
  unfold limit_budget, max_bitbudget, MAXBITS. split.
  - destruct (Z.ltb_spec ((Z.log2 bl - 1) * 15) z); [lia|]. destruct (Z.ltb_spec z 1); lia.
  - exists z. split; [exact B|]. destruct (Z.ltb_spec ((Z.log2 bl - 1) * 15) z); [lia|]. destruct (Z.ltb_spec z 1); lia.
Qed.
Theorem config_monotone cube square r1 r2 cf1 cf2 w1 w2 v1 v2 bl c1 c2 : exact_powers cube square -> (- 20000 <= r1 <= r2)%Z -> (r2 <= 20000)%Z -> (8 <= bl)%Z ->
  generateConfigParam cube square r1 cf1 w1 v1 bl = Ok c1 -> generateConfigParam cube square r2 cf2 w2 v2 bl = Ok c2 -> (wavelet_bitbudget c1 <= wavelet_bitbudget c2)%Z.
Proof.
  intros H H1 H2 Hb E1 E2. destruct (Z.eq_dec r1 r2) as [<-|N].
  { unfold generateConfigParam in E1, E2. destruct (int_of_float i32 _); try discriminate. cbn [obind] in *. destruct (bl <? 1)%Z; [discriminate|]. injection E1 as <-. injection E2 as <-. reflexivity. }
  destruct (floor_budget cube square r1 H ltac:(lia)) as (z1 & F1 & _ & Z1). destruct (floor_budget cube square r2 H ltac:(lia)) as (z2 & F2 & _ & Z2).
  assert (L : (z1 <= z2)%Z).
  { rewrite Z1, Z2. apply Zfloor_le. destruct (poly_near cube square r1 H ltac:(lia)) as [_ A1]. destruct (poly_near cube square r2 H ltac:(lia)) as [_ A2].
    pose proof (bits_mono r1 r2 ltac:(lia)). apply Raux.Rabs_le_inv in A1, A2. lra. }
  unfold generateConfigParam in E1, E2. rewrite F1 in E1. rewrite F2 in E2. cbn [obind] in *. destruct (bl <? 1)%Z; [discriminate|]. injection E1 as <-. injection E2 as <-. cbn [wavelet_bitbudget].
  assert (Lg : (3 <= Z.log2 bl)%Z) by (change 3%Z with (Z.log2 8); apply Z.log2_le_mono; lia). unfold limit_budget, max_bitbudget, MAXBITS.
  destruct (Z.ltb_spec ((Z.log2 bl - 1) * 15) z1), (Z.ltb_spec ((Z.log2 bl - 1) * 15) z2), (Z.ltb_spec z1 1), (Z.ltb_spec z2 1); lia.
Qed.
Theorem config_overflow cube square r cf w v bl : exact_powers cube square -> (20350 <= r <= 131072)%Z -> generateConfigParam cube square r cf w v bl = UB.
Proof.
  intros H Hr. destruct (poly_near cube square r H ltac:(lia)) as [F E]. apply Raux.Rabs_le_inv in E. unfold generateConfigParam. set (p := budget_poly cube square r) in *.
  destruct (ffloor_R p) as [Rp Fp]. rewrite F in Fp.
  assert (M1 : bits_for (IZR 20350) <= bits_for (IZR r)) by (destruct (Z.eq_dec 20350 r) as [<-|]; [lra|]; pose proof (bits_mono 20350 r ltac:(lia)); lra).
  unfold bits_for in M1. fold (bits_for (IZR r)) in M1.
  assert (B1 : (2147483648 <= Zfloor (B2R p))%Z) by (apply Zfloor_lub; lra).
  assert (U : int_of_float i32 (ffloor p) = UB).
  { unfold int_of_float. rewrite Fp, (trunc_int _ _ Rp). destruct (Z.eqb_spec (Zfloor (B2R p)) (cast i32 (Zfloor (B2R p)))) as [K|]; [exfalso|reflexivity].
    unfold cast, i32, ct_signed, ct_width, to_signed in K. change (2 ^ (Z.of_nat 32 - 1))%Z with 2147483648%Z in K. change (2 ^ Z.of_nat 32)%Z with 4294967296%Z in K. lia. }
  rewrite U. reflexivity.
Qed.
