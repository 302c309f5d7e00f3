(** Proofs about Bezier curves. *)
From Coq Require Import Reals Psatz.
From Flocq Require Import Core.Core.
From Verif Require Import Base FloatBase FloatModel FloatProof Float64Proof TypesModel ToolsModel SynthModel SynthSpec SynthProof SynthMore SynthCurve InterpModel InterpSpec InterpBase AkimaProof.
Local Open Scope Z_scope.
Ltac Zify.zify_post_hook ::= Z.div_mod_to_equations.

(** ** Exact integers. *)
Definition exactly (x : f64) (z : Z) : Prop := is_finite x = true /\ B2R x = IZR z.
Lemma exact_Z z : Z.abs z <= 2 ^ 53 -> exactly (f64_of_Z z) z.
Proof. intros H. destruct (f64_of_Z_ok z H) as (E & F). split; assumption. Qed.
Lemma IZR_big z : Z.abs z <= 2 ^ 53 -> (Rabs (IZR z) <= bpow radix2 1000)%R.
Proof. intros H. rewrite <- abs_IZR. apply Rle_trans with (bpow radix2 53); [rewrite bpow_IZR by lia; apply IZR_le; exact H|apply bpow_le; lia]. Qed.
Lemma exact_add x y a b : exactly x a -> exactly y b -> Z.abs (a + b) <= 2 ^ 53 -> exactly (add64 x y) (a + b).
Proof.
  intros (Fx & Ex) (Fy & Ey) H. destruct (add64_ok x y Fx Fy) as (E & F); rewrite Ex, Ey, <- plus_IZR in *; [apply IZR_big; exact H|].
  split; [exact F|]. rewrite E. apply rnd64_id, fmt64_Z. exact H.
Qed.
Lemma exact_sub x y a b : exactly x a -> exactly y b -> Z.abs (a - b) <= 2 ^ 53 -> exactly (sub64 x y) (a - b).
Proof.
  intros (Fx & Ex) (Fy & Ey) H. destruct (sub64_ok x y Fx Fy) as (E & F); rewrite Ex, Ey, <- minus_IZR in *; [apply IZR_big; exact H|].
  split; [exact F|]. rewrite E. apply rnd64_id, fmt64_Z. exact H.
Qed.
Lemma exact_sqrt x z : exactly x z -> 0 <= z -> is_finite (Bsqrt mode_NE x) = true /\ B2R (Bsqrt mode_NE x) = rnd64 (sqrt (IZR z)).
Proof.
  intros (F & E) Hz. destruct (Bsqrt_correct 53 1024 _ _ mode_NE x) as (E1 & E2 & _). split; [|rewrite E1, E; reflexivity].
  destruct x as [s|s| |s p e W]; try discriminate; [reflexivity|]. destruct s; [|rewrite E2; reflexivity]. exfalso.
  assert (X : (B2R (B754_finite true p e W) < 0)%R) by (apply F2R_lt_0; reflexivity). rewrite E in X. apply lt_IZR in X. lia.
Qed.
Lemma int_ok_cases z : (int_ok z = Ok z /\ - 2 ^ 31 <= z < 2 ^ 31) \/ (int_ok z = UB /\ ~ (- 2 ^ 31 <= z < 2 ^ 31)).
Proof.
  unfold int_ok. rewrite cast_i32_eq. destruct (Z.eqb_spec z ((z + 2147483648) mod 4294967296 - 2147483648)) as [E|E]; [left|right]; (split; [reflexivity|]).
  - pose proof (Z.mod_pos_bound (z + 2147483648) 4294967296 ltac:(lia)). lia.
  - intros H. apply E. rewrite Z.mod_small by lia. lia.
Qed.

Section P.
Variable fpow : f64 -> f64 -> f64.

(** ** A segment is defined or undefined, never anything else. *)
Lemma bezier_t_cases dx1 dx2 j : bezier_t fpow dx1 dx2 j = UB \/ exists t, bezier_t fpow dx1 dx2 j = Ok t.
Proof.
  unfold bezier_t.
  do 3 (match goal with |- context [int_ok ?z] => destruct (int_ok_cases z) as [(-> & _)|(-> & _)] end; cbn [obind]; [|auto]).
  destruct (negb _); [|eauto].
  do 3 (match goal with |- context [int_ok ?z] => destruct (int_ok_cases z) as [(-> & _)|(-> & _)] end; cbn [obind]; [|auto]).
  eauto.
Qed.
Lemma segment_cases : forall k dx1 dx2 j f0 f1 f2, bezier_segment fpow k dx1 dx2 j f0 f1 f2 = UB \/
  exists ys, bezier_segment fpow k dx1 dx2 j f0 f1 f2 = Ok ys /\ length ys = k.
Proof.
  induction k as [|k IH]; intros dx1 dx2 j f0 f1 f2; cbn [bezier_segment]; [right; eexists; split; reflexivity|].
  destruct (bezier_t_cases dx1 dx2 j) as [-> |(t & ->)]; cbn [obind]; [auto|].
  destruct (IH dx1 dx2 (j + 1) f0 f1 f2) as [-> |(ys & -> & L)]; cbn [obind]; [auto|]. right. eexists. split; [reflexivity|]. cbn [length]. lia.
Qed.
Lemma bezier_step p0 p1 p2 l : bezierInterpolation fpow (p0 :: p1 :: p2 :: l) =
  obind (int_ok (fst p1 - fst p0)) (fun dx1 => obind (int_ok (dx1 + 1)) (fun dx1 => obind (int_ok (fst p2 - fst p0)) (fun dx2 => obind (int_ok (dx2 + 1)) (fun dx2 =>
  obind (bezier_segment fpow (Z.to_nat (dx2 - 1)) dx1 dx2 1 (snd p0) (snd p1) (snd p2)) (fun ys =>
  obind (bezierInterpolation fpow (p2 :: l)) (fun tail => Ok (ys ++ tail))))))).
Proof. reflexivity. Qed.
Lemma ordered_tail p l : ordered (p :: l) -> ordered l.
Proof. intros H i a b Ha Hb. exact (H (S i) a b Ha Hb). Qed.
(** The time of the last point used. *)
Fixpoint used (points : list point) : Z :=
  match points with
  | p0 :: p1 :: ((p2 :: _) as rest) => used rest
  | p0 :: _ => fst p0
  | [] => 0
  end.
Lemma bezier_length : forall k points, (length points <= k)%nat -> points <> [] -> ordered points ->
  bezierInterpolation fpow points = UB \/
  exists ys, bezierInterpolation fpow points = Ok ys /\ Z.of_nat (length ys) = used points - time_of points 0 + 1.
Proof.
  induction k as [|k IH]; intros points Hk Hne Ho; [destruct points; [contradiction|cbn in Hk; lia]|].
  destruct points as [|p0 [|p1 [|p2 l]]]; [contradiction|right; eexists; split; [reflexivity|unfold time_of; cbn [used nth length snd]; lia]..|].
  assert (O1 : fst p0 <= fst p1) by (apply (Ho 0%nat); reflexivity). assert (O2 : fst p1 <= fst p2) by (apply (Ho 1%nat); reflexivity).
  rewrite bezier_step.
  repeat (match goal with |- context [int_ok ?z] => destruct (int_ok_cases z) as [(-> & _)|(-> & _)] end; cbn [obind]; auto).
  destruct (segment_cases (Z.to_nat (fst p2 - fst p0 + 1 - 1)) (fst p1 - fst p0 + 1) (fst p2 - fst p0 + 1) 1 (snd p0) (snd p1) (snd p2)) as [-> |(ys & -> & L)]; cbn [obind]; [auto|].
  destruct (IH (p2 :: l)) as [-> |(tl & -> & Lt)]; cbn [obind]; [cbn [length] in *; lia|discriminate|apply (ordered_tail p1), (ordered_tail p0); exact Ho|auto|].
  right. eexists. split; [reflexivity|]. change (used (p0 :: p1 :: p2 :: l)) with (used (p2 :: l)). rewrite app_length. cbn [time_of nth] in *. unfold time_of in *. cbn [nth] in *. lia.
Qed.
Lemma used_odd : forall k points, (length points <= k)%nat -> Nat.odd (length points) = true -> used points = last_time points.
Proof.
  induction k as [|k IH]; intros points Hk Ho; [destruct points; [discriminate|cbn in Hk; lia]|].
  destruct points as [|p0 [|p1 [|p2 l]]]; [discriminate|reflexivity|discriminate|].
  change (used (p0 :: p1 :: p2 :: l)) with (used (p2 :: l)). rewrite IH; [reflexivity|cbn [length] in *; lia|]. cbn [length] in Ho. exact Ho.
Qed.
Lemma used_even : forall k points, (length points <= k)%nat -> points <> [] -> Nat.odd (length points) = false -> used points = time_of points (length points - 2).
Proof.
  induction k as [|k IH]; intros points Hk Hne Ho; [destruct points; [contradiction|cbn in Hk; lia]|].
  destruct points as [|p0 [|p1 [|p2 l]]]; [contradiction|discriminate|reflexivity|].
  change (used (p0 :: p1 :: p2 :: l)) with (used (p2 :: l)). rewrite IH; [|cbn [length] in *; lia|discriminate|exact Ho].
  destruct l as [|p3 l]; [discriminate|]. unfold time_of. cbn [length]. replace (S (S (S (S (length l)))) - 2)%nat with (S (S (length l))) by lia. replace (S (S (length l)) - 2)%nat with (length l) by lia. reflexivity.
Qed.

(** ** Long segments. *)
Lemma bezier_t_long dx1 dx2 j : 0 <= j -> 2 ^ 31 <= j * dx2 -> 1 - 2 * dx1 + dx2 <> 0 -> bezier_t fpow dx1 dx2 j = UB.
Proof.
  intros Hj H Hd. unfold bezier_t.
  do 3 (match goal with |- context [int_ok ?z] => destruct (int_ok_cases z) as [(-> & _)|(-> & _)] end; cbn [obind]; [|reflexivity]).
  replace (1 - 2 * dx1 + dx2 =? 0) with false by lia. cbn [negb].
  do 2 (match goal with |- context [int_ok ?z] => destruct (int_ok_cases z) as [(-> & _)|(-> & _)] end; cbn [obind]; [|reflexivity]).
  destruct (int_ok_cases (j * dx2)) as [(-> & X)|(-> & _)]; [lia|reflexivity].
Qed.
Lemma segment_long dx1 dx2 f0 f1 f2 J : 0 <= J -> 2 ^ 31 <= J * dx2 -> 1 - 2 * dx1 + dx2 <> 0 ->
  forall k j, j <= J < j + Z.of_nat k -> bezier_segment fpow k dx1 dx2 j f0 f1 f2 = UB.
Proof.
  intros HJ H Hd. induction k as [|k IH]; intros j Hj; [lia|]. cbn [bezier_segment].
  destruct (Z.eq_dec j J) as [-> |Ne]; [rewrite (bezier_t_long dx1 dx2 J HJ H Hd); reflexivity|].
  destruct (bezier_t_cases dx1 dx2 j) as [-> |(t & ->)]; cbn [obind]; [reflexivity|]. rewrite IH by lia. reflexivity.
Qed.
Lemma bezier_long : forall i (points : list point) (p q r : point), nth_error points (2 * i) = Some p -> nth_error points (2 * i + 1) = Some q -> nth_error points (2 * i + 2) = Some r ->
  46341 <= fst r - fst p -> 2 * (fst q - fst p) <> fst r - fst p -> bezierInterpolation fpow points = UB.
Proof.
  induction i as [|i IH]; intros points p q r Hp Hq Hr Hl Hm.
  - destruct points as [|p0 [|p1 [|p2 l]]]; cbn in Hp, Hq, Hr; try discriminate. injection Hp as ->. injection Hq as ->. injection Hr as ->. rewrite bezier_step.
    repeat (match goal with |- context [int_ok ?z] => destruct (int_ok_cases z) as [(-> & _)|(-> & _)] end; cbn [obind]; [|reflexivity]).
    rewrite (segment_long _ _ _ _ _ (fst r - fst p)); [reflexivity|lia|nia|lia|lia].
  - replace (2 * S i)%nat with (S (S (2 * i))) in * by lia. destruct points as [|p0 [|p1 [|p2 l]]]; cbn [Nat.add nth_error] in Hp, Hq, Hr; try discriminate; [destruct (2 * i)%nat; discriminate|].
    rewrite bezier_step.
    repeat (match goal with |- context [int_ok ?z] => destruct (int_ok_cases z) as [(-> & _)|(-> & _)] end; cbn [obind]; [|reflexivity]).
    destruct (segment_cases (Z.to_nat (fst p2 - fst p0 + 1 - 1)) (fst p1 - fst p0 + 1) (fst p2 - fst p0 + 1) 1 (snd p0) (snd p1) (snd p2)) as [-> |(ys & -> & L)]; cbn [obind]; [reflexivity|].
    rewrite (IH (p2 :: l) p q r); [reflexivity|assumption..].
Qed.

(** ** Values. *)
Hypothesis Hpow : pow_faithful fpow.
Lemma pow_exact x z : exactly x z -> Z.abs z <= 2 ^ 26 -> exactly (fpow x f64_2) (z * z).
Proof.
  intros (F & E) H. destruct (proj1 Hpow x F) as (Fp & Q).
  { rewrite E, <- abs_IZR. apply Rle_trans with (bpow radix2 26); [rewrite bpow_IZR by lia; apply IZR_le; exact H|apply bpow_le; lia]. }
  split; [exact Fp|]. destruct (exact_Z (z * z) ltac:(nia)) as (Fz & Ez). destruct (Q _ Fz) as (Q1 & Q2). rewrite Ez, E, <- mult_IZR in Q1, Q2. specialize (Q1 (Rle_refl _)). specialize (Q2 (Rle_refl _)). lra.
Qed.
Lemma pow_bd k x : 0 <= k <= 26 -> bd k x -> bd (2 * k) (fpow x f64_2).
Proof.
  intros Hk (F & B). destruct (proj1 Hpow x F) as (Fp & Q); [eapply Rle_trans; [exact B|apply bpow_le; lia]|]. split; [exact Fp|].
  assert (P2 : 0 <= 2 ^ (2 * k) <= 2 ^ 53) by (split; [apply Z.pow_nonneg; lia|apply Z.pow_le_mono_r; lia]).
  destruct (exact_Z (2 ^ (2 * k)) ltac:(lia)) as (Fz & Ez). destruct (Q _ Fz) as (_ & Q2).
  destruct (exact_Z 0 ltac:(lia)) as (F0 & E0). destruct (Q _ F0) as (Q3 & _). rewrite E0 in Q3. rewrite Ez in Q2.
  assert (X : (B2R x * B2R x <= IZR (2 ^ (2 * k)))%R).
  { rewrite <- bpow_IZR by lia. replace (2 * k) with (k + k) by lia. rewrite bpow_plus. eapply Rle_trans; [apply Rle_abs|]. rewrite Rabs_mult. apply Rmult_le_compat; try apply Rabs_pos; exact B. }
  specialize (Q2 X). specialize (Q3 (Rle_0_sqr (B2R x))). rewrite Rabs_pos_eq by exact Q3. rewrite bpow_IZR by lia. exact Q2.
Qed.
Lemma div_0_R (x y : f64) : is_finite x = true -> B2R x = 0%R -> B2R y <> 0%R -> B2R (div64 x y) = 0%R.
Proof.
  intros F E Y. assert (Q : (B2R x / B2R y = 0)%R) by (rewrite E; unfold Rdiv; ring).
  destruct (div64_ok x y F Y) as (D & _); [rewrite Q, Rabs_R0; apply bpow_ge_0|]. rewrite D, Q. apply rnd64_0.
Qed.
Lemma bezier_t_ok a c j : 0 <= a <= c -> c <= 32767 -> 1 <= j <= c ->
  exists t, bezier_t fpow (a + 1) (c + 1) j = Ok t /\ bd 17 t /\ (j = 1 -> B2R t = 0%R).
Proof.
  intros Ha Hc Hj. unfold bezier_t.
  rewrite (int_ok_fits (2 * (a + 1))) by lia. cbn [obind]. rewrite (int_ok_fits (1 - 2 * (a + 1))) by lia. cbn [obind]. rewrite (int_ok_fits (1 - 2 * (a + 1) + (c + 1))) by lia. cbn [obind].
  replace (1 - 2 * (a + 1) + (c + 1)) with (c - 2 * a) by lia.
  destruct (Z.eqb_spec (c - 2 * a) 0) as [E0|N0]; cbn [negb].
  - eexists. split; [reflexivity|]. destruct (exact_Z (1 - j) ltac:(lia)) as (Fn & En). destruct (exact_Z (2 * (1 - (a + 1))) ltac:(lia)) as (Fd & Ed).
    assert (X : (1 <= Rabs (B2R (f64_of_Z (2 * (1 - (a + 1))))))%R) by (rewrite Ed, <- abs_IZR; apply IZR_le; lia).
    split.
    + apply bd_div; [lia|apply bd_Z; lia|exact X].
    + intros ->. apply div_0_R; [exact Fn|rewrite En; reflexivity|]. intros C. rewrite C, Rabs_R0 in X. lra.
  - rewrite (int_ok_fits (2 * j)) by lia. cbn [obind]. rewrite (int_ok_fits (2 * j * (a + 1))) by nia. cbn [obind]. rewrite (int_ok_fits (j * (c + 1))) by nia. cbn [obind].
    eexists. split; [reflexivity|]. set (D := a * a + (j - 1) * (c - 2 * a)).
    assert (HD : 0 <= D <= 2 ^ 32).
    { unfold D. split; [|nia]. destruct (Z.le_gt_cases 0 (c - 2 * a)); [nia|].
      (* the value decreases with j and is (c - a)^2 at j = c + 1 *)
      assert (a * a + c * (c - 2 * a) <= a * a + (j - 1) * (c - 2 * a)) by nia. assert (a * a + c * (c - 2 * a) = (c - a) * (c - a)) by ring. nia. }
    match goal with |- context [Bsqrt mode_NE ?d] => set (disc := d) end.
    assert (ED : exactly disc D).
    { replace D with ((((a + 1) * (a + 1) - 2 * j * (a + 1)) + j) + j * (c + 1) - (c + 1)) by (unfold D; ring). unfold disc.
      apply exact_sub; [|apply exact_Z; lia|nia]. apply exact_add; [|apply exact_Z; nia|nia]. apply exact_add; [|apply exact_Z; lia|nia].
      apply exact_sub; [|apply exact_Z; nia|nia]. apply pow_exact; [apply exact_Z; lia|lia]. }
    destruct (exact_sqrt disc D ED (proj1 HD)) as (Fs & Es).
    assert (Bs : bd 16 (Bsqrt mode_NE disc)).
    { split; [exact Fs|]. rewrite Es. apply rnd64_bpow; [lia|]. rewrite Rabs_pos_eq by apply sqrt_pos.
      rewrite <- (sqrt_square (bpow radix2 16)) by apply bpow_ge_0. apply sqrt_le_1_alt. rewrite <- bpow_plus, bpow_IZR by lia. apply IZR_le. lia. }
    destruct (exact_Z (c - 2 * a) ltac:(lia)) as (Fd & Ed).
    assert (X : (1 <= Rabs (B2R (f64_of_Z (c - 2 * a))))%R) by (rewrite Ed, <- abs_IZR; apply IZR_le; lia).
    split.
    + apply bd_div; [lia| |exact X]. apply (bd_add 16); [lia|apply bd_Z; lia|exact Bs].
    + intros Ej. assert (Ss : B2R (Bsqrt mode_NE disc) = IZR a).
      { rewrite Es. replace D with (a * a) by (unfold D; rewrite Ej; ring). rewrite mult_IZR, sqrt_square by (apply IZR_le; lia). apply rnd64_id, fmt64_Z. lia. }
      destruct (exact_add (f64_of_Z (1 - (a + 1))) (Bsqrt mode_NE disc) (1 - (a + 1)) a (exact_Z (1 - (a + 1)) ltac:(lia)) (conj Fs Ss) ltac:(lia)) as (Fa & Ea).
      apply div_0_R; [exact Fa|rewrite Ea; f_equal; lia|]. intros C. rewrite C, Rabs_R0 in X. lra.
Qed.
Lemma value_finite t f0 f1 f2 : bd 17 t -> bd 128 f0 -> bd 128 f1 -> bd 128 f2 -> is_finite (bezier_value fpow t f0 f1 f2) = true.
Proof.
  intros Ht H0 H1 H2. unfold bezier_value. cbv zeta.
  assert (U : bd 18 (sub64 f64_1 t)).
  { apply (bd_sub 17); [lia|apply (bd_le 0); [apply bd_const; [lia|reflexivity|rewrite f64_1_R, Rabs_R1; change (2 ^ 0) with 1; lra]|lia]|exact Ht]. }
  apply (bd_add 165); [lia| |].
  - apply (bd_add 164); [lia| |].
    + apply (bd_le (36 + 128)); [|lia]. apply bd_mul; [lia|lia|apply (pow_bd 18); [lia|exact U]|exact H0].
    + apply (bd_le (36 + 128)); [|lia]. apply bd_mul; [lia|lia| |exact H1]. apply (bd_le (19 + 17)); [|lia]. apply bd_mul; [lia|lia| |exact Ht]. apply (bd_le (18 + 1)); [|lia]. apply bd_mul; [lia|lia|exact U|exact bd_2].
  - apply (bd_le (34 + 128)); [|lia]. apply bd_mul; [lia|lia|apply (pow_bd 17); [lia|exact Ht]|exact H2].
Qed.
Lemma value_0 t f0 f1 f2 : is_finite t = true -> B2R t = 0%R -> bd 128 f0 -> bd 128 f1 -> bd 128 f2 -> B2R (bezier_value fpow t f0 f1 f2) = B2R f0.
Proof.
  intros Ft Et H0 H1 H2. unfold bezier_value. cbv zeta.
  destruct (exact_sub f64_1 t 1 0 (conj eq_refl f64_1_R) (conj Ft Et) ltac:(lia)) as (Fu & Eu). change (1 - 0) with 1 in Eu. set (u := sub64 f64_1 t) in *.
  destruct (pow_exact u 1 (conj Fu Eu) ltac:(lia)) as (Fp & Ep). change (1 * 1) with 1 in Ep. destruct (pow_exact t 0 (conj Ft Et) ltac:(lia)) as (Fq & Eq). change (0 * 0) with 0 in Eq.
  destruct (mul64_ok (fpow u f64_2) f0 Fp (proj1 H0)) as (E1 & F1); rewrite Ep, Rmult_1_l in *; [eapply Rle_trans; [apply H0|apply bpow1000; lia]|]. rewrite (rnd64_id _ (fmt64_B2R f0)) in E1.
  assert (U2 : is_finite (mul64 u f64_2) = true).
  { apply (bd_mul 0 1); [lia|lia|split; [exact Fu|rewrite Eu, Rabs_R1; change (bpow radix2 0) with 1%R; lra]|exact bd_2]. }
  destruct (mul_0_R _ t U2 Ft) as (M1 & G1); [rewrite Et; ring|]. destruct (mul_0_R _ f1 G1 (proj1 H1)) as (M2 & G2); [rewrite M1; ring|].
  destruct (mul_0_R _ f2 Fq (proj1 H2)) as (M3 & G3); [rewrite Eq; ring|].
  set (w := mul64 (fpow u f64_2) f0) in *.
  assert (A : forall x z, is_finite x = true -> B2R x = B2R f0 -> is_finite z = true -> B2R z = 0%R -> B2R (add64 x z) = B2R f0 /\ is_finite (add64 x z) = true).
  { intros x z Fx Ex Fz Ez. destruct (add64_ok x z Fx Fz) as (S1 & S2); rewrite Ex, Ez, Rplus_0_r in *; [eapply Rle_trans; [apply H0|apply bpow1000; lia]|]. split; [|exact S2]. rewrite S1. apply rnd64_id, fmt64_B2R. }
  destruct (A w _ F1 E1 G2 M2) as (S1 & S2). apply (A _ _ S2 S1 G3 M3).
Qed.
Lemma segment_ok a c f0 f1 f2 : 0 <= a <= c -> c <= 32767 -> bd 128 f0 -> bd 128 f1 -> bd 128 f2 ->
  forall k j, 1 <= j -> j + Z.of_nat k <= c + 1 ->
  exists ys, bezier_segment fpow k (a + 1) (c + 1) j f0 f1 f2 = Ok ys /\ length ys = k /\ numbers ys /\
    (j = 1 -> (0 < k)%nat -> exists y, nth_error ys 0 = Some y /\ B2R y = B2R f0).
Proof.
  intros Ha Hc H0 H1 H2. induction k as [|k IH]; intros j Hj Hk; cbn [bezier_segment].
  - eexists. split; [reflexivity|]. split; [reflexivity|]. split; [constructor|]. intros _ C. lia.
  - destruct (bezier_t_ok a c j Ha Hc ltac:(lia)) as (t & -> & Bt & Zt). cbn [obind].
    destruct (IH (j + 1) ltac:(lia) ltac:(lia)) as (ys & -> & L & N & _). cbn [obind]. eexists. split; [reflexivity|]. split; [cbn [length]; lia|].
    split; [constructor; [apply value_finite; assumption|exact N]|]. intros Ej _. eexists. split; [reflexivity|]. apply value_0; try assumption; [apply Bt|apply Zt; exact Ej].
Qed.
Lemma bezier_ok : forall k points t0, (length points <= k)%nat -> Nat.odd (length points) = true -> ordered points -> time_of points 0 = t0 -> 0 <= t0 -> last_time points < 2 ^ 31 ->
  (forall i p r, nth_error points i = Some p -> nth_error points (i + 2) = Some r -> fst r - fst p <= 32767) -> Forall (fun p => bd 128 (snd p)) points ->
  exists ys, bezierInterpolation fpow points = Ok ys /\ Z.of_nat (length ys) = last_time points - t0 + 1 /\ numbers ys /\
    (increasing points -> forall i p, nth_error points i = Some p -> Nat.even i = true -> exists y, nth_error ys (Z.to_nat (fst p - t0)) = Some y /\ B2R y = B2R (snd p)).
Proof.
  induction k as [|k IH]; intros points t0 Hk Hodd Ho H0 Ht Hl Hs Hb; [destruct points; [discriminate|cbn in Hk; lia]|].
  destruct points as [|p0 [|p1 [|p2 l]]]; [discriminate| |discriminate|].
  - cbn [time_of nth] in H0. unfold time_of in H0. cbn [nth] in H0. eexists. split; [reflexivity|]. pose proof (Forall_inv Hb) as B0. subst t0. split; [unfold last_time; cbn [last length]; lia|]. split; [constructor; [apply B0|constructor]|].
    intros _ [|i] p Hp; cbn in Hp; [injection Hp as <-|destruct i; discriminate]. intros _. rewrite Z.sub_diag. eexists. split; reflexivity.
  - assert (O1 : fst p0 <= fst p1) by (apply (Ho 0%nat); reflexivity). assert (O2 : fst p1 <= fst p2) by (apply (Ho 1%nat); reflexivity).
    assert (E0 : fst p0 = t0) by exact H0. pose proof (Hs 0%nat p0 p2 eq_refl eq_refl) as S2.
    assert (Ho2 : ordered (p2 :: l)) by (apply (ordered_tail p1), (ordered_tail p0); exact Ho).
    inversion Hb as [|? ? B0 Hb1]; subst. inversion Hb1 as [|? ? B1 Hb2]; subst. pose proof (Forall_inv Hb2) as B2.
    assert (L2 : last_time (p2 :: l) = last_time (p0 :: p1 :: p2 :: l)) by reflexivity.
    assert (Mono : forall l p q, ordered (p :: l) -> In q (p :: l) -> fst p <= fst q).
    { clear. induction l as [|x l IHl]; intros p q Ho I; [destruct I as [<-|[]]; lia|]. destruct I as [<-|I]; [lia|]. pose proof (IHl x q (ordered_tail _ _ Ho) I). assert (fst p <= fst x) by (apply (Ho 0%nat); reflexivity). lia. }
    assert (L3 : fst p2 <= last_time (p2 :: l)) by (apply (Mono l p2 _ Ho2); apply last_In; discriminate).
    rewrite bezier_step. rewrite (int_ok_fits (fst p1 - fst p0)) by lia. cbn [obind]. rewrite (int_ok_fits (fst p1 - fst p0 + 1)) by lia. cbn [obind].
    rewrite (int_ok_fits (fst p2 - fst p0)) by lia. cbn [obind]. rewrite (int_ok_fits (fst p2 - fst p0 + 1)) by lia. cbn [obind].
    destruct (segment_ok (fst p1 - fst p0) (fst p2 - fst p0) (snd p0) (snd p1) (snd p2) ltac:(lia) ltac:(lia) B0 B1 B2 (Z.to_nat (fst p2 - fst p0 + 1 - 1)) 1 ltac:(lia) ltac:(lia)) as (ys & -> & Ly & Ny & Fy). cbn [obind].
    destruct (IH (p2 :: l) (fst p2)) as (tl & -> & Lt & Nt & Gt); [cbn [length] in *; lia|exact Hodd|exact Ho2|reflexivity|lia|lia| |exact Hb2|].
    { intros i p r Hp Hr. exact (Hs (S (S i)) p r Hp Hr). }
    cbn [obind]. eexists. split; [reflexivity|]. split; [rewrite app_length; rewrite <- L2; lia|]. split; [apply Forall_app; split; assumption|].
    intros Hi [|[|i]] p Hp Hev; cbn [nth_error] in Hp; [injection Hp as <-| |].
    + assert (I1 : fst p0 < fst p1) by (apply (Hi 0%nat); reflexivity). rewrite Z.sub_diag. rewrite nth_error_app1 by (change (Z.to_nat 0) with 0%nat; lia). apply Fy; lia.
    + discriminate.
    + assert (Hi2 : increasing (p2 :: l)) by (intros x a b Ha Hb'; exact (Hi (S (S x)) a b Ha Hb')).
      destruct (Gt Hi2 i p Hp Hev) as (y & Ey & Vy). exists y. split; [|exact Vy]. pose proof (Mono l p2 p Ho2 (nth_error_In _ _ Hp)).
      rewrite nth_error_app2 by lia. rewrite <- Ey. f_equal. lia.
Qed.
End P.
