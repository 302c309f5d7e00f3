(** Proofs about B-spline curves. *)
From Coq Require Import Reals Psatz.
From Flocq Require Import Core.Core.
From Verif Require Import Base FloatBase FloatModel FloatProof Float64Proof TypesModel ToolsModel SynthModel SynthSpec SynthProof SynthMore SynthCurve InterpModel InterpSpec InterpBase AkimaProof BezierProof.
Local Open Scope Z_scope.
Ltac Zify.zify_post_hook ::= Z.div_mod_to_equations.

(** ** Knots. *)
Definition knotR (p : Z) (i : Z) : R := rnd64 (IZR (Z.max 0 (Z.min (i - 2) (p - 2))) / IZR (p - 2)).
Lemma fmt64_1 : fmt64 1.
Proof. apply (fmt64_Z 1). lia. Qed.
Lemma knotR_range p i : 3 <= p -> (0 <= knotR p i <= 1)%R.
Proof.
  intros H. unfold knotR. assert (P : (0 < IZR (p - 2))%R) by (apply IZR_lt; lia). split.
  - rewrite <- rnd64_0. apply rnd64_le. apply Rmult_le_pos; [apply IZR_le; lia|left; apply Rinv_0_lt_compat; exact P].
  - rewrite <- (rnd64_id 1 fmt64_1). apply rnd64_le. apply Rmult_le_reg_r with (IZR (p - 2)); [exact P|]. unfold Rdiv. rewrite Rmult_assoc, Rinv_l, Rmult_1_l, Rmult_1_r by lra. apply IZR_le. lia.
Qed.
Lemma knotR_mono p i j : 3 <= p -> i <= j -> (knotR p i <= knotR p j)%R.
Proof.
  intros H Hij. apply rnd64_le. apply Rmult_le_compat_r; [left; apply Rinv_0_lt_compat, IZR_lt; lia|apply IZR_le; lia].
Qed.
Lemma knots_length p : 3 <= p -> length (bspline_knots p) = Z.to_nat (p + 3).
Proof. intros H. unfold bspline_knots. rewrite !app_length, map_length, seq_length. cbn [length]. lia. Qed.
Lemma knot_at p i : 3 <= p <= 2 ^ 31 -> (i < Z.to_nat (p + 3))%nat ->
  is_finite (at_ (bspline_knots p) i) = true /\ B2R (at_ (bspline_knots p) i) = knotR p (Z.of_nat i).
Proof.
  intros Hp Hi. assert (P : (1 <= IZR (p - 2))%R) by (apply IZR_le; lia).
  assert (K0 : forall z, z <= 2 -> knotR p z = 0%R).
  { intros z Hz. unfold knotR. replace (Z.max 0 (Z.min (z - 2) (p - 2))) with 0 by lia. unfold Rdiv. rewrite Rmult_0_l. apply rnd64_0. }
  assert (K1 : forall z, p <= z -> knotR p z = 1%R).
  { intros z Hz. unfold knotR. replace (Z.max 0 (Z.min (z - 2) (p - 2))) with (p - 2) by lia. unfold Rdiv. rewrite Rinv_r by lra. apply rnd64_id, fmt64_1. }
  unfold at_, bspline_knots. destruct i as [|[|i]]; cbn [app nth]; [split; [reflexivity|rewrite K0 by lia; reflexivity]..|].
  destruct (Nat.lt_ge_cases i (Z.to_nat (p - 1))) as [C|C].
  - rewrite app_nth1 by (rewrite map_length, seq_length; exact C).
    pose proof (at_map (fun i => div64 (f64_of_Z (Z.of_nat i)) (f64_of_Z (p - 2))) (Z.to_nat (p - 1)) i C) as Q. unfold at_ in Q. rewrite Q.
    destruct (exact_Z (Z.of_nat i) ltac:(lia)) as (Fi & Ei). destruct (exact_Z (p - 2) ltac:(lia)) as (Fp & Ep).
    assert (B : (Rabs (IZR (Z.of_nat i) / IZR (p - 2)) <= bpow radix2 31)%R).
    { unfold Rdiv. rewrite Rabs_mult, Rabs_inv, (Rabs_pos_eq (IZR (p - 2))) by lra. rewrite Rabs_pos_eq by (apply IZR_le; lia).
      apply Rle_trans with (IZR (Z.of_nat i) * 1)%R; [apply Rmult_le_compat_l; [apply IZR_le; lia|rewrite <- Rinv_1; apply Rinv_le; lra]|]. rewrite Rmult_1_r, bpow_IZR by lia. apply IZR_le. lia. }
    destruct (div64_ok (f64_of_Z (Z.of_nat i)) (f64_of_Z (p - 2)) Fi) as (E & F); [rewrite Ep; lra|rewrite Ei, Ep; eapply Rle_trans; [exact B|apply bpow1000; lia]|].
    split; [exact F|]. rewrite E, Ei, Ep. unfold knotR. do 3 f_equal. lia.
  - rewrite app_nth2 by (rewrite map_length, seq_length; exact C). rewrite map_length, seq_length.
    destruct (i - Z.to_nat (p - 1))%nat as [|[|j]] eqn:Ej; cbn [nth]; [split; [reflexivity|rewrite f64_1_R, K1 by lia; reflexivity]..|lia].
Qed.
Lemma find_spec t0 : forall l k0 k, bspline_find t0 l k0 = Ok k ->
  (k0 <= k < k0 + length l)%nat /\ fle (at_ l (k - k0)) t0 = false /\ forall i, (k0 <= i < k)%nat -> fle (at_ l (i - k0)) t0 = true.
Proof.
  induction l as [|t l IH]; intros k0 k H; cbn [bspline_find] in H; [discriminate|]. destruct (fle t t0) eqn:E.
  - destruct (IH _ _ H) as (I1 & I2 & I3). cbn [length]. split; [lia|]. replace (k - k0)%nat with (S (k - S k0)) by lia. split; [exact I2|].
    intros i Hi. destruct (Nat.eq_dec i k0) as [-> |Ne]; [rewrite Nat.sub_diag; exact E|]. replace (i - k0)%nat with (S (i - S k0)) by lia. apply (I3 i). lia.
  - injection H as <-. cbn [length]. split; [lia|]. rewrite Nat.sub_diag. split; [exact E|]. intros i Hi. lia.
Qed.
Lemma find_cases t0 : forall l k0, bspline_find t0 l k0 = UB \/ exists k, bspline_find t0 l k0 = Ok k.
Proof. induction l as [|t l IH]; intros k0; cbn [bspline_find]; [auto|]. destruct (fle t t0); [apply IH|eauto]. Qed.
Lemma three_cases points k : bspline_three points k = UB \/ exists a b c, bspline_three points k = Ok (a, b, c) /\ In a points /\ In b points /\ In c points /\ (3 <= k <= length points)%nat.
Proof.
  unfold bspline_three. destruct (Nat.ltb_spec k 3) as [C|C]; [auto|].
  destruct (nth_error points (k - 3)) as [a|] eqn:Ea; [|auto]. destruct (nth_error points (k - 2)) as [b|] eqn:Eb; [|auto]. destruct (nth_error points (k - 1)) as [c|] eqn:Ec; [|auto].
  right. exists a, b, c. split; [reflexivity|]. split; [exact (nth_error_In _ _ Ea)|]. split; [exact (nth_error_In _ _ Eb)|]. split; [exact (nth_error_In _ _ Ec)|].
  pose proof (proj1 (nth_error_Some points (k - 1)) ltac:(congruence)). lia.
Qed.
Lemma fle_true_R {p e} (x y : binary_float p e) : is_finite x = true -> is_finite y = true -> fle x y = true -> (B2R x <= B2R y)%R.
Proof. intros Fx Fy H. rewrite fle_R in H by assumption. destruct (Rle_bool_spec (B2R x) (B2R y)) as [C|C]; [exact C|discriminate]. Qed.
Lemma fle_false_R {p e} (x y : binary_float p e) : is_finite x = true -> is_finite y = true -> fle x y = false -> (B2R y < B2R x)%R.
Proof. intros Fx Fy H. rewrite fle_R in H by assumption. destruct (Rle_bool_spec (B2R x) (B2R y)) as [C|C]; [discriminate|exact C]. Qed.
(** The interval of knots found. *)
Lemma find_knots t0 p k : 3 <= p <= 2 ^ 31 -> is_finite t0 = true -> (0 <= B2R t0)%R -> bspline_find t0 (bspline_knots p) 0 = Ok k ->
  (k < Z.to_nat (p + 3))%nat /\ (B2R t0 < knotR p (Z.of_nat k))%R /\ forall i, (i < k)%nat -> (knotR p (Z.of_nat i) <= B2R t0)%R.
Proof.
  intros Hp F P H. destruct (find_spec _ _ _ _ H) as (I1 & I2 & I3). rewrite knots_length in I1 by lia. rewrite Nat.sub_0_r in I2.
  assert (Lk : (k < Z.to_nat (p + 3))%nat) by lia. split; [exact Lk|]. destruct (knot_at p k Hp Lk) as (Fk & Ek). split.
  - rewrite <- Ek. apply fle_false_R; assumption.
  - intros i Hi. destruct (knot_at p i Hp ltac:(lia)) as (Fi & Ei). rewrite <- Ei. specialize (I3 i ltac:(lia)). rewrite Nat.sub_0_r in I3. apply fle_true_R; assumption.
Qed.

(** ** Termination. *)
Section T.
Variable points : list point.
Hypothesis Hp : (3 <= length points)%nat.
Hypothesis Hp2 : Z.of_nat (length points) <= 2 ^ 31.
Variable n : Z.
Hypothesis Hn : 2 <= n < 2 ^ 31.
Notation p := (Z.of_nat (length points)).
Notation knots := (bspline_knots p).
Definition step_of (n : Z) : f64 := div64 (div64 f64_1 (f64_of_Z n)) (f64_of_Z BSPLINE_STEP).
Notation step := (step_of n).

Lemma inv_n : (/ 2147483648 <= / IZR n <= / 2)%R.
Proof. split; apply Rinv_le; try (apply IZR_lt; lia); try lra; apply IZR_le; lia. Qed.
Lemma step_ok : is_finite step = true /\ (/ IZR n / 12 <= B2R step <= 1)%R.
Proof.
  pose proof inv_n as In. pose proof tiny_small as Ts. pose proof tiny_pos as Tp. set (x := (/ IZR n)%R) in *.
  destruct (exact_Z n ltac:(lia)) as (Fn & En). destruct (exact_Z BSPLINE_STEP ltac:(unfold BSPLINE_STEP; lia)) as (Fs & Es). unfold BSPLINE_STEP in Es.
  assert (N0 : IZR n <> 0%R) by (apply not_0_IZR; lia).
  assert (Big : forall y, (Rabs y <= 2)%R -> (Rabs y <= bpow radix2 1000)%R).
  { intros y Hy. eapply Rle_trans; [exact Hy|]. change 2%R with (bpow radix2 1). apply bpow_le. lia. }
  destruct (div64_ok f64_1 (f64_of_Z n) eq_refl) as (E1 & F1); [rewrite En; exact N0|rewrite f64_1_R, En; unfold Rdiv; rewrite Rmult_1_l; fold x; apply Big; rewrite Rabs_pos_eq; lra|].
  rewrite f64_1_R, En in E1. unfold Rdiv in E1. rewrite Rmult_1_l in E1. fold x in E1. pose proof (err64 x) as R1. rewrite <- E1 in R1. rewrite (Rabs_pos_eq x) in R1 by lra. apply Raux.Rabs_le_inv in R1.
  set (y := B2R (div64 f64_1 (f64_of_Z n))) in *.
  assert (Y : (x * (23/24) <= y <= 1)%R) by lra.
  destruct (div64_ok (div64 f64_1 (f64_of_Z n)) (f64_of_Z BSPLINE_STEP) F1) as (E2 & F2); fold y; [unfold BSPLINE_STEP; rewrite Es; lra|unfold BSPLINE_STEP; rewrite Es; apply Big; rewrite Rabs_pos_eq; lra|].
  fold y in E2. unfold BSPLINE_STEP in E2 at 2. rewrite Es in E2. pose proof (err64 (y / 10)) as R2. rewrite <- E2 in R2. rewrite (Rabs_pos_eq (y / 10)) in R2 by lra. apply Raux.Rabs_le_inv in R2.
  split; [exact F2|]. unfold step_of. lra.
Qed.
Lemma forward t0 : is_finite t0 = true -> (0 <= B2R t0 < 1)%R ->
  is_finite (add64 t0 step) = true /\ (B2R t0 + / IZR n / 24 <= B2R (add64 t0 step))%R.
Proof.
  intros F R. destruct step_ok as (Fs & Ss). pose proof inv_n as In. pose proof tiny_small as Ts. pose proof tiny_pos as Tp.
  destruct (add64_ok t0 step F Fs) as (E & Fa).
  { apply Rle_trans with (bpow radix2 1); [change (bpow radix2 1) with 2%R; rewrite Rabs_pos_eq; lra|apply bpow_le; lia]. }
  split; [exact Fa|]. pose proof (err64 (B2R t0 + B2R step)) as R1. rewrite <- E in R1. rewrite (Rabs_pos_eq (_ + _)) in R1 by lra. apply Raux.Rabs_le_inv in R1. lra.
Qed.
Definition inside (t0 : f64) : Prop := is_finite t0 = true /\ (0 <= B2R t0 < 1)%R.
(** Where the loop stops: either it did not move or the knots around [t0] were found. *)
Definition found (t0 : f64) (k : nat) : Prop := bspline_find t0 knots 0 = Ok k /\ (3 <= k <= length points)%nat.
Lemma advance m : forall fuel t0 k x, inside t0 -> ((1 - B2R t0) * (24 * IZR n) < INR fuel)%R ->
  bspline_advance fuel points knots step m t0 k x = UB \/
  exists t1 k1 x1, bspline_advance fuel points knots step m t0 k x = Ok (t1, k1, x1) /\ inside t1 /\ (B2R t0 <= B2R t1)%R /\
    ((t1, k1) = (t0, k) /\ flt x (f64_of_Z m) = false \/ found t1 k1).
Proof.
  assert (Pn : (0 < IZR n)%R) by (apply IZR_lt; lia).
  induction fuel as [|fuel IH]; intros t0 k x It Hf.
  - exfalso. cbn [INR] in Hf. destruct It as (_ & It). assert (0 <= (1 - B2R t0) * (24 * IZR n))%R by (apply Rmult_le_pos; lra). lra.
  - cbn [bspline_advance]. destruct (flt x (f64_of_Z m)) eqn:Ex; [|right; exists t0, k, x; split; [reflexivity|]; split; [exact It|]; split; [lra|auto]].
    cbv zeta. destruct (forward t0 (proj1 It) (proj2 It)) as (F1 & G1). set (t1 := add64 t0 step) in *.
    assert (P24 : (0 < / IZR n / 24)%R) by (apply Rmult_lt_0_compat; [apply Rinv_0_lt_compat; exact Pn|lra]).
    destruct (find_cases t1 knots 0) as [-> |(k1 & Ek)]; [auto|]. rewrite Ek. cbn [obind].
    destruct (find_knots t1 p k1 ltac:(lia) F1 ltac:(destruct It; lra) Ek) as (_ & K1 & _). pose proof (knotR_range p (Z.of_nat k1) ltac:(lia)) as KR.
    destruct (three_cases points k1) as [-> |(a & b & c & -> & _ & _ & _ & K3)]; [auto|]. cbn [obind].
    assert (I1 : inside t1) by (split; [exact F1|]; destruct It; lra).
    match goal with |- context [bspline_advance fuel points knots step m t1 k1 ?y] => specialize (IH t1 k1 y I1) end.
    destruct IH as [-> |(t2 & k2 & x2 & -> & I2 & G2 & C2)]; [|auto|].
    + rewrite S_INR in Hf.
      assert (X : ((1 - B2R t1) * (24 * IZR n) <= (1 - B2R t0 - / IZR n / 24) * (24 * IZR n))%R) by (apply Rmult_le_compat_r; lra).
      replace ((1 - B2R t0 - / IZR n / 24) * (24 * IZR n))%R with ((1 - B2R t0) * (24 * IZR n) - 1)%R in X by (field; lra). lra.
    + right. exists t2, k2, x2. split; [reflexivity|]. split; [exact I2|]. split; [lra|]. right. destruct C2 as [(Eq & _)|C2]; [injection Eq as -> ->; split; assumption|exact C2].
Qed.

(** ** Values. *)
Lemma weight_ok t0 lo hi : is_finite t0 = true -> is_finite lo = true -> is_finite hi = true -> (0 <= B2R lo)%R -> (B2R hi <= 1)%R -> (B2R lo <= B2R t0 < B2R hi)%R ->
  is_finite (bspline_weight t0 lo hi) = true /\ (0 <= B2R (bspline_weight t0 lo hi) <= 1)%R.
Proof.
  intros Ft Fl Fh L H R. unfold bspline_weight. cbv zeta.
  assert (Big : forall y, (Rabs y <= 1)%R -> (Rabs y <= bpow radix2 1000)%R).
  { intros y Hy. eapply Rle_trans; [exact Hy|]. change 1%R with (bpow radix2 0). apply bpow_le. lia. }
  destruct (sub64_ok t0 lo Ft Fl) as (E1 & F1); [apply Big; rewrite Rabs_pos_eq; lra|].
  destruct (sub64_ok hi lo Fh Fl) as (E2 & F2); [apply Big; rewrite Rabs_pos_eq; lra|].
  destruct (feq (sub64 t0 lo) f64_0) eqn:Eq; [split; [reflexivity|change (B2R f64_0) with 0%R; lra]|].
  set (num := sub64 t0 lo) in *. set (s := sub64 hi lo) in *.
  assert (N0 : (0 <= B2R num)%R) by (rewrite E1, <- rnd64_0; apply rnd64_le; lra).
  assert (NS : (B2R num <= B2R s)%R) by (rewrite E1, E2; apply rnd64_le; lra).
  assert (NZ : B2R num <> 0%R).
  { intros C. unfold feq in Eq. rewrite Bcompare_correct in Eq by (assumption || reflexivity). change (B2R f64_0) with 0%R in Eq. rewrite C, Rcompare_Eq in Eq by reflexivity. discriminate. }
  assert (Q : (0 <= B2R num / B2R s <= 1)%R).
  { split; [apply Rmult_le_pos; [lra|left; apply Rinv_0_lt_compat; lra]|]. apply Rmult_le_reg_r with (B2R s); [lra|]. unfold Rdiv. rewrite Rmult_assoc, Rinv_l by lra. lra. }
  destruct (div64_ok num s F1) as (E3 & F3); [lra|apply Big; rewrite Rabs_pos_eq; lra|]. split; [exact F3|]. rewrite E3. split.
  - rewrite <- rnd64_0. apply rnd64_le. lra.
  - rewrite <- (rnd64_id 1 fmt64_1). apply rnd64_le. lra.
Qed.
Notation e := (/ 9007199254740992)%R.
Notation eta := (bpow radix2 (-150)).
Lemma mix_ok w a b A : is_finite w = true -> (0 <= B2R w <= 1)%R -> is_finite a = true -> is_finite b = true -> (Rabs (B2R a) <= A)%R -> (Rabs (B2R b) <= A)%R -> (A <= bpow radix2 130)%R ->
  is_finite (bspline_mix w a b) = true /\ (Rabs (B2R (bspline_mix w a b)) <= A + 5 * e * A + 4 * eta)%R.
Proof.
  intros Fw Rw Fa Fb Ba Bb HA. unfold bspline_mix. pose proof tiny_small as Ts. pose proof tiny_pos as Tp. set (h := bpow radix2 (-150)) in *.
  assert (A0 : (0 <= A)%R) by (eapply Rle_trans; [apply Rabs_pos|exact Ba]).
  assert (One : forall y, (Rabs y <= 1)%R -> (Rabs y <= bpow radix2 1000)%R).
  { intros y Hy. eapply Rle_trans; [exact Hy|]. change 1%R with (bpow radix2 0). apply bpow_le. lia. }
  assert (B0 : (1 <= bpow radix2 130)%R) by (change 1%R with (bpow radix2 0); apply bpow_le; lia).
  assert (B1 : (bpow radix2 130 * 4 <= bpow radix2 1000)%R) by (change 4%R with (bpow radix2 2); rewrite <- bpow_plus; apply bpow_le; lia).
  destruct (sub64_ok f64_1 w eq_refl Fw) as (E1 & F1); [rewrite f64_1_R; apply One; rewrite Rabs_pos_eq; lra|]. rewrite f64_1_R in E1. set (u := sub64 f64_1 w) in *.
  assert (Ru : (0 <= B2R u <= 1)%R).
  { rewrite E1. split; [rewrite <- rnd64_0; apply rnd64_le; lra|apply Rle_trans with (rnd64 1); [apply rnd64_le; lra|right; apply rnd64_id, fmt64_1]]. }
  assert (Uw : (B2R u + B2R w <= 1 + e + h)%R).
  { pose proof (err64 (1 - B2R w)) as X. rewrite <- E1 in X. rewrite (Rabs_pos_eq (1 - _)) in X by lra. apply Raux.Rabs_le_inv in X. fold h in X. lra. }
  assert (Pr : forall v c, is_finite v = true -> (0 <= B2R v <= 1)%R -> is_finite c = true -> (Rabs (B2R c) <= A)%R ->
    is_finite (mul64 v c) = true /\ (Rabs (B2R (mul64 v c)) <= B2R v * A + e * A + h)%R).
  { intros v c Fv Rv Fc Bc. assert (X : (Rabs (B2R v * B2R c) <= B2R v * A)%R) by (rewrite Rabs_mult, (Rabs_pos_eq (B2R v)) by lra; apply Rmult_le_compat_l; lra).
    assert (Y : (B2R v * A <= A)%R) by (rewrite <- (Rmult_1_l A) at 2; apply Rmult_le_compat_r; lra).
    destruct (mul64_ok v c Fv Fc) as (E & F); [lra|]. split; [exact F|]. rewrite E. pose proof (err64 (B2R v * B2R c)) as Er. fold h in Er.
    apply Raux.Rabs_le_inv in Er. apply Raux.Rabs_le_inv in X. assert (Z : (Rabs (B2R v * B2R c) <= A)%R) by (apply Rabs_le; lra). apply Rabs_le. lra. }
  destruct (Pr u a F1 Ru Fa Ba) as (F2 & G2). destruct (Pr w b Fw Rw Fb Bb) as (F3 & G3).
  assert (S1 : ((B2R u + B2R w) * A <= (1 + e + h) * A)%R) by (apply Rmult_le_compat_r; assumption).
  assert (hA : (h * A <= e * A)%R) by (apply Rmult_le_compat_r; [exact A0|lra]).
  assert (eA : (e * A <= A)%R) by lra.
  assert (S2 : (Rabs (B2R (mul64 u a) + B2R (mul64 w b)) <= A + e * A + h * A + 2 * (e * A) + 2 * h)%R) by (eapply Rle_trans; [apply Rabs_triang|]; lra).
  (* h * A is far below e * A *)
  assert (hA2 : (h * A <= e * A / 4)%R).
  { replace (e * A / 4)%R with ((e / 4) * A)%R by (unfold Rdiv; ring). apply Rmult_le_compat_r; [exact A0|lra]. }
  destruct (add64_ok _ _ F2 F3) as (E4 & F4); [lra|]. split; [exact F4|]. rewrite E4. pose proof (err64 (B2R (mul64 u a) + B2R (mul64 w b))) as Er. fold h in Er.
  apply Raux.Rabs_le_inv in Er. apply Raux.Rabs_le_inv in S2.
  assert (S3 : (Rabs (B2R (mul64 u a) + B2R (mul64 w b)) <= A + e * A + h * A + 2 * (e * A) + 2 * h)%R) by (apply Rabs_le; lra).
  apply Rabs_le. lra.
Qed.
Lemma eval_ok t0 k x0 x1 x2 A : inside t0 -> found t0 k -> is_finite x0 = true -> is_finite x1 = true -> is_finite x2 = true ->
  (Rabs (B2R x0) <= A)%R -> (Rabs (B2R x1) <= A)%R -> (Rabs (B2R x2) <= A)%R -> (bpow radix2 (-90) <= A <= bpow radix2 128)%R ->
  is_finite (bspline_eval knots t0 k x0 x1 x2) = true /\ (Rabs (B2R (bspline_eval knots t0 k x0 x1 x2)) <= A + A / 281474976710656)%R.
Proof.
  intros (Ft & Rt) (Hf & Hk) F0 F1 F2 B0 B1 B2 HA. unfold bspline_eval. cbv zeta.
  destruct (find_knots t0 p k ltac:(lia) Ft ltac:(lra) Hf) as (_ & K1 & K2).
  assert (W : forall i j, (i < k)%nat -> (k <= j < Z.to_nat (p + 3))%nat ->
    is_finite (bspline_weight t0 (at_ knots i) (at_ knots j)) = true /\ (0 <= B2R (bspline_weight t0 (at_ knots i) (at_ knots j)) <= 1)%R).
  { intros i j Hi Hj. destruct (knot_at p i ltac:(lia) ltac:(lia)) as (Fi & Ei). destruct (knot_at p j ltac:(lia) ltac:(lia)) as (Fj & Ej).
    pose proof (knotR_range p (Z.of_nat i) ltac:(lia)). pose proof (knotR_range p (Z.of_nat j) ltac:(lia)). pose proof (knotR_mono p (Z.of_nat k) (Z.of_nat j) ltac:(lia) ltac:(lia)). specialize (K2 i Hi).
    apply weight_ok; try assumption; rewrite ?Ei, ?Ej; lra. }
  destruct (W (k - 2)%nat k ltac:(lia) ltac:(lia)) as (Fa & Ra). destruct (W (k - 1)%nat (k + 1)%nat ltac:(lia) ltac:(lia)) as (Fb & Rb). destruct (W (k - 1)%nat k ltac:(lia) ltac:(lia)) as (Fc & Rc).
  pose proof tiny_pos as Tp. assert (Hh : (bpow radix2 (-150) * 1152921504606846976 <= A)%R).
  { eapply Rle_trans; [|apply HA]. change 1152921504606846976%R with (IZR (2 ^ 60)). rewrite <- bpow_IZR by lia. rewrite <- bpow_plus. apply bpow_le. lia. }
  set (h := bpow radix2 (-150)) in *.
  assert (B128 : (bpow radix2 128 * 4 <= bpow radix2 130)%R) by (change 4%R with (bpow radix2 2); rewrite <- bpow_plus; right; reflexivity).
  set (A1 := (A + 5 * e * A + 4 * h)%R).
  destruct (mix_ok _ x0 x1 A Fa Ra F0 F1 B0 B1 ltac:(lra)) as (M1 & N1). destruct (mix_ok _ x1 x2 A Fb Rb F1 F2 B1 B2 ltac:(lra)) as (M2 & N2). fold h in N1, N2. fold A1 in N1, N2.
  destruct (mix_ok _ _ _ A1 Fc Rc M1 M2 N1 N2 ltac:(unfold A1; lra)) as (M3 & N3). split; [exact M3|]. fold h in N3. eapply Rle_trans; [exact N3|]. unfold A1. lra.
Qed.
Section V.
Variable A : R.
Hypothesis HA : (bpow radix2 (-90) <= A <= bpow radix2 128)%R.
Hypothesis Hamp : Forall (fun q => is_finite (snd q) = true /\ (Rabs (B2R (snd q)) <= A)%R) points.
Definition within (y : f64) : Prop := is_finite y = true /\ (Rabs (B2R y) <= A + A / 281474976710656)%R.
Lemma loop fuel : (24 * IZR n < INR fuel)%R -> forall count m t0 k x, inside t0 -> (found t0 k \/ flt x (f64_of_Z m) = true) ->
  bspline_loop fuel points knots step count m t0 k x = UB \/
  exists ys, bspline_loop fuel points knots step count m t0 k x = Ok ys /\ length ys = count /\ Forall within ys.
Proof.
  intros Hf. assert (Pn : (0 < IZR n)%R) by (apply IZR_lt; lia). induction count as [|count IH]; intros m t0 k x It Hk; cbn [bspline_loop]; [right; exists []; auto|].
  destruct (advance m fuel t0 k x It) as [-> |(t1 & k1 & x1 & -> & I1 & _ & C1)]; [|auto|].
  { eapply Rle_lt_trans; [|exact Hf]. destruct It as (_ & It). rewrite <- (Rmult_1_l (24 * IZR n)) at 2. apply Rmult_le_compat_r; lra. }
  cbn [obind]. assert (Fk : found t1 k1).
  { destruct C1 as [(Eq & Ex)|C1]; [|exact C1]. injection Eq as -> ->. destruct Hk as [Hk|Hk]; [exact Hk|congruence]. }
  destruct (three_cases points k1) as [-> |(a & b & c & -> & Ia & Ib & Ic & _)]; [auto|]. cbn [obind].
  destruct (IH (m + 1) t1 k1 x1 I1 (or_introl Fk)) as [-> |(ys & -> & L & W)]; [auto|]. cbn [obind]. right. eexists. split; [reflexivity|]. split; [cbn [length]; lia|]. constructor; [|exact W].
  rewrite Forall_forall in Hamp. destruct (Hamp a Ia) as (Fa & Ba). destruct (Hamp b Ib) as (Fb & Bb). destruct (Hamp c Ic) as (Fc & Bc).
  apply eval_ok; assumption.
Qed.
End V.
End T.

Lemma bspline_ok fuel points A : (3 <= length points)%nat -> Z.of_nat (length points) <= 2 ^ 31 -> 0 <= last_time points < 2 ^ 31 - 1 ->
  24 * last_time points < Z.of_nat fuel -> (bpow radix2 (-90) <= A <= bpow radix2 128)%R ->
  Forall (fun q : point => is_finite (snd q) = true /\ (Rabs (B2R (snd q)) <= A)%R) points ->
  bsplineInterpolation fuel points = UB \/
  exists ys, bsplineInterpolation fuel points = Ok ys /\ Z.of_nat (length ys) = last_time points + 1 /\
    Forall (fun y => is_finite y = true /\ (Rabs (B2R y) <= A + A / 281474976710656)%R) ys /\
    (0 < last_time points -> hd_error ys = option_map snd (hd_error points)) /\ nth_error ys (Z.to_nat (last_time points)) = Some (snd (last points (0, f64_0))).
Proof.
  intros Hp Hp2 Hl Hf HA Hamp. unfold bsplineInterpolation. destruct points as [|p0 l] eqn:El; [cbn in Hp; lia|]. rewrite <- El in *. set (n := last_time points) in *.
  rewrite int_ok_fits by lia. cbn [obind]. replace (n + 1 <? 0) with false by lia. replace (n + 1 =? 0) with false by lia. cbv zeta. fold (step_of n).
  assert (Loop : bspline_loop fuel points (bspline_knots (Z.of_nat (length points))) (step_of n) (Z.to_nat (n - 1)) 1 f64_0 0 f64_0 = UB \/
    exists ys, bspline_loop fuel points (bspline_knots (Z.of_nat (length points))) (step_of n) (Z.to_nat (n - 1)) 1 f64_0 0 f64_0 = Ok ys /\ length ys = Z.to_nat (n - 1) /\ Forall (within A) ys).
  { destruct (Z.le_gt_cases n 1) as [C|C].
    - replace (Z.to_nat (n - 1)) with 0%nat by lia. right. exists []. auto.
    - apply loop; try assumption; [lia| |split; [reflexivity|change (B2R f64_0) with 0%R; lra]|right; reflexivity].
      rewrite INR_IZR_INZ, <- mult_IZR. apply IZR_lt. exact Hf. }
  destruct Loop as [-> |(ys & -> & L & W)]; [auto|]. cbn [obind]. right. eexists. split; [reflexivity|].
  assert (Bl : within A (snd (last points (0, f64_0)))).
  { rewrite Forall_forall in Hamp. destruct (Hamp (last points (0, f64_0))) as (F & B); [apply last_In; rewrite El; discriminate|]. split; [exact F|]. pose proof (Rabs_pos (B2R (snd (last points (0, f64_0))))). lra. }
  assert (B0 : within A (snd p0)).
  { rewrite El in Hamp. destruct (Forall_inv Hamp) as (F & B). split; [exact F|]. pose proof (Rabs_pos (B2R (snd p0))). lra. }
  destruct (Z.eqb_spec n 0) as [E0|E0].
  - rewrite E0. split; [reflexivity|]. split; [constructor; [exact Bl|constructor]|]. split; [lia|reflexivity].
  - split; [cbn [length]; rewrite app_length; cbn [length]; lia|]. split; [constructor; [exact B0|]; apply Forall_app; split; [exact W|constructor; [exact Bl|constructor]]|].
    split; [intros _; rewrite El; reflexivity|]. replace (Z.to_nat n) with (S (Z.to_nat (n - 1))) by lia. cbn [nth_error]. rewrite nth_error_app2 by lia. rewrite L, Nat.sub_diag. reflexivity.
Qed.
