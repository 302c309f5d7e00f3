(** The samples of a Bezier curve lie on the curve. *)
From Coq Require Import Reals Psatz.
From Flocq Require Import Core.Core.
From Verif Require Import Base FloatBase FloatModel FloatProof Float64Proof TypesModel ToolsModel SynthModel SynthProof SynthCurve InterpModel InterpSpec InterpBase BezierProof.
Local Open Scope Z_scope.
Ltac Zify.zify_post_hook ::= Z.div_mod_to_equations.

Definition ap (x : f64) (r e : R) : Prop := is_finite x = true /\ (Rabs (B2R x - r) <= e)%R.
Lemma ap_refl x : is_finite x = true -> ap x (B2R x) 0.
Proof. intros F. split; [exact F|]. unfold Rminus. rewrite Rplus_opp_r, Rabs_R0. lra. Qed.
Lemma ap_abs x r e : ap x r e -> (Rabs (B2R x) <= Rabs r + e)%R.
Proof. intros (_ & H). replace (B2R x) with (r + (B2R x - r))%R by ring. eapply Rle_trans; [apply Rabs_triang|]. lra. Qed.
Lemma ap_round v r z e g M : (Rabs (v - r) <= e)%R -> z = rnd64 v -> (Rabs v <= M)%R -> (e + M / 9007199254740992 + bpow radix2 (-150) <= g)%R -> (Rabs (z - r) <= g)%R.
Proof.
  intros H -> HM Hg. pose proof (err64 v) as E. replace (rnd64 v - r)%R with ((rnd64 v - v) + (v - r))%R by ring. eapply Rle_trans; [apply Rabs_triang|].
  assert (/ 9007199254740992 * Rabs v <= M / 9007199254740992)%R by (unfold Rdiv; rewrite Rmult_comm; apply Rmult_le_compat_r; lra). lra.
Qed.
Lemma ap_add x y r s e f g M : ap x r e -> ap y s f -> (Rabs r + Rabs s + e + f <= M)%R -> (M <= bpow radix2 1000)%R ->
  (e + f + M / 9007199254740992 + bpow radix2 (-150) <= g)%R -> ap (add64 x y) (r + s) g.
Proof.
  intros Hx Hy HM Hb Hg. pose proof (ap_abs _ _ _ Hx). pose proof (ap_abs _ _ _ Hy). destruct Hx as (Fx & Ex), Hy as (Fy & Ey).
  assert (V : (Rabs (B2R x + B2R y) <= M)%R) by (eapply Rle_trans; [apply Rabs_triang|]; lra).
  destruct (add64_ok x y Fx Fy) as (Ea & Fa); [lra|]. split; [exact Fa|]. apply (ap_round (B2R x + B2R y) _ _ (e + f) g M); [|exact Ea|exact V|exact Hg].
  replace (B2R x + B2R y - (r + s))%R with ((B2R x - r) + (B2R y - s))%R by ring. eapply Rle_trans; [apply Rabs_triang|]. lra.
Qed.
Lemma ap_sub x y r s e f g M : ap x r e -> ap y s f -> (Rabs (r - s) + e + f <= M)%R -> (M <= bpow radix2 1000)%R ->
  (e + f + M / 9007199254740992 + bpow radix2 (-150) <= g)%R -> ap (sub64 x y) (r - s) g.
Proof.
  intros (Fx & Ex) (Fy & Ey) HM Hb Hg.
  assert (D : (Rabs (B2R x - B2R y - (r - s)) <= e + f)%R).
  { replace (B2R x - B2R y - (r - s))%R with ((B2R x - r) + - (B2R y - s))%R by ring. eapply Rle_trans; [apply Rabs_triang|]. rewrite Rabs_Ropp. lra. }
  assert (V : (Rabs (B2R x - B2R y) <= M)%R).
  { replace (B2R x - B2R y)%R with ((r - s) + (B2R x - B2R y - (r - s)))%R by ring. eapply Rle_trans; [apply Rabs_triang|]. lra. }
  destruct (sub64_ok x y Fx Fy) as (Ea & Fa); [lra|]. split; [exact Fa|]. exact (ap_round _ _ _ _ _ M D Ea V Hg).
Qed.
Lemma ap_mul x y r s e f g K L M : ap x r e -> ap y s f -> (Rabs r <= K)%R -> (Rabs s <= L)%R -> (0 <= e)%R -> (0 <= f)%R -> ((K + e) * (L + f) <= M)%R -> (M <= bpow radix2 1000)%R ->
  (K * f + L * e + e * f + M / 9007199254740992 + bpow radix2 (-150) <= g)%R -> ap (mul64 x y) (r * s) g.
Proof.
  intros Hx Hy HK HL He Hf HM Hb Hg. pose proof (ap_abs _ _ _ Hx) as Ax. pose proof (ap_abs _ _ _ Hy) as Ay. destruct Hx as (Fx & Ex), Hy as (Fy & Ey).
  assert (V : (Rabs (B2R x * B2R y) <= M)%R).
  { rewrite Rabs_mult. eapply Rle_trans; [|exact HM]. apply Rmult_le_compat; try apply Rabs_pos; lra. }
  destruct (mul64_ok x y Fx Fy) as (Ea & Fa); [lra|]. split; [exact Fa|]. apply (ap_round (B2R x * B2R y) _ _ (K * f + L * e + e * f) g M); [|exact Ea|exact V|exact Hg].
  replace (B2R x * B2R y - r * s)%R with (r * (B2R y - s) + s * (B2R x - r) + (B2R x - r) * (B2R y - s))%R by ring.
  eapply Rle_trans; [apply Rabs_triang|]. apply Rplus_le_compat; [eapply Rle_trans; [apply Rabs_triang|]; apply Rplus_le_compat|]; rewrite Rabs_mult; apply Rmult_le_compat; try apply Rabs_pos; assumption.
Qed.
Lemma ap_weaken x r e f : ap x r e -> (e <= f)%R -> ap x r f.
Proof. intros (F & H) L. split; [exact F|lra]. Qed.

Section P.
Variable fpow : f64 -> f64 -> f64.
Hypothesis Hpow : pow_faithful fpow.

(** Multiples of 2^-50. *)
Lemma grid k : Z.abs k <= 2 ^ 53 -> exists y : f64, is_finite y = true /\ B2R y = (IZR k / 1125899906842624)%R.
Proof.
  intros H. destruct (exact_Z k H) as (Fk & Ek). destruct (exact_Z (2 ^ 50) ltac:(lia)) as (Fd & Ed). change (2 ^ 50) with 1125899906842624 in *.
  assert (S : (Rabs (IZR k / 1125899906842624) <= bpow radix2 1000)%R).
  { unfold Rdiv. rewrite Rabs_mult, <- abs_IZR. rewrite (Rabs_pos_eq (/ _)) by (apply Rlt_le, Rinv_0_lt_compat; lra).
    apply Rle_trans with (IZR (2 ^ 53) * 1)%R; [apply Rmult_le_compat; [apply IZR_le; lia|lra|apply IZR_le; exact H|lra]|]. rewrite Rmult_1_r, <- bpow_IZR by lia. apply bpow_le. lia. }
  destruct (div64_ok (f64_of_Z k) (f64_of_Z 1125899906842624) Fk) as (E & F); [rewrite Ed; lra|rewrite Ek, Ed; exact S|]. rewrite Ek, Ed in E.
  eexists. split; [exact F|]. rewrite E. apply rnd64_id. replace (IZR k / 1125899906842624)%R with (IZR k * bpow radix2 (Z.opp 50))%R; [apply fmt_Z; lia|].
  rewrite bpow_inv by lia. reflexivity.
Qed.
Lemma ap_pow x r e g : ap x r e -> (Rabs r <= 1)%R -> (0 <= e <= 1 / 2)%R -> ((2 + e) * e + / 1125899906842624 <= g)%R -> ap (fpow x f64_2) (r * r) g.
Proof.
  intros Hx Hr He Hg. pose proof (ap_abs _ _ _ Hx) as Ax. destruct Hx as (F & E).
  destruct (proj1 Hpow x F) as (Fp & Q).
  { apply Rle_trans with (bpow radix2 1); [|apply bpow_le; lia]. change (bpow radix2 1) with 2%R. lra. }
  split; [exact Fp|]. set (w := (B2R x * B2R x)%R) in *.
  assert (W : (0 <= w <= 3)%R).
  { unfold w. split; [apply Rle_0_sqr|]. eapply Rle_trans; [apply Rle_abs|]. rewrite Rabs_mult. apply Rle_trans with ((3 / 2) * (3 / 2))%R; [apply Rmult_le_compat; try apply Rabs_pos; lra|lra]. }
  set (k := Zfloor (w * 1125899906842624)). pose proof (Zfloor_lb (w * 1125899906842624)) as L1. pose proof (Zfloor_ub (w * 1125899906842624)) as L2. fold k in L1, L2.
  assert (K : 0 <= k <= 3 * 2 ^ 50).
  { split; [apply (Zfloor_lub 0); nra|]. apply le_IZR. change (3 * 2 ^ 50) with 3377699720527872. lra. }
  destruct (grid k ltac:(lia)) as (y1 & F1 & E1). destruct (grid (k + 1) ltac:(lia)) as (y2 & F2 & E2). rewrite plus_IZR in E2.
  destruct (Q y1 F1) as (Q1 & _). destruct (Q y2 F2) as (_ & Q2). rewrite E1 in Q1. rewrite E2 in Q2. specialize (Q1 ltac:(lra)). specialize (Q2 ltac:(lra)).
  assert (P : (Rabs (B2R (fpow x f64_2) - w) <= / 1125899906842624)%R) by (apply Rabs_le; lra).
  replace (B2R (fpow x f64_2) - r * r)%R with ((B2R (fpow x f64_2) - w) + (B2R x - r) * ((B2R x - r) + 2 * r))%R by (unfold w; ring).
  eapply Rle_trans; [apply Rabs_triang|]. apply Rle_trans with (/ 1125899906842624 + e * (2 + e))%R; [|lra]. apply Rplus_le_compat; [exact P|].
  rewrite Rabs_mult. apply Rmult_le_compat; try apply Rabs_pos; [exact E|]. eapply Rle_trans; [apply Rabs_triang|]. rewrite Rabs_mult, (Rabs_pos_eq 2) by lra. lra.
Qed.

(** The error of the parameter. *)
Definition eT : R := (/ 34359738368)%R.
Lemma value_ap t tr f0 f1 f2 A : ap t tr eT -> (0 <= tr <= 1)%R -> is_finite f0 = true -> is_finite f1 = true -> is_finite f2 = true ->
  (Rabs (B2R f0) <= A)%R -> (Rabs (B2R f1) <= A)%R -> (Rabs (B2R f2) <= A)%R -> (bpow radix2 (-90) <= A <= bpow radix2 128)%R ->
  ap (bezier_value fpow t f0 f1 f2) ((1 - tr) * (1 - tr) * B2R f0 + (1 - tr) * 2 * tr * B2R f1 + tr * tr * B2R f2) (A / 1073741824).
Proof.
  intros Ht Hr F0 F1 F2 B0 B1 B2 (A1 & A2). unfold bezier_value. cbv zeta. unfold eT in Ht.
  pose proof tiny_small as T1. assert (T2 : (bpow radix2 (-150) <= A / 1152921504606846976)%R).
  { apply Rle_trans with (bpow radix2 (-90) / 1152921504606846976)%R; [|unfold Rdiv; apply Rmult_le_compat_r; lra]. replace (-150) with (-90 + Z.opp 60) by lia. rewrite bpow_plus, (bpow_inv 60) by lia. right. reflexivity. }
  assert (P : (0 < A)%R) by (pose proof (bpow_gt_0 radix2 (-90)); lra).
  assert (Big : (16 * A <= bpow radix2 1000)%R).
  { apply Rle_trans with (bpow radix2 4 * bpow radix2 128)%R; [change (bpow radix2 4) with 16%R; lra|]. rewrite <- bpow_plus. apply bpow_le. lia. }
  assert (Big4 : (16 <= bpow radix2 1000)%R) by (change 16%R with (bpow radix2 4); apply bpow_le; lia).
  assert (Rt : (Rabs tr <= 1)%R) by (rewrite Rabs_pos_eq; lra). assert (Ru : (Rabs (1 - tr) <= 1)%R) by (rewrite Rabs_pos_eq; lra).
  assert (U : ap (sub64 f64_1 t) (1 - tr) (101 / 3435973836800)).
  { apply (ap_sub _ _ _ _ 0 (/ 34359738368) _ 2); try lra; [|exact Ht]. rewrite <- f64_1_R. apply ap_refl. reflexivity. }
  set (u := sub64 f64_1 t) in *.
  assert (X2 : ap f64_2 2 0) by (split; [reflexivity|replace (B2R f64_2) with 2%R; [unfold Rminus; rewrite Rplus_opp_r, Rabs_R0; lra|unfold f64_2, B2R, F2R; cbn [Fnum Fexp cond_Zopp]; change (-51) with (Z.opp 51); rewrite bpow_inv by lia; change (2 ^ 51) with 2251799813685248; lra]]).
  assert (PU : ap (fpow u f64_2) ((1 - tr) * (1 - tr)) (21 / 343597383680)) by (apply (ap_pow _ _ _ _ U); lra).
  assert (PT : ap (fpow t f64_2) (tr * tr) (21 / 343597383680)) by (apply (ap_pow _ _ _ _ Ht); lra).
  assert (RU : (Rabs ((1 - tr) * (1 - tr)) <= 1)%R) by (rewrite Rabs_pos_eq; nra). assert (RT : (Rabs (tr * tr) <= 1)%R) by (rewrite Rabs_pos_eq; nra).
  assert (M1 : ap (mul64 (fpow u f64_2) f0) ((1 - tr) * (1 - tr) * B2R f0) (22 / 343597383680 * A)) by (apply (ap_mul _ _ _ _ (21 / 343597383680) 0 _ 1 A (2 * A) PU (ap_refl _ F0)); lra).
  assert (M3 : ap (mul64 (fpow t f64_2) f2) (tr * tr * B2R f2) (22 / 343597383680 * A)) by (apply (ap_mul _ _ _ _ (21 / 343597383680) 0 _ 1 A (2 * A) PT (ap_refl _ F2)); lra).
  assert (U2 : ap (mul64 u f64_2) ((1 - tr) * 2) (21 / 343597383680)) by (apply (ap_mul _ _ _ _ (101 / 3435973836800) 0 _ 1 2 3 U X2); try lra; rewrite Rabs_pos_eq; lra).
  assert (RU2 : (Rabs ((1 - tr) * 2) <= 2)%R) by (rewrite Rabs_pos_eq; lra).
  assert (UT : ap (mul64 (mul64 u f64_2) t) ((1 - tr) * 2 * tr) (42 / 343597383680)) by (apply (ap_mul _ _ _ _ (21 / 343597383680) (/ 34359738368) _ 2 1 3 U2 Ht); lra).
  assert (RUT : (Rabs ((1 - tr) * 2 * tr) <= 2)%R) by (rewrite Rabs_pos_eq; nra).
  assert (M2 : ap (mul64 (mul64 (mul64 u f64_2) t) f1) ((1 - tr) * 2 * tr * B2R f1) (43 / 343597383680 * A)) by (apply (ap_mul _ _ _ _ (42 / 343597383680) 0 _ 2 A (3 * A) UT (ap_refl _ F1)); lra).
  assert (B : forall w K f, (Rabs w <= K)%R -> (Rabs f <= A)%R -> (Rabs (w * f) <= K * A)%R) by (intros w K f Hw Hf; rewrite Rabs_mult; apply Rmult_le_compat; try apply Rabs_pos; assumption).
  pose proof (B _ _ _ RU B0) as G0. pose proof (B _ _ _ RUT B1) as G1. pose proof (B _ _ _ RT B2) as G2.
  assert (S1 : ap (add64 (mul64 (fpow u f64_2) f0) (mul64 (mul64 (mul64 u f64_2) t) f1)) ((1 - tr) * (1 - tr) * B2R f0 + (1 - tr) * 2 * tr * B2R f1) (66 / 343597383680 * A)) by (apply (ap_add _ _ _ _ _ _ _ (4 * A) M1 M2); lra).
  apply (ap_add _ _ _ _ _ _ _ (5 * A) S1 M3); [|lra|lra].
  pose proof (Rabs_triang ((1 - tr) * (1 - tr) * B2R f0) ((1 - tr) * 2 * tr * B2R f1)). lra.
Qed.

(** The parameter at which the curve is at a given time. *)
Lemma real_t a c x : 0 <= a <= c -> 0 <= x <= c -> c - 2 * a <> 0 ->
  let D := IZR (a * a + x * (c - 2 * a)) in
  let t := ((sqrt D - IZR a) / IZR (c - 2 * a))%R in
  (0 <= sqrt D <= IZR c)%R /\ (0 <= t <= 1)%R /\ ((1 - t) * 2 * t * IZR a + t * t * IZR c = IZR x)%R.
Proof.
  intros Ha Hx Hd D t. set (s := sqrt D) in *.
  assert (HD : 0 <= a * a + x * (c - 2 * a)).
  { destruct (Z.le_gt_cases 0 (c - 2 * a)); [nia|]. assert (a * a + c * (c - 2 * a) <= a * a + x * (c - 2 * a)) by nia. assert (a * a + c * (c - 2 * a) = (c - a) * (c - a)) by ring. nia. }
  assert (S0 : (0 <= s)%R) by apply sqrt_pos. assert (SS : (s * s = D)%R) by (apply sqrt_sqrt; apply IZR_le; exact HD).
  assert (N : IZR (c - 2 * a) <> 0%R) by (intros C; apply Hd, eq_IZR; exact C).
  assert (Ub : forall m, 0 <= m -> a * a + x * (c - 2 * a) <= m * m -> (s <= IZR m)%R).
  { intros m Hm H. unfold s. rewrite <- (sqrt_square (IZR m)) by (apply IZR_le; exact Hm). apply sqrt_le_1_alt. rewrite <- mult_IZR. apply IZR_le. exact H. }
  assert (Lb : forall m, 0 <= m -> m * m <= a * a + x * (c - 2 * a) -> (IZR m <= s)%R).
  { intros m Hm H. unfold s. rewrite <- (sqrt_square (IZR m)) by (apply IZR_le; exact Hm). apply sqrt_le_1_alt. rewrite <- mult_IZR. apply IZR_le. exact H. }
  assert (Et : (t * IZR (c - 2 * a) = s - IZR a)%R) by (unfold t; field; exact N).
  assert (Q : (a * a + c * (c - 2 * a)) = (c - a) * (c - a)) by ring.
  split; [|split].
  - split; [exact S0|]. apply Ub; [lia|]. destruct (Z.le_gt_cases 0 (c - 2 * a)); nia.
  - destruct (Z.le_gt_cases 0 (c - 2 * a)) as [H|H].
    + assert (Pd : (0 < IZR (c - 2 * a))%R) by (apply IZR_lt; lia). pose proof (Lb a ltac:(lia) ltac:(nia)) as L. pose proof (Ub (c - a) ltac:(lia) ltac:(nia)) as U.
      assert (IZR (c - a) - IZR a = IZR (c - 2 * a))%R by (rewrite <- minus_IZR; f_equal; lia). split; nra.
    + assert (Pd : (IZR (c - 2 * a) < 0)%R) by (apply IZR_lt; lia). pose proof (Ub a ltac:(lia) ltac:(nia)) as U. pose proof (Lb (c - a) ltac:(lia) ltac:(nia)) as L.
      assert (IZR (c - a) - IZR a = IZR (c - 2 * a))%R by (rewrite <- minus_IZR; f_equal; lia). split; nra.
  - assert (G : (IZR (c - 2 * a) * ((1 - t) * 2 * t * IZR a + t * t * IZR c) = IZR (c - 2 * a) * IZR x)%R).
    { replace (IZR (c - 2 * a) * ((1 - t) * 2 * t * IZR a + t * t * IZR c))%R with ((t * IZR (c - 2 * a)) * (t * IZR (c - 2 * a)) + 2 * IZR a * (t * IZR (c - 2 * a)))%R by (rewrite minus_IZR, mult_IZR; ring).
      rewrite Et. replace ((s - IZR a) * (s - IZR a) + 2 * IZR a * (s - IZR a))%R with (s * s - IZR a * IZR a)%R by ring. rewrite SS. unfold D. rewrite plus_IZR, !mult_IZR. ring. }
    apply Rmult_eq_reg_l in G; assumption.
Qed.
Lemma bezier_t_ap a c j : 0 <= a <= c -> c <= 32767 -> 1 <= j <= c ->
  exists t tr, bezier_t fpow (a + 1) (c + 1) j = Ok t /\ ap t tr eT /\ (0 <= tr <= 1)%R /\ ((1 - tr) * 2 * tr * IZR a + tr * tr * IZR c = IZR (j - 1))%R.
Proof.
  intros Ha Hc Hj. unfold bezier_t, eT. pose proof tiny_small as T1.
  assert (Big : (100000 <= bpow radix2 1000)%R) by (apply Rle_trans with (bpow radix2 17); [rewrite bpow_IZR by lia; apply IZR_le; lia|apply bpow_le; lia]).
  rewrite (int_ok_fits (2 * (a + 1))) by lia. cbn [obind]. rewrite (int_ok_fits (1 - 2 * (a + 1))) by lia. cbn [obind]. rewrite (int_ok_fits (1 - 2 * (a + 1) + (c + 1))) by lia. cbn [obind].
  replace (1 - 2 * (a + 1) + (c + 1)) with (c - 2 * a) by lia.
  destruct (Z.eqb_spec (c - 2 * a) 0) as [E0|N0]; cbn [negb].
  - exists (div64 (f64_of_Z (1 - j)) (f64_of_Z (2 * (1 - (a + 1))))), (IZR (j - 1) / IZR c)%R. split; [reflexivity|].
    destruct (exact_Z (1 - j) ltac:(lia)) as (Fn & En). destruct (exact_Z (2 * (1 - (a + 1))) ltac:(lia)) as (Fd & Ed).
    assert (Cp : (0 < IZR c)%R) by (apply IZR_lt; lia).
    assert (Eq : (IZR (1 - j) / IZR (2 * (1 - (a + 1))) = IZR (j - 1) / IZR c)%R).
    { replace (2 * (1 - (a + 1))) with (- c) by lia. replace (1 - j) with (- (j - 1)) by lia. rewrite !opp_IZR. field. lra. }
    assert (Rg : (0 <= IZR (j - 1) / IZR c <= 1)%R).
    { split; [apply Rmult_le_pos; [apply IZR_le; lia|apply Rlt_le, Rinv_0_lt_compat; exact Cp]|]. apply Rmult_le_reg_r with (IZR c); [exact Cp|]. unfold Rdiv. rewrite Rmult_assoc, Rinv_l, Rmult_1_r, Rmult_1_l by lra. apply IZR_le. lia. }
    destruct (div64_ok (f64_of_Z (1 - j)) (f64_of_Z (2 * (1 - (a + 1)))) Fn) as (E & F).
    { rewrite Ed. intros C. apply eq_IZR in C. lia. } { rewrite En, Ed, Eq, Rabs_pos_eq; lra. }
    rewrite En, Ed, Eq in E. split; [split; [exact F|]|split; [exact Rg|]].
    + apply (ap_round (IZR (j - 1) / IZR c) _ _ 0 _ 1); [unfold Rminus; rewrite Rplus_opp_r, Rabs_R0; lra|exact E|rewrite Rabs_pos_eq; lra|lra].
    + replace (IZR a) with (IZR c / 2)%R by (replace c with (2 * a) by lia; rewrite mult_IZR; field). field. lra.
  - rewrite (int_ok_fits (2 * j)) by lia. cbn [obind]. rewrite (int_ok_fits (2 * j * (a + 1))) by nia. cbn [obind]. rewrite (int_ok_fits (j * (c + 1))) by nia. cbn [obind].
    pose proof (real_t a c (j - 1) Ha ltac:(lia) N0) as R. cbv zeta in R. set (D := a * a + (j - 1) * (c - 2 * a)) in *. destruct R as (Rs & Rt & Rx).
    eexists _, _. split; [reflexivity|]. split; [|split; [exact Rt|exact Rx]].
    assert (HD : 0 <= D <= 2 ^ 32).
    { unfold D. split; [|nia]. destruct (Z.le_gt_cases 0 (c - 2 * a)); [nia|].
      assert (a * a + c * (c - 2 * a) <= a * a + (j - 1) * (c - 2 * a)) by nia. assert (a * a + c * (c - 2 * a) = (c - a) * (c - a)) by ring. nia. }
    match goal with |- context [Bsqrt mode_NE ?d] => set (disc := d) end.
    assert (ED : exactly disc D).
    { replace D with ((((a + 1) * (a + 1) - 2 * j * (a + 1)) + j) + j * (c + 1) - (c + 1)) by (unfold D; ring). unfold disc.
      apply exact_sub; [|apply exact_Z; lia|nia]. apply exact_add; [|apply exact_Z; nia|nia]. apply exact_add; [|apply exact_Z; lia|nia].
      apply exact_sub; [|apply exact_Z; nia|nia]. apply (pow_exact fpow Hpow); [apply exact_Z; lia|lia]. }
    destruct (exact_sqrt disc D ED (proj1 HD)) as (Fs & Es). set (s := sqrt (IZR D)) in *.
    assert (Sc : (s <= 32767)%R) by (eapply Rle_trans; [apply Rs|]; apply IZR_le; lia).
    assert (As : ap (Bsqrt mode_NE disc) s (/ 137438953472 * (51 / 100))).
    { split; [exact Fs|]. apply (ap_round s _ _ 0 _ 32768); [unfold Rminus; rewrite Rplus_opp_r, Rabs_R0; lra|exact Es|rewrite Rabs_pos_eq; lra|lra]. }
    destruct (exact_Z (1 - (a + 1)) ltac:(lia)) as (Fa & Ea).
    assert (Aa : ap (f64_of_Z (1 - (a + 1))) (- IZR a) 0) by (split; [exact Fa|]; rewrite Ea; replace (1 - (a + 1)) with (- a) by lia; rewrite opp_IZR; unfold Rminus; rewrite Rplus_opp_r, Rabs_R0; lra).
    assert (Ac : (0 <= IZR a <= 32767)%R) by (split; apply IZR_le; lia).
    assert (An : ap (add64 (f64_of_Z (1 - (a + 1))) (Bsqrt mode_NE disc)) (- IZR a + s) (/ 137438953472 * (102 / 100) + / 137438953472)).
    { apply (ap_add _ _ _ _ _ _ _ 65536 Aa As); [|lra|lra]. rewrite Rabs_Ropp, !Rabs_pos_eq by lra. lra. }
    pose proof (ap_abs _ _ _ An) as Bn. destruct An as (Fn & En). set (num := add64 (f64_of_Z (1 - (a + 1))) (Bsqrt mode_NE disc)) in *.
    destruct (exact_Z (c - 2 * a) ltac:(lia)) as (Fd & Ed). set (d := IZR (c - 2 * a)) in *.
    assert (X : (1 <= Rabs d)%R) by (unfold d; rewrite <- abs_IZR; apply IZR_le; lia).
    assert (Nd : d <> 0%R) by (intros C; rewrite C, Rabs_R0 in X; lra).
    assert (I1 : (0 <= Rabs (/ d) <= 1)%R) by (split; [apply Rabs_pos|]; rewrite Rabs_inv; rewrite <- Rinv_1; apply Rinv_le; lra).
    assert (Q : (Rabs (B2R num / d - (s - IZR a) / d) <= / 137438953472 * (102 / 100) + / 137438953472)%R).
    { replace (B2R num / d - (s - IZR a) / d)%R with ((B2R num - (- IZR a + s)) * / d)%R by (field; exact Nd). rewrite Rabs_mult.
      apply Rle_trans with ((/ 137438953472 * (102 / 100) + / 137438953472) * 1)%R; [|lra]. apply Rmult_le_compat; try apply Rabs_pos; [exact En|apply I1]. }
    assert (V : (Rabs (B2R num / d) <= 2)%R).
    { replace (B2R num / d)%R with ((B2R num / d - (s - IZR a) / d) + (s - IZR a) / d)%R by ring. eapply Rle_trans; [apply Rabs_triang|]. rewrite (Rabs_pos_eq ((s - IZR a) / d)) by apply Rt. lra. }
    destruct (div64_ok num (f64_of_Z (c - 2 * a)) Fn) as (E & F); [rewrite Ed; exact Nd|rewrite Ed; fold d; lra|]. rewrite Ed in E. fold d in E.
    split; [exact F|]. apply (ap_round (B2R num / d) _ _ _ _ 2 Q E V). lra.
Qed.

Definition curve_point (t x1 x2 f0 f1 f2 : R) (x : Z) (v : R) : Prop :=
  (0 <= t <= 1)%R /\ ((1 - t) * 2 * t * x1 + t * t * x2 = IZR x)%R /\ v = ((1 - t) * (1 - t) * f0 + (1 - t) * 2 * t * f1 + t * t * f2)%R.
Definition level_ok (A : R) (f : f64) : Prop := is_finite f = true /\ (Rabs (B2R f) <= A)%R.
Lemma segment_curve a c f0 f1 f2 A : 0 <= a <= c -> c <= 32767 -> level_ok A f0 -> level_ok A f1 -> level_ok A f2 -> (bpow radix2 (-90) <= A <= bpow radix2 128)%R ->
  forall k j, 1 <= j -> j + Z.of_nat k <= c + 1 ->
  exists ys, bezier_segment fpow k (a + 1) (c + 1) j f0 f1 f2 = Ok ys /\ length ys = k /\
    forall i, (i < k)%nat -> exists y t v, nth_error ys i = Some y /\ curve_point t (IZR a) (IZR c) (B2R f0) (B2R f1) (B2R f2) (j - 1 + Z.of_nat i) v /\ ap y v (A / 1073741824).
Proof.
  intros Ha Hc (F0 & B0) (F1 & B1) (F2 & B2) HA. induction k as [|k IH]; intros j Hj Hk; cbn [bezier_segment].
  - eexists. split; [reflexivity|]. split; [reflexivity|]. intros i Hi. lia.
  - destruct (bezier_t_ap a c j Ha Hc ltac:(lia)) as (t & tr & -> & Bt & Rt & Et). cbn [obind].
    destruct (IH (j + 1) ltac:(lia) ltac:(lia)) as (ys & -> & L & N). cbn [obind]. eexists. split; [reflexivity|]. split; [cbn [length]; lia|].
    intros [|i] Hi.
    + eexists _, tr, _. split; [reflexivity|]. split; [|apply value_ap; eassumption]. split; [exact Rt|]. split; [|reflexivity]. rewrite Et. f_equal. lia.
    + destruct (N i ltac:(lia)) as (y & t' & v & Ey & (C1 & C2 & C3) & Ay). exists y, t', v. split; [exact Ey|]. split; [|exact Ay]. split; [exact C1|]. split; [|exact C3]. rewrite C2. f_equal. lia.
Qed.
Lemma ordered_from l : forall p q : point, ordered (p :: l) -> In q (p :: l) -> fst p <= fst q.
Proof.
  induction l as [|x l IHl]; intros p q Ho I; [destruct I as [<-|[]]; lia|]. destruct I as [<-|I]; [lia|]. pose proof (IHl x q (ordered_tail _ _ Ho) I).
  assert (fst p <= fst x) by (apply (Ho 0%nat); reflexivity). lia.
Qed.
Lemma bezier_curve A : (bpow radix2 (-90) <= A <= bpow radix2 128)%R ->
  forall i (points : list point) ys (p q r : point) x, bezierInterpolation fpow points = Ok ys -> ordered points -> Forall (fun p => level_ok A (snd p)) points ->
  (forall i p r, nth_error points i = Some p -> nth_error points (i + 2) = Some r -> fst r - fst p <= 32767) ->
  nth_error points (2 * i) = Some p -> nth_error points (2 * i + 1) = Some q -> nth_error points (2 * i + 2) = Some r -> fst p <= x < fst r ->
  exists y t v, nth_error ys (Z.to_nat (x - time_of points 0)) = Some y /\
    curve_point t (IZR (fst q - fst p)) (IZR (fst r - fst p)) (B2R (snd p)) (B2R (snd q)) (B2R (snd r)) (x - fst p) v /\ ap y v (A / 1073741824).
Proof.
  intros HA. induction i as [|i IH]; intros points ys p q r x Ey Ho Hf Hs Hp Hq Hr Hx.
  - destruct points as [|p0 [|p1 [|p2 l]]]; cbn in Hp, Hq, Hr; try discriminate. injection Hp as ->. injection Hq as ->. injection Hr as ->.
    assert (O1 : fst p <= fst q) by (apply (Ho 0%nat); reflexivity). assert (O2 : fst q <= fst r) by (apply (Ho 1%nat); reflexivity). pose proof (Hs 0%nat p r eq_refl eq_refl) as S2.
    inversion Hf as [|? ? B0 Hf1]; subst. inversion Hf1 as [|? ? B1 Hf2]; subst. pose proof (Forall_inv Hf2) as B2.
    rewrite bezier_step in Ey. rewrite (int_ok_fits (fst q - fst p)) in Ey by lia. cbn [obind] in Ey. rewrite (int_ok_fits (fst q - fst p + 1)) in Ey by lia. cbn [obind] in Ey.
    rewrite (int_ok_fits (fst r - fst p)) in Ey by lia. cbn [obind] in Ey. rewrite (int_ok_fits (fst r - fst p + 1)) in Ey by lia. cbn [obind] in Ey.
    destruct (segment_curve (fst q - fst p) (fst r - fst p) (snd p) (snd q) (snd r) A ltac:(lia) ltac:(lia) B0 B1 B2 HA (Z.to_nat (fst r - fst p + 1 - 1)) 1 ltac:(lia) ltac:(lia)) as (zs & Ez & Lz & Nz).
    rewrite Ez in Ey. cbn [obind] in Ey. destruct (bezierInterpolation fpow (r :: l)) as [tl| | |]; try discriminate. cbn [obind] in Ey. injection Ey as <-.
    destruct (Nz (Z.to_nat (x - fst p)) ltac:(lia)) as (y & t & v & E & C & Y). exists y, t, v. change (time_of (p :: q :: r :: l) 0) with (fst p). rewrite nth_error_app1 by lia.
    split; [exact E|]. split; [|exact Y]. replace (1 - 1 + Z.of_nat (Z.to_nat (x - fst p))) with (x - fst p) in C by lia. exact C.
  - destruct points as [|p0 [|p1 [|p2 l]]].
    { destruct (2 * S i)%nat; discriminate Hp. } { replace (2 * S i)%nat with (S (S (2 * i))) in Hp by lia. discriminate. } { replace (2 * S i)%nat with (S (S (2 * i))) in Hp by lia. cbn [nth_error] in Hp. destruct (2 * i)%nat; discriminate. }
    replace (2 * S i)%nat with (S (S (2 * i))) in * by lia.
    assert (Hp' : nth_error (p2 :: l) (2 * i) = Some p) by exact Hp. assert (Hq' : nth_error (p2 :: l) (2 * i + 1) = Some q) by exact Hq. assert (Hr' : nth_error (p2 :: l) (2 * i + 2) = Some r) by exact Hr.
    assert (O1 : fst p0 <= fst p1) by (apply (Ho 0%nat); reflexivity). assert (O2 : fst p1 <= fst p2) by (apply (Ho 1%nat); reflexivity). pose proof (Hs 0%nat p0 p2 eq_refl eq_refl) as S2.
    assert (Ho2 : ordered (p2 :: l)) by (apply (ordered_tail p1), (ordered_tail p0); exact Ho).
    inversion Hf as [|? ? B0 Hf1]; subst. inversion Hf1 as [|? ? B1 Hf2]; subst. pose proof (Forall_inv Hf2) as B2.
    pose proof (ordered_from l p2 p Ho2 (nth_error_In _ _ Hp')) as M.
    rewrite bezier_step in Ey. rewrite (int_ok_fits (fst p1 - fst p0)) in Ey by lia. cbn [obind] in Ey. rewrite (int_ok_fits (fst p1 - fst p0 + 1)) in Ey by lia. cbn [obind] in Ey.
    rewrite (int_ok_fits (fst p2 - fst p0)) in Ey by lia. cbn [obind] in Ey. rewrite (int_ok_fits (fst p2 - fst p0 + 1)) in Ey by lia. cbn [obind] in Ey.
    destruct (segment_curve (fst p1 - fst p0) (fst p2 - fst p0) (snd p0) (snd p1) (snd p2) A ltac:(lia) ltac:(lia) B0 B1 B2 HA (Z.to_nat (fst p2 - fst p0 + 1 - 1)) 1 ltac:(lia) ltac:(lia)) as (zs & Ez & Lz & Nz).
    rewrite Ez in Ey. cbn [obind] in Ey. destruct (bezierInterpolation fpow (p2 :: l)) as [tl| | |] eqn:Et; try discriminate. cbn [obind] in Ey. injection Ey as <-.
    destruct (IH (p2 :: l) tl p q r x Et Ho2 Hf2) as (y & t & v & E & C & Y); [intros j a b Ha Hb; exact (Hs (S (S j)) a b Ha Hb)|exact Hp'|exact Hq'|exact Hr'|exact Hx|].
    exists y, t, v. split; [|split; assumption]. change (time_of (p0 :: p1 :: p2 :: l) 0) with (fst p0). change (time_of (p2 :: l) 0) with (fst p2) in E.
    rewrite nth_error_app2 by lia. rewrite <- E. f_equal. lia.
Qed.
End P.
