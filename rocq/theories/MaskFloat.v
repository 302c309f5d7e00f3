(** The accuracy of the mask of a peak. *)
From Coq Require Import Reals Psatz.
From Flocq Require Import Core.Core.
From Verif Require Import Base FloatBase FloatModel FloatSpec FloatProof Float64Proof ToolsModel SynthModel SynthProof SpihtModel SpihtHeader WaveletModel PeakModel PeakSpec.
Local Open Scope R_scope.

Local Notation u := (/ 9007199254740992).
Local Notation tau := (bpow radix2 (-150)).
Lemma round_near x y e : Rabs (x - y) <= e -> Rabs (rnd64 x - y) <= e + u * (Rabs y + e) + tau.
Proof.
  intros H. pose proof (err64 x) as E. assert (A : Rabs x <= Rabs y + e). { replace x with (y + (x - y)) by ring. eapply Rle_trans; [apply Rabs_triang|lra]. }
  replace (rnd64 x - y) with ((rnd64 x - x) + (x - y)) by ring. eapply Rle_trans; [apply Rabs_triang|]. lra.
Qed.
Lemma tau_val : 0 < tau <= / 1000000000000000000000000000000000000000000.
Proof.
  split; [apply bpow_gt_0|]. change (-150)%Z with (Z.opp 150). rewrite (bpow_inv 150) by lia. apply Rinv_le; [lra|]. change (IZR 1000000000000000000000000000000000000000000 <= IZR (2 ^ 150)). apply IZR_le. vm_compute. discriminate.
Qed.
(** The first part: height - 5 + 5/1400 f. *)
Lemma linear_near q0 q1 d1 f h : Rabs (q0 - 5 / 1400) <= / 1000000000000000 -> 0 <= f -> q1 = rnd64 (q0 * f) -> d1 = rnd64 (h - 5) ->
  Rabs (rnd64 (d1 + q1) - (h - 5 + 5 / 1400 * f)) <= / 100000000000000 * (Rabs h + f + 10).
Proof.
  intros H0 Hf -> ->. pose proof tau_val as [T0 T1].
  assert (A : Rabs (q0 * f - 5 / 1400 * f) <= / 1000000000000000 * f). { replace (q0 * f - 5 / 1400 * f) with ((q0 - 5 / 1400) * f) by ring. rewrite Rabs_mult, (Rabs_pos_eq f) by exact Hf. apply Rmult_le_compat_r; assumption. }
  apply round_near in A. rewrite (Rabs_pos_eq (5 / 1400 * f)) in A by lra.
  assert (B : Rabs ((h - 5) - (h - 5)) <= 0) by (replace (h - 5 - (h - 5)) with 0 by ring; rewrite Rabs_R0; lra). apply round_near in B.
  assert (C : Rabs (h - 5) <= Rabs h + 5). { eapply Rle_trans; [apply Rabs_triang|]. rewrite Rabs_Ropp, (Rabs_pos_eq 5) by lra. lra. }
  assert (D : Rabs (rnd64 (h - 5) + rnd64 (q0 * f) - (h - 5 + 5 / 1400 * f)) <= / 200000000000000 * (Rabs h + f + 10)).
  { replace (rnd64 (h - 5) + rnd64 (q0 * f) - (h - 5 + 5 / 1400 * f)) with ((rnd64 (h - 5) - (h - 5)) + (rnd64 (q0 * f) - 5 / 1400 * f)) by ring. eapply Rle_trans; [apply Rabs_triang|]. pose proof (Rabs_pos h). lra. }
  apply round_near in D. assert (E : Rabs (h - 5 + 5 / 1400 * f) <= Rabs h + 5 + f). { eapply Rle_trans; [apply Rabs_triang|]. rewrite (Rabs_pos_eq (5 / 1400 * f)) by lra. lra. }
  pose proof (Rabs_pos h). lra.
Qed.
(** The second part: -30 ((g - f) / f)^2. *)
Definition eps : R := / 1000000000000000.
Lemma square_near f : / 1048576 <= f <= 2147483648 -> exists d, Rabs d <= eps /\ rnd64 (f * f) = (f * f) * (1 + d) /\ / 2000000000000 <= rnd64 (f * f) <= 8000000000000000000.
Proof.
  intros Hf. pose proof tau_val as [T0 T1]. assert (P : / 1099511627776 <= f * f <= 4611686018427387904) by nra.
  pose proof (err64 (f * f)) as E. rewrite (Rabs_pos_eq (f * f)) in E by lra. exists ((rnd64 (f * f) - f * f) / (f * f)).
  assert (D : Rabs ((rnd64 (f * f) - f * f) / (f * f)) <= eps).
  { unfold Rdiv. rewrite Rabs_mult, (Rabs_pos_eq (/ (f * f))) by (apply Rlt_le, Rinv_0_lt_compat; lra). apply Rmult_le_reg_r with (f * f); [lra|]. rewrite Rmult_assoc, Rinv_l by lra. unfold eps. lra. }
  split; [exact D|]. split; [field; lra|]. apply Raux.Rabs_le_inv in E. lra.
Qed.
Lemma inv_near p d : / 2000000000000 <= p * (1 + d) <= 8000000000000000000 -> 0 < p <= 4611686018427387904 -> Rabs d <= eps ->
  exists d2, Rabs d2 <= 4 * eps /\ rnd64 (- 30 / (p * (1 + d))) = - 30 / p * (1 + d2).
Proof.
  intros H Hp Hd. pose proof tau_val as [T0 T1]. unfold eps in *. apply Raux.Rabs_le_inv in Hd. set (q := p * (1 + d)) in *.
  assert (Q : Rabs (- 30 / q - - 30 / p) <= 2 * eps * (30 / p)).
  { replace (- 30 / q - - 30 / p) with (30 / p * (d / (1 + d))) by (unfold q; field; lra). rewrite Rabs_mult, (Rabs_pos_eq (30 / p)) by (apply Rlt_le, Rdiv_lt_0_compat; lra).
    rewrite (Rmult_comm (2 * eps)). apply Rmult_le_compat_l; [apply Rlt_le, Rdiv_lt_0_compat; lra|]. unfold eps. apply Rabs_le.
    split; [apply Rmult_le_reg_r with (1 + d); [lra|]; unfold Rdiv; rewrite Rmult_assoc, Rinv_l by lra; lra|apply Rmult_le_reg_r with (1 + d); [lra|]; unfold Rdiv; rewrite Rmult_assoc, Rinv_l by lra; lra]. }
  apply round_near in Q. assert (N : Rabs (- 30 / p) = 30 / p). { replace (- 30 / p) with (- (30 / p)) by (unfold Rdiv; ring). rewrite Rabs_Ropp. apply Rabs_pos_eq. apply Rlt_le, Rdiv_lt_0_compat; lra. }
  rewrite N in Q. assert (M : / 1000000000000000000 <= 30 / p). { apply Rmult_le_reg_r with p; [lra|]. unfold Rdiv. rewrite Rmult_assoc, Rinv_l by lra. lra. }
  exists ((rnd64 (- 30 / q) - - 30 / p) / (- 30 / p)). assert (Z : - 30 / p <> 0) by (intros Z; rewrite Z, Rabs_R0 in N; lra). split.
  - unfold Rdiv at 1. rewrite Rabs_mult, Rabs_inv, N. apply Rmult_le_reg_r with (30 / p); [lra|]. rewrite Rmult_assoc, Rinv_l by lra. unfold eps in *. lra.
  - revert Z. generalize (- 30 / p). intros F Z. field. exact Z.
Qed.
Lemma distance_near f g : 0 <= f <= 2147483648 -> 0 <= g <= 2147483648 ->
  Rabs (rnd64 (rnd64 (g - f) * rnd64 (g - f)) - (g - f) * (g - f)) <= 4 * eps * ((g - f) * (g - f)) + / 1000000000000000000000000000000.
Proof.
  intros Hf Hg. pose proof tau_val as [T0 T1]. set (w := g - f). assert (W : Rabs w <= 2147483648) by (unfold w; apply Rabs_le; lra).
  pose proof (err64 w) as E. set (v := rnd64 w) in *.
  assert (A : Rabs (v * v - w * w) <= 2 * eps * (w * w) + / 2000000000000000000000000000000).
  { replace (v * v - w * w) with ((v - w) * (2 * w + (v - w))) by ring. rewrite Rabs_mult.
    assert (B : Rabs (2 * w + (v - w)) <= 3 * Rabs w + tau). { eapply Rle_trans; [apply Rabs_triang|]. rewrite Rabs_mult, (Rabs_pos_eq 2) by lra. pose proof (Rabs_pos w). lra. }
    replace (w * w) with (Rabs w * Rabs w) by (rewrite <- Rabs_mult; apply Rabs_pos_eq; nra).
    apply Rle_trans with ((u * Rabs w + tau) * (3 * Rabs w + tau)); [apply Rmult_le_compat; try apply Rabs_pos; assumption|].
    assert (P := Rabs_pos w). set (a := Rabs w) in *. clearbody a. clear - T0 T1 W P. unfold eps.
    replace ((u * a + tau) * (3 * a + tau)) with (3 * u * (a * a) + tau * (a * (3 + u) + tau)) by ring. assert (0 <= a * a) by nra.
    assert (tau * (a * (3 + u) + tau) <= / 1000000000000000000000000000000000000000000 * 10000000000) by (apply Rmult_le_compat; lra). lra. }
  apply round_near in A. rewrite (Rabs_pos_eq (w * w)) in A by nra. assert (0 <= w * w) by nra. unfold eps in *. lra.
Qed.
Lemma product_near vv fac w2 F d2 : 0 <= w2 -> 0 <= F <= 40000000000000 -> Rabs (vv - w2) <= 4 * eps * w2 + / 1000000000000000000000000000000 -> Rabs d2 <= 4 * eps -> fac = - F * (1 + d2) ->
  Rabs (rnd64 (vv * fac) - - (w2 * F)) <= 10 * eps * (w2 * F) + / 1000000000000000.
Proof.
  intros Hw HF Hv Hd ->. pose proof tau_val as [T0 T1].
  assert (A : Rabs (vv * (- F * (1 + d2)) - - (w2 * F)) <= 9 * eps * (w2 * F) + / 2000000000000000).
  { replace (vv * (- F * (1 + d2)) - - (w2 * F)) with (- (F * ((vv - w2) * (1 + d2) + w2 * d2))) by ring. rewrite Rabs_Ropp, Rabs_mult, (Rabs_pos_eq F) by lra.
    assert (B : Rabs ((vv - w2) * (1 + d2) + w2 * d2) <= 9 * eps * w2 + / 500000000000000000000000000000).
    { eapply Rle_trans; [apply Rabs_triang|]. rewrite !Rabs_mult, (Rabs_pos_eq w2) by exact Hw.
      assert (C : Rabs (1 + d2) <= 1 + 4 * eps) by (eapply Rle_trans; [apply Rabs_triang|rewrite (Rabs_pos_eq 1) by lra; lra]).
      assert (D : Rabs (vv - w2) * Rabs (1 + d2) <= (4 * eps * w2 + / 1000000000000000000000000000000) * (1 + 4 * eps)) by (apply Rmult_le_compat; try apply Rabs_pos; assumption).
      assert (G : w2 * Rabs d2 <= w2 * (4 * eps)) by (apply Rmult_le_compat_l; assumption). unfold eps in *. lra. }
    apply Rle_trans with (F * (9 * eps * w2 + / 500000000000000000000000000000)); [apply Rmult_le_compat_l; [lra|exact B]|].
    replace (F * (9 * eps * w2 + / 500000000000000000000000000000)) with (9 * eps * (w2 * F) + F * / 500000000000000000000000000000) by ring. lra. }
  assert (P : 0 <= w2 * F) by (apply Rmult_le_pos; lra). apply round_near in A. rewrite Rabs_Ropp, (Rabs_pos_eq (w2 * F)) in A by exact P. unfold eps in *. lra.
Qed.
Lemma big_bound r : Rabs r <= 1000000000000000000000000000000000000 -> Rabs r <= bpow radix2 1000.
Proof.
  intros H. eapply Rle_trans; [exact H|]. apply Rle_trans with (bpow radix2 200); [|apply bpow_le; lia]. rewrite bpow_IZR by lia. apply IZR_le. vm_compute. discriminate.
Qed.
Lemma sq_bound w B : - B <= w <= B -> 0 <= w * w <= B * B.
Proof. intros H. split; [apply Rle_0_sqr|]. assert (0 <= (B - w) * (B + w)) by (apply Rmult_le_pos; lra). lra. Qed.
Theorem mask_value_near f h g : is_finite f = true -> is_finite h = true -> is_finite g = true ->
  / 1048576 <= B2R f <= 2147483648 -> 0 <= B2R g <= 2147483648 -> Rabs (B2R h) <= 1000000000 ->
  is_finite (mask_value f h g) = true /\ mask_near (B2R f) (B2R h) (B2R g) (B2R (mask_value f h g)).
Proof.
  intros Ff Fh Fg Hf Hg Hh. unfold mask_value. cbv zeta.
  destruct (f64_of_Z_ok 5 ltac:(lia)) as [E5 F5]. destruct (f64_of_Z_ok 1400 ltac:(lia)) as [E14 F14]. destruct (f64_of_Z_ok (-30) ltac:(lia)) as [E30 F30].
  fold mask_a in E5, F5. fold mask_b in E14, F14. pose proof tau_val as [T0 T1].
  destruct (div64_ok mask_a mask_b F5) as [Q0 FQ0]; [rewrite E14; lra|rewrite E5, E14; apply bound1000; lra|]. rewrite E5, E14 in Q0.
  assert (N0 : Rabs (B2R (div64 mask_a mask_b) - 5 / 1400) <= / 1000000000000000). { rewrite Q0. pose proof (err64 (5 / 1400)) as E. rewrite (Rabs_pos_eq (5 / 1400)) in E by lra. lra. }
  assert (N0' := N0). apply Raux.Rabs_le_inv in N0'.
  destruct (mul64_ok (div64 mask_a mask_b) f FQ0 Ff) as [Q1 FQ1]; [apply bound1000; nra|].
  assert (Hh' := Hh). apply Raux.Rabs_le_inv in Hh'.
  destruct (sub64_ok h mask_a Fh F5) as [D1 FD1]; [rewrite E5; apply bound1000; lra|]. rewrite E5 in D1.
  pose proof (linear_near (B2R (div64 mask_a mask_b)) _ _ (B2R f) (B2R h) N0 ltac:(lra) Q1 D1) as L.
  assert (A1 : Rabs (B2R (sub64 h mask_a)) <= 2000000000). { rewrite D1. pose proof (err64 (B2R h - 5)) as E. assert (Rabs (B2R h - 5) <= 1000000005) by (apply Rabs_le; lra). replace (rnd64 (B2R h - 5)) with ((rnd64 (B2R h - 5) - (B2R h - 5)) + (B2R h - 5)) by ring. eapply Rle_trans; [apply Rabs_triang|]. lra. }
  assert (A2 : Rabs (B2R (mul64 (div64 mask_a mask_b) f)) <= 2000000000).
  { rewrite Q1. pose proof (err64 (B2R (div64 mask_a mask_b) * B2R f)) as E. assert (Rabs (B2R (div64 mask_a mask_b) * B2R f) <= 1000000000) by (apply Rabs_le; nra).
    replace (rnd64 (B2R (div64 mask_a mask_b) * B2R f)) with ((rnd64 (B2R (div64 mask_a mask_b) * B2R f) - (B2R (div64 mask_a mask_b) * B2R f)) + (B2R (div64 mask_a mask_b) * B2R f)) by ring. eapply Rle_trans; [apply Rabs_triang|]. lra. }
  destruct (add64_ok _ _ FD1 FQ1) as [S1 FS1]; [apply big_bound; eapply Rle_trans; [apply Rabs_triang|]; lra|]. rewrite <- S1 in L. clear Q0 N0 N0' Q1 D1 S1.
  destruct (mul64_ok f f Ff Ff) as [P1 FP1]; [apply big_bound; rewrite Rabs_pos_eq by nra; nra|].
  destruct (square_near (B2R f) Hf) as (d & Hd & Ed & Bd). rewrite <- P1 in Ed, Bd.
  destruct (div64_ok (f64_of_Z (-30)) (mul64 f f) F30) as [P2 FP2]; [lra|rewrite E30|].
  { apply bound1000. assert (0 < / B2R (mul64 f f) <= 2000000000000). { split; [apply Rinv_0_lt_compat; lra|]. rewrite <- (Rinv_inv 2000000000000) at 1. apply Rinv_le; lra. } unfold Rdiv. lra. }
  rewrite E30, Ed in P2.
  assert (PP : / 1099511627776 <= B2R f * B2R f <= 4611686018427387904) by nra.
  destruct (inv_near (B2R f * B2R f) d) as (d2 & Hd2 & E2); [rewrite <- Ed; exact Bd|lra|exact Hd|]. rewrite E2 in P2. clear E2.
  set (F := 30 / (B2R f * B2R f)). assert (HF : 0 <= F <= 40000000000000).
  { unfold F. assert (0 < / (B2R f * B2R f) <= 1099511627776). { split; [apply Rinv_0_lt_compat; lra|]. rewrite <- (Rinv_inv 1099511627776) at 1. apply Rinv_le; lra. } unfold Rdiv. lra. }
  assert (P2' : B2R (div64 (f64_of_Z (-30)) (mul64 f f)) = - F * (1 + d2)) by (rewrite P2; unfold F, Rdiv; ring). clear P2.
  destruct (sub64_ok g f Fg Ff) as [V1 FV1]; [apply bound1000; lra|].
  assert (A3 : Rabs (B2R (sub64 g f)) <= 3000000000). { rewrite V1. pose proof (err64 (B2R g - B2R f)) as E. assert (Rabs (B2R g - B2R f) <= 2147483648) by (apply Rabs_le; lra). replace (rnd64 (B2R g - B2R f)) with ((rnd64 (B2R g - B2R f) - (B2R g - B2R f)) + (B2R g - B2R f)) by ring. eapply Rle_trans; [apply Rabs_triang|]. lra. }
  destruct (mul64_ok (sub64 g f) (sub64 g f) FV1 FV1) as [V2 FV2]; [apply big_bound; rewrite Rabs_mult; pose proof (Rabs_pos (B2R (sub64 g f))); nra|].
  pose proof (distance_near (B2R f) (B2R g) ltac:(lra) Hg) as N. rewrite <- V1, <- V2 in N. set (w2 := (B2R g - B2R f) * (B2R g - B2R f)) in *.
  assert (W2 : 0 <= w2 <= 5000000000000000000) by (pose proof (sq_bound (B2R g - B2R f) 2147483648 ltac:(lra)); unfold w2; lra).
  pose proof (product_near _ _ w2 F d2 (proj1 W2) HF N Hd2 P2') as M.
  assert (A4 : Rabs (B2R (mul64 (sub64 g f) (sub64 g f))) <= 6000000000000000000).
  { replace (B2R (mul64 (sub64 g f) (sub64 g f))) with (w2 + (B2R (mul64 (sub64 g f) (sub64 g f)) - w2)) by ring. eapply Rle_trans; [apply Rabs_triang|]. rewrite (Rabs_pos_eq w2) by lra. unfold eps in N. lra. }
  assert (A5 : Rabs (B2R (div64 (f64_of_Z (-30)) (mul64 f f))) <= 50000000000000).
  { rewrite P2', Rabs_mult, Rabs_Ropp, (Rabs_pos_eq F) by lra. assert (Rabs (1 + d2) <= 1.1) by (eapply Rle_trans; [apply Rabs_triang|rewrite (Rabs_pos_eq 1) by lra; unfold eps in Hd2; lra]).
    pose proof (Rabs_pos (1 + d2)). apply Rle_trans with (40000000000000 * 1.1); [apply Rmult_le_compat; lra|lra]. }
  destruct (mul64_ok _ _ FV2 FP2) as [M1 FM1].
  { apply big_bound. rewrite Rabs_mult. apply Rle_trans with (6000000000000000000 * 50000000000000); [apply Rmult_le_compat; try apply Rabs_pos; assumption|lra]. }
  rewrite <- M1 in M. assert (WF : 0 <= w2 * F <= 200000000000000000000000000000000) by (split; [apply Rmult_le_pos; lra|apply Rle_trans with (5000000000000000000 * 40000000000000); [apply Rmult_le_compat; lra|lra]]).
  set (t := B2R (mul64 (mul64 (sub64 g f) (sub64 g f)) (div64 (f64_of_Z (-30)) (mul64 f f)))) in *. set (s := B2R (add64 (sub64 h mask_a) (mul64 (div64 mask_a mask_b) f))) in *.
  assert (RR : Rabs (t + s - mask_db (B2R f) (B2R h) (B2R g)) <= / 50000000000000 * (Rabs (B2R h) + B2R f + w2 * F + 10)).
  { assert (ME : mask_db (B2R f) (B2R h) (B2R g) = - (w2 * F) + (B2R h - 5 + 5 / 1400 * B2R f)) by (unfold mask_db, w2, F; field; lra). rewrite ME.
    replace (t + s - (- (w2 * F) + (B2R h - 5 + 5 / 1400 * B2R f))) with ((t - - (w2 * F)) + (s - (B2R h - 5 + 5 / 1400 * B2R f))) by ring. eapply Rle_trans; [apply Rabs_triang|]. unfold eps in M. pose proof (Rabs_pos (B2R h)). lra. }
  assert (MB : Rabs (mask_db (B2R f) (B2R h) (B2R g)) <= Rabs (B2R h) + B2R f + w2 * F + 10).
  { assert (ME : mask_db (B2R f) (B2R h) (B2R g) = - (w2 * F) + (B2R h - 5 + 5 / 1400 * B2R f)) by (unfold mask_db, w2, F; field; lra). rewrite ME. eapply Rle_trans; [apply Rabs_triang|]. rewrite Rabs_Ropp, (Rabs_pos_eq (w2 * F)) by lra.
    assert (Rabs (B2R h - 5 + 5 / 1400 * B2R f) <= Rabs (B2R h) + B2R f + 10); [|lra]. eapply Rle_trans; [apply Rabs_triang|]. rewrite (Rabs_pos_eq (5 / 1400 * B2R f)) by lra.
    assert (Rabs (B2R h - 5) <= Rabs (B2R h) + 5); [|lra]. eapply Rle_trans; [apply Rabs_triang|]. rewrite Rabs_Ropp, (Rabs_pos_eq 5) by lra. lra. }
  destruct (add64_ok _ _ FM1 FS1) as [S2 FS2].
  { fold t s. apply big_bound. replace (t + s) with ((t + s - mask_db (B2R f) (B2R h) (B2R g)) + mask_db (B2R f) (B2R h) (B2R g)) by ring. eapply Rle_trans; [apply Rabs_triang|]. lra. }
  split; [exact FS2|]. rewrite S2. fold t s. apply round_near in RR. unfold mask_near. 
  replace (30 * ((B2R g - B2R f) / B2R f) ^ 2) with (w2 * F) by (unfold w2, F; field; lra). pose proof (Rabs_pos (B2R h)). lra.
Qed.
