(** The slopes of an Akima curve lie between those of the chords. *)
From Coq Require Import Reals Psatz.
From Flocq Require Import Core.Core.
From Flocq Require Import Relative.
From Verif Require Import Base FloatBase FloatModel FloatProof Float64Proof TypesModel ToolsModel SynthModel SynthProof SynthCurve InterpModel InterpSpec InterpBase AkimaProof BezierProof BezierCurve AkimaCurve.
Local Open Scope Z_scope.
Ltac Zify.zify_post_hook ::= Z.div_mod_to_equations.

(** ** Multiples of a power of 2. *)
Definition grid (k : Z) (x : R) : Prop := exists n : Z, x = (IZR n * bpow radix2 k)%R.
Lemma grid_F2R k m e : k <= e -> grid k (F2R (Float radix2 m e)).
Proof.
  intros H. exists (m * 2 ^ (e - k)). rewrite mult_IZR, <- bpow_IZR by lia. unfold F2R. cbn [Fnum Fexp]. rewrite Rmult_assoc, <- bpow_plus. do 2 f_equal. lia.
Qed.
Lemma grid_rnd k x : grid k x -> grid k (rnd64 x).
Proof.
  intros (n & E). destruct (Z_le_gt_dec k (cexp radix2 (FLT_exp (-1074) 53) x)) as [C|C].
  - unfold round. apply grid_F2R. exact C.
  - rewrite round_generic; [exists n; exact E|typeclasses eauto|]. rewrite E. apply (generic_format_F2R radix2 (FLT_exp (-1074) 53) n k). intros _. unfold F2R. cbn [Fnum Fexp]. rewrite <- E. lia.
Qed.
Lemma grid_sub k x y : grid k x -> grid k y -> grid k (x - y).
Proof. intros (n & ->) (p & ->). exists (n - p). rewrite minus_IZR. ring. Qed.
Lemma grid_mul k z x : grid k x -> grid k (IZR z * x).
Proof. intros (n & ->). exists (z * n). rewrite mult_IZR. ring. Qed.
Lemma grid_abs k x : grid k x -> grid k (Rabs x).
Proof. intros (n & ->). exists (Z.abs n). rewrite Rabs_mult, abs_IZR, (Rabs_pos_eq (bpow radix2 k)) by apply bpow_ge_0. reflexivity. Qed.
Lemma grid_ge k x : grid k x -> (x <> 0)%R -> (bpow radix2 k <= Rabs x)%R.
Proof.
  intros H N. apply grid_abs in H as (n & E). pose proof (Rabs_pos_lt x N) as P. rewrite E in *. pose proof (bpow_gt_0 radix2 k) as B.
  assert (1 <= IZR n)%R by (apply IZR_le; assert (0 < n) by (apply lt_IZR; nra); lia). nra.
Qed.
Lemma grid_f32 (a : f32) : is_finite a = true -> grid (-149) (B2R (f64_of_f32 a)).
Proof.
  intros F. destruct (f64_of_f32_ok a F) as (-> & _).
  pose proof (generic_format_B2R 24 128 a) as G. unfold generic_format in G. rewrite G. apply grid_F2R. unfold cexp, FLT_exp, SpecFloat.fexp, SpecFloat.emin. lia.
Qed.

(** ** A weighted mean. *)
Lemma mean_core a b L R_ F u v w s M eta lo hi :
  (0 <= a)%R -> (0 <= b)%R -> (0 < F)%R -> (1 <= M)%R -> (Rabs L <= M)%R -> (Rabs R_ <= M)%R -> (0 <= eta)%R -> (eta <= F * (ulp1 * ulp1))%R -> (eta <= ulp1)%R ->
  (lo <= L <= hi)%R -> (lo <= R_ <= hi)%R -> (Rabs lo <= M)%R -> (Rabs hi <= M)%R ->
  (Rabs (F - (a + b)) <= ulp1 * Rabs (a + b) + eta)%R -> (Rabs (u - a * L) <= ulp1 * Rabs (a * L) + eta)%R -> (Rabs (v - b * R_) <= ulp1 * Rabs (b * R_) + eta)%R ->
  (Rabs (w - (u + v)) <= ulp1 * Rabs (u + v) + eta)%R -> (Rabs (s - w / F) <= ulp1 * Rabs (w / F) + eta)%R ->
  (lo - 8 * ulp1 * M <= s <= hi + 8 * ulp1 * M)%R /\ (Rabs (s - (a * L + b * R_) / (a + b)) <= 8 * ulp1 * M)%R.
Proof.
  intros Ha Hb HF HM HL HR He0 He He1 ML MR HLo HHi EF Eu Ev Ew Es.
  rewrite (Rabs_pos_eq (a + b)) in EF by lra. rewrite Rabs_mult, (Rabs_pos_eq a) in Eu by lra. rewrite Rabs_mult, (Rabs_pos_eq b) in Ev by lra.
  apply Rabs_le_inv in EF. 
  assert (T1 : (a + b <= 1.001 * F)%R) by (unfold ulp1 in *; lra). assert (T2 : (Rabs (F - (a + b)) <= 1.002 * ulp1 * F)%R) by (apply Rabs_le; unfold ulp1 in *; lra).
  assert (aL : (a * Rabs L <= a * M)%R) by (apply Rmult_le_compat_l; lra). assert (bR : (b * Rabs R_ <= b * M)%R) by (apply Rmult_le_compat_l; lra).
  assert (TM : (a * M + b * M <= 1.001 * (F * M))%R) by (assert ((a + b) * M <= 1.001 * F * M)%R by (apply Rmult_le_compat_r; lra); lra).
  assert (FM : (F <= F * M)%R) by (rewrite <- (Rmult_1_r F) at 1; apply Rmult_le_compat_l; lra).
  assert (aM : (0 <= a * M)%R) by (apply Rmult_le_pos; lra). assert (bM : (0 <= b * M)%R) by (apply Rmult_le_pos; lra).
  assert (Su : (Rabs (u + v - (a * L + b * R_)) <= 1.002 * ulp1 * (F * M))%R).
  { replace (u + v - (a * L + b * R_))%R with ((u - a * L) + (v - b * R_))%R by ring. eapply Rle_trans; [apply Rabs_triang|]. unfold ulp1 in *. lra. }
  assert (N0 : (Rabs (a * L + b * R_) <= a * M + b * M)%R).
  { eapply Rle_trans; [apply Rabs_triang|]. rewrite !Rabs_mult, (Rabs_pos_eq a), (Rabs_pos_eq b) by lra. lra. }
  assert (N1 : (Rabs (u + v) <= 1.002 * (F * M))%R).
  { replace (u + v)%R with ((u + v - (a * L + b * R_)) + (a * L + b * R_))%R by ring. eapply Rle_trans; [apply Rabs_triang|]. unfold ulp1 in *. lra. }
  assert (Sw : (Rabs (w - (a * L + b * R_)) <= 2.01 * ulp1 * (F * M))%R).
  { replace (w - (a * L + b * R_))%R with ((w - (u + v)) + (u + v - (a * L + b * R_)))%R by ring. eapply Rle_trans; [apply Rabs_triang|]. unfold ulp1 in *. lra. }
  assert (X : forall z, (Rabs z <= M)%R -> (Rabs (z * (a + b - F)) <= 1.002 * ulp1 * (F * M))%R).
  { intros z Hz. rewrite Rabs_mult, (Rabs_minus_sym (a + b) F). replace (1.002 * ulp1 * (F * M))%R with (M * (1.002 * ulp1 * F))%R by ring. apply Rmult_le_compat; try apply Rabs_pos; assumption. }
  pose proof (X lo HLo) as Xl. pose proof (X hi HHi) as Xh. apply Rabs_le_inv in Xl, Xh, Sw.
  assert (a * lo <= a * L <= a * hi)%R by (split; apply Rmult_le_compat_l; lra). assert (b * lo <= b * R_ <= b * hi)%R by (split; apply Rmult_le_compat_l; lra).
  assert (Wl : (F * lo - 3.02 * ulp1 * (F * M) <= w <= F * hi + 3.02 * ulp1 * (F * M))%R) by (unfold ulp1 in *; lra).
  assert (Ql : (lo - 3.02 * ulp1 * M <= w / F <= hi + 3.02 * ulp1 * M)%R).
  { assert (E : (w / F * F = w)%R) by (field; lra). split; apply Rmult_le_reg_r with F; try exact HF; rewrite E; lra. }
  assert (Q2 : (Rabs (w / F) <= 1.01 * M)%R) by (apply Rabs_le; apply Rabs_le_inv in HLo, HHi; unfold ulp1 in *; lra).
  split; [apply Rabs_le_inv in Es; unfold ulp1 in *; lra|].
  assert (TP : (0 < a + b)%R) by (unfold ulp1 in *; lra). set (N := (a * L + b * R_)%R) in *.
  assert (P1 : (Rabs (N / (a + b)) <= M)%R).
  { unfold Rdiv. rewrite Rabs_mult, Rabs_inv, (Rabs_pos_eq (a + b)) by lra. apply Rmult_le_reg_r with (a + b)%R; [exact TP|]. rewrite Rmult_assoc, Rinv_l by lra. lra. }
  pose proof (X _ P1) as X1. apply Rabs_le_inv in X1.
  assert (E1 : (N / (a + b) * (a + b) = N)%R) by (field; lra). assert (E2 : (w / F * F = w)%R) by (field; lra).
  set (z := (N / (a + b))%R) in *. set (y := (w / F)%R) in *.
  assert (Y : (Rabs (y - z) <= 3.02 * ulp1 * M)%R).
  { apply Rabs_le. split; apply Rmult_le_reg_r with F; try exact HF; unfold ulp1 in *; lra. }
  replace (s - z)%R with ((s - y) + (y - z))%R by ring. eapply Rle_trans; [apply Rabs_triang|]. unfold ulp1 in *. lra.
Qed.
Lemma mean_move a b w1 w2 L R_ L' R' d e D V :
  (0 <= a)%R -> (0 <= b)%R -> (0 <= w1)%R -> (0 <= w2)%R -> (0 < w1 + w2)%R -> (0 <= e)%R -> (Rabs (a - w2) <= d)%R -> (Rabs (b - w1) <= d)%R ->
  (Rabs (L' - L) <= e)%R -> (Rabs (R' - R_) <= e)%R -> (Rabs (L - R_) <= D)%R -> (0 < V)%R -> (V <= a + b)%R ->
  (Rabs ((a * L' + b * R') / (a + b) - (w2 * L + w1 * R_) / (w1 + w2)) <= e + d * D / V)%R.
Proof.
  intros Ha Hb H1 H2 HW He Hd1 Hd2 HL HR HD HV HT. set (mu := ((w2 * L + w1 * R_) / (w1 + w2))%R).
  set (x := (w1 / (w1 + w2))%R). assert (Hx : (0 <= x <= 1)%R).
  { unfold x. split; [apply Rmult_le_pos; [exact H1|left; apply Rinv_0_lt_compat; exact HW]|]. apply Rmult_le_reg_r with (w1 + w2)%R; [exact HW|]. unfold Rdiv. rewrite Rmult_assoc, Rinv_l by lra. lra. }
  assert (E : ((a * L' + b * R') / (a + b) - mu = (a * (L' - L) + b * (R' - R_) + ((a - w2) * (x * (L - R_)) - (b - w1) * ((1 - x) * (L - R_)))) / (a + b))%R) by (unfold mu, x; field; lra).
  rewrite E. unfold Rdiv at 1. rewrite Rabs_mult, Rabs_inv, (Rabs_pos_eq (a + b)) by lra.
  assert (D0 : (0 <= D)%R) by (pose proof (Rabs_pos (L - R_)); lra). assert (d0 : (0 <= d)%R) by (pose proof (Rabs_pos (a - w2)); lra).
  assert (A1 : (Rabs (a * (L' - L)) <= a * e)%R) by (rewrite Rabs_mult, (Rabs_pos_eq a) by lra; apply Rmult_le_compat_l; assumption).
  assert (A2 : (Rabs (b * (R' - R_)) <= b * e)%R) by (rewrite Rabs_mult, (Rabs_pos_eq b) by lra; apply Rmult_le_compat_l; assumption).
  assert (A3 : (Rabs ((a - w2) * (x * (L - R_))) <= d * (x * D))%R).
  { rewrite !Rabs_mult, (Rabs_pos_eq x) by lra. apply Rmult_le_compat; [apply Rabs_pos|apply Rmult_le_pos; [lra|apply Rabs_pos]|exact Hd1|apply Rmult_le_compat_l; lra]. }
  assert (A4 : (Rabs ((b - w1) * ((1 - x) * (L - R_))) <= d * ((1 - x) * D))%R).
  { rewrite !Rabs_mult, (Rabs_pos_eq (1 - x)) by lra. apply Rmult_le_compat; [apply Rabs_pos|apply Rmult_le_pos; [lra|apply Rabs_pos]|exact Hd2|apply Rmult_le_compat_l; lra]. }
  set (P1 := (a * (L' - L))%R) in *. set (P2 := (b * (R' - R_))%R) in *. set (P3 := ((a - w2) * (x * (L - R_)))%R) in *. set (P4 := ((b - w1) * ((1 - x) * (L - R_)))%R) in *.
  assert (B : (Rabs (P1 + P2 + (P3 - P4)) <= (a + b) * e + d * D)%R).
  { replace (P1 + P2 + (P3 - P4))%R with (P1 + (P2 + (P3 + - P4)))%R by ring. eapply Rle_trans; [apply Rabs_triang|]. 
    pose proof (Rabs_triang P2 (P3 + - P4)). pose proof (Rabs_triang P3 (- P4)). rewrite (Rabs_Ropp P4) in *. replace (d * D)%R with (d * (x * D) + d * ((1 - x) * D))%R by ring. lra. }
  assert (dD : (0 <= d * D)%R) by (apply Rmult_le_pos; assumption).
  apply Rle_trans with (((a + b) * e + d * D) * / (a + b))%R; [apply Rmult_le_compat_r; [left; apply Rinv_0_lt_compat; lra|exact B]|].
  rewrite Rmult_plus_distr_r. apply Rplus_le_compat; [right; field; lra|]. unfold Rdiv. apply Rmult_le_compat_l; [exact dD|apply Rinv_le; lra].
Qed.
Lemma err64_small x : (Rabs (rnd64 x - x) <= ulp1 * Rabs x + bpow radix2 (-1000))%R.
Proof.
  destruct (error_N_FLT radix2 (-1074) 53 eq_refl (fun x => negb (Z.even x)) x) as (eps & eta & H1 & H2 & _ & E).
  rewrite E. replace (x * (1 + eps) + eta - x)%R with (x * eps + eta)%R by ring.
  eapply Rle_trans; [apply Rabs_triang|]. apply Rplus_le_compat.
  - rewrite Rabs_mult, Rmult_comm. apply Rmult_le_compat_r; [apply Rabs_pos|].
    eapply Rle_trans; [exact H1|]. assert (B : bpow radix2 (Z.opp 53 + 1) = (/ 4503599627370496)%R) by exact (bpow_inv 52 ltac:(lia)). rewrite B. unfold ulp1. lra.
  - eapply Rle_trans; [exact H2|]. change (/ 2)%R with (bpow radix2 (-1)). rewrite <- bpow_plus. apply bpow_le. lia.
Qed.

Section S.
Variable fpow : f64 -> f64 -> f64.
Hypothesis Hpow : pow_faithful fpow.
Variable points : list point.
Hypothesis Hn : (3 <= length points)%nat.
Hypothesis Hinc : increasing points.
Hypothesis Hfirst : time_of points 0 = 0.
Hypothesis Hlast : last_time points < 2 ^ 31 - 1.
Variable K : Z.
Hypothesis HK : 1 <= K <= 128.
Hypothesis Hval : forall i, (i < length points)%nat -> bd K (value_of points i).
Hypothesis Hgrid : forall i, (i < length points)%nat -> grid (-149) (B2R (value_of points i)).
Notation n := (length points).
Notation T := (time_of points).
Notation m := (akima_m points).
Notation m1 := (akima_m1 m).
Let Mbd := m_bd points Hn Hinc Hfirst Hlast K HK Hval.
Let M1bd := m1_bd points Hn Hinc Hfirst Hlast K HK Hval.
Let DMbd := dm_bd points Hn Hinc Hfirst Hlast K HK Hval.
Let Fbd := f_bd points Hn Hinc Hfirst Hlast K HK Hval.

Lemma sub_grid k j x y : 0 <= j <= 900 -> bd j x -> bd j y -> grid k (B2R x) -> grid k (B2R y) -> grid k (B2R (sub64 x y)).
Proof.
  intros J Bx By Gx Gy. destruct (sub64_ok x y (proj1 Bx) (proj1 By)) as (-> & _).
  { unfold Rminus. eapply Rle_trans; [apply Rabs_triang|]. rewrite Rabs_Ropp. apply Rle_trans with (bpow radix2 (j + 1)); [rewrite bpow_double; apply Rplus_le_compat; [apply Bx|apply By]|apply bpow1000; lia]. }
  apply grid_rnd, grid_sub; assumption.
Qed.
Lemma mul_grid k j z c x : 0 <= j <= 450 -> B2R c = IZR z -> bd 2 c -> bd j x -> grid k (B2R x) -> grid k (B2R (mul64 c x)).
Proof.
  intros J Ec Bc Bx Gx. destruct (mul64_ok c x (proj1 Bc) (proj1 Bx)) as (-> & _).
  { rewrite Rabs_mult. apply Rle_trans with (bpow radix2 2 * bpow radix2 j)%R; [apply Rmult_le_compat; try apply Rabs_pos; [apply Bc|apply Bx]|rewrite <- bpow_plus; apply bpow1000; lia]. }
  rewrite Ec. apply grid_rnd, grid_mul. exact Gx.
Qed.
Lemma m_grid i : (i < n - 1)%nat -> grid (-300) (B2R (at_ m i)).
Proof.
  intros H. unfold akima_m. rewrite at_map by exact H.
  pose proof (sub_grid (-149) K _ _ ltac:(lia) (Hval (i + 1)%nat ltac:(lia)) (Hval i ltac:(lia)) (Hgrid (i + 1)%nat ltac:(lia)) (Hgrid i ltac:(lia))) as G.
  destruct (dx_ge points Hn Hinc Hfirst Hlast K Hval i ltac:(lia)) as (Fd & D1 & D2).
  pose proof (bd_sub_to K (K + 1) _ _ ltac:(lia) (Hval (i + 1)%nat ltac:(lia)) (Hval i ltac:(lia))) as B.
  set (y := sub64 (value_of points (i + 1)) (value_of points i)) in *. set (d := akima_dx points i) in *.
  assert (I1 : (/ B2R d <= 1)%R) by (rewrite <- Rinv_1; apply Rinv_le; lra). assert (I0 : (0 < / B2R d)%R) by (apply Rinv_0_lt_compat; lra).
  destruct (div64_ok y d (proj1 B)) as (-> & _); [lra| |].
  { unfold Rdiv. rewrite Rabs_mult, (Rabs_pos_eq (/ B2R d)) by lra. apply Rle_trans with (bpow radix2 (K + 1) * 1)%R; [apply Rmult_le_compat; try apply Rabs_pos; [lra|apply B|exact I1]|rewrite Rmult_1_r; apply bpow1000; lia]. }
  destruct (Req_dec (B2R y) 0) as [Z|NZ].
  { unfold Rdiv. rewrite Z, Rmult_0_l, rnd64_0. exists 0. ring. }
  pose proof (grid_ge _ _ G NZ) as Gy.
  unfold round. apply grid_F2R. unfold cexp, FLT_exp.
  assert (bpow radix2 (-181) < Rabs (B2R y / B2R d))%R.
  { apply Rlt_le_trans with (bpow radix2 (-149) * bpow radix2 (Z.opp 31))%R; [rewrite <- bpow_plus; apply bpow_lt; lia|].
    unfold Rdiv. rewrite Rabs_mult, (Rabs_pos_eq (/ B2R d)) by lra. apply Rmult_le_compat; [apply bpow_ge_0|apply bpow_ge_0|exact Gy|]. rewrite bpow_opp. apply Rinv_le; lra. }
  pose proof (mag_gt_bpow radix2 (B2R y / B2R d) (-181) ltac:(lra)). lia.
Qed.
Lemma ends_grid x y : bd (K + 1) x -> bd (K + 1) y -> grid (-300) (B2R x) -> grid (-300) (B2R y) ->
  grid (-300) (B2R (sub64 (mul64 f64_3 x) (mul64 f64_2 y))) /\ grid (-300) (B2R (sub64 (mul64 f64_2 x) y)).
Proof.
  intros Bx By Gx Gy. assert (B2 : bd 2 f64_2) by (apply (bd_le 1); [exact bd_2|lia]).
  assert (M3 : bd (K + 3) (mul64 f64_3 x)) by (apply (bd_mul_to 2 (K + 1)); [lia|lia|exact bd_3|exact Bx]).
  assert (M2 : forall z, bd (K + 1) z -> bd (K + 3) (mul64 f64_2 z)) by (intros z Bz; apply (bd_mul_to 1 (K + 1)); [lia|lia|exact bd_2|exact Bz]).
  split; apply (sub_grid _ (K + 3)); try lia; try assumption; try (apply M2; assumption); try (apply (bd_le (K + 1)); [assumption|lia]).
  - apply (mul_grid _ (K + 1) 3); try assumption; [lia|exact f64_3_R|exact bd_3].
  - apply (mul_grid _ (K + 1) 2); try assumption; [lia|exact f64_2_R].
  - apply (mul_grid _ (K + 1) 2); try assumption; [lia|exact f64_2_R].
Qed.
Lemma m1_grid i : (i < n + 3)%nat -> grid (-300) (B2R (at_ m1 i)).
Proof.
  intros H. unfold akima_m1, at_ at 1. rewrite m_length. cbv zeta.
  pose proof (Mbd 0%nat ltac:(lia)). pose proof (Mbd 1%nat ltac:(lia)). pose proof (Mbd (n - 1 - 1)%nat ltac:(lia)). pose proof (Mbd (n - 1 - 2)%nat ltac:(lia)).
  pose proof (m_grid 0 ltac:(lia)). pose proof (m_grid 1 ltac:(lia)). pose proof (m_grid (n - 1 - 1) ltac:(lia)). pose proof (m_grid (n - 1 - 2) ltac:(lia)).
  destruct i as [|[|i]]; cbn [app nth].
  - apply ends_grid; assumption.
  - apply ends_grid; assumption.
  - destruct (Nat.lt_ge_cases i (n - 1)) as [C|C].
    + rewrite app_nth1 by (rewrite m_length; exact C). apply m_grid; exact C.
    + rewrite app_nth2 by (rewrite m_length; exact C). rewrite m_length. destruct (i - (n - 1))%nat as [|[|j]] eqn:Ej; cbn [nth]; [apply ends_grid; assumption..|lia].
Qed.
Lemma m1_mid i : (i < n - 1)%nat -> at_ m1 (i + 2) = at_ m i.
Proof.
  intros H. unfold akima_m1. cbv zeta. unfold at_ at 1. replace (i + 2)%nat with (S (S i)) by lia. cbn [app nth]. rewrite app_nth1 by (rewrite m_length; exact H). reflexivity.
Qed.
Lemma dm_ge i : (i < n + 2)%nat -> B2R (akima_dm m1 i) = 0%R \/ (bpow radix2 (-300) <= B2R (akima_dm m1 i))%R.
Proof.
  intros H. unfold akima_dm. rewrite B2R_Babs.
  pose proof (sub_grid (-300) (K + 4) _ _ ltac:(lia) (M1bd (i + 1)%nat ltac:(lia)) (M1bd i ltac:(lia)) (m1_grid (i + 1) ltac:(lia)) (m1_grid i ltac:(lia))) as G.
  destruct (Req_dec (B2R (sub64 (at_ m1 (i + 1)) (at_ m1 i))) 0) as [-> |N]; [left; apply Rabs_R0|right; apply grid_ge; assumption].
Qed.
Lemma f_pos i : (i < n)%nat -> flt (mul64 (fpow (f64_of_Z AKIMA_THRESHOLD) (f64_of_Z AKIMA_THRESHOLD2)) (akima_max m1 n)) (akima_f m1 i) = true -> (0 < B2R (akima_f m1 i))%R.
Proof.
  intros H E. destruct (Fbd i H) as ((Ff & Fb) & F2 & F0).
  destruct (max_ok points Hn Hinc Hfirst Hlast K HK Hval (seq 0 n) (f64_of_Z AKIMA_EPSILON)) as (M1 & M2 & M3).
  { intros j J. apply in_seq in J. lia. }
  { apply (bd_le 7); [apply bd_Z; [lia|reflexivity || (unfold AKIMA_EPSILON; lia)]|lia]. }
  fold (akima_max m1 n) in M1, M2, M3. destruct (proj2 Hpow) as (Fp & Pp). change 10 with AKIMA_THRESHOLD in Fp, Pp. change (-8) with AKIMA_THRESHOLD2 in Fp, Pp.
  set (th := fpow (f64_of_Z AKIMA_THRESHOLD) (f64_of_Z AKIMA_THRESHOLD2)) in *.
  assert (Pm : (0 <= B2R (akima_max m1 n))%R).
  { apply Rle_trans with (B2R (akima_f m1 0)); [|apply M3; apply in_seq; lia]. destruct (Fbd 0%nat ltac:(lia)) as (_ & G & _). destruct (DMbd (0 + 2)%nat ltac:(lia)) as (_ & G'). lra. }
  assert (Bp : bd 0 th) by (split; [exact Fp|]; change (bpow radix2 0) with 1%R; rewrite Rabs_pos_eq; lra).
  assert (Bm : bd (0 + (K + 6)) (mul64 th (akima_max m1 n))) by (apply bd_mul; [lia|lia|exact Bp|exact M1]).
  apply flt_R in E; [|apply Bm|exact Ff]. eapply Rle_lt_trans; [|exact E].
  destruct (mul64_ok th (akima_max m1 n) Fp (proj1 M1)) as (Em & _).
  { rewrite Rabs_mult. apply Rle_trans with (1 * bpow radix2 (K + 6))%R; [|rewrite Rmult_1_l; apply bpow1000; lia].
    apply Rmult_le_compat; [apply Rabs_pos|apply Rabs_pos|rewrite Rabs_pos_eq; lra|exact (proj2 M1)]. }
  rewrite Em, <- rnd64_0. apply rnd64_le. apply Rmult_le_pos; lra.
Qed.
(** The slope at a point with a neighbour on both sides, and the slopes in the code of the chords to them. *)
Lemma b_core i : (i + 2 < n)%nat -> flt (mul64 (fpow (f64_of_Z AKIMA_THRESHOLD) (f64_of_Z AKIMA_THRESHOLD2)) (akima_max m1 n)) (akima_f m1 (i + 1)) = true -> let L := B2R (at_ m i) in let R_ := B2R (at_ m (i + 1)) in let s := B2R (akima_b fpow m1 n (i + 1)) in
  let a := B2R (akima_dm m1 (i + 3)) in let b := B2R (akima_dm m1 (i + 1)) in
  (Rmin L R_ - 8 * ulp1 * bpow radix2 (K + 1) <= s <= Rmax L R_ + 8 * ulp1 * bpow radix2 (K + 1))%R /\ (Rabs (s - (a * L + b * R_) / (a + b)) <= 8 * ulp1 * bpow radix2 (K + 1))%R.
Proof.
  intros H E L R_ s a0 b0. pose proof (Mbd i ltac:(lia)) as BL. pose proof (Mbd (i + 1)%nat ltac:(lia)) as BR. fold L in BL. fold R_ in BR.
  pose proof (Rmin_l L R_). pose proof (Rmin_r L R_). pose proof (Rmax_l L R_). pose proof (Rmax_r L R_). pose proof (bpow_gt_0 radix2 (K + 1)) as PK.
  unfold s, akima_b. rewrite E. unfold a0, b0. replace (i + 3)%nat with (i + 1 + 2)%nat by lia.
  pose proof (f_pos (i + 1) ltac:(lia) E) as Pos. destruct (Fbd (i + 1)%nat ltac:(lia)) as ((Ff & Fb) & F2 & F0).
  destruct (DMbd (i + 1 + 2)%nat ltac:(lia)) as (B2 & P2). destruct (DMbd (i + 1)%nat ltac:(lia)) as (B0 & P0).
  replace (i + 1 + 1)%nat with (i + 2)%nat by lia. rewrite m1_mid by lia. replace (at_ m1 (i + 1 + 2)) with (at_ m (i + 1)) by (symmetry; apply m1_mid; lia).
  destruct (add64_ok _ _ (proj1 B2) (proj1 B0)) as (Ef & _).
  { apply Rle_trans with (bpow radix2 (K + 5 + 1)); [rewrite bpow_double; eapply Rle_trans; [apply Rabs_triang|]; apply Rplus_le_compat; [apply B2|apply B0]|apply bpow1000; lia]. }
  assert (Big : (bpow radix2 (-300) <= B2R (akima_f m1 (i + 1)))%R).
  { destruct (dm_ge (i + 1 + 2) ltac:(lia)) as [Z2|G2]; [|lra]. destruct (dm_ge (i + 1) ltac:(lia)) as [Z0|G0]; [|lra].
    exfalso. unfold akima_f in Pos. rewrite Ef, Z2, Z0, Rplus_0_l, rnd64_0 in Pos. lra. }
  set (a := akima_dm m1 (i + 1 + 2)) in *. set (b := akima_dm m1 (i + 1)) in *.
  fold a b in Ef. change (add64 a b) with (akima_f m1 (i + 1)) in Ef. set (F := akima_f m1 (i + 1)) in *.
  assert (S1 : forall d x, bd (K + 5) d -> bd (K + 1) x -> B2R (mul64 d x) = rnd64 (B2R d * B2R x) /\ bd (K + 5 + (K + 1)) (mul64 d x)).
  { intros d x Hd Hx. split; [|apply bd_mul; [lia|lia|exact Hd|exact Hx]]. apply mul64_ok; [apply Hd|apply Hx|]. rewrite Rabs_mult. apply Rle_trans with (bpow radix2 (K + 5) * bpow radix2 (K + 1))%R; [apply Rmult_le_compat; [apply Rabs_pos|apply Rabs_pos|apply Hd|apply Hx]|]. rewrite <- bpow_plus. apply bpow1000. lia. }
  destruct (S1 a (at_ m i) B2 BL) as (Eu & Bu). destruct (S1 b (at_ m (i + 1)) B0 BR) as (Ev & Bv).
  set (u := mul64 a (at_ m i)) in *. set (v := mul64 b (at_ m (i + 1))) in *.
  assert (Bw : (Rabs (B2R u + B2R v) <= bpow radix2 (K + 5 + (K + 1) + 1))%R) by (rewrite bpow_double; eapply Rle_trans; [apply Rabs_triang|]; apply Rplus_le_compat; [apply Bu|apply Bv]).
  destruct (add64_ok u v (proj1 Bu) (proj1 Bv)) as (Ew & Fw); [eapply Rle_trans; [exact Bw|apply bpow1000; lia]|].
  assert (Bq : (Rabs (B2R (add64 u v) / B2R F) <= bpow radix2 1000)%R).
  { unfold Rdiv. rewrite Rabs_mult, Rabs_inv, (Rabs_pos_eq (B2R F)) by lra. rewrite Ew.
    apply Rle_trans with (bpow radix2 (K + 5 + (K + 1) + 1) * bpow radix2 300)%R; [|rewrite <- bpow_plus; apply bpow1000; lia].
    apply Rmult_le_compat; [apply Rabs_pos|left; apply Rinv_0_lt_compat; exact Pos|apply rnd64_bpow; [lia|exact Bw]|].
    replace (bpow radix2 300) with (/ bpow radix2 (Z.opp 300))%R by (rewrite bpow_opp, Rinv_inv; reflexivity). apply Rinv_le; [apply bpow_gt_0|exact Big]. }
  destruct (div64_ok (add64 u v) F Fw) as (Es & Fs); [lra|exact Bq|].
  assert (Pm : (1 <= bpow radix2 (K + 1))%R) by (change 1%R with (bpow radix2 0); apply bpow_le; lia).
  apply (mean_core (B2R a) (B2R b) L R_ (B2R F) (B2R u) (B2R v) (B2R (add64 u v)) (B2R (div64 (add64 u v) F)) (bpow radix2 (K + 1)) (bpow radix2 (-1000))).
  - exact P2.
  - exact P0.
  - exact Pos.
  - exact Pm.
  - apply BL.
  - apply BR.
  - apply bpow_ge_0.
  - apply Rle_trans with (bpow radix2 (-300) * (bpow radix2 (Z.opp 53) * bpow radix2 (Z.opp 53)))%R; [rewrite <- !bpow_plus; apply bpow_le; lia|].
    replace (bpow radix2 (Z.opp 53)) with ulp1 by (rewrite bpow_inv by lia; reflexivity). apply Rmult_le_compat_r; [unfold ulp1; lra|exact Big].
  - apply Rle_trans with (bpow radix2 (Z.opp 53)); [apply bpow_le; lia|rewrite bpow_inv by lia; right; reflexivity].
  - lra.
  - lra.
  - destruct (Rle_dec L R_); [rewrite Rmin_left by lra; apply BL|rewrite Rmin_right by lra; apply BR].
  - destruct (Rle_dec L R_); [rewrite Rmax_right by lra; apply BR|rewrite Rmax_left by lra; apply BL].
  - rewrite Ef. apply err64_small.
  - rewrite Eu. apply err64_small.
  - rewrite Ev. apply err64_small.
  - rewrite Ew. apply err64_small.
  - rewrite Es. apply err64_small.
Qed.
Lemma b_mean i : (i + 2 < n)%nat -> let L := B2R (at_ m i) in let R_ := B2R (at_ m (i + 1)) in let s := B2R (akima_b fpow m1 n (i + 1)) in
  (Rmin L R_ - 8 * ulp1 * bpow radix2 (K + 1) <= s <= Rmax L R_ + 8 * ulp1 * bpow radix2 (K + 1))%R.
Proof.
  intros H L R_ s. pose proof (Rmin_l L R_). pose proof (Rmin_r L R_). pose proof (Rmax_l L R_). pose proof (Rmax_r L R_). pose proof (bpow_gt_0 radix2 (K + 1)) as PK.
  destruct (flt (mul64 (fpow (f64_of_Z AKIMA_THRESHOLD) (f64_of_Z AKIMA_THRESHOLD2)) (akima_max m1 n)) (akima_f m1 (i + 1))) eqn:E; [apply (b_core i H E)|].
  unfold s, akima_b. rewrite E. replace (i + 1 + 1)%nat with (i + 2)%nat by lia. rewrite m1_mid by lia. fold L. assert (0 <= 8 * ulp1 * bpow radix2 (K + 1))%R by (unfold ulp1; lra). lra.
Qed.
Lemma m_chord i : (i < n - 1)%nat -> (Rabs (B2R (at_ m i) - (B2R (value_of points (i + 1)) - B2R (value_of points i)) / IZR (T (i + 1) - T i)) <= 5 * ulp1 * bpow radix2 K)%R.
Proof.
  intros H. unfold akima_m. rewrite at_map by exact H.
  pose proof (T_step points Hn Hinc K Hval i ltac:(lia)) as St. pose proof (T_range points Hn Hinc Hfirst K Hval i ltac:(lia)) as R0. pose proof (T_range points Hn Hinc Hfirst K Hval (i + 1)%nat ltac:(lia)) as R1.
  pose proof (Hval (i + 1)%nat ltac:(lia)) as (F1 & B1). pose proof (Hval i ltac:(lia)) as (F0 & B0).
  assert (PA : (1 <= bpow radix2 K)%R) by (change 1%R with (bpow radix2 0); apply bpow_le; lia).
  assert (Sm : (bpow radix2 (-1000) <= ulp1 * ulp1)%R).
  { apply Rle_trans with (bpow radix2 (Z.opp 53) * bpow radix2 (Z.opp 53))%R; [rewrite <- bpow_plus; apply bpow_le; lia|rewrite bpow_inv by lia; right; reflexivity]. }
  set (A := bpow radix2 K) in *.
  assert (D : (Rabs (B2R (value_of points (i + 1)) - B2R (value_of points i)) <= 2 * A)%R) by (unfold Rminus; eapply Rle_trans; [apply Rabs_triang|]; rewrite Rabs_Ropp; lra).
  assert (B2A : (2 * A <= bpow radix2 1000)%R) by (replace (2 * A)%R with (bpow radix2 (K + 1)) by (rewrite bpow_double; unfold A; ring); apply bpow1000; lia).
  destruct (sub64_ok _ _ F1 F0) as (Ey & Fy); [lra|]. set (y := sub64 _ _) in *. set (r := (B2R (value_of points (i + 1)) - B2R (value_of points i))%R) in *.
  pose proof (err64_small r) as E1. rewrite <- Ey in E1.
  destruct (f64_of_Z_ok (T (i + 1) - T i)) as (Ed & Fd); [lia|]. unfold akima_dx. set (h := IZR (T (i + 1) - T i)) in *.
  assert (Hh : (1 <= h)%R) by (apply IZR_le; lia). assert (I0 : (0 < / h)%R) by (apply Rinv_0_lt_compat; lra). assert (I1 : (/ h <= 1)%R) by (rewrite <- Rinv_1; apply Rinv_le; lra).
  assert (Q : forall z e, (Rabs z <= e)%R -> (Rabs (z / h) <= e)%R).
  { intros z e Hz. unfold Rdiv. rewrite Rabs_mult, (Rabs_pos_eq (/ h)) by lra. pose proof (Rabs_pos z). apply Rle_trans with (Rabs z * 1)%R; [apply Rmult_le_compat_l; lra|lra]. }
  assert (Y : (Rabs (B2R y) <= 2.001 * A)%R).
  { replace (B2R y) with ((B2R y - r) + r)%R by ring. eapply Rle_trans; [apply Rabs_triang|]. unfold ulp1 in *. lra. }
  destruct (div64_ok y (f64_of_Z (T (i + 1) - T i)) Fy) as (Em & _); rewrite Ed in *; [lra|apply Q; eapply Rle_trans; [exact Y|]; apply Rle_trans with (4 * A)%R; [lra|]; replace (4 * A)%R with (bpow radix2 (K + 1 + 1)) by (rewrite !bpow_double; unfold A; ring); apply bpow1000; lia|].
  rewrite Em. pose proof (err64_small (B2R y / h)) as E2. pose proof (Q _ _ Y) as Yq. pose proof (Q (B2R y - r)%R _ E1) as E3.
  replace (rnd64 (B2R y / h) - r / h)%R with ((rnd64 (B2R y / h) - B2R y / h) + (B2R y - r) / h)%R by (field; lra).
  eapply Rle_trans; [apply Rabs_triang|]. unfold ulp1 in *. lra.
Qed.
Lemma slope_between i p q r : nth_error points i = Some p -> nth_error points (S i) = Some q -> nth_error points (S (S i)) = Some r ->
  let e := (bpow radix2 K / 281474976710656)%R in
  (Rmin (chord p q) (chord q r) - e <= B2R (akima_b fpow m1 n (S i)) <= Rmax (chord p q) (chord q r) + e)%R.
Proof.
  intros Ep Eq Er e. pose proof (proj1 (nth_error_Some points (S (S i))) ltac:(congruence)) as Li.
  destruct (time_nth _ _ _ Ep) as (Tp & Vp). destruct (time_nth _ _ _ Eq) as (Tq & Vq). destruct (time_nth _ _ _ Er) as (Tr & Vr).
  replace (S (S i)) with (i + 1 + 1)%nat in * by lia. replace (S i) with (i + 1)%nat in * by lia.
  pose proof (m_chord i ltac:(lia)) as C0. pose proof (m_chord (i + 1) ltac:(lia)) as C1. rewrite Tp, Tq, Vp, Vq in C0. rewrite Tq, Tr, Vq, Vr in C1.
  fold (chord p q) in C0. fold (chord q r) in C1. pose proof (b_mean i ltac:(lia)) as B. cbv zeta in B. rewrite bpow_double in B.
  apply Rabs_le_inv in C0, C1. pose proof (bpow_gt_0 radix2 K) as P. unfold e, ulp1 in *. clear e.
  set (L := B2R (at_ m i)) in *. set (R_ := B2R (at_ m (i + 1))) in *. set (A := bpow radix2 K) in *. set (s := B2R (akima_b _ _ _ _)) in *.
  pose proof (Rmin_l (chord p q) (chord q r)). pose proof (Rmin_r (chord p q) (chord q r)). pose proof (Rmax_l (chord p q) (chord q r)). pose proof (Rmax_r (chord p q) (chord q r)).
  destruct (Rle_dec L R_); [rewrite Rmin_left, Rmax_right in B by lra|rewrite Rmin_right, Rmax_left in B by lra]; lra.
Qed.
Lemma dm_chord i c c' : (i + 1 < n - 1)%nat -> (Rabs (B2R (at_ m i) - c) <= 5 * ulp1 * bpow radix2 K)%R -> (Rabs (B2R (at_ m (i + 1)) - c') <= 5 * ulp1 * bpow radix2 K)%R ->
  (Rabs (B2R (akima_dm m1 (i + 2)) - Rabs (c' - c)) <= 15 * ulp1 * bpow radix2 K)%R.
Proof.
  intros H C0 C1. unfold akima_dm. rewrite B2R_Babs. replace (i + 2 + 1)%nat with (i + 1 + 2)%nat by lia. rewrite !m1_mid by lia.
  pose proof (Mbd i ltac:(lia)) as (Fx & Bx). pose proof (Mbd (i + 1)%nat ltac:(lia)) as (Fy & By). rewrite bpow_double in Bx, By.
  assert (PA : (1 <= bpow radix2 K)%R) by (change 1%R with (bpow radix2 0); apply bpow_le; lia).
  assert (Sm : (bpow radix2 (-1000) <= ulp1 * ulp1)%R).
  { apply Rle_trans with (bpow radix2 (Z.opp 53) * bpow radix2 (Z.opp 53))%R; [rewrite <- bpow_plus; apply bpow_le; lia|rewrite bpow_inv by lia; right; reflexivity]. }
  set (x := B2R (at_ m i)) in *. set (y := B2R (at_ m (i + 1))) in *.
  assert (D : (Rabs (y - x) <= 4 * bpow radix2 K)%R) by (unfold Rminus; eapply Rle_trans; [apply Rabs_triang|]; rewrite Rabs_Ropp; lra).
  destruct (sub64_ok (at_ m (i + 1)) (at_ m i) Fy Fx) as (E & _).
  { fold x y. eapply Rle_trans; [exact D|]. replace (4 * bpow radix2 K)%R with (bpow radix2 (K + 1 + 1)) by (rewrite !bpow_double; ring). apply bpow1000; lia. }
  fold x y in E. pose proof (err64_small (y - x)) as R. rewrite <- E in R. set (z := B2R (sub64 (at_ m (i + 1)) (at_ m i))) in *. set (A := bpow radix2 K) in *.
  eapply Rle_trans; [apply Rabs_triang_inv2|]. replace (z - (c' - c))%R with ((z - (y - x)) + ((y - c') + - (x - c)))%R by ring.
  eapply Rle_trans; [apply Rabs_triang|]. pose proof (Rabs_triang (y - c') (- (x - c))) as R2. rewrite Rabs_Ropp in R2. unfold ulp1 in *. lra.
Qed.
Lemma threshold i : (i < n)%nat -> (B2R (fpow (f64_of_Z AKIMA_THRESHOLD) (f64_of_Z AKIMA_THRESHOLD2)) <= bpow radix2 (-26))%R -> (bpow radix2 (K - 20) < B2R (akima_f m1 i))%R ->
  flt (mul64 (fpow (f64_of_Z AKIMA_THRESHOLD) (f64_of_Z AKIMA_THRESHOLD2)) (akima_max m1 n)) (akima_f m1 i) = true.
Proof.
  intros H Sp Hf. destruct (Fbd i H) as ((Ff & Fb) & _).
  destruct (max_ok points Hn Hinc Hfirst Hlast K HK Hval (seq 0 n) (f64_of_Z AKIMA_EPSILON)) as (M1 & M2 & M3).
  { intros j J. apply in_seq in J. lia. }
  { apply (bd_le 7); [apply bd_Z; [lia|reflexivity || (unfold AKIMA_EPSILON; lia)]|lia]. }
  fold (akima_max m1 n) in M1, M2, M3. destruct (proj2 Hpow) as (Fp & Pp). change 10 with AKIMA_THRESHOLD in Fp, Pp. change (-8) with AKIMA_THRESHOLD2 in Fp, Pp.
  set (th := fpow (f64_of_Z AKIMA_THRESHOLD) (f64_of_Z AKIMA_THRESHOLD2)) in *.
  assert (B : (Rabs (B2R th * B2R (akima_max m1 n)) <= bpow radix2 (K - 20))%R).
  { rewrite Rabs_mult, (Rabs_pos_eq (B2R th)) by lra. replace (K - 20) with (-26 + (K + 6)) by lia. rewrite bpow_plus. apply Rmult_le_compat; [lra|apply Rabs_pos|exact Sp|apply M1]. }
  destruct (mul64_ok th (akima_max m1 n) Fp (proj1 M1)) as (Em & Fm); [eapply Rle_trans; [exact B|apply bpow1000; lia]|].
  apply flt_true; [exact Fm|exact Ff|]. rewrite Em. eapply Rle_lt_trans; [|exact Hf]. eapply Rle_trans; [apply Rle_abs|]. apply rnd64_bpow; [lia|exact B].
Qed.
Lemma slope_formula i p0 p1 p2 p3 p4 : nth_error points i = Some p0 -> nth_error points (i + 1) = Some p1 -> nth_error points (i + 2) = Some p2 -> nth_error points (i + 3) = Some p3 -> nth_error points (i + 4) = Some p4 ->
  (B2R (fpow (f64_of_Z 10) (f64_of_Z (-8))) <= bpow radix2 (-26))%R ->
  let w1 := Rabs (chord p1 p2 - chord p0 p1) in let w2 := Rabs (chord p3 p4 - chord p2 p3) in
  (bpow radix2 K / 524288 <= w1 + w2)%R ->
  (Rabs (B2R (akima_b fpow m1 n (i + 2)) - (w2 * chord p1 p2 + w1 * chord p2 p3) / (w1 + w2)) <= bpow radix2 K / 67108864)%R.
Proof.
  intros E0 E1 E2 E3 E4 Sp w1 w2 Hw. pose proof (proj1 (nth_error_Some points (i + 4)) ltac:(congruence)) as Li.
  destruct (time_nth _ _ _ E0) as (T0 & V0). destruct (time_nth _ _ _ E1) as (T1 & V1). destruct (time_nth _ _ _ E2) as (T2 & V2). destruct (time_nth _ _ _ E3) as (T3 & V3). destruct (time_nth _ _ _ E4) as (T4 & V4).
  pose proof (m_chord i ltac:(lia)) as C0. pose proof (m_chord (i + 1) ltac:(lia)) as C1. pose proof (m_chord (i + 2) ltac:(lia)) as C2. pose proof (m_chord (i + 3) ltac:(lia)) as C3.
  replace (i + 1 + 1)%nat with (i + 2)%nat in C1 by lia. replace (i + 2 + 1)%nat with (i + 3)%nat in C2 by lia. replace (i + 3 + 1)%nat with (i + 4)%nat in C3 by lia.
  rewrite T0, T1, V0, V1 in C0. rewrite T1, T2, V1, V2 in C1. rewrite T2, T3, V2, V3 in C2. rewrite T3, T4, V3, V4 in C3.
  fold (chord p0 p1) in C0. fold (chord p1 p2) in C1. fold (chord p2 p3) in C2. fold (chord p3 p4) in C3.
  pose proof (dm_chord i (chord p0 p1) (chord p1 p2) ltac:(lia) C0 C1) as D1. fold w1 in D1.
  assert (D2 : (Rabs (B2R (akima_dm m1 (i + 4)) - w2) <= 15 * ulp1 * bpow radix2 K)%R).
  { replace (i + 4)%nat with (i + 2 + 2)%nat by lia. apply (dm_chord (i + 2)); [lia|exact C2|]. replace (i + 2 + 1)%nat with (i + 3)%nat by lia. exact C3. }
  destruct (DMbd (i + 2)%nat ltac:(lia)) as ((Fb & Bb) & Pb). destruct (DMbd (i + 4)%nat ltac:(lia)) as ((Fa & Ba) & Pa).
  pose proof (Mbd (i + 1)%nat ltac:(lia)) as (_ & BL). pose proof (Mbd (i + 2)%nat ltac:(lia)) as (_ & BR). rewrite bpow_double in BL, BR.
  assert (PA : (1 <= bpow radix2 K)%R) by (change 1%R with (bpow radix2 0); apply bpow_le; lia).
  assert (Sm : (bpow radix2 (-1000) <= ulp1 * ulp1)%R).
  { apply Rle_trans with (bpow radix2 (Z.opp 53) * bpow radix2 (Z.opp 53))%R; [rewrite <- bpow_plus; apply bpow_le; lia|rewrite bpow_inv by lia; right; reflexivity]. }
  destruct (add64_ok _ _ Fa Fb) as (Ef & _).
  { apply Rle_trans with (bpow radix2 (K + 5 + 1)); [rewrite bpow_double; eapply Rle_trans; [apply Rabs_triang|]; apply Rplus_le_compat; assumption|apply bpow1000; lia]. }
  pose proof (err64_small (B2R (akima_dm m1 (i + 4)) + B2R (akima_dm m1 (i + 2)))) as Er. rewrite <- Ef in Er.
  assert (Ff : add64 (akima_dm m1 (i + 4)) (akima_dm m1 (i + 2)) = akima_f m1 (i + 2)) by (unfold akima_f; replace (i + 2 + 2)%nat with (i + 4)%nat by lia; reflexivity). rewrite Ff in Er.
  rewrite (Rabs_pos_eq (_ + _)) in Er by lra.
  assert (B20 : (bpow radix2 (K - 20) = bpow radix2 K / 1048576)%R) by (unfold Z.sub; rewrite bpow_plus; change (-20) with (Z.opp 20); rewrite bpow_inv by lia; reflexivity).
  pose proof (threshold (i + 2) ltac:(lia) Sp) as Th. rewrite B20 in Th.
  pose proof (b_core (i + 1) ltac:(lia)) as Bc. replace (i + 1 + 1)%nat with (i + 2)%nat in Bc by lia. replace (i + 1 + 3)%nat with (i + 4)%nat in Bc by lia.
  set (A := bpow radix2 K) in *. set (a := B2R (akima_dm m1 (i + 4))) in *. set (b := B2R (akima_dm m1 (i + 2))) in *. set (F := B2R (akima_f m1 (i + 2))) in *.
  set (L' := B2R (at_ m (i + 1))) in *. set (R' := B2R (at_ m (i + 2))) in *. set (s := B2R (akima_b fpow m1 n (i + 2))) in *.
  pose proof (Rabs_le_inv _ _ D1). pose proof (Rabs_le_inv _ _ D2). pose proof (Rabs_le_inv _ _ Er).
  assert (HF : (A / 1048576 < F)%R) by (unfold ulp1 in *; lra). destruct (Bc (Th HF)) as (_ & Bs). cbv zeta in Bs. rewrite bpow_double in Bs. fold A in Bs.
  assert (HV : (A / 1048576 <= a + b)%R) by (unfold ulp1 in *; lra).
  assert (HD : (Rabs (chord p1 p2 - chord p2 p3) <= 5 * A)%R).
  { apply Rabs_le. apply Rabs_le_inv in C1, C2, BL, BR. unfold ulp1 in *. lra. }
  pose proof (mean_move a b w1 w2 (chord p1 p2) (chord p2 p3) L' R' (15 * ulp1 * A) (5 * ulp1 * A) (5 * A) (A / 1048576) Pa Pb (Rabs_pos _) (Rabs_pos _) ltac:(lra) ltac:(unfold ulp1; lra) D2 D1 C1 C2 HD ltac:(lra) HV) as Mv.
  replace (15 * ulp1 * A * (5 * A) / (A / 1048576))%R with (78643200 * ulp1 * A)%R in Mv by (field; lra).
  replace (s - (w2 * chord p1 p2 + w1 * chord p2 p3) / (w1 + w2))%R with ((s - (a * L' + b * R') / (a + b)) + ((a * L' + b * R') / (a + b) - (w2 * chord p1 p2 + w1 * chord p2 p3) / (w1 + w2)))%R by ring.
  eapply Rle_trans; [apply Rabs_triang|]. unfold ulp1 in *. lra.
Qed.
End S.
