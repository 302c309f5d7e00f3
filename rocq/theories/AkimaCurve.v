(** The samples of an Akima curve lie on cubics that join smoothly. *)
From Coq Require Import Reals Psatz.
From Flocq Require Import Core.Core.
From Verif Require Import Base FloatBase FloatModel FloatProof Float64Proof TypesModel ToolsModel SynthModel SynthProof SynthCurve InterpModel InterpSpec InterpBase AkimaProof BezierProof BezierCurve.
Local Open Scope Z_scope.
Ltac Zify.zify_post_hook ::= Z.div_mod_to_equations.

(** Numbers and errors in multiples of [W]. *)
Definition ulp1 : R := (/ 9007199254740992)%R.
Definition AP (x : f64) (r N n W : R) : Prop := is_finite x = true /\ (Rabs r <= N * W)%R /\ (Rabs (B2R x - r) <= n * W)%R.
Definition Wok (W : R) : Prop := (0 < W)%R /\ (bpow radix2 (-150) <= W * ulp1)%R /\ (4096 * W <= bpow radix2 1000)%R.
Lemma AP_pos x r N n W : Wok W -> AP x r N n W -> (0 <= N)%R /\ (0 <= n)%R.
Proof.
  intros (P & _) (_ & H1 & H2). pose proof (Rabs_pos r). pose proof (Rabs_pos (B2R x - r)). split; apply Rmult_le_reg_r with W; lra.
Qed.
Lemma AP_exact x N W : is_finite x = true -> (Rabs (B2R x) <= N * W)%R -> AP x (B2R x) N 0 W.
Proof. intros F H. split; [exact F|]. split; [exact H|]. unfold Rminus. rewrite Rplus_opp_r, Rabs_R0. lra. Qed.
Lemma AP_unit x r N n W W' : Wok W -> AP x r N n W -> (W <= W')%R -> AP x r N n W'.
Proof.
  intros Hw H L. destruct (AP_pos _ _ _ _ _ Hw H) as (P1 & P2). destruct H as (F & H1 & H2). split; [exact F|].
  assert (N * W <= N * W')%R by (apply Rmult_le_compat_l; assumption). assert (n * W <= n * W')%R by (apply Rmult_le_compat_l; assumption). split; lra.
Qed.
Lemma big a W : Wok W -> (a <= 4096)%R -> (a * W <= bpow radix2 1000)%R.
Proof. intros (P & _ & B) H. eapply Rle_trans; [|exact B]. apply Rmult_le_compat_r; lra. Qed.
Lemma scaled a b W : Wok W -> (a <= b)%R -> (a * W <= b * W)%R.
Proof. intros (P & _) H. apply Rmult_le_compat_r; lra. Qed.
Lemma AP_add x y r s N n L l W N' n' : Wok W -> AP x r N n W -> AP y s L l W -> (N + L <= N')%R -> (n + l + (N + L + n + l) * ulp1 + ulp1 <= n')%R -> (N + L + n + l <= 4096)%R ->
  AP (add64 x y) (r + s) N' n' W.
Proof.
  intros Hw (Fx & Rx & Ex) (Fy & Ry & Ey) HN Hn HB. pose proof (proj1 (proj2 Hw)) as T.
  destruct (ap_add x y r s (n * W) (l * W) (n' * W) ((N + L + n + l) * W) (conj Fx Ex) (conj Fy Ey)) as (F & E); [lra|apply big; assumption| |].
  { pose proof (scaled _ _ W Hw Hn) as S. unfold ulp1 in *. lra. }
  split; [exact F|]. split; [|exact E]. eapply Rle_trans; [apply Rabs_triang|]. pose proof (scaled _ _ W Hw HN). lra.
Qed.
Lemma AP_sub x y r s N n L l W N' n' : Wok W -> AP x r N n W -> AP y s L l W -> (N + L <= N')%R -> (n + l + (N + L + n + l) * ulp1 + ulp1 <= n')%R -> (N + L + n + l <= 4096)%R ->
  AP (sub64 x y) (r - s) N' n' W.
Proof.
  intros Hw (Fx & Rx & Ex) (Fy & Ry & Ey) HN Hn HB. pose proof (proj1 (proj2 Hw)) as T.
  assert (D : (Rabs (r - s) <= (N + L) * W)%R) by (unfold Rminus; eapply Rle_trans; [apply Rabs_triang|]; rewrite Rabs_Ropp; lra).
  destruct (ap_sub x y r s (n * W) (l * W) (n' * W) ((N + L + n + l) * W) (conj Fx Ex) (conj Fy Ey)) as (F & E); [lra|apply big; assumption| |].
  { pose proof (scaled _ _ W Hw Hn) as S. unfold ulp1 in *. lra. }
  split; [exact F|]. split; [|exact E]. pose proof (scaled _ _ W Hw HN). lra.
Qed.
Lemma AP_mul x y c s L l W h W' L' l' : Wok W -> Wok W' -> (h * W = W')%R -> is_finite x = true -> B2R x = c -> (0 <= c <= h)%R -> AP y s L l W -> (L <= L')%R ->
  (l + (L + l) * ulp1 + ulp1 <= l')%R -> (L + l <= 4096)%R -> AP (mul64 x y) (c * s) L' l' W' /\ AP (mul64 y x) (s * c) L' l' W'.
Proof.
  intros Hw Hw' E Fx Ex Hc Hy HL Hl HB. destruct (AP_pos _ _ _ _ _ Hw Hy) as (P1 & P2). destruct Hy as (Fy & Ry & Ey). pose proof (proj1 (proj2 Hw')) as T. pose proof (proj1 Hw) as Pw.
  assert (X : ap x c 0) by (split; [exact Fx|]; rewrite Ex; unfold Rminus; rewrite Rplus_opp_r, Rabs_R0; lra).
  assert (C : (Rabs c <= h)%R) by (rewrite Rabs_pos_eq; lra).
  assert (Lw : (0 <= l * W)%R) by (apply Rmult_le_pos; lra).
  pose proof (scaled _ _ W' Hw' Hl) as S. pose proof (big (L + l) W' Hw' HB) as B. pose proof (scaled _ _ W' Hw' HL) as SL.
  assert (Q1 : (h * (l * W) = l * W')%R) by (rewrite <- E; ring). assert (Q2 : ((h + 0) * (L * W + l * W) = (L + l) * W')%R) by (rewrite <- E; ring).
  assert (G : (Rabs c * Rabs s <= L * W')%R) by (rewrite <- E; replace (L * (h * W))%R with (h * (L * W))%R by ring; apply Rmult_le_compat; try apply Rabs_pos; assumption).
  split.
  - destruct (ap_mul x y c s 0 (l * W) (l' * W') h (L * W) ((L + l) * W') X (conj Fy Ey) C Ry) as (F & D); [lra|exact Lw|right; exact Q2|exact B|unfold ulp1 in *; lra|].
    split; [exact F|]. split; [rewrite Rabs_mult; lra|exact D].
  - destruct (ap_mul y x s c (l * W) 0 (l' * W') (L * W) h ((L + l) * W') (conj Fy Ey) X Ry C) as (F & D); [exact Lw|lra|right; rewrite <- Q2; ring|exact B|unfold ulp1 in *; lra|].
    split; [exact F|]. split; [rewrite Rabs_mult; lra|exact D].
Qed.
Lemma AP_const x y c s L l W L' l' : Wok W -> is_finite x = true -> B2R x = c -> (0 <= c)%R -> AP y s L l W -> (c * L <= L')%R ->
  (c * l + c * (L + l) * ulp1 + ulp1 <= l')%R -> (c * (L + l) <= 4096)%R -> AP (mul64 x y) (c * s) L' l' W.
Proof.
  intros Hw Fx Ex Hc Hy HL Hl HB. destruct (AP_pos _ _ _ _ _ Hw Hy) as (P1 & P2). destruct Hy as (Fy & Ry & Ey). pose proof (proj1 (proj2 Hw)) as T. pose proof (proj1 Hw) as Pw.
  assert (X : ap x c 0) by (split; [exact Fx|]; rewrite Ex; unfold Rminus; rewrite Rplus_opp_r, Rabs_R0; lra).
  assert (C : (Rabs c <= c)%R) by (rewrite Rabs_pos_eq; lra).
  assert (Lw : (0 <= l * W)%R) by (apply Rmult_le_pos; lra).
  pose proof (scaled _ _ W Hw Hl) as S. pose proof (big _ W Hw HB) as B. pose proof (scaled _ _ W Hw HL) as SL.
  destruct (ap_mul x y c s 0 (l * W) (l' * W) c (L * W) (c * (L + l) * W) X (conj Fy Ey) C Ry) as (F & D); [lra|exact Lw|right; ring|exact B|unfold ulp1 in *; lra|].
  split; [exact F|]. split; [|exact D]. rewrite Rabs_mult, (Rabs_pos_eq c) by exact Hc. eapply Rle_trans; [apply Rmult_le_compat_l; [exact Hc|exact Ry]|]. lra.
Qed.
Lemma AP_div x y r h N n W W' n' : Wok W -> Wok W' -> (h * W = W')%R -> (0 < h)%R -> B2R y = h -> AP x r N n W' -> (n + (N + n) * ulp1 + ulp1 <= n')%R -> (N + n <= 4096)%R ->
  AP (div64 x y) (r / h) N n' W.
Proof.
  intros Hw Hw' E Hh Ey (Fx & Rx & Ex) Hn HB. pose proof (proj1 (proj2 Hw)) as T.
  assert (I : (0 < / h)%R) by (apply Rinv_0_lt_compat; exact Hh). assert (Q : forall a, (a * W' * / h = a * W)%R) by (intros a; rewrite <- E; field; lra).
  assert (R1 : (Rabs (r / h) <= N * W)%R).
  { unfold Rdiv. rewrite Rabs_mult, (Rabs_pos_eq (/ h)) by lra. rewrite <- Q. apply Rmult_le_compat_r; lra. }
  assert (R2 : (Rabs (B2R x / h - r / h) <= n * W)%R).
  { replace (B2R x / h - r / h)%R with ((B2R x - r) * / h)%R by (field; lra). rewrite Rabs_mult, (Rabs_pos_eq (/ h)) by lra. rewrite <- Q. apply Rmult_le_compat_r; lra. }
  assert (V : (Rabs (B2R x / h) <= (N + n) * W)%R).
  { replace (B2R x / h)%R with ((B2R x / h - r / h) + r / h)%R by ring. eapply Rle_trans; [apply Rabs_triang|]. lra. }
  destruct (div64_ok x y Fx) as (D & F); [rewrite Ey; lra|rewrite Ey; eapply Rle_trans; [exact V|apply big; assumption]|]. rewrite Ey in D.
  split; [exact F|]. split; [exact R1|]. apply (ap_round _ _ _ (n * W) _ ((N + n) * W) R2 D V). pose proof (scaled _ _ W Hw Hn) as S. unfold ulp1 in *. lra.
Qed.

Section C.
Variable fpow : f64 -> f64 -> f64.
Hypothesis Hpow : pow_faithful fpow.
(** A segment of [dx] samples, with the amplitudes [y0] and [y1] and the slopes [b0] and [b1]. *)
Variables (dx K : Z) (y0 y1 b0 b1 : f64).
Hypothesis Hdx : 1 <= dx <= 2 ^ 26.
Hypothesis HK : 1 <= K <= 128.
Hypothesis Hy0 : bd K y0.
Hypothesis Hy1 : bd K y1.
Hypothesis Hb0 : bd (K + 5) b0.
Hypothesis Hb1 : bd (K + 5) b1.
Notation A := (bpow radix2 K).
Notation h := (IZR dx).
Notation w := (/ h)%R.
Lemma units : Wok (A * w * w) /\ Wok (A * w) /\ Wok A /\ Wok (h * A) /\ (h * (A * w * w) = A * w)%R /\ (h * (A * w) = A)%R /\ (A * w <= A)%R /\ (A <= h * A)%R /\ (1 <= h)%R.
Proof.
  assert (H1 : (1 <= h)%R) by (apply IZR_le; lia). assert (H2 : (h <= bpow radix2 26)%R) by (rewrite bpow_IZR by lia; apply IZR_le; lia).
  pose proof (bpow_gt_0 radix2 K) as PA. assert (W0 : (0 < w)%R) by (apply Rinv_0_lt_compat; lra).
  assert (W1 : (w <= 1)%R) by (rewrite <- Rinv_1; apply Rinv_le; lra).
  assert (W2 : (bpow radix2 (Z.opp 26) <= w)%R) by (rewrite bpow_opp; apply Rinv_le; lra).
  assert (L : (A * w <= A)%R) by (rewrite <- (Rmult_1_r A) at 2; apply Rmult_le_compat_l; lra). assert (L2 : (A <= h * A)%R) by (rewrite <- (Rmult_1_l A) at 1; apply Rmult_le_compat_r; lra).
  assert (L0 : (A * w * w <= A * w)%R) by (rewrite <- (Rmult_1_r (A * w)) at 2; apply Rmult_le_compat_l; [|lra]; apply Rmult_le_pos; lra).
  assert (P2 : (0 < A * w * w)%R) by (repeat apply Rmult_lt_0_compat; assumption).
  assert (T : (bpow radix2 (-150) <= A * w * w * ulp1)%R).
  { apply Rle_trans with (bpow radix2 0 * bpow radix2 (Z.opp 26) * bpow radix2 (Z.opp 26) * bpow radix2 (Z.opp 53))%R; [rewrite <- !bpow_plus; apply bpow_le; lia|].
    apply Rmult_le_compat; [repeat apply Rmult_le_pos; apply bpow_ge_0|apply bpow_ge_0| |rewrite bpow_inv by lia; right; reflexivity].
    apply Rmult_le_compat; [apply Rmult_le_pos; apply bpow_ge_0|apply bpow_ge_0| |exact W2]. apply Rmult_le_compat; [apply bpow_ge_0|apply bpow_ge_0|apply bpow_le; lia|exact W2]. }
  assert (B : (4096 * (h * A) <= bpow radix2 1000)%R).
  { apply Rle_trans with (bpow radix2 12 * (bpow radix2 26 * bpow radix2 128))%R; [|rewrite <- !bpow_plus; apply bpow_le; lia].
    apply Rmult_le_compat; [lra|apply Rmult_le_pos; lra|change (bpow radix2 12) with 4096%R; lra|]. apply Rmult_le_compat; [lra|lra|exact H2|apply bpow_le; lia]. }
  assert (Q0 : (0 < ulp1)%R) by (unfold ulp1; lra).
  assert (Ok_ : forall W, (A * w * w <= W)%R -> (W <= h * A)%R -> Wok W).
  { intros W C1 C2. split; [lra|]. split; [|lra]. eapply Rle_trans; [exact T|]. apply Rmult_le_compat_r; lra. }
  repeat split; try (apply Ok_; lra); try lra; field; lra.
Qed.
Let m := div64 (sub64 y1 y0) (f64_of_Z dx).
Let mu := ((B2R y1 - B2R y0) / h)%R.
Let c := div64 (sub64 (sub64 (mul64 f64_3 m) (mul64 f64_2 b0)) b1) (f64_of_Z dx).
Let d := div64 (sub64 (add64 b0 b1) (mul64 f64_2 m)) (fpow (f64_of_Z dx) f64_2).
Lemma segment_cubic x : 0 <= x <= dx ->
  let X := IZR x in let s := B2R b0 in let s' := B2R b1 in
  is_finite (akima_at d c b0 y0 x) = true /\
  (Rabs (B2R (akima_at d c b0 y0 x) - (((X * ((s + s' - 2 * mu) / (h * h)) + (3 * mu - 2 * s - s') / h) * X + s) * X + B2R y0)) <= A * h / 4398046511104)%R.
Proof.
  intros Hx X s s'. destruct units as (U2 & U1 & U0 & UH & E2 & E1 & L1 & LH & H1).
  destruct (exact_Z dx ltac:(lia)) as (Fd & Ed). destruct (exact_Z x ltac:(lia)) as (Fx & Ex).
  assert (RX : (0 <= X <= h)%R) by (split; apply IZR_le; lia). assert (Hp : (0 < h)%R) by lra.
  assert (B32 : (bpow radix2 (K + 5) = 32 * A)%R) by (rewrite bpow_plus; change (bpow radix2 5) with 32%R; ring).
  assert (Y0 : AP y0 (B2R y0) 1 0 A) by (apply AP_exact; [apply Hy0|rewrite Rmult_1_l; apply Hy0]).
  assert (Y1 : AP y1 (B2R y1) 1 0 A) by (apply AP_exact; [apply Hy1|rewrite Rmult_1_l; apply Hy1]).
  assert (S0 : AP b0 s 32 0 A) by (apply AP_exact; [apply Hb0|rewrite <- B32; apply Hb0]). assert (S1 : AP b1 s' 32 0 A) by (apply AP_exact; [apply Hb1|rewrite <- B32; apply Hb1]).
  assert (DY : AP (sub64 y1 y0) (B2R y1 - B2R y0) 2 (3 * ulp1) A) by (apply (AP_sub _ _ _ _ 1 0 1 0 A 2 (3 * ulp1) U0 Y1 Y0); unfold ulp1; lra).
  assert (M : AP m mu 2 (7 * ulp1) A).
  { apply (AP_unit _ _ _ _ (A * w) A U1); [|exact L1]. apply (AP_div _ _ _ h 2 (3 * ulp1) _ A (7 * ulp1) U1 U0 E1 Hp Ed DY); unfold ulp1; lra. }
  assert (M3 : AP (mul64 f64_3 m) (3 * mu) 6 (29 * ulp1) A) by (apply (AP_const f64_3 _ 3 mu 2 (7 * ulp1) A 6 (29 * ulp1) U0 eq_refl f64_3_R); try exact M; unfold ulp1; lra).
  assert (M2 : AP (mul64 f64_2 m) (2 * mu) 4 (20 * ulp1) A) by (apply (AP_const f64_2 _ 2 mu 2 (7 * ulp1) A 4 (20 * ulp1) U0 eq_refl f64_2_R); try exact M; unfold ulp1; lra).
  assert (S02 : AP (mul64 f64_2 b0) (2 * s) 64 (65 * ulp1) A) by (apply (AP_const f64_2 _ 2 s 32 0 A 64 (65 * ulp1) U0 eq_refl f64_2_R); try exact S0; unfold ulp1; lra).
  assert (C1 : AP (sub64 (mul64 f64_3 m) (mul64 f64_2 b0)) (3 * mu - 2 * s) 70 (166 * ulp1) A) by (apply (AP_sub _ _ _ _ _ _ _ _ A 70 (166 * ulp1) U0 M3 S02); unfold ulp1; lra).
  assert (C2 : AP (sub64 (sub64 (mul64 f64_3 m) (mul64 f64_2 b0)) b1) (3 * mu - 2 * s - s') 102 (270 * ulp1) A) by (apply (AP_sub _ _ _ _ _ _ _ _ A 102 (270 * ulp1) U0 C1 S1); unfold ulp1; lra).
  assert (C : AP c ((3 * mu - 2 * s - s') / h) 102 (375 * ulp1) (A * w)) by (apply (AP_div _ _ _ h _ _ _ A (375 * ulp1) U1 U0 E1 Hp Ed C2); unfold ulp1; lra).
  assert (D1 : AP (add64 b0 b1) (s + s') 64 (65 * ulp1) A) by (apply (AP_add _ _ _ _ _ _ _ _ A 64 (65 * ulp1) U0 S0 S1); unfold ulp1; lra).
  assert (D2 : AP (sub64 (add64 b0 b1) (mul64 f64_2 m)) (s + s' - 2 * mu) 68 (155 * ulp1) A) by (apply (AP_sub _ _ _ _ _ _ _ _ A 68 (155 * ulp1) U0 D1 M2); unfold ulp1; lra).
  destruct (pow_exact fpow Hpow (f64_of_Z dx) dx (conj Fd Ed) ltac:(lia)) as (Fp & Ep). rewrite mult_IZR in Ep.
  assert (D : AP d ((s + s' - 2 * mu) / (h * h)) 68 (225 * ulp1) (A * w * w)).
  { apply (AP_div _ _ _ (h * h) 68 (155 * ulp1) _ A (225 * ulp1) U2 U0); [field; lra|apply Rmult_lt_0_compat; lra|exact Ep|exact D2|unfold ulp1; lra|unfold ulp1; lra]. }
  destruct (AP_mul (f64_of_Z x) d X _ _ _ _ h (A * w) 68 (295 * ulp1) U2 U1 E2 Fx Ex RX D) as (XD & _); [lra|unfold ulp1; lra|unfold ulp1; lra|].
  assert (P1 : AP (add64 (mul64 (f64_of_Z x) d) c) (X * ((s + s' - 2 * mu) / (h * h)) + (3 * mu - 2 * s - s') / h) 170 (842 * ulp1) (A * w)) by (apply (AP_add _ _ _ _ _ _ _ _ _ 170 (842 * ulp1) U1 XD C); unfold ulp1; lra).
  destruct (AP_mul (f64_of_Z x) _ X _ _ _ _ h A 170 (1014 * ulp1) U1 U0 E1 Fx Ex RX P1) as (_ & P2); [lra|unfold ulp1; lra|unfold ulp1; lra|].
  assert (P3 := P2). pose proof (AP_add _ _ _ _ _ _ _ _ A 202 (1218 * ulp1) U0 P2 S0 ltac:(lra) ltac:(unfold ulp1; lra) ltac:(unfold ulp1; lra)) as P4.
  destruct (AP_mul (f64_of_Z x) _ X _ _ _ _ h (h * A) 202 (1422 * ulp1) U0 UH eq_refl Fx Ex RX P4) as (_ & P5); [lra|unfold ulp1; lra|unfold ulp1; lra|].
  pose proof (AP_add _ _ _ _ _ _ _ _ (h * A) 203 (2048 * ulp1) UH P5 (AP_unit _ _ _ _ _ _ U0 Y0 LH) ltac:(lra) ltac:(unfold ulp1; lra) ltac:(unfold ulp1; lra)) as (F & _ & E).
  unfold akima_at. split; [exact F|]. eapply Rle_trans; [exact E|]. unfold ulp1. right. field.
Qed.
End C.
(** The cubic in terms of its ends. *)
Lemma hermite_form h X y0 y1 s s' : (h <> 0)%R ->
  (((X * ((s + s' - 2 * ((y1 - y0) / h)) / (h * h)) + (3 * ((y1 - y0) / h) - 2 * s - s') / h) * X + s) * X + y0 =
   y0 * ((1 + 2 * (X / h)) * (1 - X / h) * (1 - X / h)) + y1 * ((X / h) * (X / h) * (3 - 2 * (X / h))) + h * s * ((X / h) * (1 - X / h) * (1 - X / h)) - h * s' * ((X / h) * (X / h) * (1 - X / h)))%R.
Proof. intros H. field. exact H. Qed.

Lemma akima_cubic fpow points K : pow_faithful fpow -> (3 <= length points)%nat -> increasing points -> time_of points 0 = 0 -> last_time points < 2 ^ 31 - 1 ->
  1 <= K <= 128 -> (forall i, (i < length points)%nat -> bd K (value_of points i)) ->
  forall ys, akimaInterpolation fpow points = Ok ys ->
  exists slopes : list R, slopes = map (fun b : f64 => B2R b) (map (akima_b fpow (akima_m1 (akima_m points)) (length points)) (seq 0 (length points))) /\ length slopes = length points /\
    forall i p q s s' x, nth_error points i = Some p -> nth_error points (S i) = Some q -> nth_error slopes i = Some s -> nth_error slopes (S i) = Some s' ->
      fst q - fst p <= 2 ^ 26 -> fst p <= x < fst q ->
      exists y, nth_error ys (Z.to_nat x) = Some y /\ (Rabs (B2R y - hermite p q s s' x) <= bpow radix2 K * IZR (fst q - fst p) / 4398046511104)%R.
Proof.
  intros Hpow Hn Hinc Hfirst Hlast HK Hval ys0 E0. set (n := length points) in *. assert (En : length points = n) by reflexivity.
  set (bs := map (akima_b fpow (akima_m1 (akima_m points)) n) (seq 0 n)).
  exists (map (fun b : f64 => B2R b) bs). split; [reflexivity|]. split; [unfold bs; rewrite !map_length, seq_length; reflexivity|].
  intros i p q s s' x Ep Eq Es Es' Hd Hx.
  pose proof (proj1 (nth_error_Some points (S i)) ltac:(congruence)) as Li. fold n in Li.
  destruct (time_nth _ _ _ Ep) as (Tp & Vp). destruct (time_nth _ _ _ Eq) as (Tq & Vq). replace (S i) with (i + 1)%nat in * by lia.
  assert (Sl : forall j t, (j < n)%nat -> nth_error (map (fun b : f64 => B2R b) bs) j = Some t -> t = B2R (at_ bs j)).
  { intros j t Lj H. rewrite nth_error_map in H. unfold at_. destruct (nth_error bs j) as [b|] eqn:Eb; [|discriminate]. injection H as <-. rewrite (nth_error_nth _ _ _ Eb). reflexivity. }
  apply Sl in Es; [|lia]. apply Sl in Es'; [|lia]. subst s s'.
  unfold akimaInterpolation in E0. fold n in E0. replace (n <? 3)%nat with false in E0 by (symmetry; apply Nat.ltb_ge; exact Hn). cbv zeta in E0. fold bs in E0.
  assert (N0 : (0 < length points)%nat) by lia. pose proof (T_range points Hn Hinc Hfirst K Hval 0%nat N0) as R0. rewrite int_ok_fits in E0 by lia. cbn [obind] in E0. replace (last_time points + 1 <? 0) with false in E0 by lia.
  destruct (akima_loop _ _ _ _ _ _ _) as [ys c] eqn:E in E0.
  destruct (loop_values _ _ _ _ _ _ _ _ _ E) as (Ec & V); [intros k Kr; pose proof (T_step points Hn Hinc K Hval k ltac:(lia)); lia|lia|].
  cbn [Nat.add] in Ec. unfold n in Ec. rewrite <- last_time_of in Ec. subst c.
  replace (last_time points + 1 <=? last_time points) with false in E0 by lia. injection E0 as <-.
  specialize (V i x ltac:(lia) ltac:(lia)). rewrite Hfirst, Z.sub_0_r in V.
  rewrite nth_error_app1 by (apply nth_error_Some; congruence). eexists. split; [exact V|].
  pose proof (bs_bd fpow Hpow points Hn Hinc Hfirst Hlast K HK Hval i ltac:(lia)) as B0. pose proof (bs_bd fpow Hpow points Hn Hinc Hfirst Hlast K HK Hval (i + 1) ltac:(lia)) as B1. fold n bs in B0, B1.
  pose proof (T_step points Hn Hinc K Hval i ltac:(lia)) as St.
  pose proof (segment_cubic fpow Hpow (time_of points (i + 1) - time_of points i) K (value_of points i) (value_of points (i + 1)) (at_ bs i) (at_ bs (i + 1))
    ltac:(lia) HK (Hval i ltac:(lia)) (Hval (i + 1)%nat ltac:(lia)) B0 B1 (x - time_of points i) ltac:(lia)) as (_ & S). cbv zeta in S.
  rewrite hermite_form in S by (apply not_0_IZR; lia).
  unfold hermite. unfold akima_c, akima_d, akima_dx. unfold akima_m at 1 2. rewrite at_map by (fold n; lia). unfold akima_dx.
  rewrite <- Tp, <- Tq, <- Vp, <- Vq. exact S.
Qed.
