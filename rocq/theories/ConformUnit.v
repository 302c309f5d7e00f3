(** The check of directions in floating-point arithmetic is the check of the exact length. *)
From Coq Require Import Reals Psatz.
From Flocq Require Import Core.Core.
From Verif Require Import Base BitsModel FloatBase FloatModel FloatSpec FloatProof Float64Proof TypesModel ConformModel ConformSpec.
Local Open Scope R_scope.

Definition u : R := / 10000000.
Lemma coordinate_ok z : in_type i8 z -> is_finite (coordinate z) = true /\ Rabs (B2R (coordinate z) - IZR z / 127) <= u.
Proof.
  intros H. unfold in_type, i8 in H. cbn in H.
  assert (HZ : -128 <= IZR z <= 127) by (split; apply IZR_le; lia).
  destruct (f32_of_Z_ok z ltac:(lia)) as [E1 F1].
  assert (EZ : rnd32 (IZR z) = IZR z).
  { apply rnd32_id. replace (IZR z) with (IZR z * bpow radix2 0) by (cbn; ring). apply fmt_Z; lia. }
  rewrite EZ in E1.
  assert (ER : B2R VECTOR_RANGE = 127).
  { unfold VECTOR_RANGE, B2R, F2R. cbn -[bpow]. change (-17)%Z with (Z.opp 17). rewrite (bpow_inv 17) by lia. change (2 ^ 17)%Z with 131072%Z. lra. }
  assert (HQ : Rabs (IZR z / 127) <= 1.01) by (apply Rabs_le; lra).
  destruct (div32_ok (f32_of_Z z) VECTOR_RANGE F1) as [E2 F2].
  { rewrite ER, Rabs_pos_eq; lra. }
  rewrite E1, ER in E2.
  destruct (f64_of_f32_ok _ F2) as [E3 F3]. unfold coordinate. split; [exact F3|].
  rewrite E3, E2. apply Rle_trans with (1 := err32 _).
  pose proof tiny_small. unfold u. lra.
Qed.
Lemma square_close c q : Rabs q <= 1.01 -> Rabs (c - q) <= u -> Rabs (c * c - q * q) <= 3 * u /\ 0 <= c * c <= 1.1.
Proof.
  intros Hq Hc. unfold u in *. apply Rabs_le_inv in Hq. apply Rabs_le_inv in Hc. split; [apply Rabs_le; nra|nra].
Qed.
Definition N (v : vector) : Z := (vx v ^ 2 + vy v ^ 2 + vz v ^ 2)%Z.
Definition sum_of (v : vector) : f64 :=
  add64 (add64 (mul64 (coordinate (vx v)) (coordinate (vx v))) (mul64 (coordinate (vy v)) (coordinate (vy v))))
    (mul64 (coordinate (vz v)) (coordinate (vz v))).
Lemma le1000 x : Rabs x <= 100 -> Rabs x <= bpow radix2 1000.
Proof.
  intros H. apply Rle_trans with (1 := H). apply Rle_trans with (bpow radix2 7); [|apply bpow_le; lia].
  rewrite bpow_IZR by lia. apply IZR_le. lia.
Qed.
Lemma square_ok z : in_type i8 z ->
  is_finite (mul64 (coordinate z) (coordinate z)) = true /\
  Rabs (B2R (mul64 (coordinate z) (coordinate z)) - IZR (z ^ 2) / 16129) <= 4 * u /\
  Rabs (B2R (mul64 (coordinate z) (coordinate z))) <= 2.
Proof.
  intros H. destruct (coordinate_ok z H) as [F E].
  unfold in_type, i8 in H. cbn in H. assert (HZ : -128 <= IZR z <= 127) by (split; apply IZR_le; lia).
  assert (HQ : Rabs (IZR z / 127) <= 1.01) by (apply Rabs_le; lra).
  destruct (square_close _ _ HQ E) as [E2 B2]. 
  destruct (mul64_ok _ _ F F) as [E3 F3]; [apply le1000, Rabs_le; lra|].
  split; [exact F3|]. rewrite E3.
  pose proof (err64 (B2R (coordinate z) * B2R (coordinate z))) as E4. pose proof tiny_small.
  rewrite Rabs_pos_eq with (x := _ * _) in E4 by lra. 
  set (s := B2R (coordinate z) * B2R (coordinate z)) in *. clearbody s.
  replace (IZR (z ^ 2) / 16129) with (IZR z / 127 * (IZR z / 127)) by (change (z ^ 2)%Z with (z * (z * 1))%Z; rewrite !mult_IZR; field).
  set (q := IZR z / 127 * (IZR z / 127)) in *. clearbody q. unfold u in *.
  apply Rabs_le_inv in E2. apply Rabs_le_inv in E4. split; apply Rabs_le; lra.
Qed.
Lemma sum_ok v : in_type i8 (vx v) -> in_type i8 (vy v) -> in_type i8 (vz v) ->
  is_finite (sum_of v) = true /\ Rabs (B2R (sum_of v) - IZR (N v) / 16129) <= 14 * u.
Proof.
  intros Hx Hy Hz. destruct (square_ok _ Hx) as (Fx & Ex & Bx). destruct (square_ok _ Hy) as (Fy & Ey & By). destruct (square_ok _ Hz) as (Fz & Ez & Bz).
  unfold sum_of. set (a := mul64 _ _) in Fx, Ex, Bx |- *. set (b := mul64 _ _) in Fy, Ey, By |- *. set (c := mul64 _ _) in Fz, Ez, Bz |- *. clearbody a b c.
  destruct (add64_ok a b Fx Fy) as [E1 F1]; [apply le1000; apply Rabs_le_inv in Bx, By; apply Rabs_le; lra|].
  pose proof (err64 (B2R a + B2R b)) as R1. rewrite <- E1 in R1. pose proof tiny_small as T.
  assert (B1 : Rabs (B2R a + B2R b) <= 4) by (apply Rabs_le_inv in Bx, By; apply Rabs_le; lra).
  apply Rabs_le_inv in R1.
  assert (B2 : Rabs (B2R (add64 a b) + B2R c) <= 7) by (pose proof (Rabs_le_inv _ _ B1); apply Rabs_le_inv in Bz; apply Rabs_le; lra).
  destruct (add64_ok (add64 a b) c F1 Fz) as [E2 F2]; [apply le1000; lra|].
  split; [exact F2|]. pose proof (err64 (B2R (add64 a b) + B2R c)) as R2. rewrite <- E2 in R2. apply Rabs_le_inv in R2.
  unfold N. rewrite !plus_IZR. apply Rabs_le_inv in Ex, Ey, Ez. unfold u in *. apply Rabs_le. lra.
Qed.
Lemma norm_R v : is_finite (sum_of v) = true -> 0 <= B2R (sum_of v) -> 
  B2R (norm v) = rnd64 (sqrt (B2R (sum_of v))) /\ (0 < B2R (sum_of v) -> is_finite (norm v) = true).
Proof.
  intros F P. unfold norm. fold (sum_of v). destruct (Bsqrt_correct 53 1024 _ _ mode_NE (sum_of v)) as (E1 & E2 & _).
  split; [exact E1|]. intros Q. rewrite E2. destruct (sum_of v) as [s|s| |s m e Hm]; try reflexivity; try discriminate F.
  destruct s; [|reflexivity]. exfalso. cbn in Q. apply Rlt_not_le in Q. apply Q. apply F2R_le_0. cbn. lia.
Qed.

Definition lowR : R := 16609444 / 16777216.
Definition highR : R := 8472494 / 8388608.
Lemma low_ok : B2R (f64_of_f32 MIN_UNIT_VECTOR_NORM) = lowR /\ is_finite (f64_of_f32 MIN_UNIT_VECTOR_NORM) = true.
Proof.
  destruct (f64_of_f32_ok MIN_UNIT_VECTOR_NORM eq_refl) as [E F]. split; [|exact F]. rewrite E.
  unfold MIN_UNIT_VECTOR_NORM, B2R, F2R, lowR. cbn -[bpow]. change (-24)%Z with (Z.opp 24). rewrite (bpow_inv 24) by lia. change (2 ^ 24)%Z with 16777216%Z. lra.
Qed.
Lemma high_ok : B2R (f64_of_f32 MAX_UNIT_VECTOR_NORM) = highR /\ is_finite (f64_of_f32 MAX_UNIT_VECTOR_NORM) = true.
Proof.
  destruct (f64_of_f32_ok MAX_UNIT_VECTOR_NORM eq_refl) as [E F]. split; [|exact F]. rewrite E.
  unfold MAX_UNIT_VECTOR_NORM, B2R, F2R, highR. cbn -[bpow]. change (-23)%Z with (Z.opp 23). rewrite (bpow_inv 23) by lia. change (2 ^ 23)%Z with 8388608%Z. lra.
Qed.
Lemma fmt_frac z k : (Z.abs z <= 2 ^ 53)%Z -> (0 <= k <= 100)%Z -> fmt64 (IZR z / IZR (2 ^ k)).
Proof. intros H K. unfold Rdiv. rewrite <- bpow_inv by lia. apply fmt_Z; lia. Qed.
Lemma sqrt_rnd_le T d : 0 <= d -> T <= d * d -> fmt64 d -> rnd64 (sqrt T) <= d.
Proof.
  intros P H F. rewrite <- (rnd64_id d F). apply rnd64_le. rewrite <- (sqrt_square d P). apply sqrt_le_1_alt. exact H.
Qed.
Lemma sqrt_rnd_ge T d : 0 <= d -> d * d <= T -> fmt64 d -> d <= rnd64 (sqrt T).
Proof.
  intros P H F. rewrite <- (rnd64_id d F) at 1. apply rnd64_le. rewrite <- (sqrt_square d P) at 1. apply sqrt_le_1_alt. exact H.
Qed.
Lemma zero_norm : unitary (Vec 0 0 0) = false.
Proof. vm_compute. reflexivity. Qed.
Lemma unitary_ok v : in_type i8 (vx v) -> in_type i8 (vy v) -> in_type i8 (vz v) -> unitary v = true <-> nearly_unit v.
Proof.
  intros Hx Hy Hz. destruct (sum_ok v Hx Hy Hz) as [F E].
  unfold nearly_unit. fold (N v). change ((99 * 127) ^ 2)%Z with 158080329%Z. change ((101 * 127) ^ 2)%Z with 164531929%Z. change (100 ^ 2)%Z with 10000%Z.
  assert (HN : (0 <= N v)%Z) by (unfold N; nia).
  destruct (Z.eq_dec (N v) 0) as [E0|E0].
  { assert (V : v = Vec 0 0 0).
    { destruct v as [x y z]. unfold N in E0. cbn [vx vy vz] in E0. f_equal; nia. }
    rewrite V at 1. rewrite zero_norm. split; [discriminate|lia]. }
  assert (HN1 : 1 <= IZR (N v)) by (apply IZR_le; lia).
  unfold u in E. apply Rabs_le_inv in E.
  assert (PT : 0 < B2R (sum_of v)) by lra.
  destruct (norm_R v F (Rlt_le _ _ PT)) as [EN FN]. specialize (FN PT).
  destruct low_ok as [EL FL]. destruct high_ok as [EH FH].
  unfold unitary. set (T := B2R (sum_of v)) in *. clearbody T.
  assert (FmL : fmt64 lowR) by (exact (fmt_frac 16609444 24 ltac:(lia) ltac:(lia))).
  assert (FmH : fmt64 highR) by (exact (fmt_frac 8472494 23 ltac:(lia) ltac:(lia))).
  destruct (Z_le_gt_dec (N v) 15808) as [C|C].
  { apply IZR_le in C.
    replace (flt (norm v) _) with true; [split; [discriminate|]|].
    - intros [L _]. assert (N v <= 15808)%Z by (apply le_IZR; lra). lia.
    - symmetry. apply flt_true; [exact FN|exact FL|]. rewrite EN, EL. apply Rle_lt_trans with (16609443 / 16777216); [|unfold lowR; lra].
      apply sqrt_rnd_le; [lra|lra|exact (fmt_frac 16609443 24 ltac:(lia) ltac:(lia))]. }
  assert (C1 : 15809 <= IZR (N v)) by (apply IZR_le; lia).
  replace (flt (norm v) _) with false.
  2:{ symmetry. apply flt_false; [exact FN|exact FL|]. rewrite EN, EL. apply sqrt_rnd_ge; [unfold lowR; lra|unfold lowR; lra|exact FmL]. }
  destruct (Z_le_gt_dec (N v) 16453) as [D|D].
  - assert (D1 : IZR (N v) <= 16453) by (apply IZR_le; lia).
    replace (flt _ (norm v)) with false; [split; [lia|reflexivity]|].
    symmetry. apply flt_false; [exact FH|exact FN|]. rewrite EN, EH. apply sqrt_rnd_le; [unfold highR; lra|unfold highR; lra|exact FmH].
  - assert (D1 : 16454 <= IZR (N v)) by (apply IZR_le; lia).
    replace (flt _ (norm v)) with true; [split; [discriminate|lia]|].
    symmetry. apply flt_true; [exact FH|exact FN|]. rewrite EN, EH. apply Rlt_le_trans with (8472495 / 8388608); [unfold highR; lra|].
    apply sqrt_rnd_ge; [lra|lra|exact (fmt_frac 8472495 23 ltac:(lia) ltac:(lia))].
Qed.
