From Coq Require Import Reals Psatz.
From Flocq Require Import Core.Core.
Require Import Flocq.Prop.Relative.
From Verif Require Import Base BitsModel FloatBase FloatModel FloatSpec.
Local Open Scope R_scope.

Notation rnd32 := (round radix2 (FLT_exp (-149) 24) ZnearestE).
Notation rnd64 := (round radix2 (FLT_exp (-1074) 53) ZnearestE).
Notation fmt32 := (generic_format radix2 (FLT_exp (-149) 24)).
Notation fmt64 := (generic_format radix2 (FLT_exp (-1074) 53)).


Lemma bpow_IZR k : (0 <= k)%Z -> bpow radix2 k = IZR (2 ^ k).
Proof. intros H. rewrite <- IZR_Zpower by exact H. reflexivity. Qed.
Lemma bpow_inv k : (0 <= k)%Z -> bpow radix2 (- k) = / IZR (2 ^ k).
Proof. intros H. rewrite bpow_opp, bpow_IZR by exact H. reflexivity. Qed.

Lemma rnd32_le x y : x <= y -> rnd32 x <= rnd32 y.
Proof. apply round_le; typeclasses eauto. Qed.
Lemma rnd64_le x y : x <= y -> rnd64 x <= rnd64 y.
Proof. apply round_le; typeclasses eauto. Qed.
Lemma rnd32_id x : fmt32 x -> rnd32 x = x.
Proof. apply round_generic; typeclasses eauto. Qed.
Lemma rnd64_id x : fmt64 x -> rnd64 x = x.
Proof. apply round_generic; typeclasses eauto. Qed.
Lemma fmt32_B2R (x : f32) : fmt32 (B2R x).
Proof. exact (generic_format_B2R 24 128 x). Qed.
Lemma fmt64_B2R (x : f64) : fmt64 (B2R x).
Proof. exact (generic_format_B2R 53 1024 x). Qed.
Lemma fmt32_0 : fmt32 0. Proof. apply generic_format_0. Qed.
Lemma fmt64_0 : fmt64 0. Proof. apply generic_format_0. Qed.

(** Integers with few bits are representable. *)
Lemma fmt_Z emin prec z e : (0 < prec)%Z -> (emin <= e)%Z -> (Z.abs z <= 2 ^ prec)%Z ->
  generic_format radix2 (FLT_exp emin prec) (IZR z * bpow radix2 e).
Proof.
  intros Hp He Hz.
  destruct (Z.eq_dec (Z.abs z) (2 ^ prec)) as [E|NE].
  - (* power of two *)
    assert (H : Rabs (IZR z * bpow radix2 e) = bpow radix2 (prec + e)).
    { rewrite Rabs_mult, (Rabs_pos_eq (bpow _ _)) by apply bpow_ge_0.
      rewrite <- abs_IZR, E, <- bpow_IZR by lia. rewrite <- bpow_plus. reflexivity. }
    apply generic_format_abs_inv. rewrite H.
    apply generic_format_bpow. unfold FLT_exp. lia.
  - apply generic_format_FLT. exists (Float radix2 z e).
    + unfold F2R. cbn. reflexivity.
    + cbn [Fnum]. change (Zpower_nat 2) with (Zpower_nat radix2). 
      replace (radix2 ^ prec)%Z with (2 ^ prec)%Z by reflexivity. lia.
    + exact He.
Qed.

(** Operations on finite numbers whose result stays away from overflow. *)
Lemma round32_eq x : round radix2 (SpecFloat.fexp 24 128) (round_mode mode_NE) x = rnd32 x.
Proof. reflexivity. Qed.

Lemma rnd_bound emin prec x b : (0 < prec)%Z -> generic_format radix2 (FLT_exp emin prec) b -> 
  Rabs x <= b -> Rabs (round radix2 (FLT_exp emin prec) ZnearestE x) <= b.
Proof.
  intros Hp Hb Hx. assert (Hv : Valid_exp (FLT_exp emin prec)) by (apply FLT_exp_valid; exact Hp).
  apply abs_round_le_generic; [exact Hv|typeclasses eauto|exact Hb|exact Hx].
Qed.

Lemma fmt32_big : fmt32 (bpow radix2 100).
Proof. apply generic_format_bpow. unfold FLT_exp. lia. Qed.
Lemma fmt64_big : fmt64 (bpow radix2 1000).
Proof. apply generic_format_bpow. unfold FLT_exp. lia. Qed.

Ltac no_ovf B F :=
  rewrite Rlt_bool_true in *; 
  [|eapply Rle_lt_trans; [apply (rnd_bound _ _ _ _ eq_refl F); exact B|apply bpow_lt; reflexivity]].

Lemma add32_ok x y : is_finite x = true -> is_finite y = true -> Rabs (B2R x + B2R y) <= bpow radix2 100 ->
  B2R (add32 x y) = rnd32 (B2R x + B2R y) /\ is_finite (add32 x y) = true.
Proof.
  intros Hx Hy B. pose proof (Bplus_correct 24 128 _ _ mode_NE x y Hx Hy) as H.
  unfold add32. rewrite Rlt_bool_true in H.
  - destruct H as (H1 & H2 & _). split; [exact H1|exact H2].
  - eapply Rle_lt_trans; [apply (rnd_bound (-149) 24 _ _ eq_refl fmt32_big B)|apply bpow_lt; reflexivity].
Qed.
Lemma sub32_ok x y : is_finite x = true -> is_finite y = true -> Rabs (B2R x - B2R y) <= bpow radix2 100 ->
  B2R (sub32 x y) = rnd32 (B2R x - B2R y) /\ is_finite (sub32 x y) = true.
Proof.
  intros Hx Hy B. pose proof (Bminus_correct 24 128 _ _ mode_NE x y Hx Hy) as H.
  unfold sub32. rewrite Rlt_bool_true in H.
  - destruct H as (H1 & H2 & _). split; [exact H1|exact H2].
  - eapply Rle_lt_trans; [apply (rnd_bound (-149) 24 _ _ eq_refl fmt32_big B)|apply bpow_lt; reflexivity].
Qed.
Lemma mul32_ok x y : is_finite x = true -> is_finite y = true -> Rabs (B2R x * B2R y) <= bpow radix2 100 ->
  B2R (mul32 x y) = rnd32 (B2R x * B2R y) /\ is_finite (mul32 x y) = true.
Proof.
  intros Hx Hy B. pose proof (Bmult_correct 24 128 _ _ mode_NE x y) as H.
  unfold mul32. rewrite Rlt_bool_true in H.
  - destruct H as (H1 & H2 & _). rewrite Hx, Hy in H2. split; [exact H1|exact H2].
  - eapply Rle_lt_trans; [apply (rnd_bound (-149) 24 _ _ eq_refl fmt32_big B)|apply bpow_lt; reflexivity].
Qed.
Lemma mul64_ok x y : is_finite x = true -> is_finite y = true -> Rabs (B2R x * B2R y) <= bpow radix2 1000 ->
  B2R (mul64 x y) = rnd64 (B2R x * B2R y) /\ is_finite (mul64 x y) = true.
Proof.
  intros Hx Hy B. pose proof (Bmult_correct 53 1024 _ _ mode_NE x y) as H.
  unfold mul64. rewrite Rlt_bool_true in H.
  - destruct H as (H1 & H2 & _). rewrite Hx, Hy in H2. split; [exact H1|exact H2].
  - eapply Rle_lt_trans; [apply (rnd_bound (-1074) 53 _ _ eq_refl fmt64_big B)|apply bpow_lt; reflexivity].
Qed.
Lemma div32_ok (x y : f32) : is_finite x = true -> 1 <= Rabs (B2R y) ->
  B2R (div32 x y) = rnd32 (B2R x / B2R y) /\ is_finite (div32 x y) = true.
Proof.
  intros Hx Hy. 
  assert (Hy0 : B2R y <> 0) by (intros C; rewrite C, Rabs_R0 in Hy; lra).
  pose proof (Bdiv_correct 24 128 _ _ mode_NE x y Hy0) as H.
  unfold div32. rewrite Rlt_bool_true in H.
  - destruct H as (H1 & H2 & _). rewrite Hx in H2. split; [exact H1|exact H2].
  - apply Rle_lt_trans with (Rabs (B2R x)); [|exact (abs_B2R_lt_emax 24 128 x)].
    apply (rnd_bound (-149) 24 _ _ eq_refl); [apply generic_format_abs, fmt32_B2R|].
    unfold Rdiv. rewrite Rabs_mult, Rabs_inv. 
    apply Rle_trans with (Rabs (B2R x) * 1); [|lra].
    apply Rmult_le_compat_l; [apply Rabs_pos|].
    rewrite <- Rinv_1. apply Rinv_le; lra.
Qed.

Lemma f32_of_Z_ok z : (Z.abs z <= 2 ^ 64)%Z -> B2R (f32_of_Z z) = rnd32 (IZR z) /\ is_finite (f32_of_Z z) = true.
Proof.
  intros Hz. pose proof (binary_normalize_correct 24 128 prec24 emax128 mode_NE z 0 false) as H.
  cbv zeta in H. unfold f32_of_Z. 
  assert (E : F2R (Float radix2 z 0) = IZR z) by (unfold F2R; cbn; ring).
  rewrite E in H. rewrite Rlt_bool_true in H.
  - destruct H as (H1 & H2 & _). split; [exact H1|exact H2].
  - eapply Rle_lt_trans; [apply (rnd_bound (-149) 24 _ (bpow radix2 100) eq_refl fmt32_big)|apply bpow_lt; reflexivity].
    rewrite <- abs_IZR. rewrite bpow_IZR by lia. apply IZR_le. 
    eapply Z.le_trans; [exact Hz|]. apply Z.pow_le_mono_r; lia.
Qed.
Lemma f64_of_Z_ok z : (Z.abs z <= 2 ^ 53)%Z -> B2R (f64_of_Z z) = IZR z /\ is_finite (f64_of_Z z) = true.
Proof.
  intros Hz. pose proof (binary_normalize_correct 53 1024 prec53 emax1024 mode_NE z 0 false) as H.
  cbv zeta in H. unfold f64_of_Z. 
  assert (E : F2R (Float radix2 z 0) = IZR z) by (unfold F2R; cbn; ring).
  assert (R0 : rnd64 (IZR z) = IZR z).
  { apply rnd64_id. rewrite <- (Rmult_1_r (IZR z)). apply (fmt_Z (-1074) 53 z 0); lia. }
  rewrite E in H. rewrite Rlt_bool_true in H.
  - destruct H as (H1 & H2 & _). split; [|exact H2]. rewrite H1. exact R0.
  - eapply Rle_lt_trans; [apply (rnd_bound (-1074) 53 _ (bpow radix2 1000) eq_refl fmt64_big)|apply bpow_lt; reflexivity].
    rewrite <- abs_IZR. rewrite bpow_IZR by lia. apply IZR_le. 
    eapply Z.le_trans; [exact Hz|]. apply Z.pow_le_mono_r; lia.
Qed.
Lemma f64_of_f32_ok (x : f32) : is_finite x = true -> B2R (f64_of_f32 x) = B2R x /\ is_finite (f64_of_f32 x) = true.
Proof.
  intros Hx. destruct x as [s|s| |s m e He]; try discriminate; [split; reflexivity|].
  cbn [f64_of_f32].
  pose proof (binary_normalize_correct 53 1024 prec53 emax1024 mode_NE (cond_Zopp s (Zpos m)) e s) as H.
  cbv zeta in H. 
  assert (F : fmt32 (F2R (Float radix2 (cond_Zopp s (Zpos m)) e))) by exact (fmt32_B2R (B754_finite s m e He)).
  assert (F' : fmt64 (F2R (Float radix2 (cond_Zopp s (Zpos m)) e))).
  { eapply generic_inclusion_mag; [|exact F]. intros _. unfold FLT_exp. lia. }
  assert (R0 : rnd64 (F2R (Float radix2 (cond_Zopp s (Zpos m)) e)) = F2R (Float radix2 (cond_Zopp s (Zpos m)) e)) by (apply rnd64_id; exact F').
  rewrite Rlt_bool_true in H.
  - destruct H as (H1 & H2 & _). split; [|exact H2]. rewrite H1. exact R0.
  - assert (R1 : round radix2 (SpecFloat.fexp 53 1024) (round_mode mode_NE) (F2R (Float radix2 (cond_Zopp s (Zpos m)) e))
                 = F2R (Float radix2 (cond_Zopp s (Zpos m)) e)) by exact R0.
    rewrite R1.
    eapply Rlt_trans; [exact (abs_B2R_lt_emax 24 128 (B754_finite s m e He))|apply bpow_lt; reflexivity].
Qed.

(** Comparison of finite numbers. *)
Lemma flt_R {p e} (x y : binary_float p e) : is_finite x = true -> is_finite y = true ->
  flt x y = true <-> B2R x < B2R y.
Proof.
  intros Hx Hy. unfold flt. rewrite Bcompare_correct by assumption.
  destruct (Rcompare_spec (B2R x) (B2R y)); split; intros; try discriminate; try lra; reflexivity.
Qed.
Lemma fclamp_ok (x lo hi : f32) : is_finite x = true -> is_finite lo = true -> is_finite hi = true ->
  B2R lo <= B2R hi ->
  B2R (fclamp x lo hi) = clampR (B2R lo) (B2R hi) (B2R x) /\ is_finite (fclamp x lo hi) = true.
Proof.
  intros Hx Hl Hh L. unfold fclamp, clampR.
  destruct (flt x lo) eqn:E1.
  - apply flt_R in E1; [|assumption..]. split; [|exact Hl].
    rewrite Rmin_right by lra. rewrite Rmax_left by lra. reflexivity.
  - assert (~ B2R x < B2R lo) by (intros C; apply flt_R in C; [congruence|assumption..]).
    destruct (flt hi x) eqn:E2.
    + apply flt_R in E2; [|assumption..]. split; [|exact Hh].
      rewrite Rmin_left by lra. rewrite Rmax_right by lra. reflexivity.
    + assert (~ B2R hi < B2R x) by (intros C; apply flt_R in C; [congruence|assumption..]).
      split; [|exact Hx]. rewrite Rmin_right by lra. rewrite Rmax_right by lra. reflexivity.
Qed.
Lemma clampR_range lo hi x : lo <= hi -> lo <= clampR lo hi x <= hi.
Proof. intros H. unfold clampR. split; [apply Rmax_l|]. apply Rmax_lub; [exact H|apply Rmin_l]. Qed.
Lemma clampR_id lo hi x : lo <= x <= hi -> clampR lo hi x = x.
Proof. intros H. unfold clampR. rewrite Rmin_right by lra. apply Rmax_right; lra. Qed.
Lemma clampR_le lo hi x y : x <= y -> clampR lo hi x <= clampR lo hi y.
Proof. intros H. unfold clampR. apply Rle_max_compat_l, Rle_min_compat_l; exact H. Qed.
Lemma clampR_lo lo hi x : lo <= hi -> x <= lo -> clampR lo hi x = lo.
Proof. intros H ?. unfold clampR. rewrite Rmin_right by lra. apply Rmax_left; lra. Qed.
Lemma clampR_hi lo hi x : lo <= hi -> hi <= x -> clampR lo hi x = hi.
Proof. intros H ?. unfold clampR. rewrite Rmin_left by lra. apply Rmax_right; lra. Qed.

Lemma B2R_1 : B2R f32_1 = 1.
Proof. unfold f32_1, B2R, F2R. cbn -[bpow]. change (-23)%Z with (Z.opp 23). rewrite (bpow_inv 23) by lia. cbn. lra. Qed.

(** Truncation of a non-negative number. *)
Lemma Btrunc_floor (x : f64) : 0 <= B2R x -> Btrunc x = Zfloor (B2R x).
Proof.
  intros Hx. apply eq_IZR. rewrite (Btrunc_correct 53 1024 emax1024).
  rewrite round_FIX_IZR. rewrite Ztrunc_floor by exact Hx. reflexivity.
Qed.

(** Rounding errors. *)
Lemma err32 x : Rabs (rnd32 x - x) <= / 16777216 * Rabs x + bpow radix2 (-150).
Proof.
  destruct (error_N_FLT radix2 (-149) 24 eq_refl (fun x => negb (Z.even x)) x) as (eps & eta & H1 & H2 & _ & E).
  rewrite E. replace (x * (1 + eps) + eta - x) with (x * eps + eta) by ring.
  eapply Rle_trans; [apply Rabs_triang|]. apply Rplus_le_compat.
  - rewrite Rabs_mult, Rmult_comm. apply Rmult_le_compat_r; [apply Rabs_pos|].
    eapply Rle_trans; [exact H1|]. assert (B : bpow radix2 (Z.opp 24 + 1) = / 8388608) by exact (bpow_inv 23 ltac:(lia)). rewrite B. lra.
  - eapply Rle_trans; [exact H2|]. change (/ 2) with (bpow radix2 (-1)). rewrite <- bpow_plus. right. reflexivity.
Qed.
Lemma err64 x : Rabs (rnd64 x - x) <= / 9007199254740992 * Rabs x + bpow radix2 (-150).
Proof.
  destruct (error_N_FLT radix2 (-1074) 53 eq_refl (fun x => negb (Z.even x)) x) as (eps & eta & H1 & H2 & _ & E).
  rewrite E. replace (x * (1 + eps) + eta - x) with (x * eps + eta) by ring.
  eapply Rle_trans; [apply Rabs_triang|]. apply Rplus_le_compat.
  - rewrite Rabs_mult, Rmult_comm. apply Rmult_le_compat_r; [apply Rabs_pos|].
    eapply Rle_trans; [exact H1|]. assert (B : bpow radix2 (Z.opp 53 + 1) = / 4503599627370496) by exact (bpow_inv 52 ltac:(lia)). rewrite B. lra.
  - eapply Rle_trans; [exact H2|]. change (/ 2) with (bpow radix2 (-1)). rewrite <- bpow_plus.
    apply bpow_le. lia.
Qed.
Lemma tiny_pos : 0 < bpow radix2 (-150). Proof. apply bpow_gt_0. Qed.
Lemma tiny_small : bpow radix2 (-150) <= / 1152921504606846976.
Proof. apply Rle_trans with (bpow radix2 (Z.opp 60)); [apply bpow_le; lia|]. rewrite (bpow_inv 60) by lia. right. reflexivity. Qed.

Section Range.
Variables mn mx : f32.
Hypothesis Hr : range_ok mn mx.
Let R := B2R mx - B2R mn.

Lemma R_bounds : 1 <= R <= 1048576.
Proof. destruct Hr as (_ & _ & _ & H & _). exact H. Qed.
Lemma R_fmt : fmt32 R.
Proof. destruct Hr as (_ & _ & _ & _ & r & _ & H). unfold R. rewrite <- H. apply fmt32_B2R. Qed.
Lemma mn_bounds : -1048576 <= B2R mn <= 0.
Proof. destruct Hr as (_ & _ & H & H' & _). unfold R in *. lra. Qed.

Lemma big_le x : Rabs x <= 4194304 -> Rabs x <= bpow radix2 100.
Proof.
  intros H. eapply Rle_trans; [exact H|]. rewrite bpow_IZR by lia. apply IZR_le. cbn. lia.
Qed.

Lemma range_R : B2R (sub32 mx mn) = R /\ is_finite (sub32 mx mn) = true.
Proof.
  destruct Hr as (F1 & F2 & _ & H & _).
  destruct (sub32_ok mx mn F2 F1) as [E F].
  { apply big_le. rewrite Rabs_pos_eq; lra. }
  split; [|exact F]. rewrite E. apply rnd32_id, R_fmt.
Qed.

Definition norm (v : f32) : f32 := fclamp (div32 (sub32 v mn) (sub32 mx mn)) f32_0 f32_1.

Lemma fmt32_1 : fmt32 1. Proof. rewrite <- B2R_1. apply fmt32_B2R. Qed.

Lemma sub_inf (v : f32) : is_nan v = false ->
  (is_finite v = true /\ B2R (sub32 v mn) = rnd32 (B2R v - B2R mn) /\ is_finite (sub32 v mn) = true) \/
  (exists s, sub32 v mn = B754_infinity s /\ 
     (is_finite v = true -> if s then rnd32 (B2R v - B2R mn) <= - R else R <= rnd32 (B2R v - B2R mn))).
Proof.
  intros Hn. destruct Hr as (F1 & _ & Hb & HR & _). fold R in HR.
  destruct (is_finite v) eqn:Fv.
  - pose proof (Bminus_correct 24 128 _ _ mode_NE v mn Fv F1) as H.
    rewrite round32_eq in H.
    unfold sub32. destruct (Rlt_bool_spec (Rabs (rnd32 (B2R v - B2R mn))) (bpow radix2 128)) as [L|L].
    + left. destruct H as (H1 & H2 & _). auto.
    + right. destruct H as (H1 & H2). exists (Bsign v).
      assert (B : bpow radix2 128 >= 2097153).
      { rewrite bpow_IZR by lia. apply Rle_ge, IZR_le. cbn. lia. }
      split.
      * apply B2SF_inj. rewrite H1. destruct (Bsign v); reflexivity.
      * intros _. 
        (* the sign of v decides *)
        assert (Sg : if Bsign v then B2R v <= 0 else 0 <= B2R v).
        { destruct v as [s|s| |s m e He]; try discriminate; cbn [Bsign B2R]; destruct s; try lra.
          - apply Rlt_le, F2R_lt_0. reflexivity.
          - apply Rlt_le, F2R_gt_0. reflexivity. }
        destruct (Bsign v).
        -- assert (rnd32 (B2R v - B2R mn) <= rnd32 R).
           { apply rnd32_le. unfold R. lra. }
           rewrite (rnd32_id R R_fmt) in H.
           unfold Rabs in L. destruct (Rcase_abs _); lra.
        -- assert (0 <= rnd32 (B2R v - B2R mn)).
           { rewrite <- (rnd32_id 0 fmt32_0). apply rnd32_le. lra. }
           unfold Rabs in L. destruct (Rcase_abs _); lra.
  - right. destruct v as [s|s| |s m e He]; try discriminate. exists s. split; [|discriminate].
    destruct mn as [s'|s'| |s' m' e' He']; try discriminate; reflexivity.
Qed.

Lemma div_inf s : exists y : f32, sub32 mx mn = y /\ div32 (B754_infinity s) y = B754_infinity s.
Proof.
  destruct range_R as [E F]. pose proof R_bounds as HR.
  exists (sub32 mx mn). split; [reflexivity|].
  destruct (sub32 mx mn) as [s'|s'| |s' m' e' He']; try discriminate.
  - cbn in E. lra.
  - destruct s'.
    + exfalso. assert (B2R (B754_finite true m' e' He' : f32) < 0) by (cbn; apply F2R_lt_0; reflexivity). lra.
    + cbn. rewrite xorb_false_r. reflexivity.
Qed.

(** The normalised value of a number that is not NaN. *)
Lemma norm_spec v : is_nan v = false ->
  is_finite (norm v) = true /\ 0 <= B2R (norm v) <= 1 /\
  (is_finite v = true -> B2R (norm v) = clampR 0 1 (rnd32 (rnd32 (B2R v - B2R mn) / R))).
Proof.
  intros Hn. destruct range_R as [ER FR]. pose proof R_bounds as HR.
  destruct (sub_inf v Hn) as [(Fv & E & F)|(s & E & Hs)].
  - destruct (div32_ok (sub32 v mn) (sub32 mx mn) F) as [E2 F2].
    { rewrite ER, Rabs_pos_eq; lra. }
    destruct (fclamp_ok (div32 (sub32 v mn) (sub32 mx mn)) f32_0 f32_1 F2 eq_refl eq_refl) as [E3 F3].
    { rewrite B2R_1. cbn. lra. }
    unfold norm. split; [exact F3|]. rewrite E3, B2R_1. change (B2R f32_0) with 0. split.
    + apply clampR_range; lra.
    + intros _. rewrite E2, E, ER. reflexivity.
  - unfold norm. rewrite E. destruct (div_inf s) as (y & Ey & Ed). rewrite Ey, Ed.
    destruct s.
    + change (fclamp (B754_infinity true) f32_0 f32_1) with f32_0. change (B2R f32_0) with 0.
      split; [reflexivity|]. split; [lra|]. intros Fv. specialize (Hs Fv). cbn in Hs.
      symmetry. apply clampR_lo; [lra|]. rewrite <- (rnd32_id 0 fmt32_0). apply rnd32_le.
      apply Rle_trans with (- R / R); [apply Rmult_le_compat_r; [apply Rlt_le, Rinv_0_lt_compat; lra|exact Hs]|].
      unfold Rdiv. rewrite Ropp_mult_distr_l_reverse, Rinv_r by lra. lra.
    + change (fclamp (B754_infinity false) f32_0 f32_1) with f32_1. rewrite B2R_1. split; [reflexivity|]. split; [lra|]. intros Fv. specialize (Hs Fv). cbn in Hs.
      symmetry. apply clampR_hi; [lra|]. rewrite <- (rnd32_id 1 fmt32_1). apply rnd32_le.
      apply Rle_trans with (R / R); [right; field; lra|apply Rmult_le_compat_r; [apply Rlt_le, Rinv_0_lt_compat; lra|exact Hs]].
Qed.

(** How far the normalised value is from the exact quotient. *)
Lemma norm_error v : is_finite v = true ->
  Rabs (B2R (norm v) - clampR 0 1 ((B2R v - B2R mn) / R)) <= 3 * / 16777216.
Proof.
  intros Fv. destruct (norm_spec v) as (_ & _ & E); [destruct v; try discriminate; reflexivity|].
  rewrite (E Fv). clear E. pose proof R_bounds as HR. pose proof tiny_pos. pose proof tiny_small.
  set (x := B2R v - B2R mn).
  assert (RI : 0 < / R) by (apply Rinv_0_lt_compat; lra).
  assert (RI1 : / R <= 1) by (rewrite <- Rinv_1; apply Rinv_le; lra).
  destruct (Rle_lt_dec R x) as [H1|H1].
  { assert (R <= rnd32 x) by (rewrite <- (rnd32_id R R_fmt); apply rnd32_le; exact H1).
    assert (1 <= x / R) by (apply Rle_trans with (R / R); [right; field; lra|apply Rmult_le_compat_r; lra]).
    assert (1 <= rnd32 x / R) by (apply Rle_trans with (R / R); [right; field; lra|apply Rmult_le_compat_r; lra]).
    assert (1 <= rnd32 (rnd32 x / R)) by (rewrite <- (rnd32_id 1 fmt32_1) at 1; apply rnd32_le; assumption).
    rewrite !clampR_hi by lra. rewrite Rminus_diag_eq by reflexivity. rewrite Rabs_R0. lra. }
  destruct (Rle_lt_dec x 0) as [H2|H2].
  { assert (rnd32 x <= 0) by (rewrite <- (rnd32_id 0 fmt32_0); apply rnd32_le; exact H2).
    assert (x / R <= 0) by (unfold Rdiv; nra).
    assert (rnd32 x / R <= 0) by (unfold Rdiv; nra).
    assert (rnd32 (rnd32 x / R) <= 0) by (rewrite <- (rnd32_id 0 fmt32_0); apply rnd32_le; assumption).
    rewrite !clampR_lo by lra. rewrite Rminus_diag_eq by reflexivity. rewrite Rabs_R0. lra. }
  assert (A0 : 0 <= rnd32 x) by (rewrite <- (rnd32_id 0 fmt32_0); apply rnd32_le; lra).
  assert (A1 : rnd32 x <= R) by (rewrite <- (rnd32_id R R_fmt); apply rnd32_le; lra).
  assert (T0 : 0 <= x / R <= 1).
  { split; [unfold Rdiv; nra|]. apply Rle_trans with (R / R); [apply Rmult_le_compat_r; lra|right; field; lra]. }
  assert (Q0 : 0 <= rnd32 x / R <= 1).
  { split; [unfold Rdiv; nra|]. apply Rle_trans with (R / R); [apply Rmult_le_compat_r; lra|right; field; lra]. }
  assert (Q1 : 0 <= rnd32 (rnd32 x / R) <= 1).
  { split; [rewrite <- (rnd32_id 0 fmt32_0)|rewrite <- (rnd32_id 1 fmt32_1)]; apply rnd32_le; lra. }
  rewrite !clampR_id by lra.
  pose proof (err32 x) as E1. pose proof (err32 (rnd32 x / R)) as E2.
  rewrite (Rabs_pos_eq x) in E1 by lra. rewrite (Rabs_pos_eq (rnd32 x / R)) in E2 by lra.
  replace (rnd32 (rnd32 x / R) - x / R) with ((rnd32 (rnd32 x / R) - rnd32 x / R) + (rnd32 x - x) * / R) by (field; lra).
  eapply Rle_trans; [apply Rabs_triang|]. rewrite Rabs_mult, (Rabs_pos_eq (/ R)) by lra.
  assert (Rabs (rnd32 x - x) * / R <= (/ 16777216 * x + bpow radix2 (-150)) * / R) by (apply Rmult_le_compat_r; lra).
  assert ((/ 16777216 * x + bpow radix2 (-150)) * / R <= / 16777216 * (x / R) + bpow radix2 (-150)) by (unfold Rdiv; nra).
  lra.
Qed.

Section Code.
Variables (T : ctype) (n : nat).
Hypothesis Hc : code_type T n.
Let M := (2 ^ Z.of_nat n - 1)%Z.

Lemma M_bounds : (1 <= M <= 4294967295)%Z.
Proof.
  destruct Hc as (_ & [H1 _] & H2). unfold M. split.
  - assert (2 ^ 1 <= 2 ^ Z.of_nat n)%Z by (apply Z.pow_le_mono_r; lia). lia.
  - assert (2 ^ Z.of_nat n <= 2 ^ 32)%Z by (apply Z.pow_le_mono_r; lia). lia.
Qed.
Lemma M_R : 1 <= IZR M <= 4294967295.
Proof. pose proof M_bounds. split; apply IZR_le; lia. Qed.

Lemma in_T k : (0 <= k <= M)%Z -> (k =? cast T k)%Z = true.
Proof.
  intros Hk. destruct Hc as (Hs & Hn & _). unfold cast. rewrite Hs. unfold to_unsigned.
  apply Z.eqb_eq. symmetry. apply Z.mod_small. unfold M in Hk.
  assert (2 ^ Z.of_nat n <= 2 ^ Z.of_nat (ct_width T))%Z by (apply Z.pow_le_mono_r; lia). lia.
Qed.

Lemma fmt64_M : fmt64 (IZR M).
Proof. rewrite <- (Rmult_1_r (IZR M)). apply (fmt_Z (-1074) 53 M 0); pose proof M_bounds; lia. Qed.

(** The code of a number that is not NaN. *)
Lemma encode_spec v : is_nan v = false ->
  encodeFloat T n v mn mx = Ok (Zfloor (rnd64 (B2R (norm v) * IZR M)))
  /\ (0 <= Zfloor (rnd64 (B2R (norm v) * IZR M)) <= M)%Z.
Proof.
  intros Hn. destruct (norm_spec v Hn) as (F & B & _). unfold encodeFloat. fold (norm v).
  destruct (f64_of_f32_ok (norm v) F) as [E1 F1].
  pose proof M_bounds as HM. pose proof M_R as HM'.
  destruct (f64_of_Z_ok M) as [E2 F2]; [lia|]. fold M.
  assert (P0 : 0 <= B2R (norm v) * IZR M) by nra.
  assert (P1 : B2R (norm v) * IZR M <= IZR M) by nra.
  destruct (mul64_ok (f64_of_f32 (norm v)) (f64_of_Z M) F1 F2) as [E3 F3].
  { rewrite E1, E2. rewrite Rabs_pos_eq by exact P0. rewrite bpow_IZR by lia.
    eapply Rle_trans; [exact P1|]. apply IZR_le. eapply Z.le_trans; [apply (proj2 HM)|].
    apply Z.le_trans with (2 ^ 32)%Z; [lia|apply Z.pow_le_mono_r; lia]. }
  rewrite E1, E2 in E3.
  assert (Q0 : 0 <= rnd64 (B2R (norm v) * IZR M)) by (rewrite <- (rnd64_id 0 fmt64_0); apply rnd64_le; exact P0).
  assert (Q1 : rnd64 (B2R (norm v) * IZR M) <= IZR M) by (eapply Rle_trans; [apply rnd64_le; exact P1|right; apply rnd64_id, fmt64_M]).
  assert (K : (0 <= Zfloor (rnd64 (B2R (norm v) * IZR M)) <= M)%Z).
  { split; [apply Zfloor_lub; exact Q0|]. apply le_IZR. eapply Rle_trans; [apply Zfloor_lb|exact Q1]. }
  split; [|exact K].
  unfold int_of_float. rewrite F3. rewrite Btrunc_floor by (rewrite E3; exact Q0). rewrite E3.
  rewrite in_T by exact K. reflexivity.
Qed.

Lemma code_error v k : is_nan v = false -> encodeFloat T n v mn mx = Ok k ->
  IZR k <= B2R (norm v) * IZR M + (/ 1048576 * / 4294967296 * IZR M) /\
  B2R (norm v) * IZR M - (/ 1048576 * / 4294967296 * IZR M) < IZR k + 1.
Proof.
  intros Hn E. destruct (encode_spec v Hn) as [E' _]. rewrite E' in E. injection E as <-.
  destruct (norm_spec v Hn) as (_ & B & _).
  set (x := B2R (norm v) * IZR M). pose proof M_R as HM.
  assert (0 <= x <= IZR M) by (unfold x; nra).
  pose proof (err64 x) as Er. rewrite (Rabs_pos_eq x) in Er by lra. pose proof tiny_pos. pose proof tiny_small.
  pose proof (Zfloor_lb (rnd64 x)). pose proof (Zfloor_ub (rnd64 x)).
  apply Rabs_le_inv in Er. 
  assert (/ 9007199254740992 * x <= / 9007199254740992 * IZR M) by lra.
  assert (bpow radix2 (-150) <= / 1152921504606846976 * IZR M) by lra.
  split; lra.
Qed.

(** The decoded value of a code. *)
Definition dnorm (k : Z) := clampR 0 1 (rnd32 (rnd32 (IZR k) / rnd32 (IZR M))).
Lemma rnd_M : IZR M * (1 - / 8388608) <= rnd32 (IZR M) /\ 1 <= rnd32 (IZR M).
Proof.
  pose proof M_R as HM. pose proof (err32 (IZR M)) as Er. rewrite (Rabs_pos_eq (IZR M)) in Er by lra.
  apply Rabs_le_inv in Er. pose proof tiny_small. pose proof tiny_pos. split; [lra|].
  rewrite <- (rnd32_id 1 fmt32_1). apply rnd32_le. lra.
Qed.
Lemma dnorm_ok k : (0 <= k <= M)%Z ->
  let q := fclamp (div32 (f32_of_Z k) (f32_of_Z M)) f32_0 f32_1 in
  is_finite q = true /\ B2R q = dnorm k.
Proof.
  intros Hk q. pose proof M_bounds as HM. destruct rnd_M as [_ RM].
  destruct (f32_of_Z_ok k) as [E1 F1]; [lia|]. destruct (f32_of_Z_ok M) as [E2 F2]; [lia|].
  destruct (div32_ok (f32_of_Z k) (f32_of_Z M) F1) as [E3 F3].
  { rewrite E2. rewrite Rabs_pos_eq; lra. }
  destruct (fclamp_ok (div32 (f32_of_Z k) (f32_of_Z M)) f32_0 f32_1 F3 eq_refl eq_refl) as [E4 F4].
  { rewrite B2R_1. cbn. lra. }
  split; [exact F4|]. unfold q. rewrite E4, E3, E1, E2, B2R_1. reflexivity.
Qed.

Lemma dnorm_range k : 0 <= dnorm k <= 1.
Proof. apply clampR_range; lra. Qed.

Lemma dnorm_error k : (0 <= k <= M)%Z -> Rabs (dnorm k - IZR k / IZR M) <= 4 * / 16777216.
Proof.
  intros Hk. pose proof M_R as HM. destruct rnd_M as [RM1 RM2]. 
  assert (K0 : 0 <= IZR k) by (apply IZR_le; lia). assert (K1 : IZR k <= IZR M) by (apply IZR_le; lia).
  assert (A0 : 0 <= rnd32 (IZR k)) by (rewrite <- (rnd32_id 0 fmt32_0); apply rnd32_le; exact K0).
  assert (A1 : rnd32 (IZR k) <= rnd32 (IZR M)) by (apply rnd32_le; exact K1).
  set (a := rnd32 (IZR k)) in *. set (b := rnd32 (IZR M)) in *. set (x := IZR k) in *. set (m := IZR M) in *.
  assert (Q : 0 <= a / b <= 1).
  { assert (0 < / b) by (apply Rinv_0_lt_compat; lra). split; [unfold Rdiv; nra|].
    apply Rle_trans with (b / b); [apply Rmult_le_compat_r; lra|right; field; lra]. }
  assert (Q1 : 0 <= rnd32 (a / b) <= 1).
  { split; [rewrite <- (rnd32_id 0 fmt32_0)|rewrite <- (rnd32_id 1 fmt32_1)]; apply rnd32_le; lra. }
  unfold dnorm. change (rnd32 (IZR k) / rnd32 (IZR M)) with (a / b). rewrite clampR_id by exact Q1.
  pose proof (err32 (a / b)) as E0. rewrite (Rabs_pos_eq (a / b)) in E0 by lra.
  pose proof (err32 x) as E1. rewrite (Rabs_pos_eq x) in E1 by lra. fold x in E1. change (rnd32 x) with a in E1.
  pose proof (err32 m) as E2. rewrite (Rabs_pos_eq m) in E2 by lra. change (rnd32 m) with b in E2.
  pose proof tiny_small as TS. pose proof tiny_pos as TP. set (t := bpow radix2 (-150)) in *.
  replace (rnd32 (a / b) - x / m) with ((rnd32 (a / b) - a / b) + ((a - x) * m - x * (b - m)) * / (b * m)) by (field; lra).
  eapply Rle_trans; [apply Rabs_triang|]. 
  assert (BM : 0 < b * m) by nra. assert (IB : 0 < / (b * m)) by (apply Rinv_0_lt_compat; exact BM).
  rewrite Rabs_mult, (Rabs_pos_eq (/ (b * m))) by lra.
  assert (N : Rabs ((a - x) * m - x * (b - m)) <= 2 * m * (/ 16777216 * m + t)).
  { unfold Rminus at 1. eapply Rle_trans; [apply Rabs_triang|]. rewrite Rabs_Ropp, !Rabs_mult.
    rewrite (Rabs_pos_eq m), (Rabs_pos_eq x) by lra.
    assert (Rabs (a - x) * m <= (/ 16777216 * m + t) * m) by (apply Rmult_le_compat_r; lra).
    assert (x * Rabs (b - m) <= m * (/ 16777216 * m + t)) by (apply Rmult_le_compat; try lra; apply Rabs_pos). 
    lra. }
  assert (N2 : Rabs ((a - x) * m - x * (b - m)) * / (b * m) <= 2 * m * (/ 16777216 * m + t) * / (b * m)) by (apply Rmult_le_compat_r; lra).
  assert (N3 : 2 * m * (/ 16777216 * m + t) * / (b * m) <= / 6710886).
  { apply Rmult_le_reg_r with (b * m); [exact BM|]. rewrite Rmult_assoc, Rinv_l by lra.
    assert (t <= / 1152921504606846976 * m) by lra.
    assert (m * (1 - / 8388608) <= b) by exact RM1.
    assert (2 * m * (/ 16777216 * m + t) <= 2 * m * ((/ 16777216 + / 1152921504606846976) * m)) by (apply Rmult_le_compat_l; lra).
    assert (/ 6710886 * (m * (1 - / 8388608)) * m <= / 6710886 * b * m) by (apply Rmult_le_compat_r; lra).
    assert (0 <= m * m) by nra. lra. }
  lra.
Qed.

Lemma mul_range a : 0 <= a <= 1 -> 0 <= rnd32 (a * R) <= R.
Proof.
  intros Ha. pose proof R_bounds as HR. split.
  - rewrite <- (rnd32_id 0 fmt32_0). apply rnd32_le. nra.
  - eapply Rle_trans; [apply rnd32_le with (y := R); nra|right; apply rnd32_id, R_fmt].
Qed.

Lemma decode_spec k : (0 <= k <= M)%Z ->
  is_finite (decodeFloat n k mn mx) = true /\
  B2R (decodeFloat n k mn mx) = rnd32 (rnd32 (dnorm k * R) + B2R mn).
Proof.
  intros Hk. destruct (dnorm_ok k Hk) as [F1 E1]. destruct range_R as [E2 F2].
  pose proof (dnorm_range k) as D. pose proof R_bounds as HR. pose proof mn_bounds as Hmn.
  unfold decodeFloat. fold M.
  set (q := fclamp (div32 (f32_of_Z k) (f32_of_Z M)) f32_0 f32_1) in *.
  destruct (mul32_ok q (sub32 mx mn) F1 F2) as [E3 F3].
  { rewrite E1, E2. apply big_le. rewrite Rabs_pos_eq; nra. }
  rewrite E1, E2 in E3. pose proof (mul_range (dnorm k) D) as MR.
  destruct Hr as (Fm & _).
  destruct (add32_ok (mul32 q (sub32 mx mn)) mn F3 Fm) as [E4 F4].
  { rewrite E3. apply big_le. apply Rabs_le. lra. }
  split; [exact F4|]. rewrite E4, E3. reflexivity.
Qed.

(** Every code decodes to a number of the range. *)
Lemma decode_range k : (0 <= k <= M)%Z ->
  is_finite (decodeFloat n k mn mx) = true /\ B2R mn <= B2R (decodeFloat n k mn mx) <= B2R mx.
Proof.
  intros Hk. destruct (decode_spec k Hk) as [F E]. split; [exact F|]. rewrite E.
  pose proof (mul_range _ (dnorm_range k)) as MR.
  split.
  - eapply Rle_trans; [right; symmetry; apply rnd32_id, (fmt32_B2R mn)|]. apply rnd32_le. lra.
  - eapply Rle_trans; [|right; apply rnd32_id, (fmt32_B2R mx)]. apply rnd32_le. assert (RE : R = B2R mx - B2R mn) by reflexivity. lra.
Qed.

Lemma decode_error k : (0 <= k <= M)%Z ->
  Rabs (B2R (decodeFloat n k mn mx) - (B2R mn + R * (IZR k / IZR M))) <= 7 * / 16777216 * R.
Proof.
  intros Hk. destruct (decode_spec k Hk) as [F E]. rewrite E. clear E F.
  pose proof (dnorm_range k) as D. pose proof (dnorm_error k Hk) as DE. pose proof R_bounds as HR.
  pose proof (mul_range _ D) as MR. set (d := dnorm k) in *. set (x := IZR k / IZR M) in *.
  pose proof (err32 (d * R)) as E1. rewrite (Rabs_pos_eq (d * R)) in E1 by nra.
  set (p := rnd32 (d * R)) in *.
  pose proof (err32 (p + B2R mn)) as E2.
  assert (B : Rabs (p + B2R mn) <= R).
  { destruct Hr as (_ & _ & Hb & _). unfold R in *. apply Rabs_le. lra. }
  pose proof tiny_small as TS. pose proof tiny_pos as TP. set (t := bpow radix2 (-150)) in *.
  replace (rnd32 (p + B2R mn) - (B2R mn + R * x))
    with ((rnd32 (p + B2R mn) - (p + B2R mn)) + ((p - d * R) + (d - x) * R)) by ring.
  eapply Rle_trans; [apply Rabs_triang|].
  assert (T2 : Rabs ((p - d * R) + (d - x) * R) <= (/ 16777216 * (d * R) + t) + 4 * / 16777216 * R).
  { eapply Rle_trans; [apply Rabs_triang|]. rewrite Rabs_mult, (Rabs_pos_eq R) by lra.
    apply Rplus_le_compat; [exact E1|]. apply Rmult_le_compat_r; lra. }
  assert (d * R <= R) by nra. 
  assert (t <= / 1152921504606846976 * R) by lra. lra.
Qed.
End Code.
End Range.

(** ** Consequences *)
Lemma clamp_shift mn mx v : range_ok mn mx ->
  clampR (B2R mn) (B2R mx) v = B2R mn + (B2R mx - B2R mn) * clampR 0 1 ((v - B2R mn) / (B2R mx - B2R mn)).
Proof.
  intros Hr. pose proof (R_bounds mn mx Hr) as HR. set (R := B2R mx - B2R mn) in *.
  assert (RI : 0 < / R) by (apply Rinv_0_lt_compat; lra).
  destruct (Rle_lt_dec v (B2R mn)) as [L|L].
  { rewrite clampR_lo by (unfold R in *; lra). rewrite clampR_lo; [ring|lra|]. unfold Rdiv. nra. }
  destruct (Rle_lt_dec (B2R mx) v) as [G|G].
  { rewrite clampR_hi by (unfold R in *; lra). rewrite clampR_hi; [unfold R; ring|lra|].
    apply Rle_trans with (R / R); [right; field; lra|apply Rmult_le_compat_r; unfold R in *; lra]. }
  rewrite clampR_id by lra. rewrite clampR_id; [field; lra|].
  split; [unfold Rdiv; nra|]. apply Rle_trans with (R / R); [apply Rmult_le_compat_r; unfold R in *; lra|right; field; lra].
Qed.

Lemma quantisation_error T n mn mx v : code_type T n -> range_ok mn mx -> is_finite v = true ->
  exists k, encodeFloat T n v mn mx = Ok k /\ (0 <= k < 2 ^ Z.of_nat n)%Z /\
    Rabs (B2R (decodeFloat n k mn mx) - clampR (B2R mn) (B2R mx) (B2R v))
      <= (B2R mx - B2R mn) * (/ IZR (2 ^ Z.of_nat n - 1) + / 1048576).
Proof.
  intros Hc Hr Fv. assert (Hn : is_nan v = false) by (destruct v; try discriminate; reflexivity).
  destruct (encode_spec mn mx Hr T n Hc v Hn) as [E K].
  set (k := Zfloor _) in *. exists k. split; [exact E|]. split; [lia|].
  pose proof (code_error mn mx Hr T n Hc v k Hn E) as [C1 C2].
  pose proof (norm_error mn mx Hr v Fv) as NE.
  pose proof (decode_error mn mx Hr T n Hc k K) as DE.
  rewrite (clamp_shift mn mx (B2R v) Hr).
  pose proof (R_bounds mn mx Hr) as HR. set (R := B2R mx - B2R mn) in *.
  pose proof (M_R T n Hc) as HM. set (M := (2 ^ Z.of_nat n - 1)%Z) in *.
  set (c := clampR 0 1 _) in *. set (q := B2R (norm mn mx v)) in *. set (x := IZR k / IZR M) in *.
  assert (MI : 0 < / IZR M) by (apply Rinv_0_lt_compat; lra).
  assert (X1 : x <= q + / 1048576 * / 4294967296).
  { unfold x, Rdiv. apply Rmult_le_reg_r with (IZR M); [lra|]. rewrite Rmult_assoc, Rinv_l by lra. lra. }
  assert (X2 : q - / 1048576 * / 4294967296 - / IZR M <= x).
  { unfold x, Rdiv. apply Rmult_le_reg_r with (IZR M); [lra|]. rewrite Rmult_assoc.
    replace ((q - / 1048576 * / 4294967296 - / IZR M) * IZR M)
      with (q * IZR M - / 1048576 * / 4294967296 * IZR M - 1) by (field; lra).
    rewrite Rinv_l by lra. lra. }
  apply Rabs_le_inv in NE. apply Rabs_le_inv in DE. 
  assert (RX1 : R * x <= R * c + R * (4 * / 16777216)) by nra.
  assert (RX2 : R * c - R * (4 * / 16777216) - R * / IZR M <= R * x) by nra.
  assert (0 < R * / IZR M) by nra.
  apply Rabs_le. lra.
Qed.

Lemma encode_monotone T n mn mx v w k l : code_type T n -> range_ok mn mx ->
  is_finite v = true -> is_finite w = true -> B2R v <= B2R w ->
  encodeFloat T n v mn mx = Ok k -> encodeFloat T n w mn mx = Ok l -> (k <= l)%Z.
Proof.
  intros Hc Hr Fv Fw L Ek El.
  assert (Hv : is_nan v = false) by (destruct v; try discriminate; reflexivity).
  assert (Hw : is_nan w = false) by (destruct w; try discriminate; reflexivity).
  destruct (encode_spec mn mx Hr T n Hc v Hv) as [E1 _]. destruct (encode_spec mn mx Hr T n Hc w Hw) as [E2 _].
  rewrite E1 in Ek. rewrite E2 in El. injection Ek as <-. injection El as <-.
  apply Zfloor_le, rnd64_le. pose proof (M_R T n Hc) as HM. apply Rmult_le_compat_r; [lra|].
  destruct (norm_spec mn mx Hr v Hv) as (_ & _ & N1). destruct (norm_spec mn mx Hr w Hw) as (_ & _ & N2).
  rewrite (N1 Fv), (N2 Fw). apply clampR_le, rnd32_le. pose proof (R_bounds mn mx Hr) as HR.
  apply Rmult_le_compat_r; [apply Rlt_le, Rinv_0_lt_compat; lra|]. apply rnd32_le. lra.
Qed.

Lemma requantise T n mn mx k : code_type T n -> range_ok mn mx -> (0 <= k < 2 ^ Z.of_nat n)%Z ->
  exists k', encodeFloat T n (decodeFloat n k mn mx) mn mx = Ok k' /\ (0 <= k' < 2 ^ Z.of_nat n)%Z /\
    (Z.of_nat n <= 20 -> k - 1 <= k' <= k)%Z /\
    Rabs (IZR k' - IZR k) <= 1 + IZR (2 ^ Z.of_nat n) * / 1048576.
Proof.
  intros Hc Hr Hk. pose proof (M_R T n Hc) as HM. pose proof (R_bounds mn mx Hr) as HR.
  assert (Hk' : (0 <= k <= 2 ^ Z.of_nat n - 1)%Z) by lia.
  destruct (decode_range mn mx Hr T n Hc k Hk') as [F B].
  set (v := decodeFloat n k mn mx) in *.
  assert (Hn : is_nan v = false) by (destruct v; try discriminate; reflexivity).
  destruct (encode_spec mn mx Hr T n Hc v Hn) as [E K].
  set (k' := Zfloor _) in *. exists k'. split; [exact E|]. split; [lia|].
  destruct (code_error mn mx Hr T n Hc v k' Hn E) as [C1 C2].
  pose proof (norm_error mn mx Hr v F) as NE.
  pose proof (decode_error mn mx Hr T n Hc k Hk') as DE. fold v in DE.
  set (R := B2R mx - B2R mn) in *. set (M := (2 ^ Z.of_nat n - 1)%Z) in *.
  assert (RI : 0 < / R) by (apply Rinv_0_lt_compat; lra).
  set (t := (B2R v - B2R mn) / R) in *.
  assert (T0 : 0 <= t <= 1).
  { unfold t. split; [unfold Rdiv; nra|]. apply Rle_trans with (R / R); [apply Rmult_le_compat_r; unfold R in *; lra|right; field; lra]. }
  rewrite (clampR_id 0 1 t T0) in NE. set (q := B2R (norm mn mx v)) in *.
  assert (TE : Rabs (t - IZR k / IZR M) <= 7 * / 16777216).
  { apply Rmult_le_reg_r with R; [lra|].
    replace (Rabs (t - IZR k / IZR M) * R) with (Rabs (B2R v - (B2R mn + R * (IZR k / IZR M)))); [exact DE|].
    rewrite <- (Rabs_pos_eq R) at 2 by lra. rewrite <- Rabs_mult. f_equal. unfold t. field. lra. }
  apply Rabs_le_inv in NE. apply Rabs_le_inv in TE.
  assert (QM : Rabs (q * IZR M - IZR k) <= 10 * / 16777216 * IZR M).
  { replace (q * IZR M - IZR k) with ((q - IZR k / IZR M) * IZR M) by (field; lra).
    rewrite Rabs_mult, (Rabs_pos_eq (IZR M)) by lra. apply Rmult_le_compat_r; [lra|]. apply Rabs_le. lra. }
  apply Rabs_le_inv in QM.
  assert (D1 : IZR k' <= IZR k + 11 * / 16777216 * IZR M) by lra.
  assert (D2 : IZR k - 11 * / 16777216 * IZR M < IZR k' + 1) by lra.
  split.
  - intros N20. assert (M20 : IZR M <= 1048575).
    { apply IZR_le. unfold M. assert (2 ^ Z.of_nat n <= 2 ^ 20)%Z by (apply Z.pow_le_mono_r; lia). lia. }
    assert (IZR k' < IZR (k + 1)) by (rewrite plus_IZR; lra).
    assert (IZR (k - 2) < IZR k') by (rewrite minus_IZR; lra).
    apply lt_IZR in H, H0. lia.
  - assert (MM : IZR M = IZR (2 ^ Z.of_nat n) - 1) by (unfold M; rewrite minus_IZR; reflexivity).
    apply Rabs_le. lra.
Qed.
