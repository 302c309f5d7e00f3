(** Proofs about the tools: quantised samples and interpolation. *)
From Coq Require Import Reals Psatz.
From Flocq Require Import Core.Core.
Require Import Flocq.Prop.Relative Flocq.Prop.Plus_error Flocq.Prop.Mult_error.
From Verif Require Import Base BitsModel BitsProof FloatBase FloatModel FloatSpec FloatProof Float64Proof ToolsModel ToolsSpec.
Local Open Scope R_scope.

(** *** Samples *)
Lemma SCALING_R : B2R SCALING = 32768 /\ is_finite SCALING = true.
Proof. split; [|reflexivity]. unfold SCALING, B2R, F2R. cbn -[bpow]. change (-37)%Z with (Z.opp 37). rewrite (bpow_inv 37) by lia. change (2 ^ 37)%Z with 137438953472%Z. lra. Qed.
Lemma SCALING_MAX_R : B2R SCALING_MAX = 32767 /\ is_finite SCALING_MAX = true.
Proof. split; [|reflexivity]. unfold SCALING_MAX, B2R, F2R. cbn -[bpow]. change (-38)%Z with (Z.opp 38). rewrite (bpow_inv 38) by lia. change (2 ^ 38)%Z with 274877906944%Z. lra. Qed.
Lemma SCALING_MIN_R : B2R SCALING_MIN = -32768 /\ is_finite SCALING_MIN = true.
Proof. split; [|reflexivity]. unfold SCALING_MIN, B2R, F2R. cbn -[bpow]. change (-37)%Z with (Z.opp 37). rewrite (bpow_inv 37) by lia. change (2 ^ 37)%Z with 137438953472%Z. lra. Qed.

Lemma fround_R (x : f64) : B2R (fround x) = IZR (Znearest (Zle_bool 0) (B2R x)) /\ is_finite (fround x) = is_finite x.
Proof.
  destruct (Bnearbyint_correct 53 1024 _ mode_NA x) as (H1 & H2 & _). split; [|exact H2].
  unfold fround. rewrite H1, round_FIX_IZR. reflexivity.
Qed.

(** The scaled sample is exact, or too large to be represented. *)
Lemma scaled (v : f64) : is_finite v = true ->
  let y := mul64 v SCALING in
  (is_finite y = true /\ B2R y = B2R v * 32768) \/
  (y = B754_infinity (Bsign v) /\ 4 <= Rabs (B2R v)).
Proof.
  intros Hv y. destruct SCALING_R as [HS FS].
  pose proof (Bmult_correct 53 1024 _ _ mode_NE v SCALING) as H. rewrite HS in H.
  assert (Ex : round radix2 (SpecFloat.fexp 53 1024) (round_mode mode_NE) (B2R v * 32768) = B2R v * 32768).
  { change (round radix2 (SpecFloat.fexp 53 1024) (round_mode mode_NE) (B2R v * 32768)) with (rnd64 (B2R v * 32768)).
    apply rnd64_id. replace 32768 with (bpow radix2 15) by (cbn; lra).
    apply mult_bpow_pos_exact_FLT; [apply fmt64_B2R|lia]. }
  rewrite Ex in H. destruct (Rlt_bool_spec (Rabs (B2R v * 32768)) (bpow radix2 1024)) as [L|L].
  - destruct H as (H1 & H2 & _). left. rewrite Hv, FS in H2. split; [exact H2|exact H1].
  - right. split.
    + unfold y, mul64. apply B2SF_inj. rewrite H. 
      replace (Bsign SCALING) with false by reflexivity. rewrite xorb_false_r. reflexivity.
    + rewrite Rabs_mult, (Rabs_pos_eq 32768) in L by lra.
      assert (B : IZR 131072 <= bpow radix2 1024).
      { apply Rle_trans with (bpow radix2 17); [cbn; lra|apply bpow_le; lia]. }
      lra.
Qed.

Lemma nearest_clip x z k : (Rabs (x - IZR z) <= / 2) ->
  k = Z.max (-32768) (Z.min 32767 z) -> nearest16 x k.
Proof.
  intros H ->. split; [lia|]. intros j Hj.
  apply Rabs_le_inv in H.
  destruct (Z_lt_ge_dec z (-32768)) as [L|G]; [|destruct (Z_lt_ge_dec 32767 z) as [L2|G2]].
  - replace (Z.max (-32768) (Z.min 32767 z)) with (-32768)%Z by lia.
    assert (Hz : IZR z <= -32769) by (apply (IZR_le z (-32769)); lia).
    assert (Hj1 : -32768 <= IZR j) by (apply (IZR_le (-32768) j); lia).
    rewrite !Rabs_pos_eq by lra. lra.
  - replace (Z.max (-32768) (Z.min 32767 z)) with 32767%Z by lia.
    assert (Hz : 32768 <= IZR z) by (apply (IZR_le 32768 z); lia).
    assert (Hj1 : IZR j <= 32767) by (apply (IZR_le j 32767); lia).
    rewrite !Rabs_left1 by lra. lra.
  - replace (Z.max (-32768) (Z.min 32767 z)) with z by lia.
    destruct (Z_lt_ge_dec j z) as [Lj|Gj].
    + assert (Hj1 : IZR j <= IZR z - 1) by (rewrite <- minus_IZR; apply IZR_le; lia).
      rewrite (Rabs_left1 (IZR j - x)) by lra. apply Rabs_le. lra.
    + destruct (Z.eq_dec j z) as [->|Nj]; [lra|].
      assert (Hj1 : IZR z + 1 <= IZR j) by (rewrite <- plus_IZR; apply IZR_le; lia).
      rewrite (Rabs_pos_eq (IZR j - x)) by lra. apply Rabs_le. lra.
Qed.

Lemma trunc_int (y : f64) z : B2R y = IZR z -> Btrunc y = z.
Proof.
  intros H. apply eq_IZR. rewrite (Btrunc_correct 53 1024 emax1024), H, round_FIX_IZR, Ztrunc_IZR. reflexivity.
Qed.

(** What is stored for a finite sample: the rounded value, clipped, with the conversion applied to
    the values in range. *)
Lemma sample_word_spec conv (v : f64) : is_finite v = true ->
  let z := Znearest (Zle_bool 0) (B2R v * 32768) in
  ((32767 < z)%Z /\ sample_word conv v = Ok 32767%Z) \/
  ((z < -32768)%Z /\ sample_word conv v = Ok 32768%Z) \/
  ((-32768 <= z <= 32767)%Z /\ exists y, is_finite y = true /\ B2R y = IZR z /\ sample_word conv v = conv y).
Proof.
  intros Hv z. destruct SCALING_MAX_R as [HM FM]. destruct SCALING_MIN_R as [Hm Fm].
  pose proof (Znearest_half (Zle_bool 0) (B2R v * 32768)) as Hz. fold z in Hz.
  apply Rabs_le_inv in Hz.
  unfold sample_word. destruct (scaled v Hv) as [[Fy Ey]|[Ey Big]].
  - destruct (fround_R (mul64 v SCALING)) as [Er Fr]. rewrite Ey in Er. fold z in Er. rewrite Fy in Fr.
    destruct (Z_lt_ge_dec 32767 z) as [L|G].
    + left. split; [exact L|]. rewrite flt_true; [reflexivity|exact FM|exact Fr|].
      rewrite HM, Er. apply (IZR_lt 32767 z). lia.
    + right. rewrite (flt_false SCALING_MAX); [|exact FM|exact Fr|rewrite HM, Er; apply (IZR_le z 32767); lia].
      destruct (Z_lt_ge_dec z (-32768)) as [L|G2].
      * left. split; [exact L|]. rewrite flt_true; [reflexivity|exact Fr|exact Fm|].
        rewrite Hm, Er. apply (IZR_lt z (-32768)). lia.
      * right. split; [lia|]. rewrite (flt_false _ SCALING_MIN); [|exact Fr|exact Fm|rewrite Hm, Er; apply (IZR_le (-32768) z); lia].
        exists (fround (mul64 v SCALING)). auto.
  - rewrite Ey. 
    assert (Hs : B2R v <> 0) by (intros C; rewrite C, Rabs_R0 in Big; lra).
    destruct (Bsign v) eqn:Es.
    + right. left. split; [|reflexivity].
      assert (Neg : B2R v <= 0).
      { destruct v as [s|s| |s m e B]; cbn in Es, Hv; try discriminate Hv; subst s; cbn; [lra|].
        apply F2R_le_0. cbn. lia. }
      rewrite Rabs_left1 in Big by lra.
      apply lt_IZR. lra.
    + left. split; [|reflexivity].
      assert (Pos : 0 <= B2R v).
      { destruct v as [s|s| |s m e B]; cbn in Es, Hv; try discriminate Hv; subst s; cbn; [lra|].
        apply F2R_ge_0. cbn. lia. }
      rewrite Rabs_pos_eq in Big by lra. apply lt_IZR. lra.
Qed.

Lemma stored_hw (v : f64) : is_finite v = true -> exists w : Z, sample_word conv_hw v = Ok w /\ (0 <= w < 65536)%Z /\ nearest16 (B2R v * 32768) (to_signed 16 w).
Proof.
  intros Hv. pose proof (Znearest_half (Zle_bool 0) (B2R v * 32768)) as Hz.
  destruct (sample_word_spec conv_hw v Hv) as [[L E]|[[L E]|[L (y & Fy & Ey & E)]]];
    set (z := Znearest (Zle_bool 0) (B2R v * 32768)) in *.
  - exists 32767%Z. split; [exact E|]. split; [lia|]. apply (nearest_clip _ z _ Hz).
    change (to_signed 16 32767) with 32767%Z. lia.
  - exists 32768%Z. split; [exact E|]. split; [lia|]. apply (nearest_clip _ z _ Hz).
    change (to_signed 16 32768) with (-32768)%Z. lia.
  - exists (to_unsigned 16 z). split.
    + rewrite E. unfold conv_hw, int_of_float. rewrite Fy, (trunc_int _ _ Ey).
      replace (z =? cast i32 z)%Z with true; [reflexivity|].
      unfold cast, i32, ct_signed, ct_width, to_signed. change (Z.of_nat 32) with 32%Z.
      symmetry. apply Z.eqb_eq. change (2 ^ (32 - 1))%Z with 2147483648%Z. change (2 ^ 32)%Z with 4294967296%Z.
      rewrite Z.mod_small by lia. lia.
    + unfold to_unsigned. change (2 ^ Z.of_nat 16)%Z with 65536%Z.
      split; [apply Z.mod_pos_bound; lia|]. apply (nearest_clip _ z _ Hz).
      unfold to_signed. change (2 ^ (Z.of_nat 16 - 1))%Z with 32768%Z. change (2 ^ Z.of_nat 16)%Z with 65536%Z.
      rewrite <- Zplus_mod_idemp_l, Zmod_mod, Zplus_mod_idemp_l.
      rewrite Z.mod_small by lia. lia.
Qed.

Lemma stored_std (v : f64) : is_finite v = true -> 0 <= B2R v -> exists w : Z, sample_word conv_std v = Ok w /\ (0 <= w < 32768)%Z /\ nearest16 (B2R v * 32768) w.
Proof.
  intros Hv Hp. pose proof (Znearest_half (Zle_bool 0) (B2R v * 32768)) as Hz.
  destruct (sample_word_spec conv_std v Hv) as [[L E]|[[L E]|[L (y & Fy & Ey & E)]]];
    set (z := Znearest (Zle_bool 0) (B2R v * 32768)) in *.
  - exists 32767%Z. split; [exact E|]. split; [lia|]. apply (nearest_clip _ z _ Hz). lia.
  - exfalso. assert (IZR z <= -32769) by (apply (IZR_le z (-32769)); lia). apply Rabs_le_inv in Hz. lra.
  - assert (H0 : (0 <= z)%Z). 
    { assert (H : (-1 < z)%Z); [|lia]. apply lt_IZR. apply Rabs_le_inv in Hz. lra. }
    exists z. split.
    + rewrite E. unfold conv_std, int_of_float. rewrite Fy, (trunc_int _ _ Ey).
      replace (z =? cast u16 z)%Z with true; [reflexivity|].
      unfold cast, u16, ct_signed, ct_width, to_unsigned. change (2 ^ Z.of_nat 16)%Z with 65536%Z.
      symmetry. apply Z.eqb_eq. rewrite Z.mod_small by lia. reflexivity.
    + split; [lia|]. apply (nearest_clip _ z _ Hz). lia.
Qed.

Lemma stored_negative (v : f64) : is_finite v = true -> -1 <= B2R v <= - / 65536 -> 
  sample_word conv_std v = UB.
Proof.
  intros Hv Hr. pose proof (Znearest_half (Zle_bool 0) (B2R v * 32768)) as Hz. 
  set (z := Znearest (Zle_bool 0) (B2R v * 32768)) in *.
  assert (Hz0 : (z <= -1)%Z).
  { (* halves are rounded away from zero *)
    unfold z, Znearest. set (x := B2R v * 32768) in *.
    assert (Hx : x <= - / 2) by (unfold x; lra).
    destruct (Rcompare_spec (x - IZR (Zfloor x)) (/ 2)) as [C|C|C].
    - assert (H : (Zfloor x < 0)%Z); [|lia]. apply lt_IZR. pose proof (Zfloor_lb x). lra.
    - assert (H : (Zfloor x < 0)%Z). { apply lt_IZR. pose proof (Zfloor_lb x). lra. }
      replace (Zle_bool 0 (Zfloor x)) with false by lia. lia.
    - rewrite Zceil_floor_neq by (intros K; rewrite K in C; lra).
      assert (H : (Zfloor x + 1 < 1)%Z).
      { apply lt_IZR. rewrite plus_IZR. lra. }
      destruct (Z.eq_dec (Zfloor x + 1) 0) as [E0|]; [|lia].
      assert (IZR (Zfloor x) = -1) by (replace (Zfloor x) with (-1)%Z by lia; reflexivity). lra. }
  assert (Hz1 : (-32768 <= z)%Z).
  { assert (H : (-32769 < z)%Z); [|lia]. apply lt_IZR. apply Rabs_le_inv in Hz. lra. }
  destruct (sample_word_spec conv_std v Hv) as [[L E]|[[L E]|[L (y & Fy & Ey & E)]]]; fold z in L; try lia.
  rewrite E. unfold conv_std, int_of_float. rewrite Fy, (trunc_int _ _ Ey). fold z.
  replace (z =? cast u16 z)%Z with false; [reflexivity|].
  unfold cast, u16, ct_signed, ct_width, to_unsigned. change (2 ^ Z.of_nat 16)%Z with 65536%Z.
  symmetry. apply Z.eqb_neq. pose proof (Z.mod_pos_bound z 65536). lia.
Qed.

(** *** Interpolation *)
Lemma interpolation_error s e (a b x : f64) M :
  (- 2 ^ 31 <= s < e)%Z -> (e < 2 ^ 31)%Z ->
  is_finite a = true -> is_finite b = true -> is_finite x = true ->
  IZR s <= B2R x <= IZR e -> Rabs (B2R a) <= M -> Rabs (B2R b) <= M -> M <= bpow radix2 500 ->
  is_finite (linearInterpolation (s, a) (e, b) x) = true /\ Rabs (B2R (linearInterpolation (s, a) (e, b) x) - on_line s e (B2R a) (B2R b) (B2R x))
    <= 5 * / 9007199254740992 * M + bpow radix2 (-147).
Proof.
  intros Hs He Fa Fb Fx Hx Ha Hb HM.
  destruct (f64_of_Z_ok s ltac:(lia)) as [Es Fs]. destruct (f64_of_Z_ok e ltac:(lia)) as [Ee Fe].
  unfold linearInterpolation. cbn [fst snd].
  rewrite (flt_false x) by (rewrite ?Es; lra || assumption).
  rewrite (flt_false _ x) by (rewrite ?Ee; lra || assumption).
  assert (HD1 : 1 <= IZR e - IZR s) by (rewrite <- minus_IZR; apply (IZR_le 1); lia).
  assert (HD2 : IZR e - IZR s <= 4294967296) by (rewrite <- minus_IZR; apply (IZR_le _ 4294967296); lia).
  rewrite fle_R by assumption. rewrite Es, Ee. rewrite Rle_bool_false by lra.
  set (D := IZR e - IZR s) in *. set (X := B2R x) in *.
  assert (big : forall r, Rabs r <= 4294967296 -> Rabs r <= bpow radix2 1000).
  { intros r Hr. apply Rle_trans with (1 := Hr). apply Rle_trans with (bpow radix2 32); [cbn; lra|apply bpow_le; lia]. }
  destruct (sub64_ok (f64_of_Z e) x Fe Fx) as [E1 F1].
  { rewrite Ee. fold X. apply big. rewrite Rabs_pos_eq by lra. unfold D in HD2. lra. }
  destruct (sub64_ok x (f64_of_Z s) Fx Fs) as [E2 F2].
  { rewrite Es. fold X. apply big. rewrite Rabs_pos_eq by lra. unfold D in HD2. lra. }
  destruct (sub64_ok (f64_of_Z e) (f64_of_Z s) Fe Fs) as [E3 F3].
  { rewrite Ee, Es. fold D. apply big. rewrite Rabs_pos_eq by lra. lra. }
  rewrite Ee in E1, E3. rewrite Es in E2, E3. fold D in E3. fold X in E1, E2.
  rewrite rnd64_id in E3 by (unfold D; rewrite <- minus_IZR; apply fmt64_Z; lia).
  pose proof (err64 (IZR e - X)) as R1. pose proof (err64 (X - IZR s)) as R2.
  rewrite <- E1 in R1. rewrite <- E2 in R2.
  set (d1 := sub64 (f64_of_Z e) x) in *. set (d2 := sub64 x (f64_of_Z s)) in *.
  set (d3 := sub64 (f64_of_Z e) (f64_of_Z s)) in *.
  set (u := / 9007199254740992) in *. set (t := bpow radix2 (-150)) in *.
  assert (Hu : u = / 9007199254740992) by reflexivity.
  assert (Ht : 0 < t <= / 1152921504606846976) by (split; [apply tiny_pos|apply tiny_small]).
  assert (Ht8 : bpow radix2 (-147) = 8 * t).
  { unfold t. replace 8 with (bpow radix2 3) by (cbn; lra). rewrite <- bpow_plus. reflexivity. }
  rewrite Ht8.
  assert (Et : bpow radix2 (-150) = t) by reflexivity. clearbody t.
  assert (HM0 : 0 <= M) by (pose proof (Rabs_pos (B2R a)); lra).
  set (D1 := IZR e - X) in *. set (D2 := X - IZR s) in *.
  assert (P1 : 0 <= D1) by (unfold D1; lra). assert (P2 : 0 <= D2) by (unfold D2; lra).
  assert (PD : D1 + D2 = D) by (unfold D1, D2, D; lra).
  rewrite (Rabs_pos_eq D1) in R1 by exact P1. rewrite (Rabs_pos_eq D2) in R2 by exact P2.
  apply Rabs_le_inv in R1. apply Rabs_le_inv in R2.
  set (y1 := B2R d1) in *. set (y2 := B2R d2) in *.
  assert (Y1 : 0 <= y1). { rewrite E1. rewrite <- rnd64_0. apply rnd64_le, P1. }
  assert (Y2 : 0 <= y2). { rewrite E2. rewrite <- rnd64_0. apply rnd64_le, P2. }
  (* products with M *)
  set (A := B2R a) in *. set (B := B2R b) in *.
  assert (HMD : 0 <= M * D1 /\ 0 <= M * D2) by (split; apply Rmult_le_pos; assumption).
  assert (HMt : 0 <= M * t) by (apply Rmult_le_pos; lra).
  assert (HMt2 : M * t <= / 1152921504606846976 * M) by (rewrite Rmult_comm; apply Rmult_le_compat_r; lra).
  assert (HMM : M <= M * D) by (rewrite <- (Rmult_1_r M) at 1; apply Rmult_le_compat_l; lra).
  assert (My1 : M * y1 <= M * D1 + u * (M * D1) + M * t).
  { apply Rle_trans with (M * (D1 + u * D1 + t)); [apply Rmult_le_compat_l; lra|right; ring]. }
  assert (My2 : M * y2 <= M * D2 + u * (M * D2) + M * t).
  { apply Rle_trans with (M * (D2 + u * D2 + t)); [apply Rmult_le_compat_l; lra|right; ring]. }
  assert (Ay1 : Rabs (A * y1) <= M * y1) by (rewrite Rabs_mult, (Rabs_pos_eq y1) by exact Y1; apply Rmult_le_compat_r; assumption).
  assert (By2 : Rabs (B * y2) <= M * y2) by (rewrite Rabs_mult, (Rabs_pos_eq y2) by exact Y2; apply Rmult_le_compat_r; assumption).
  assert (AD : Rabs (A * y1 - A * D1) <= u * (M * D1) + M * t).
  { replace (A * y1 - A * D1) with (A * (y1 - D1)) by ring. rewrite Rabs_mult.
    apply Rle_trans with (M * (u * D1 + t)); [|right; ring].
    apply Rmult_le_compat; [apply Rabs_pos|apply Rabs_pos|assumption|apply Rabs_le; lra]. }
  assert (BD : Rabs (B * y2 - B * D2) <= u * (M * D2) + M * t).
  { replace (B * y2 - B * D2) with (B * (y2 - D2)) by ring. rewrite Rabs_mult.
    apply Rle_trans with (M * (u * D2 + t)); [|right; ring].
    apply Rmult_le_compat; [apply Rabs_pos|apply Rabs_pos|assumption|apply Rabs_le; lra]. }
  assert (MDs : M * D1 + M * D2 = M * D) by (rewrite <- PD; ring).
  assert (MD_big : M * D <= bpow radix2 532).
  { apply Rle_trans with (bpow radix2 500 * bpow radix2 32).
    - apply Rmult_le_compat; [assumption|lra|assumption|cbn; lra].
    - rewrite <- bpow_plus. right. reflexivity. }
  assert (B1000 : 8 * bpow radix2 532 <= bpow radix2 1000 /\ 1 <= bpow radix2 532).
  { split.
    - replace 8 with (bpow radix2 3) by (cbn; lra). rewrite <- bpow_plus. apply bpow_le. lia.
    - apply Rle_trans with (bpow radix2 0); [cbn; lra|apply bpow_le; lia]. }
  assert (u1 : 0 < u <= / 1000) by (rewrite Hu; lra).
  assert (uMD : u * (M * D1) + u * (M * D2) = u * (M * D)) by (rewrite <- MDs; ring).
  assert (uMDs : 0 <= u * (M * D1) /\ 0 <= u * (M * D2)) by (split; apply Rmult_le_pos; lra).
  assert (uMD3 : u * (M * D) <= / 1000 * (M * D)) by (apply Rmult_le_compat_r; lra).
  assert (t1 : t <= 1) by lra.
  destruct (mul64_ok a d1 Fa F1) as [E4 F4]; [fold A y1; lra|].
  destruct (mul64_ok b d2 Fb F2) as [E5 F5]; [fold B y2; lra|].
  fold A y1 in E4. fold B y2 in E5.
  pose proof (err64 (A * y1)) as R4. pose proof (err64 (B * y2)) as R5.
  rewrite <- E4 in R4. rewrite <- E5 in R5. fold u in R4, R5.
  rewrite Et in R4, R5.
  assert (uA : u * Rabs (A * y1) <= u * (M * y1)) by (apply Rmult_le_compat_l; lra).
  assert (uB : u * Rabs (B * y2) <= u * (M * y2)) by (apply Rmult_le_compat_l; lra).
  assert (uM1 : u * (M * y1) <= u * (M * D1 + u * (M * D1) + M * t)) by (apply Rmult_le_compat_l; lra).
  assert (uM2 : u * (M * y2) <= u * (M * D2 + u * (M * D2) + M * t)) by (apply Rmult_le_compat_l; lra).
  set (p1 := B2R (mul64 a d1)) in *. set (p2 := B2R (mul64 b d2)) in *.
  set (L := A * D1 + B * D2).
  apply Rabs_le_inv in R4. apply Rabs_le_inv in R5. apply Rabs_le_inv in AD. apply Rabs_le_inv in BD.
  assert (S1 : Rabs (p1 + p2 - L) <= (2 * u + u * u) * (M * D) + 2 * t + (2 * u + 2) * (M * t)).
  { unfold L. apply Rabs_le. rewrite <- MDs. split; lra. }
  assert (LM : Rabs L <= M * D).
  { unfold L. eapply Rle_trans; [apply Rabs_triang|]. rewrite !Rabs_mult, (Rabs_pos_eq D1), (Rabs_pos_eq D2) by assumption.
    rewrite <- MDs. apply Rplus_le_compat; apply Rmult_le_compat_r; assumption. }
  assert (uu : u * u <= / 1000 * u) by (apply Rmult_le_compat_r; lra).
  assert (Hd1 : (u * u) * (M * D) <= / 1000 * (u * (M * D))).
  { replace (/ 1000 * (u * (M * D))) with (/ 1000 * u * (M * D)) by ring. apply Rmult_le_compat_r; lra. }
  assert (Hd2 : u * (M * t) <= / 1000 * (M * t)) by (apply Rmult_le_compat_r; lra).
  assert (Hd3 : M * t <= / 100 * (u * M)).
  { eapply Rle_trans; [exact HMt2|]. rewrite Hu, <- Rmult_assoc. apply Rmult_le_compat_r; lra. }
  assert (Hd4 : u * M <= u * (M * D)) by (apply Rmult_le_compat_l; lra).
  assert (S1' : Rabs (p1 + p2 - L) <= 2.1 * (u * (M * D)) + 2 * t) by lra.
  clear S1. assert (SP : Rabs (p1 + p2) <= 1.1 * (M * D) + 2 * t).
  { replace (p1 + p2) with (p1 + p2 - L + L) by ring. eapply Rle_trans; [apply Rabs_triang|]. lra. }
  destruct (add64_ok (mul64 a d1) (mul64 b d2) F4 F5) as [E6 F6]; [fold p1 p2; lra|].
  fold p1 p2 in E6. pose proof (err64 (p1 + p2)) as R6. rewrite <- E6 in R6. fold u in R6. rewrite Et in R6.
  set (sm := B2R (add64 (mul64 a d1) (mul64 b d2))) in *.
  assert (uSP : u * Rabs (p1 + p2) <= u * (1.1 * (M * D) + 2 * t)) by (apply Rmult_le_compat_l; lra).
  assert (SP2 : Rabs (p1 + p2) <= M * D + 2.1 * (u * (M * D)) + 2 * t).
  { replace (p1 + p2) with (p1 + p2 - L + L) by ring. eapply Rle_trans; [apply Rabs_triang|]. lra. }
  assert (uSP2 : u * Rabs (p1 + p2) <= u * (M * D + 2.1 * (u * (M * D)) + 2 * t)) by (apply Rmult_le_compat_l; lra).
  assert (ut : u * t <= / 1000 * t) by (apply Rmult_le_compat_r; lra).
  assert (S2 : Rabs (sm - L) <= 3.2 * (u * (M * D)) + 4 * t).
  { replace (sm - L) with (sm - (p1 + p2) + (p1 + p2 - L)) by ring. eapply Rle_trans; [apply Rabs_triang|]. lra. }
  assert (SmB : Rabs sm <= 1.1 * (M * D) + 4 * t).
  { replace sm with (sm - L + L) by ring. eapply Rle_trans; [apply Rabs_triang|]. lra. }
  assert (dv : forall r k, Rabs r <= k * D + 4 * t -> 0 <= k -> Rabs (r / D) <= k + 4 * t).
  { intros r k Hr Hk. unfold Rdiv. rewrite Rabs_mult, Rabs_inv, (Rabs_pos_eq D) by lra.
    apply Rmult_le_reg_r with D; [lra|]. rewrite Rmult_assoc, Rinv_l by lra. rewrite Rmult_1_r.
    eapply Rle_trans; [exact Hr|]. rewrite Rmult_plus_distr_r. apply Rplus_le_compat_l.
    rewrite <- (Rmult_1_r (4 * t)) at 1. apply Rmult_le_compat_l; lra. }
  assert (Q1 : Rabs (sm / D) <= 1.1 * M + 4 * t).
  { apply dv; [|lra]. replace (1.1 * M * D) with (1.1 * (M * D)) by ring. exact SmB. }
  assert (Q2 : Rabs ((sm - L) / D) <= 3.2 * (u * M) + 4 * t).
  { apply dv; [|lra]. replace (3.2 * (u * M) * D) with (3.2 * (u * (M * D))) by ring. exact S2. }
  destruct (div64_ok (add64 (mul64 a d1) (mul64 b d2)) d3 F6) as [E7 F7].
  { rewrite E3. lra. }
  { fold sm. rewrite E3. eapply Rle_trans; [exact Q1|]. lra. }
  split; [exact F7|].
  fold sm in E7. rewrite E3 in E7. pose proof (err64 (sm / D)) as R7. rewrite <- E7 in R7. fold u in R7. rewrite Et in R7.
  unfold on_line. fold D1 D2 D L.
  assert (uQ : u * Rabs (sm / D) <= u * (1.1 * M + 4 * t)) by (apply Rmult_le_compat_l; lra).
  set (q := B2R (div64 (add64 (mul64 a d1) (mul64 b d2)) d3)) in *.
  replace (q - L / D) with (q - sm / D + (sm - L) / D) by (unfold Rdiv; ring).
  eapply Rle_trans; [apply Rabs_triang|].
  assert (0 <= u * M) by (apply Rmult_le_pos; lra). lra.
Qed.

(** The exact point lies between the two amplitudes. *)
Lemma on_line_between s e a b x : (s < e)%Z -> IZR s <= x <= IZR e ->
  Rmin a b <= on_line s e a b x <= Rmax a b.
Proof.
  intros Hs Hx. assert (HD : 0 < IZR e - IZR s) by (apply IZR_lt in Hs; lra).
  unfold on_line. set (D := IZR e - IZR s) in *. set (m := Rmin a b). set (M := Rmax a b).
  assert (ma : m <= a) by apply Rmin_l. assert (mb : m <= b) by apply Rmin_r.
  assert (Ma : a <= M) by apply Rmax_l. assert (Mb : b <= M) by apply Rmax_r.
  assert (H1 : m * (IZR e - x) <= a * (IZR e - x) <= M * (IZR e - x)) by (split; apply Rmult_le_compat_r; lra).
  assert (H2 : m * (x - IZR s) <= b * (x - IZR s) <= M * (x - IZR s)) by (split; apply Rmult_le_compat_r; lra).
  split; apply Rmult_le_reg_r with D; try exact HD; unfold Rdiv; rewrite Rmult_assoc, Rinv_l, Rmult_1_r by lra;
    unfold D; lra.
Qed.
Lemma on_line_ends s e a b : (s < e)%Z -> on_line s e a b (IZR s) = a /\ on_line s e a b (IZR e) = b.
Proof.
  intros Hs. assert (HD : 0 < IZR e - IZR s) by (apply IZR_lt in Hs; lra).
  unfold on_line. split; field; lra.
Qed.

(** Outside the two times the nearer amplitude is returned, whatever it is. *)
Lemma interpolation_outside s e (a b x : f64) :
  (- 2 ^ 31 <= s <= e)%Z -> (e < 2 ^ 31)%Z -> is_finite x = true ->
  (B2R x < IZR s -> linearInterpolation (s, a) (e, b) x = a) /\
  (IZR e < B2R x -> linearInterpolation (s, a) (e, b) x = b).
Proof.
  intros Hs He Fx.
  destruct (f64_of_Z_ok s ltac:(lia)) as [Es Fs]. destruct (f64_of_Z_ok e ltac:(lia)) as [Ee Fe].
  assert (Hse : IZR s <= IZR e) by (apply IZR_le; lia).
  unfold linearInterpolation. cbn [fst snd]. split; intros H.
  - rewrite (flt_true x) by (rewrite ?Es; assumption). reflexivity.
  - rewrite (flt_false x) by (rewrite ?Es; assumption || lra).
    rewrite (flt_true _ x) by (rewrite ?Ee; assumption). reflexivity.
Qed.

(** Two points at the same time: the quotient of two zeros. *)
Lemma zero_of (x : f64) : is_finite x = true -> B2R x = 0 -> exists s, x = B754_zero s.
Proof.
  intros F H. destruct x as [s|s| |s m e B]; try discriminate F; [eauto|exfalso].
  cbn in H. apply eq_0_F2R in H. cbn in H. destruct s; discriminate H.
Qed.
Lemma interpolation_same t (a b : f64) : (- 2 ^ 31 <= t < 2 ^ 31)%Z ->
  is_finite a = true -> is_finite b = true ->
  is_nan (linearInterpolation (t, a) (t, b) (f64_of_Z t)) = true.
Proof.
  intros Ht Fa Fb. destruct (f64_of_Z_ok t ltac:(lia)) as [Et Ft].
  unfold linearInterpolation. cbn [fst snd]. set (x := f64_of_Z t) in *.
  rewrite !(flt_false x x) by (lra || assumption).
  rewrite fle_R by assumption. rewrite Rle_bool_true by lra.
  destruct (sub64_ok x x Ft Ft) as [E F].
  { rewrite (Rminus_diag_eq _ _ eq_refl), Rabs_R0. apply bpow_ge_0. }
  rewrite (Rminus_diag_eq _ _ eq_refl), rnd64_0 in E. destruct (zero_of _ F E) as (s & ->).
  assert (Z1 : forall y : f64, is_finite y = true -> exists s', mul64 y (B754_zero s) = B754_zero s').
  { intros y Fy. destruct y as [sy|sy| |sy m ey B]; try discriminate Fy; eexists; reflexivity. }
  destruct (Z1 a Fa) as (sa & ->). destruct (Z1 b Fb) as (sb & ->).
  destruct sa, sb, s; reflexivity.
Qed.
