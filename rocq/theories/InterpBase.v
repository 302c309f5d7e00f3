(** Lemmas for the curves: bounds on [double] operations and the use of a curve in an effect. *)
From Coq Require Import Reals Psatz.
From Flocq Require Import Core.Core.
From Verif Require Import Base FloatBase FloatModel FloatProof Float64Proof TypesModel ToolsModel SynthModel SynthSpec SynthProof SynthMore SynthCurve InterpModel InterpSpec.
Local Open Scope Z_scope.
Ltac Zify.zify_post_hook ::= Z.div_mod_to_equations.

(** ** Bounds by powers of two. *)
Definition bd (k : Z) (x : f64) : Prop := is_finite x = true /\ (Rabs (B2R x) <= bpow radix2 k)%R.
Lemma fmt64_bpow k : -1000 <= k <= 1000 -> fmt64 (bpow radix2 k).
Proof. intros H. apply generic_format_bpow. unfold FLT_exp. lia. Qed.
Lemma rnd64_bpow k x : -1000 <= k <= 1000 -> (Rabs x <= bpow radix2 k)%R -> (Rabs (rnd64 x) <= bpow radix2 k)%R.
Proof. intros H. apply rnd_bound; [lia|apply fmt64_bpow; exact H]. Qed.
Lemma bpow_double k : (bpow radix2 (k + 1) = bpow radix2 k + bpow radix2 k)%R.
Proof. rewrite bpow_plus. change (bpow radix2 1) with 2%R. lra. Qed.
Lemma bpow1000 k : k <= 1000 -> (bpow radix2 k <= bpow radix2 1000)%R.
Proof. intros H. apply bpow_le. lia. Qed.
Lemma bd_le j k x : bd j x -> j <= k -> bd k x.
Proof. intros (F & B) H. split; [exact F|]. eapply Rle_trans; [exact B|apply bpow_le; exact H]. Qed.
Lemma bd_add k x y : 0 <= k <= 900 -> bd k x -> bd k y -> bd (k + 1) (add64 x y).
Proof.
  intros Hk (Fx & Bx) (Fy & By).
  assert (B : (Rabs (B2R x + B2R y) <= bpow radix2 (k + 1))%R) by (rewrite bpow_double; eapply Rle_trans; [apply Rabs_triang|lra]).
  destruct (add64_ok x y Fx Fy) as (E & F); [eapply Rle_trans; [exact B|apply bpow1000; lia]|].
  split; [exact F|]. rewrite E. apply rnd64_bpow; [lia|exact B].
Qed.
Lemma bd_sub k x y : 0 <= k <= 900 -> bd k x -> bd k y -> bd (k + 1) (sub64 x y).
Proof.
  intros Hk (Fx & Bx) (Fy & By).
  assert (B : (Rabs (B2R x - B2R y) <= bpow radix2 (k + 1))%R).
  { rewrite bpow_double. unfold Rminus. eapply Rle_trans; [apply Rabs_triang|]. rewrite Rabs_Ropp. lra. }
  destruct (sub64_ok x y Fx Fy) as (E & F); [eapply Rle_trans; [exact B|apply bpow1000; lia]|].
  split; [exact F|]. rewrite E. apply rnd64_bpow; [lia|exact B].
Qed.
Lemma bd_mul j k x y : 0 <= j <= 450 -> 0 <= k <= 450 -> bd j x -> bd k y -> bd (j + k) (mul64 x y).
Proof.
  intros Hj Hk (Fx & Bx) (Fy & By).
  assert (B : (Rabs (B2R x * B2R y) <= bpow radix2 (j + k))%R).
  { rewrite bpow_plus, Rabs_mult. apply Rmult_le_compat; try apply Rabs_pos; assumption. }
  destruct (mul64_ok x y Fx Fy) as (E & F); [eapply Rle_trans; [exact B|apply bpow1000; lia]|].
  split; [exact F|]. rewrite E. apply rnd64_bpow; [lia|exact B].
Qed.
Lemma bd_div k x y : 0 <= k <= 900 -> bd k x -> (1 <= Rabs (B2R y))%R -> bd k (div64 x y).
Proof.
  intros Hk (Fx & Bx) By.
  assert (Y : B2R y <> 0%R) by (intros E; rewrite E, Rabs_R0 in By; lra).
  assert (B : (Rabs (B2R x / B2R y) <= bpow radix2 k)%R).
  { unfold Rdiv. rewrite Rabs_mult, Rabs_inv. apply Rle_trans with (Rabs (B2R x) * 1)%R; [|lra].
    apply Rmult_le_compat_l; [apply Rabs_pos|]. rewrite <- Rinv_1. apply Rinv_le; lra. }
  destruct (div64_ok x y Fx Y) as (E & F); [eapply Rle_trans; [exact B|apply bpow1000; lia]|].
  split; [exact F|]. rewrite E. apply rnd64_bpow; [lia|exact B].
Qed.
Lemma bd_Z k z : 0 <= k <= 53 -> Z.abs z <= 2 ^ k -> bd k (f64_of_Z z).
Proof.
  intros Hk Hz. destruct (f64_of_Z_ok z) as (E & F).
  { apply Z.le_trans with (2 ^ k); [exact Hz|apply Z.pow_le_mono_r; lia]. }
  split; [exact F|]. rewrite E, <- abs_IZR, bpow_IZR by lia. apply IZR_le. exact Hz.
Qed.
Lemma bd_const (x : f64) (b : Z) : 0 <= b <= 53 -> is_finite x = true -> (Rabs (B2R x) <= IZR (2 ^ b))%R -> bd b x.
Proof. intros Hb F B. split; [exact F|]. rewrite bpow_IZR by lia. exact B. Qed.
Lemma f64_2_R : B2R f64_2 = 2%R.
Proof. unfold f64_2, B2R, F2R. cbn [Fnum Fexp cond_Zopp]. change (-51) with (Z.opp 51). rewrite bpow_inv by lia. change (2 ^ 51) with 2251799813685248. lra. Qed.
Lemma f64_3_R : B2R f64_3 = 3%R.
Proof. unfold f64_3, B2R, F2R. cbn [Fnum Fexp cond_Zopp]. change (-51) with (Z.opp 51). rewrite bpow_inv by lia. change (2 ^ 51) with 2251799813685248. lra. Qed.
Lemma f64_1_R : B2R f64_1 = 1%R.
Proof. unfold f64_1, B2R, F2R. cbn [Fnum Fexp cond_Zopp]. change (-52) with (Z.opp 52). rewrite bpow_inv by lia. change (2 ^ 52) with 4503599627370496. lra. Qed.
Lemma bd_2 : bd 1 f64_2.
Proof. apply bd_const; [lia|reflexivity|]. rewrite f64_2_R, Rabs_pos_eq; [|lra]. change (2 ^ 1) with 2. lra. Qed.
Lemma bd_3 : bd 2 f64_3.
Proof. apply bd_const; [lia|reflexivity|]. rewrite f64_3_R, Rabs_pos_eq; [|lra]. change (2 ^ 2) with 4. lra. Qed.
Lemma bd_f32 (a : f32) : is_finite a = true -> bd 128 (f64_of_f32 a).
Proof.
  intros F. destruct (f64_of_f32_ok a F) as (E & F'). split; [exact F'|]. rewrite E. left.
  exact (abs_B2R_lt_emax 24 128 a).
Qed.

(** Scaling by a power of two. *)
Lemma fmt64_scale x k : fmt64 x -> 0 <= k -> fmt64 (x * bpow radix2 k).
Proof.
  intros H Hk. apply FLT_format_generic in H; [|reflexivity]. destruct H as [[m e] E1 E2 E3]. cbn [Fnum Fexp] in *.
  apply generic_format_FLT. exists (Float radix2 m (e + k)); cbn [Fnum Fexp]; [|exact E2|lia].
  rewrite E1. unfold F2R. cbn [Fnum Fexp]. rewrite bpow_plus. ring.
Qed.

(** ** An effect of a curve band. *)
Section E.
Variable fpow : f64 -> f64 -> f64.
Variables akima bezier bspline : list point -> outcome (list f64).

Lemma curve_points_rest fs ts first kfs ps : 0 < ts < 2 ^ 32 -> 0 <= fs -> 0 <= first < 2 ^ 31 -> Forall2 (keyframe_at fs ts first) kfs ps ->
  curve_points fs ts (Some first) kfs = Ok ps.
Proof.
  intros Hts Hfs Hf H. induction H as [|k p kfs ps (t & a & Hk & Ha & Ht & Hm & Hp) H IH]; cbn [curve_points]; [reflexivity|].
  unfold pos_value, amp_value, curve_time. rewrite Hk, Ha. cbn [obind].
  rewrite int_ok_fits by nia. cbn [obind]. replace (ts =? 0) with false by lia. rewrite cast_u32 by nia.
  assert (Hq : 0 <= t * fs / ts < 2 ^ 31) by (split; [apply Z.div_pos; nia|apply Z.le_lt_trans with (t * fs); [apply Z.div_le_upper_bound; nia|exact Hm]]).
  rewrite cast_i32 by lia. cbn [obind]. rewrite int_ok_fits by lia. cbn [obind]. rewrite IH. cbn [obind]. rewrite Hp. reflexivity.
Qed.
Lemma curve_points_all fs ts kfs points : 0 < ts < 2 ^ 32 -> 0 <= fs -> curve_of fs ts kfs points ->
  exists p l a, curve_points fs ts None kfs = Ok (p :: l) /\ points = (0, a) :: l /\ snd p = a.
Proof.
  intros Hts Hfs (first & a0 & H & Hd). destruct H as [|k p kfs ps (t & a & Hk & Ha & Ht & Hm & Hp) H]; [discriminate|].
  cbn [hd_error] in Hd. injection Hd as Hd. rewrite Hp in Hd. injection Hd as H0 Hv.
  assert (Hq : 0 <= t * fs / ts < 2 ^ 31) by (split; [apply Z.div_pos; nia|apply Z.le_lt_trans with (t * fs); [apply Z.div_le_upper_bound; nia|exact Hm]]).
  assert (Ef : t * fs / ts = first) by lia.
  cbn [curve_points]. unfold pos_value, amp_value, curve_time. rewrite Hk, Ha. cbn [obind].
  rewrite int_ok_fits by nia. cbn [obind]. replace (ts =? 0) with false by lia. rewrite cast_u32 by nia. rewrite cast_i32 by lia. cbn [obind].
  rewrite Ef in *. rewrite (curve_points_rest fs ts first kfs ps Hts Hfs Hq H). cbn [obind]. eexists _, _, _. split; [reflexivity|]. split; [|reflexivity].
  rewrite Hp. cbn [snd]. f_equal. f_equal. lia.
Qed.
Definition interp (curve : Z) : list point -> outcome (list f64) :=
  if curve =? AkimaC then akima else if curve =? BezierC then bezier else bspline.
Lemma effect_curve fs ts sc pad curve e points bandAmp start :
  starts fs pad ts sc e start -> curve_of fs ts (e_kfs e) points -> length points <> 2%nat -> -1 <= last_time points ->
  (curve = AkimaC \/ curve = BezierC \/ curve = BsplineC) ->
  add_curve_effect fpow akima bezier bspline sc fs pad ts curve e bandAmp =
  obind (interp curve points) (fun ea => add_curve (Z.to_nat (Z.min (sc - start) (last_time points + 1))) start 0 ea bandAmp).
Proof.
  intros (Hts & Hfs & Es & Hp & Hpf & Hst & Hsc) Hc Hn Hl Hct.
  destruct (curve_points_all fs ts _ points Hts Hfs Hc) as (p & l & a & E & Ep & Ea).
  unfold add_curve_effect. rewrite E. cbn [obind]. rewrite Ea. rewrite Ep in *. cbv zeta.
  replace (last_time ((0, a) :: l) <? -1) with false by lia.
  replace (Nat.eqb (length ((0, a) :: l)) 2) with false by (symmetry; apply Nat.eqb_neq; exact Hn). cbv iota.
  assert (K : forall g : outcome (list f64),
    obind g (fun effectAmp => obind (int_ok (e_pos e + pad)) (fun p0 => obind (int_ok (p0 * fs)) (fun p1 =>
      let position := cast i32 (cast u32 (p1 * ts)) in
      obind (if position <? 0 then obind (int_ok (- position)) (fun c => Ok (0, c)) else Ok (position, 0)) (fun '(position, count) =>
      add_curve (Z.to_nat (Z.min (cast i32 sc - position) (last_time ((0, a) :: l) + 1 - count))) position count effectAmp bandAmp)))) =
    obind g (fun ea => add_curve (Z.to_nat (Z.min (sc - start) (last_time ((0, a) :: l) + 1))) start 0 ea bandAmp)).
  { intros g. rewrite (int_ok_fits (e_pos e + pad)) by lia. cbn [obind]. rewrite (int_ok_fits ((e_pos e + pad) * fs)) by nia. cbn [obind].
    rewrite <- Es. cbv zeta. rewrite cast_u32 by lia. rewrite (cast_i32 start) by lia. rewrite (cast_i32 sc) by lia.
    replace (start <? 0) with false by lia. cbn [obind]. rewrite Z.sub_0_r. reflexivity. }
  destruct Hct as [-> |[-> | ->]]; exact (K _).
Qed.
End E.

Lemma add_at_nth : forall l i v l', add_at l i v = Ok l' -> length l' = length l /\
  forall j x, nth_error l j = Some x -> nth_error l' j = Some (if Nat.eqb j i then add64 x v else x).
Proof.
  induction l as [|y l IH]; intros i v l' H; cbn [add_at] in H; [discriminate|]. destruct i as [|i].
  - injection H as <-. split; [reflexivity|]. intros [|j] x; cbn; [intros [= <-]; reflexivity|trivial].
  - destruct (add_at l i v) as [l1| | |] eqn:E; try discriminate. cbn [obind] in H. injection H as <-. destruct (IH i v l1 E) as (L & N).
    split; [cbn; congruence|]. intros [|j] x; cbn; [trivial|apply N].
Qed.
Lemma add_curve_added : forall n i c ea l l', 0 <= i -> 0 <= c -> add_curve n i c ea l = Ok l' -> length l' = length l /\
  forall j x, nth_error l j = Some x -> nth_error l' j =
    Some (if (Z.of_nat j <? i) || (i + Z.of_nat n <=? Z.of_nat j) then x
          else match nth_error ea (Z.to_nat (c + (Z.of_nat j - i))) with Some y => add64 x y | None => x end).
Proof.
  induction n as [|n IH]; intros i c ea l l' Hi Hc H; cbn [add_curve] in H.
  - injection H as <-. split; [reflexivity|]. intros j x Hj. rewrite Hj. replace ((Z.of_nat j <? i) || (i + Z.of_nat 0 <=? Z.of_nat j)) with true; [reflexivity|]. destruct (Z.ltb_spec (Z.of_nat j) i); cbn; [reflexivity|lia].
  - destruct (nth_error ea (Z.to_nat c)) as [v|] eqn:Ev; [|discriminate].
    destruct (add_at l (Z.to_nat i) v) as [l1| | |] eqn:E1; try discriminate. cbn [obind] in H.
    destruct (add_at_nth _ _ _ _ E1) as (L1 & N1). destruct (IH (i + 1) (c + 1) ea l1 l' ltac:(lia) ltac:(lia) H) as (L2 & N2).
    split; [congruence|]. intros j x Hj. rewrite (N2 _ _ (N1 _ _ Hj)). f_equal.
    destruct (Nat.eqb_spec j (Z.to_nat i)) as [Ej|Ej].
    + replace (Z.of_nat j <? i + 1) with true by lia. replace (Z.of_nat j <? i) with false by lia.
      replace (i + Z.of_nat (S n) <=? Z.of_nat j) with false by lia. cbn [orb]. replace (c + (Z.of_nat j - i)) with c by lia. rewrite Ev. reflexivity.
    + destruct (Z.ltb_spec (Z.of_nat j) i) as [Lt|Ge].
      * replace (Z.of_nat j <? i + 1) with true by lia. reflexivity.
      * replace (Z.of_nat j <? i + 1) with false by lia. cbn [orb]. replace (i + Z.of_nat (S n)) with (i + 1 + Z.of_nat n) by lia.
        replace (c + 1 + (Z.of_nat j - (i + 1))) with (c + (Z.of_nat j - i)) by lia. reflexivity.
Qed.
(** A curve with a sample for each time is added. *)
Lemma add_curve_whole ea start sc last_t (l : list f64) : 0 <= start -> 0 <= sc -> length l = Z.to_nat sc -> Z.of_nat (length ea) = last_t + 1 ->
  exists l', add_curve (Z.to_nat (Z.min (sc - start) (last_t + 1))) start 0 ea l = Ok l' /\ added start ea l l'.
Proof.
  intros Hs Hsc Ll Le. destruct (Z.le_gt_cases sc start) as [C|C].
  - replace (Z.to_nat (Z.min (sc - start) (last_t + 1))) with 0%nat by lia. cbn [add_curve]. exists l. split; [reflexivity|]. split; [reflexivity|].
    intros j x Hj. rewrite Hj. assert (j < length l)%nat by (apply nth_error_Some; congruence). replace (Z.of_nat j <? start) with true by lia. reflexivity.
  - destruct (add_curve_ok (Z.to_nat (Z.min (sc - start) (last_t + 1))) start 0 ea l Hs ltac:(lia) ltac:(lia) ltac:(lia)) as (l' & E).
    exists l'. split; [exact E|]. destruct (add_curve_added _ _ _ _ _ _ Hs (Z.le_refl 0) E) as (L & N). split; [exact L|].
    intros j x Hj. rewrite (N _ _ Hj). f_equal. assert (j < length l)%nat by (apply nth_error_Some; congruence).
    destruct (Z.ltb_spec (Z.of_nat j) start); cbn [orb]; [reflexivity|].
    replace (Z.to_nat (0 + (Z.of_nat j - start))) with (j - Z.to_nat start)%nat by lia.
    destruct (Z.leb_spec (start + Z.of_nat (Z.to_nat (Z.min (sc - start) (last_t + 1)))) (Z.of_nat j)); [|reflexivity].
    destruct (nth_error ea (j - Z.to_nat start)) eqn:En; [|reflexivity]. assert (j - Z.to_nat start < length ea)%nat by (apply nth_error_Some; congruence). lia.
Qed.
