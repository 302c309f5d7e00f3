(** Properties C142-C146: effects of Akima, Bezier and B-spline curve bands. *)
From Coq Require Import Reals Psatz.
From Flocq Require Import Core.Raux.
From Verif Require Import Base FloatBase FloatModel FloatProof Float64Proof TypesModel ToolsModel SynthModel InterpModel InterpSpec InterpBase InterpEffect.
Local Open Scope Z_scope.

(** Keyframes every so many milliseconds, with amplitudes 1 and 1/2 in turn; 1000 samples and ticks per second. *)
Definition ix_one : f32 := @B754_finite 24 128 false 8388608 (-23) eq_refl.
Definition ix_half : f32 := @B754_finite 24 128 false 8388608 (-24) eq_refl.
Definition ix_amp (t : Z) : f32 := if Z.even t then ix_one else ix_half.
Definition ix_kfs (l : list Z) : list keyframe := map (fun t => Keyframe (Some t) (Some (ix_amp t)) None) l.
Definition ix_effect (l : list Z) : effect := Effect 0 0 None None (ix_kfs l) None BasisE [] [] [].
Definition ix_points (l : list Z) : list point := map (fun t => (t, f64_of_f32 (ix_amp t))) l.
Definition ix_small : f64 := @B754_finite 53 1024 false 4503599627370496 (-79) eq_refl.
Definition ix_pow (x y : f64) : f64 := if feq y f64_2 then mul64 x x else ix_small.
Definition ix_none (l : list point) : outcome (list f64) := UB.
Definition ix_silence (n : nat) : list f64 := repeat f64_0 n.
Lemma ix_starts l sc : 0 <= sc < 2 ^ 31 -> starts 1000 0 1000 sc (ix_effect l) 0.
Proof. intros H. unfold starts. cbn [e_pos ix_effect]. repeat split; try lia. Qed.
Lemma ix_curve l : Forall (fun t => 0 <= t < 2000000) l -> (exists l', l = 0 :: l') -> curve_of 1000 1000 (e_kfs (ix_effect l)) (ix_points l).
Proof.
  intros H (l' & E). exists 0, (f64_of_f32 (ix_amp 0)). split; [|rewrite E; reflexivity]. cbn [e_kfs ix_effect]. unfold ix_kfs, ix_points.
  clear E. induction H as [|t l Ht H IH]; cbn [map]; [constructor|]. constructor; [|exact IH]. exists t, (ix_amp t). rewrite Z.div_mul by lia. cbn [k_pos k_amp]. repeat split; try lia. f_equal. lia.
Qed.
Lemma ix_finite l : finite_amplitudes (e_kfs (ix_effect l)).
Proof. cbn [e_kfs ix_effect]. apply Forall_forall. intros k I. apply in_map_iff in I as (t & <- & _). exists (ix_amp t). split; [reflexivity|]. unfold ix_amp. destruct (Z.even t); reflexivity. Qed.
(** Squaring by a multiplication is faithful. *)
Lemma ix_pow_faithful : pow_faithful ix_pow.
Proof.
  split.
  - intros x F B. unfold ix_pow. replace (feq f64_2 f64_2) with true by reflexivity.
    destruct (mul64_ok x x F F) as (E & Fm).
    { rewrite Rabs_mult. apply Rle_trans with (bpow radix2 400 * bpow radix2 400)%R; [apply Rmult_le_compat; try apply Rabs_pos; exact B|]. rewrite <- bpow_plus. apply bpow_le. lia. }
    split; [exact Fm|]. intros y Fy. rewrite E. split; intros H.
    + rewrite <- (rnd64_id _ (fmt64_B2R y)). apply rnd64_le. exact H.
    + rewrite <- (rnd64_id _ (fmt64_B2R y)). apply rnd64_le. exact H.
  - cbv zeta. unfold ix_pow. replace (feq (f64_of_Z (-8)) f64_2) with false by (vm_compute; reflexivity). split; [reflexivity|].
    unfold ix_small, B2R, Defs.F2R. cbn [Defs.Fnum Defs.Fexp cond_Zopp]. change (-79) with (Z.opp 79). rewrite bpow_inv by lia. change (2 ^ 79) with 604462909807314587353088. lra.
Qed.
Fixpoint ix_sorted (R : Z -> Z -> bool) (l : list Z) : bool :=
  match l with a :: (b :: _) as l' => R a b && ix_sorted R l' | _ => true end.
Lemma ix_sorted_ok R l : ix_sorted R l = true -> forall i p q, nth_error (ix_points l) i = Some p -> nth_error (ix_points l) (S i) = Some q -> R (fst p) (fst q) = true.
Proof.
  unfold ix_points. induction l as [|a [|b l] IH]; intros H i p q Ep Eq.
  - destruct i; discriminate.
  - destruct i as [|[|i]]; discriminate.
  - cbn [ix_sorted] in H. apply andb_prop in H as (H1 & H2). destruct i as [|i].
    + injection Ep as <-. injection Eq as <-. exact H1.
    + exact (IH H2 i p q Ep Eq).
Qed.
Lemma ix_increasing l : ix_sorted Z.ltb l = true -> increasing (ix_points l).
Proof. intros H i p q Ep Eq. apply Z.ltb_lt. exact (ix_sorted_ok _ _ H i p q Ep Eq). Qed.
Lemma ix_ordered l : ix_sorted Z.leb l = true -> ordered (ix_points l).
Proof. intros H i p q Ep Eq. apply Z.leb_le. exact (ix_sorted_ok _ _ H i p q Ep Eq). Qed.
Lemma ix_range l : forallb (fun t => (0 <=? t) && (t <? 30000)) l = true -> forall p, In p (ix_points l) -> 0 <= fst p < 30000.
Proof. intros H p I. apply in_map_iff in I as (t & <- & I). rewrite forallb_forall in H. specialize (H t I). cbn [fst]. lia. Qed.
Lemma ix_in l : forallb (fun t => (0 <=? t) && (t <? 2000000)) l = true -> Forall (fun t => 0 <= t < 2000000) l.
Proof. intros H. apply Forall_forall. intros t I. rewrite forallb_forall in H. specialize (H t I). lia. Qed.

(** ** C142 *)
(** An effect with at least three keyframes whose times (in samples) increase: the samples added to the signal are
    numbers, one for each sample from the first keyframe to the last, and the one at a keyframe is its amplitude. *)
Theorem C142_through :
  forall fpow bezier bspline fs pad ts sc e start points bandAmp,
  starts fs pad ts sc e start -> curve_of fs ts (e_kfs e) points -> (3 <= length points)%nat -> length bandAmp = Z.to_nat sc ->
  pow_faithful fpow -> finite_amplitudes (e_kfs e) -> increasing points -> last_time points < 2 ^ 31 - 1 ->
  exists ys out, add_curve_effect fpow (akimaInterpolation fpow) bezier bspline sc fs pad ts AkimaC e bandAmp = Ok out /\ added start ys bandAmp out /\
    Z.of_nat (length ys) = last_time points + 1 /\ numbers ys /\ Forall (goes_through ys) points.
Proof. exact (fun fpow bezier bspline => effect_akima fpow ix_none bezier bspline). Qed.
Print Assumptions C142_through.
Definition ix_four : list Z := [0; 3; 5; 9].
Example C142_hyps : starts 1000 0 1000 20 (ix_effect ix_four) 0 /\ curve_of 1000 1000 (e_kfs (ix_effect ix_four)) (ix_points ix_four) /\
  pow_faithful ix_pow /\ finite_amplitudes (e_kfs (ix_effect ix_four)) /\ increasing (ix_points ix_four) /\ last_time (ix_points ix_four) = 9.
Proof.
  split; [apply ix_starts; lia|]. split; [apply ix_curve; [apply ix_in; reflexivity|eexists; reflexivity]|]. split; [exact ix_pow_faithful|]. split; [apply ix_finite|].
  split; [|reflexivity]. apply ix_increasing; reflexivity.
Qed.
Example C142_value : match add_curve_effect ix_pow (akimaInterpolation ix_pow) ix_none ix_none 20 1000 0 1000 AkimaC (ix_effect ix_four) (ix_silence 20) with
  | Ok out => forallb (fun t => feq (nth (Z.to_nat t) out f64_0) (f64_of_f32 (ix_amp t))) ix_four && negb (feq (nth 4 out f64_0) f64_0) && feq (nth 10 out f64_0) f64_0
  | _ => false end = true.
Proof. vm_compute. reflexivity. Qed.
(** Between two keyframes the samples lie on a cubic, up to rounding.  Its slopes at the two keyframes are also the
    slopes of the cubics before and after them, so that the curve has no corners, and they are
    between the slopes of the straight lines to the keyframes before and after.  If these slopes change enough around
    a keyframe, its slope is Akima's weighted mean of the two.  For a segment of h samples, at most
    2^26, and amplitudes of at most 2^K, the rounding error is at most 2^K h / 2^42. *)
Theorem C142_cubic :
  forall fpow bezier bspline fs pad ts sc e start points bandAmp,
  starts fs pad ts sc e start -> curve_of fs ts (e_kfs e) points -> (3 <= length points)%nat -> length bandAmp = Z.to_nat sc ->
  forall K, pow_faithful fpow -> finite_amplitudes (e_kfs e) -> increasing points -> last_time points < 2 ^ 31 - 1 ->
  1 <= K <= 128 -> Forall (fun p => (Rabs (B2R (snd p)) <= bpow radix2 K)%R) points ->
  exists ys out slopes, add_curve_effect fpow (akimaInterpolation fpow) bezier bspline sc fs pad ts AkimaC e bandAmp = Ok out /\ added start ys bandAmp out /\
    length slopes = length points /\
    (forall i p q r s, nth_error points i = Some p -> nth_error points (S i) = Some q -> nth_error points (S (S i)) = Some r -> nth_error slopes (S i) = Some s ->
      (Rmin (chord p q) (chord q r) - bpow radix2 K / 281474976710656 <= s <= Rmax (chord p q) (chord q r) + bpow radix2 K / 281474976710656)%R) /\
    (forall i p0 p1 p2 p3 p4 s, nth_error points i = Some p0 -> nth_error points (i + 1) = Some p1 -> nth_error points (i + 2) = Some p2 ->
      nth_error points (i + 3) = Some p3 -> nth_error points (i + 4) = Some p4 -> nth_error slopes (i + 2) = Some s ->
      (B2R (fpow (f64_of_Z 10) (f64_of_Z (-8))) <= bpow radix2 (-26))%R -> (bpow radix2 K / 524288 <= bend p0 p1 p2 + bend p2 p3 p4)%R ->
      (Rabs (s - akima_slope p0 p1 p2 p3 p4) <= bpow radix2 K / 67108864)%R) /\
    forall i p q s s' x, nth_error points i = Some p -> nth_error points (S i) = Some q -> nth_error slopes i = Some s -> nth_error slopes (S i) = Some s' ->
      fst q - fst p <= 2 ^ 26 -> fst p <= x < fst q ->
      exists y, nth_error ys (Z.to_nat x) = Some y /\ (Rabs (B2R y - hermite p q s s' x) <= bpow radix2 K * IZR (fst q - fst p) / 4398046511104)%R.
Proof. exact (fun fpow bezier bspline => effect_akima_cubic fpow ix_none bezier bspline). Qed.
Print Assumptions C142_cubic.
Lemma ix_level t : B2R (f64_of_f32 (ix_amp t)) = (if Z.even t then 1 else 1 / 2)%R.
Proof.
  destruct (f64_of_f32_ok (ix_amp t)) as (E & _); [unfold ix_amp; destruct (Z.even t); reflexivity|]. rewrite E. unfold ix_amp, ix_one, ix_half.
  destruct (Z.even t); unfold B2R, Defs.F2R; cbn [Defs.Fnum Defs.Fexp cond_Zopp]; [change (-23) with (Z.opp 23)|change (-24) with (Z.opp 24)];
  rewrite bpow_inv by lia; [change (2 ^ 23) with 8388608|change (2 ^ 24) with 16777216]; lra.
Qed.
Definition ix_five : list Z := [0; 3; 5; 9; 11].
Example C142_slope_hyps : pow_faithful ix_pow /\ (B2R (ix_pow (f64_of_Z 10) (f64_of_Z (-8))) <= bpow radix2 (-26))%R /\ increasing (ix_points ix_five) /\
  exists p0 p1 p2 p3 p4, ix_points ix_five = [p0; p1; p2; p3; p4] /\ (bpow radix2 1 / 524288 <= bend p0 p1 p2 + bend p2 p3 p4)%R.
Proof.
  split; [exact ix_pow_faithful|]. split.
  { unfold ix_pow. replace (feq (f64_of_Z (-8)) f64_2) with false by (vm_compute; reflexivity).
    unfold ix_small, B2R, Defs.F2R. cbn [Defs.Fnum Defs.Fexp cond_Zopp]. change (-79) with (Z.opp 79). change (-26) with (Z.opp 26). rewrite !bpow_inv by lia.
    change (2 ^ 79) with 604462909807314587353088. change (2 ^ 26) with 67108864. lra. }
  split; [apply ix_increasing; reflexivity|]. do 5 eexists. split; [reflexivity|]. unfold bend, chord. cbn [fst snd]. rewrite !ix_level. cbn [Z.even].
  rewrite !minus_IZR. change (bpow radix2 1) with 2%R. pose proof (Rabs_pos ((1 / 2 - 1 / 2) / (11 - 9) - (1 / 2 - 1 / 2) / (9 - 5))).
  pose proof (Rle_abs ((1 / 2 - 1 / 2) / (5 - 3) - (1 / 2 - 1) / (3 - 0))). lra.
Qed.
Example C142_cubic_hyps : Forall (fun p => (Rabs (B2R (snd p)) <= bpow radix2 1)%R) (ix_points ix_five) /\ length (ix_points ix_five) = 5%nat.
Proof.
  split; [|reflexivity]. apply Forall_forall. intros p I. apply in_map_iff in I as (t & <- & _). cbn [snd]. rewrite ix_level. change (bpow radix2 1) with 2%R.
  destruct (Z.even t); apply Rabs_le; lra.
Qed.
(** If two neighbouring keyframes fall into the same sample, the signal is not a number there. *)
Theorem C142_same_sample_refuted :
  forall fpow bezier bspline fs pad ts sc e start points bandAmp,
  starts fs pad ts sc e start -> curve_of fs ts (e_kfs e) points -> (3 <= length points)%nat -> length bandAmp = Z.to_nat sc ->
  forall i p q, pow_faithful fpow -> ordered points -> last_time points < 2 ^ 31 - 1 ->
  nth_error points i = Some p -> nth_error points (S i) = Some q -> fst p = fst q ->
  (forall r, nth_error points (S (S i)) = Some r -> fst q < fst r) -> start + fst q < sc ->
  exists out v, add_curve_effect fpow (akimaInterpolation fpow) bezier bspline sc fs pad ts AkimaC e bandAmp = Ok out /\
    nth_error out (Z.to_nat (start + fst q)) = Some v /\ is_nan v = true.
Proof. exact (fun fpow bezier bspline => effect_akima_same fpow ix_none bezier bspline). Qed.
Print Assumptions C142_same_sample_refuted.
Definition ix_same : list Z := [0; 3; 3; 9].
Example C142_same_hyps : ordered (ix_points ix_same) /\ curve_of 1000 1000 (e_kfs (ix_effect ix_same)) (ix_points ix_same) /\
  fst (nth 1 (ix_points ix_same) (0, f64_0)) = fst (nth 2 (ix_points ix_same) (0, f64_0)).
Proof. split; [apply ix_ordered; reflexivity|]. split; [apply ix_curve; [apply ix_in; reflexivity|eexists; reflexivity]|reflexivity]. Qed.

(** ** C143 *)
(** If the keyframes are not in the order of their times (in samples), a sample is written past the end of a
    vector. *)
Theorem C143_order_refuted :
  forall fpow bezier bspline fs pad ts sc e start points bandAmp,
  starts fs pad ts sc e start -> curve_of fs ts (e_kfs e) points -> (3 <= length points)%nat -> length bandAmp = Z.to_nat sc ->
  ~ ordered points -> -1 <= last_time points ->
  add_curve_effect fpow (akimaInterpolation fpow) bezier bspline sc fs pad ts AkimaC e bandAmp = UB.
Proof. exact (fun fpow bezier bspline => effect_akima_order fpow ix_none bezier bspline). Qed.
Print Assumptions C143_order_refuted.
Definition ix_mixed : list Z := [0; 7; 5; 9].
Example C143_hyps : ~ ordered (ix_points ix_mixed) /\ curve_of 1000 1000 (e_kfs (ix_effect ix_mixed)) (ix_points ix_mixed) /\ last_time (ix_points ix_mixed) = 9.
Proof.
  split; [intros H; specialize (H 1%nat _ _ eq_refl eq_refl); cbn in H; lia|]. split; [apply ix_curve; [apply ix_in; reflexivity|eexists; reflexivity]|reflexivity].
Qed.

(** ** C144 *)
(** An odd number of keyframes in order, less than 32768 samples from one to the next but one: the samples added are
    numbers, one for each sample from the first keyframe to the last, and go through the first, third, ... keyframe. *)
Theorem C144_through :
  forall fpow akima bspline fs pad ts sc e start points bandAmp,
  starts fs pad ts sc e start -> curve_of fs ts (e_kfs e) points -> (3 <= length points)%nat -> length bandAmp = Z.to_nat sc ->
  pow_faithful fpow -> finite_amplitudes (e_kfs e) -> ordered points -> Nat.odd (length points) = true ->
  (forall i p r, nth_error points i = Some p -> nth_error points (i + 2) = Some r -> fst r - fst p <= 32767) ->
  exists ys out, add_curve_effect fpow akima (bezierInterpolation fpow) bspline sc fs pad ts BezierC e bandAmp = Ok out /\ added start ys bandAmp out /\
    Z.of_nat (length ys) = last_time points + 1 /\ numbers ys /\
    (increasing points -> forall i p, nth_error points i = Some p -> Nat.even i = true -> goes_through ys p).
Proof. exact (fun fpow akima bspline => effect_bezier fpow akima ix_none bspline). Qed.
Print Assumptions C144_through.
(** Between the keyframes the samples are on the Bezier curve (to within 2^-30 of the largest amplitude) whose control
    points are the first, second and third keyframe, then the third, fourth and fifth one, and so on. *)
Theorem C144_curve :
  forall fpow akima bspline fs pad ts sc e start points bandAmp,
  starts fs pad ts sc e start -> curve_of fs ts (e_kfs e) points -> (3 <= length points)%nat -> length bandAmp = Z.to_nat sc ->
  forall A, pow_faithful fpow -> finite_amplitudes (e_kfs e) -> ordered points -> Nat.odd (length points) = true ->
  (forall i p r, nth_error points i = Some p -> nth_error points (i + 2) = Some r -> fst r - fst p <= 32767) ->
  (bpow radix2 (-90) <= A <= bpow radix2 128)%R -> Forall (fun p => (Rabs (B2R (snd p)) <= A)%R) points ->
  exists ys out, add_curve_effect fpow akima (bezierInterpolation fpow) bspline sc fs pad ts BezierC e bandAmp = Ok out /\ added start ys bandAmp out /\
    forall i p q r x, nth_error points (2 * i) = Some p -> nth_error points (2 * i + 1) = Some q -> nth_error points (2 * i + 2) = Some r -> fst p <= x < fst r ->
    exists y v, nth_error ys (Z.to_nat x) = Some y /\ on_bezier p q r x v /\ (Rabs (B2R y - v) <= A / 1073741824)%R.
Proof. exact (fun fpow akima bspline => effect_bezier_curve fpow akima ix_none bspline). Qed.
Print Assumptions C144_curve.
Example C144_hyps : curve_of 1000 1000 (e_kfs (ix_effect ix_five)) (ix_points ix_five) /\ increasing (ix_points ix_five) /\
  (forall i p r, nth_error (ix_points ix_five) i = Some p -> nth_error (ix_points ix_five) (i + 2) = Some r -> fst r - fst p <= 32767).
Proof. split; [apply ix_curve; [apply ix_in; reflexivity|eexists; reflexivity]|]. split; [apply ix_increasing; reflexivity|].
  intros i p r Ep Er. apply nth_error_In in Ep, Er. pose proof (ix_range ix_five eq_refl p Ep). pose proof (ix_range ix_five eq_refl r Er). lia. Qed.
Example C144_value : match add_curve_effect ix_pow ix_none (bezierInterpolation ix_pow) ix_none 20 1000 0 1000 BezierC (ix_effect ix_five) (ix_silence 20) with
  | Ok out => forallb (fun t => feq (nth (Z.to_nat t) out f64_0) (f64_of_f32 (ix_amp t))) [0; 5; 11] && negb (feq (nth 4 out f64_0) f64_0) && feq (nth 12 out f64_0) f64_0
  | _ => false end = true.
Proof. vm_compute. reflexivity. Qed.
(** With an even number of keyframes the last one is not interpolated, but its samples are read from beyond the end
    of a vector. *)
Theorem C144_even_refuted :
  forall fpow akima bspline fs pad ts sc e start points bandAmp,
  starts fs pad ts sc e start -> curve_of fs ts (e_kfs e) points -> (3 <= length points)%nat -> length bandAmp = Z.to_nat sc ->
  forall p, Nat.even (length points) = true -> ordered points ->
  nth_error points (length points - 2) = Some p -> fst p < last_time points -> start + fst p + 1 < sc ->
  add_curve_effect fpow akima (bezierInterpolation fpow) bspline sc fs pad ts BezierC e bandAmp = UB.
Proof. exact (fun fpow akima bspline => effect_bezier_even fpow akima ix_none bspline). Qed.
Print Assumptions C144_even_refuted.
Example C144_even_hyps : Nat.even (length (ix_points ix_four)) = true /\ nth_error (ix_points ix_four) (4 - 2) = Some (5, f64_of_f32 ix_half) /\ 5 < last_time (ix_points ix_four).
Proof. repeat split. Qed.
(** A segment of 46341 samples or more whose middle keyframe is not in the middle: an [int] overflows. *)
Theorem C144_long_refuted :
  forall fpow akima bspline fs pad ts sc e start points bandAmp,
  starts fs pad ts sc e start -> curve_of fs ts (e_kfs e) points -> (3 <= length points)%nat -> length bandAmp = Z.to_nat sc ->
  forall i p q r, ordered points ->
  nth_error points (2 * i) = Some p -> nth_error points (2 * i + 1) = Some q -> nth_error points (2 * i + 2) = Some r ->
  46341 <= fst r - fst p -> 2 * (fst q - fst p) <> fst r - fst p ->
  add_curve_effect fpow akima (bezierInterpolation fpow) bspline sc fs pad ts BezierC e bandAmp = UB.
Proof. exact (fun fpow akima bspline => effect_bezier_long fpow akima ix_none bspline). Qed.
Print Assumptions C144_long_refuted.
(** One minute at 1000 samples per second. *)
Definition ix_minute : list Z := [0; 1000; 60000].
Example C144_long_hyps : curve_of 1000 1000 (e_kfs (ix_effect ix_minute)) (ix_points ix_minute) /\ ordered (ix_points ix_minute).
Proof. split; [apply ix_curve; [apply ix_in; reflexivity|eexists; reflexivity]|]. apply ix_ordered; reflexivity. Qed.

(** ** C145 *)
(** At least three keyframes, in any order, with amplitudes up to [A]: the synthesis ends (whenever [fuel] is large
    enough).  If it is defined, the samples added are numbers up to [A] (up to rounding), one for each sample from the
    first keyframe to the last, the first and the last one being the amplitudes of these. *)
Theorem C145_bounded :
  forall fpow akima bezier fs pad ts sc e start points bandAmp,
  starts fs pad ts sc e start -> curve_of fs ts (e_kfs e) points -> (3 <= length points)%nat -> length bandAmp = Z.to_nat sc ->
  forall fuel A, finite_amplitudes (e_kfs e) -> Z.of_nat (length points) <= 2 ^ 31 -> 0 <= last_time points < 2 ^ 31 - 1 ->
  24 * last_time points < Z.of_nat fuel ->
  (bpow radix2 (-90) <= A <= bpow radix2 128)%R -> Forall (fun p => (Rabs (B2R (snd p)) <= A)%R) points ->
  add_curve_effect fpow akima bezier (bsplineInterpolation fuel) sc fs pad ts BsplineC e bandAmp = UB \/
  exists ys out, add_curve_effect fpow akima bezier (bsplineInterpolation fuel) sc fs pad ts BsplineC e bandAmp = Ok out /\ added start ys bandAmp out /\
    Z.of_nat (length ys) = last_time points + 1 /\ Forall (fun y => is_finite y = true /\ (Rabs (B2R y) <= A + A / 281474976710656)%R) ys /\
    (0 < last_time points -> hd_error ys = option_map snd (hd_error points)) /\ nth_error ys (Z.to_nat (last_time points)) = Some (snd (last points (0, f64_0))).
Proof. exact (fun fpow akima bezier => effect_bspline fpow akima bezier ix_none). Qed.
Print Assumptions C145_bounded.
Example C145_value : match add_curve_effect ix_pow ix_none ix_none (bsplineInterpolation 217) 20 1000 0 1000 BsplineC (ix_effect ix_four) (ix_silence 20) with
  | Ok out => feq (nth 0 out f64_0) (f64_of_f32 ix_one) && feq (nth 9 out f64_0) (f64_of_f32 ix_half) && negb (feq (nth 4 out f64_0) f64_0) && feq (nth 10 out f64_0) f64_0
  | _ => false end = true.
Proof. vm_compute. reflexivity. Qed.
Example C145_hyps : Forall (fun p => (Rabs (B2R (snd p)) <= 1)%R) (ix_points ix_four).
Proof.
  apply Forall_forall. intros p I. apply in_map_iff in I as (t & <- & _). cbn [snd]. destruct (f64_of_f32_ok (ix_amp t)) as (E & _); [unfold ix_amp; destruct (Z.even t); reflexivity|]. rewrite E.
  unfold ix_amp. destruct (Z.even t); unfold ix_one, ix_half, B2R, Defs.F2R; cbn [Defs.Fnum Defs.Fexp cond_Zopp].
  - change (-23) with (Z.opp 23). rewrite bpow_inv by lia. change (2 ^ 23) with 8388608. rewrite Rabs_pos_eq; lra.
  - change (-24) with (Z.opp 24). rewrite bpow_inv by lia. change (2 ^ 24) with 16777216. rewrite Rabs_pos_eq; lra.
Qed.

(** ** C146 *)
(** Fifteen keyframes at 0, 1, ..., 13 and 50 ms: the curve parameter passes 1 before the last sample, and the knots
    are read past their end. *)
Definition ix_many : list Z := [0; 1; 2; 3; 4; 5; 6; 7; 8; 9; 10; 11; 12; 13; 50].
Theorem C146_many_keyframes_refuted :
  exists fs ts sc e points, starts fs 0 ts sc e 0 /\ curve_of fs ts (e_kfs e) points /\ increasing points /\ last_time points < sc /\
  forall fpow akima bezier, add_curve_effect fpow akima bezier (bsplineInterpolation 1201) sc fs 0 ts BsplineC e (ix_silence (Z.to_nat sc)) = UB.
Proof.
  exists 1000, 1000, 100, (ix_effect ix_many), (ix_points ix_many).
  assert (S : starts 1000 0 1000 100 (ix_effect ix_many) 0) by (apply ix_starts; lia).
  assert (C : curve_of 1000 1000 (e_kfs (ix_effect ix_many)) (ix_points ix_many)) by (apply ix_curve; [apply ix_in; reflexivity|eexists; reflexivity]).
  assert (U : bsplineInterpolation 1201 (ix_points ix_many) = UB) by (vm_compute; reflexivity).
  assert (N : length (ix_points ix_many) <> 2%nat) by (unfold ix_points; rewrite map_length; vm_compute; discriminate).
  assert (L : last_time (ix_points ix_many) = 50) by (vm_compute; reflexivity).
  split; [exact S|]. split; [exact C|]. split; [apply ix_increasing; reflexivity|]. split; [rewrite L; reflexivity|]. intros fpow akima bezier.
  exact (effect_bspline_ub fpow akima bezier 1201 1000 0 1000 100 (ix_effect ix_many) 0 (ix_points ix_many) _ U S C N ltac:(rewrite L; discriminate)).
Qed.
Print Assumptions C146_many_keyframes_refuted.
