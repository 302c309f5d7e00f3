(** Properties C34, C35 and C67-C76: synthesis of the signal of a channel.  Theorems hold whatever [std::sin],
    [std::pow] and the akima, Bezier and B-spline curves compute. *)
From Coq Require Import Reals Lra Lia Floats.SpecFloat.
From Flocq Require Import Core.Zaux.
From Verif Require Import Base FloatBase FloatModel TypesModel ToolsModel SynthModel SynthSpec SynthProof SynthIndex SynthMore SynthCurve.
Local Open Scope Z_scope.

Definition sx_one : f32 := @B754_finite 24 128 false 8388608 (-23) eq_refl.
Definition sx_half : f32 := @B754_finite 24 128 false 8388608 (-24) eq_refl.
Definition sx_kf (t : option Z) (a : option f32) : keyframe := Keyframe t a None.
Definition sx_effect (pos : Z) (kfs : list keyframe) (samples : list f64) : effect :=
  Effect 0 pos None None kfs None BasisE [] samples [].
Definition sx_band (t : Z) (curve : option Z) (es : list effect) : band := Band t curve None 0 1000 es None.
Definition sx_channel (bs : list band) : channel := Channel 0 [] sx_one sx_one 0 [] bs None None None None None None None None.
(** A wavelet band that plays the samples given. *)
Definition sx_wave (samples : list f64) : band := sx_band WaveletB None [sx_effect 0 [] samples].
Definition sx_sin (x : f64) : f64 := x.
Definition sx_pow (x y : f64) : f64 := mul64 x x.
Definition sx_none (l : list point) : outcome (list f64) := UB.

(** ** C34 *)
(** The value at one instant, and every sample of the signal, is within full scale unless it is not a number; the
    signal has as many samples as asked for. *)
Theorem C34_bounded :
  forall fsin fpow akima bezier bspline fuel c,
  (forall position timescale v, channelEvaluate fsin fpow fuel c position timescale = Ok v ->
     is_nan v = true \/ full_scale v) /\
  (forall sampleCount fs pad timescale l,
     EvaluateChannel fsin fpow akima bezier bspline fuel c sampleCount fs pad timescale = Ok l ->
     length l = Z.to_nat sampleCount /\ Forall (fun v => is_nan v = true \/ full_scale v) l).
Proof.
  intros fsin fpow akima bezier bspline fuel c. split.
  - intros position timescale v. exact (evaluate_bounds fsin fpow fuel c position timescale v).
  - intros sc fs pad ts l. exact (channel_bounds fsin fpow akima bezier bspline fuel c sc fs pad ts l).
Qed.
Print Assumptions C34_bounded.
(** It can be not a number although every field is a number: two amplitudes at time 0 in a vectorial effect. *)
Definition sx_nan : channel :=
  sx_channel [sx_band VectorialB None [sx_effect 0 [sx_kf None (Some sx_one); sx_kf (Some 0) (Some sx_half)] []]].
Theorem C34_nan_refuted :
  forall fsin fpow akima bezier bspline fuel,
  channelEvaluate fsin fpow fuel sx_nan f64_0 1000 = Ok B754_nan /\
  EvaluateChannel fsin fpow akima bezier bspline fuel sx_nan 1 8000 0 1000 = Ok [B754_nan].
Proof. intros. split; vm_compute; reflexivity. Qed.
Print Assumptions C34_nan_refuted.
(** A signal that would reach 1 + 1 = 2. *)
Definition sx_values (o : outcome (list f64)) : outcome (list spec_float) := do l <- o; Ok (map B2SF l).
Example C34_value : forall fuel,
  sx_values (EvaluateChannel sx_sin sx_pow sx_none sx_none sx_none fuel (sx_channel [sx_wave [f64_1; f64_half]; sx_wave [f64_1; f64_quarter]]) 2 1000 0 1000) =
  Ok [B2SF f64_1; S754_finite false 6755399441055744 (-53)].
Proof. intros fuel. vm_compute. reflexivity. Qed.

(** ** C35 *)
(** The evaluation of a transient effect ends, unless at that time a keyframe without amplitude comes ... *)
Theorem C35_terminates :
  forall fsin fuel e position duration, (length (e_kfs e) < fuel)%nat ->
  ~ stuck_at (transient_at (sub64 position (f64_of_Z (e_pos e))) duration) (e_kfs e) ->
  exists v, EvaluateTransient fsin fuel e position duration = Ok v.
Proof. intros fsin. exact (transient_terminates fsin sx_pow). Qed.
Print Assumptions C35_terminates.
(** ... and then it does not end, whatever the number of steps. *)
Theorem C35_endless_refuted :
  forall fsin fuel e position duration,
  stuck_at (transient_at (sub64 position (f64_of_Z (e_pos e))) duration) (e_kfs e) ->
  EvaluateTransient fsin fuel e position duration = NoFuel.
Proof. exact transient_endless. Qed.
Print Assumptions C35_endless_refuted.
(** The whole synthesis of a channel with such an effect has no end. *)
Definition sx_stuck : channel :=
  sx_channel [sx_band TransientB None [sx_effect 0 [sx_kf (Some 0) None; sx_kf (Some 100) (Some sx_one)] []]].
Lemma sx_stuck_at : stuck_at (transient_at (sub64 (f64_of_Z 1) (f64_of_Z 0)) (getTransientDuration 1000)) [sx_kf (Some 0) None; sx_kf (Some 100) (Some sx_one)].
Proof.
  exists [], (sx_kf (Some 0) None), [], [sx_kf (Some 100) (Some sx_one)]. split; [reflexivity|].
  split; [apply Forall_cons; [vm_compute; reflexivity|apply Forall_nil]|]. split; [apply Forall_cons; [vm_compute; reflexivity|apply Forall_nil]|reflexivity].
Qed.
Example C35_channel : forall fsin fpow fuel, channelEvaluate fsin fpow fuel sx_stuck (f64_of_Z 1) 1000 = NoFuel.
Proof.
  intros fsin fpow fuel.
  pose proof (C35_endless_refuted fsin fuel (sx_effect 0 [sx_kf (Some 0) None; sx_kf (Some 100) (Some sx_one)] []) (f64_of_Z 1) (getTransientDuration 1000) sx_stuck_at) as H.
  unfold channelEvaluate, sx_stuck, sx_channel. cbn [c_bands sum_bands]. unfold bandEvaluate, sx_band. cbn [b_effects b_type last].
  change (TransientB =? WaveletB) with false. cbv iota.
  match goal with |- context [getEffectTimeLength ?e ?t ?d] => change (getEffectTimeLength e t d) with (Ok (add64 (f64_of_Z 100) d)) end. cbn [obind].
  replace (flt _ (f64_of_Z 1) || _) with false by (vm_compute; reflexivity). cbv iota.
  replace (find_last _ _) with (Some (sx_effect 0 [sx_kf (Some 0) None; sx_kf (Some 100) (Some sx_one)] [])) by (vm_compute; reflexivity).
  unfold EvaluationSwitch. cbn [b_type].
  change (TransientB =? CurveB) with false. change (TransientB =? VectorialB) with false. change (TransientB =? WaveletB) with false. change (TransientB =? TransientB) with true. cbv iota.
  replace (fle _ (f64_of_Z 1)) with true by (vm_compute; reflexivity). cbv iota.
  match goal with |- context [getEffectTimeLength ?e ?t ?d] => change (getEffectTimeLength e t d) with (Ok (add64 (f64_of_Z 100) d)) end. cbn [obind].
  replace (fle (f64_of_Z 1) _) with true by (vm_compute; reflexivity). cbv iota.
  rewrite H. reflexivity.
Qed.
(** At time 100 the evaluation ends: the keyframe there has an amplitude. *)
Example C35_ends : exists v, EvaluateTransient sx_sin 3 (sx_effect 0 [sx_kf (Some 0) None; sx_kf (Some 100) (Some sx_one)] []) (f64_of_Z 100) TRANSIENT_DURATION_MS = Ok v.
Proof.
  apply C35_terminates; [cbn; lia|]. intros (pre & k & mid & post & E & _ & H & N). change (e_pos _) with 0 in H.
  assert (I : In k [sx_kf (Some 0) None; sx_kf (Some 100) (Some sx_one)]) by (cbn [e_kfs sx_effect] in E; rewrite E; apply in_or_app; right; left; reflexivity).
  apply Forall_inv in H. destruct I as [<-|[<-|[]]]; [vm_compute in H; discriminate H|discriminate N].
Qed.

(** ** C67 *)
(** A curve band all of whose effects have two keyframes is silent. *)
Theorem C67_two_keyframes_refuted :
  forall fsin fpow akima bezier bspline fuel b sampleCount fs pad timescale l, b_type b = CurveB ->
  Forall (fun e => length (e_kfs e) = 2%nat) (b_effects b) ->
  EvaluationBand fsin fpow akima bezier bspline fuel b sampleCount fs pad timescale = Ok l ->
  l = repeat f64_0 (Z.to_nat sampleCount).
Proof. exact two_keyframes_band. Qed.
Print Assumptions C67_two_keyframes_refuted.
(** A line from 1 to 0.5 over 4 ticks, at 1000 Hz: silence; with a third keyframe on it, it is heard.  At one instant
    the evaluation does give the line. *)
Definition sx_line (mid : list keyframe) : band :=
  sx_band CurveB (Some LinearC) [sx_effect 0 ([sx_kf (Some 0) (Some sx_one)] ++ mid ++ [sx_kf (Some 4) (Some sx_half)]) []].
Example C67_values :
  EvaluationBand sx_sin sx_pow sx_none sx_none sx_none 1 (sx_line []) 3 1000 0 1000 = Ok [f64_0; f64_0; f64_0] /\
  sx_values (EvaluationBand sx_sin sx_pow sx_none sx_none sx_none 1 (sx_line [sx_kf (Some 2) (Some sx_one)]) 4 1000 0 1000) =
    Ok [B2SF f64_1; B2SF f64_1; B2SF f64_1; S754_finite false 6755399441055744 (-53)] /\
  sx_values (do v <- bandEvaluate sx_sin sx_pow 1 (sx_line []) f64_0 0 1000 1000; Ok [v]) = Ok [B2SF f64_1].
Proof. vm_compute. auto. Qed.

(** ** C68 *)
(** An effect of a curve band at [position] adds nothing to the signal if position * fs * timescale, instead of
    position * fs / timescale, is beyond its end. *)
Theorem C68_late_refuted :
  forall fpow akima bezier bspline sampleCount fs pad timescale curve e l l' start, 0 <= sampleCount < 2 ^ 31 ->
  start = (e_pos e + pad) * fs * timescale -> sampleCount <= start < 2 ^ 31 ->
  add_curve_effect fpow akima bezier bspline sampleCount fs pad timescale curve e l = Ok l' -> l' = l.
Proof. exact late_start. Qed.
Print Assumptions C68_late_refuted.
(** An effect at 1 ms of 100 ms of signal at 1000 Hz is not heard; at position 0 it is. *)
Definition sx_curve (pos : Z) : band :=
  sx_band CurveB (Some LinearC) [sx_effect pos [sx_kf (Some 0) (Some sx_one); sx_kf (Some 2) (Some sx_one); sx_kf (Some 4) (Some sx_one)] []].
Example C68_values :
  EvaluationBand sx_sin sx_pow sx_none sx_none sx_none 1 (sx_curve 1) 100 1000 0 1000 = Ok (repeat f64_0 100) /\
  sx_values (EvaluationBand sx_sin sx_pow sx_none sx_none sx_none 1 (sx_curve 0) 100 1000 0 1000) = Ok (map B2SF ([f64_1; f64_1; f64_1; f64_1; f64_1] ++ repeat f64_0 95)).
Proof. vm_compute. auto. Qed.

(** ** C69 *)
(** While no partial sum of the bands exceeds full scale, a sample of the channel is the sum of those of its bands. *)
Theorem C69_sum :
  forall fsin fpow akima bezier bspline fuel c sampleCount fs pad timescale out,
  EvaluateChannel fsin fpow akima bezier bspline fuel c sampleCount fs pad timescale = Ok out ->
  exists signals,
    Forall2 (fun b s => EvaluationBand fsin fpow akima bezier bspline fuel b sampleCount fs pad timescale = Ok s) (c_bands c) signals /\
    forall k, (k < Z.to_nat sampleCount)%nat -> never_clipped (at_instant k signals) ->
      nth k out f64_0 = mix (at_instant k signals).
Proof. exact channel_sum. Qed.
Print Assumptions C69_sum.
(** In general the result depends on the order of the bands, and is not the value at that instant: the bands 1, 1
    and -1 give 0, but 1, -1 and 1 give 1, as does the evaluation at one instant. *)
Theorem C69_order_refuted :
  exists b1 b2, forall fsin fpow akima bezier bspline fuel,
  EvaluateChannel fsin fpow akima bezier bspline fuel (sx_channel [b1; b1; b2]) 1 1000 0 1000 = Ok [f64_0] /\
  EvaluateChannel fsin fpow akima bezier bspline fuel (sx_channel [b1; b2; b1]) 1 1000 0 1000 = Ok [f64_1] /\
  (do v <- channelEvaluate fsin fpow fuel (sx_channel [b1; b1; b2]) f64_0 1000; Ok (feq v f64_1)) = Ok true.
Proof. exists (sx_wave [f64_1]), (sx_wave [f64_m1]). intros. vm_compute. auto. Qed.
Print Assumptions C69_order_refuted.
Example C69_hyps : never_clipped (at_instant 1 [[f64_1; f64_half]; [f64_1; f64_quarter]]).
Proof.
  assert (V1 : full_scale (add64 f64_0 f64_half)) by (apply full_scale_flt; vm_compute; reflexivity).
  assert (V2 : full_scale (add64 (add64 f64_0 f64_half) f64_quarter)) by (apply full_scale_flt; vm_compute; reflexivity).
  intros [|[|[|n]]]; unfold mix, at_instant; cbn [map nth firstn fold_left]; [exact full_scale_0|exact V1|exact V2|exact V2].
Qed.

(** ** C70 *)
(** A curve effect with one keyframe reads outside of a vector. *)
Theorem C70_one_keyframe_refuted :
  forall fpow akima bezier bspline sampleCount fs pad timescale curve e l k t a, e_kfs e = [k] -> k_pos k = Some t -> k_amp k = Some a ->
  (curve = UnknownC \/ curve = CubicC \/ curve = LinearC) -> - 2 ^ 31 <= t * fs < 2 ^ 31 -> timescale <> 0 ->
  0 <= sampleCount < 2 ^ 31 -> - 2 ^ 31 <= e_pos e + pad < 2 ^ 31 -> - 2 ^ 31 <= (e_pos e + pad) * fs < 2 ^ 31 ->
  0 <= (e_pos e + pad) * fs * timescale < sampleCount ->
  add_curve_effect fpow akima bezier bspline sampleCount fs pad timescale curve e l = UB.
Proof. exact one_keyframe. Qed.
Print Assumptions C70_one_keyframe_refuted.
Example C70_channel :
  EvaluateChannel sx_sin sx_pow sx_none sx_none sx_none 1
    (sx_channel [sx_band CurveB (Some CubicC) [sx_effect 0 [sx_kf (Some 0) (Some sx_one)] []]]) 100 8000 0 1000 = UB.
Proof. vm_compute. reflexivity. Qed.

(** ** C71 *)
(** A band without effects, other than a curve band, makes the synthesis read before a vector; at one instant it is silent. *)
Theorem C71_no_effects_refuted :
  forall fsin fpow akima bezier bspline fuel b sampleCount fs pad timescale, b_type b <> CurveB -> b_effects b = [] -> 0 < sampleCount ->
  EvaluationBand fsin fpow akima bezier bspline fuel b sampleCount fs pad timescale = UB /\
  forall position low high, bandEvaluate fsin fpow fuel b position low high timescale = Ok f64_0.
Proof.
  intros fsin fpow akima bezier bspline fuel b sc fs pad ts H1 H2 H3. split; [exact (no_effects fsin fpow akima bezier bspline fuel b sc fs pad ts H1 H2 H3)|].
  intros. unfold bandEvaluate. rewrite H2. reflexivity.
Qed.
Print Assumptions C71_no_effects_refuted.
Example C71_channel : EvaluateChannel sx_sin sx_pow sx_none sx_none sx_none 1 (sx_channel [sx_wave [f64_1]; sx_band TransientB None []]) 100 8000 0 1000 = UB.
Proof. vm_compute. reflexivity. Qed.

(** ** C72 *)
(** Sample k of a decoded wavelet band is sample k of its signal, or the one before. *)
Theorem C72_played :
  forall fsin fpow akima bezier bspline fuel b e sampleCount timescale out, b_type b = WaveletB -> b_effects b = [e] -> e_pos e = 0 ->
  1 <= b_up b < 2 ^ 31 -> 1 <= timescale < 2 ^ 32 -> sampleCount < 2 ^ 31 -> vec_size (e_samples e) < 2 ^ 31 ->
  Forall (fun v => is_finite v = true) (e_samples e) ->
  EvaluationBand fsin fpow akima bezier bspline fuel b sampleCount (b_up b) 0 timescale = Ok out ->
  forall k, (k < Z.to_nat sampleCount)%nat ->
  exists i, (i = k \/ S i = k) /\ B2R (nth k out f64_0) = B2R (nth i (e_samples e) f64_0) /\ is_finite (nth k out f64_0) = true.
Proof. exact wavelet_band_played. Qed.
Print Assumptions C72_played.
(** It is not always sample k: at 44100 Hz, sample 2 is played twice and sample 3 is lost. *)
Definition sx_44100 : band :=
  Band WaveletB None None 0 44100 [sx_effect 0 [] [f64_0; f64_quarter; f64_half; f64_1; f64_quarter]] None.
Theorem C72_shifted_refuted :
  forall fsin fpow akima bezier bspline fuel,
  EvaluationBand fsin fpow akima bezier bspline fuel sx_44100 5 44100 0 1000 = Ok [f64_0; f64_quarter; f64_half; f64_half; f64_quarter].
Proof. intros. vm_compute. reflexivity. Qed.
Print Assumptions C72_shifted_refuted.
Example C72_hyps : Forall (fun v => is_finite v = true) (e_samples (sx_effect 0 [] [f64_0; f64_quarter; f64_half; f64_1; f64_quarter])) /\ 1 <= b_up sx_44100 < 2 ^ 31.
Proof. split; [cbn; repeat (apply Forall_cons; [reflexivity|]); apply Forall_nil|cbn; lia]. Qed.

(** ** C73 *)
(** A band is silent before its first effect starts, and after the end of its last one. *)
Theorem C73_silence :
  forall fsin fpow fuel b position low high timescale v, bandEvaluate fsin fpow fuel b position low high timescale = Ok v ->
  (Forall (fun e => fle (f64_of_Z (e_pos e)) position = false) (b_effects b) -> v = f64_0) /\
  (forall len, b_type b <> WaveletB -> b_effects b <> [] ->
     getEffectTimeLength (last (b_effects b) effect0) (b_type b) TRANSIENT_DURATION_MS = Ok len ->
     flt (add64 (f64_of_Z (e_pos (last (b_effects b) effect0))) len) position = true -> v = f64_0).
Proof.
  intros fsin fpow fuel b position low high ts v H. split.
  - intros Hf. exact (before_effects fsin fpow fuel b position low high ts v Hf H).
  - intros len T N L F. exact (after_effects fsin fpow fuel b position low high ts v len T N L F H).
Qed.
Print Assumptions C73_silence.
(** A transient at 10: silent at 9 and at 33; not silent at 15. *)
Definition sx_transient : band := sx_band TransientB None [sx_effect 10 [sx_kf (Some 0) (Some sx_one)] []].
Example C73_values :
  bandEvaluate sx_sin sx_pow 5 sx_transient (f64_of_Z 9) 0 1000 1000 = Ok f64_0 /\
  bandEvaluate sx_sin sx_pow 5 sx_transient (f64_of_Z 33) 0 1000 1000 = Ok f64_0 /\
  (do v <- bandEvaluate sx_sin sx_pow 5 sx_transient (f64_of_Z 15) 0 1000 1000; Ok (feq v f64_0)) = Ok false /\
  sx_values (do v <- getEffectTimeLength (last (b_effects sx_transient) effect0) TransientB TRANSIENT_DURATION_MS; Ok [v]) = Ok [B2SF (f64_of_Z 22)].
Proof. vm_compute. auto. Qed.

(** ** C74 *)
(** The length of the signal covers the last effect of every band, in channels that do not state their own length ... *)
Theorem C74_last_effects :
  forall h timescale n p c b e len, h_timescale h = Some timescale -> getTimeLength h = Ok n ->
  In p (h_perceptions h) -> In c (p_channels p) -> (c_freq c = None \/ c_count c = None) -> In b (c_bands c) ->
  (exists es, b_effects b = es ++ [e]) -> b_type b <> TransientB -> 0 <= b_type b <= 3 -> small_times e ->
  effect_length (b_type b) e len ->
  is_nan n = false /\ fle (f64_of_Z (e_pos e + len)) n = true.
Proof. exact length_covers. Qed.
Print Assumptions C74_last_effects.
(** ... but not the other effects: here the first one lasts until 100, and the signal until 20. *)
Definition sx_long : effect := sx_effect 0 [sx_kf (Some 0) (Some sx_one); sx_kf (Some 100) (Some sx_one)] [].
Definition sx_short : effect := sx_effect 10 [sx_kf (Some 0) (Some sx_one); sx_kf (Some 10) (Some sx_one)] [].
Definition sx_experience : haptics :=
  Haptics [] [] 1 [] [] [Perception 0 0 [] None None 1 [sx_channel [sx_band VectorialB None [sx_long; sx_short]]] [] None None []] [] (Some 1000) [].
Theorem C74_earlier_effects_refuted :
  effect_length VectorialB sx_long 100 /\ exists n, getTimeLength sx_experience = Ok n /\ feq n (f64_of_Z 20) = true.
Proof.
  split; [|eexists; split; [unfold getTimeLength; cbn; reflexivity|vm_compute; reflexivity]]. right. right. exists 100. split; [|right; auto].
  exists [sx_kf (Some 0) (Some sx_one)], (sx_kf (Some 100) (Some sx_one)), []. auto.
Qed.
Print Assumptions C74_earlier_effects_refuted.
Example C74_hyps : effect_length VectorialB sx_short 10 /\ small_times sx_short.
Proof.
  split; [right; right; exists 10; split; [exists [sx_kf (Some 0) (Some sx_one)], (sx_kf (Some 10) (Some sx_one)), []; auto|right; auto]|].
  split; [cbn; lia|]. cbn. repeat (apply Forall_cons; [cbn; lia|]). apply Forall_nil.
Qed.

(** ** C75 *)
(** Looking for a band to put an effect in always gives an answer: a band of that type none of whose effects meets
    the interval, or none if every band of that type has one that does. *)
Theorem C75_free_band :
  forall c position duration bandType, 0 <= bandType <= 3 -> - 2 ^ 31 <= position -> 0 <= duration -> position + duration < 2 ^ 31 ->
  Forall (fun b => b_type b = bandType -> Forall (placed bandType) (b_effects b)) (c_bands c) ->
  exists r, findBandAvailable c position duration bandType = Ok r /\
  match r with
  | Some j => exists b, nth_error (c_bands c) j = Some b /\ b_type b = bandType /\
                Forall (fun e => ~ touches bandType position duration e) (b_effects b)
  | None => Forall (fun b => b_type b = bandType -> Exists (touches bandType position duration) (b_effects b)) (c_bands c)
  end.
Proof. exact free_band. Qed.
Print Assumptions C75_free_band.
(** An effect whose keyframes have no position at all makes it, and every evaluation, read past the end of a vector. *)
Theorem C75_no_position_refuted :
  forall e bandType duration, bandType = TransientB \/ bandType = CurveB \/ bandType = VectorialB ->
  e_kfs e <> [] -> Forall (fun k => k_pos k = None) (e_kfs e) ->
  getEffectTimeLength e bandType duration = UB.
Proof. exact no_position. Qed.
Print Assumptions C75_no_position_refuted.
Definition sx_busy : channel := sx_channel [sx_band VectorialB None [sx_short]; sx_transient; sx_band VectorialB None [sx_effect 30 (e_kfs sx_short) []]].
Example C75_values :
  findBandAvailable sx_busy 15 10 VectorialB = Ok (Some 2%nat) /\ findBandAvailable sx_busy 25 3 VectorialB = Ok (Some 0%nat) /\
  findBandAvailable sx_busy 15 20 VectorialB = Ok None /\ findBandAvailable sx_busy 33 3 TransientB = Ok (Some 1%nat).
Proof. vm_compute. auto. Qed.

(** ** C76 *)
(** An effect of a linear or cubic curve band with times in order (in samples, from its first keyframe) that ends
    before the signal: it is read past the end of a vector if one of its keyframes after the first is exactly one sample
    before the last one, or if they all fall into one sample; otherwise it is added. *)
Theorem C76_last_sample_refuted :
  forall fpow akima bezier bspline fs timescale sampleCount pad curve e k t a kfs l bandAmp start,
  0 < timescale < 2 ^ 32 -> 0 <= fs -> e_kfs e = k :: kfs -> k_pos k = Some t -> k_amp k = Some a -> 0 <= t -> t * fs < 2 ^ 31 ->
  samples_from fs timescale (t * fs / timescale) kfs l -> in_order (0 :: l) -> length kfs <> 1%nat ->
  (curve = UnknownC \/ curve = CubicC \/ curve = LinearC) ->
  start = (e_pos e + pad) * fs * timescale -> 0 <= e_pos e + pad < 2 ^ 31 -> (e_pos e + pad) * fs < 2 ^ 31 ->
  0 <= sampleCount < 2 ^ 31 -> length bandAmp = Z.to_nat sampleCount -> start + last l 0 < sampleCount ->
  if (last l 0 =? 0) || existsb (fun s => s =? last l 0 - 1) l
  then add_curve_effect fpow akima bezier bspline sampleCount fs pad timescale curve e bandAmp = UB
  else exists out, add_curve_effect fpow akima bezier bspline sampleCount fs pad timescale curve e bandAmp = Ok out.
Proof. exact curve_effect. Qed.
Print Assumptions C76_last_sample_refuted.
(** Keyframes at 0, 2 and 3 ms at 1000 Hz. *)
Definition sx_close : list keyframe := [sx_kf (Some 0) (Some sx_one); sx_kf (Some 2) (Some sx_half); sx_kf (Some 3) (Some sx_one)].
Example C76_hyps : samples_from 1000 1000 (0 * 1000 / 1000) (tl sx_close) [2; 3] /\ in_order [0; 2; 3] /\
  EvaluateChannel sx_sin sx_pow sx_none sx_none sx_none 1 (sx_channel [sx_band CurveB (Some LinearC) [sx_effect 0 sx_close []]]) 100 1000 0 1000 = UB.
Proof.
  split; [|split; [|vm_compute; reflexivity]].
  - unfold sx_close. cbn [tl]. repeat (apply Forall2_cons; [eexists _, _; cbn; repeat split; lia|]). apply Forall2_nil.
  - intros i j x y H. destruct i as [|[|[|i]]], j as [|[|[|j]]]; cbn; intros [= <-] [= <-] || (intros X Y; first [discriminate X|discriminate Y|destruct i; discriminate X|destruct j; discriminate Y]); lia.
Qed.
Example C75_hyps : Forall (fun b => b_type b = VectorialB -> Forall (placed VectorialB) (b_effects b)) (c_bands sx_busy).
Proof.
  assert (P : forall pos, 0 <= pos <= 100 -> placed VectorialB (sx_effect pos (e_kfs sx_short) [])).
  { intros pos H. split; [split; [cbn; lia|exact (proj2 (proj2 C74_hyps))]|]. exists 10. split; [exact (proj1 C74_hyps)|lia]. }
  unfold sx_busy, sx_channel. cbn [c_bands]. apply Forall_cons; [|apply Forall_cons; [|apply Forall_cons; [|apply Forall_nil]]].
  - intros _. apply Forall_cons; [apply (P 10); lia|apply Forall_nil].
  - discriminate.
  - intros _. apply Forall_cons; [apply P; lia|apply Forall_nil].
Qed.
