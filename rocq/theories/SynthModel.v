(** Synthesis of the signal of a channel: the evaluation functions of Types/src/Effect.cpp, Types/src/Band.cpp and
    Types/src/Channel.cpp, Tools/src/Tools.cpp (interpolation along a curve),
    Synthesizer/src/Helper.cpp.  No proofs in this file.
    [double] arithmetic is IEEE 754 binary64 (see FloatModel.v).  The functions of the C library and the
    three curve types that need more than two neighbouring points are parameters. *)
From Verif Require Import Base FloatBase FloatModel TypesModel ToolsModel.
Local Open Scope Z_scope.

Definition f64_m1 : f64 := @B754_finite 53 1024 true 4503599627370496 (-52) eq_refl.
Definition f64_2 : f64 := @B754_finite 53 1024 false 4503599627370496 (-51) eq_refl.
Definition f64_3 : f64 := @B754_finite 53 1024 false 6755399441055744 (-51) eq_refl.
Definition f64_4 : f64 := @B754_finite 53 1024 false 4503599627370496 (-50) eq_refl.
Definition f64_half : f64 := @B754_finite 53 1024 false 4503599627370496 (-53) eq_refl.
Definition f64_quarter : f64 := @B754_finite 53 1024 false 4503599627370496 (-54) eq_refl.
(** M_PI of <cmath>; MS_2_S: Tools.h 42; TRANSIENT_DURATION_MS: Band.h 100. *)
Definition M_PI : f64 := @B754_finite 53 1024 false 7074237752028440 (-51) eq_refl.
Definition MS_2_S : f64 := @B754_finite 53 1024 false 4611686018427388 (-62) eq_refl.
Definition TRANSIENT_DURATION_MS : f64 := @B754_finite 53 1024 false 6192449487634432 (-48) eq_refl.

(** Types/include/Effect.h 48: BaseSignal. *)
Definition Sine := 0.
Definition Square := 1.
Definition Triangle := 2.
Definition SawToothUp := 3.
Definition SawToothDown := 4.
(** Types/include/CurveType.h 42-49, continued. *)
Definition AkimaC := 3.
Definition BezierC := 4.
Definition BsplineC := 5.

(** [std::floor]. *)
Definition ffloor (x : f64) : f64 := Bnearbyint mode_DN x.
(** [int] arithmetic: overflow is undefined. *)
Definition int_ok (z : Z) : outcome Z := if z =? cast i32 z then Ok z else UB.

(** [std::find_if] from the end ([rbegin] or [make_reverse_iterator]): the last element satisfying [f]. *)
Definition find_last {A} (f : A -> bool) (l : list A) : option A := find f (rev l).
(** [std::find_if]: the element found and the elements before it. *)
Fixpoint find_split {A} (f : A -> bool) (before l : list A) : option (list A * A) :=
  match l with
  | [] => None
  | x :: l' => if f x then Some (before, x) else find_split f (before ++ [x]) l'
  end.

Definition has_pos (k : keyframe) : bool := match k_pos k with Some _ => true | None => false end.
Definition has_amp (k : keyframe) : bool := match k_amp k with Some _ => true | None => false end.
Definition has_freq (k : keyframe) : bool := match k_freq k with Some _ => true | None => false end.
(** [getRelativePosition().has_value() ? getRelativePosition().value() : 0]. *)
Definition pos_or_0 (k : keyframe) : Z := match k_pos k with Some t => t | None => 0 end.
(** [getAmplitudeModulation().value()], converted to [double]. *)
Definition amp_value (k : keyframe) : outcome f64 := match k_amp k with Some a => Ok (f64_of_f32 a) | None => Throw end.
Definition freq_value (k : keyframe) : outcome Z := match k_freq k with Some f => Ok f | None => Throw end.
Definition pos_value (k : keyframe) : outcome Z := match k_pos k with Some t => Ok t | None => Throw end.

(** Effect.cpp 403-425: getEffectTimeLength.  If no keyframe has a position the end iterator is dereferenced,
    except for wavelet bands. *)
Definition getEffectTimeLength (e : effect) (bandType : Z) (transientDuration : f64) : outcome f64 :=
  match e_kfs e with
  | [] => Ok f64_0
  | _ :: _ =>
      let lastKeyframe := find_last has_pos (e_kfs e) in
      if bandType =? TransientB then
        match lastKeyframe with None => UB | Some k => Ok (add64 (f64_of_Z (pos_or_0 k)) transientDuration) end
      else if (bandType =? CurveB) || (bandType =? VectorialB) then
        match lastKeyframe with None => UB | Some k => Ok (f64_of_Z (pos_or_0 k)) end
      else Ok f64_0
  end.

(** Tools.cpp 62-77: chirpInterpolation. *)
Definition chirpInterpolation (start_time end_time : Z) (start_frequency end_frequency position : f64) : outcome f64 :=
  let '(start_time, end_time, start_frequency, end_frequency) :=
    if end_time <? start_time then (end_time, start_time, end_frequency, start_frequency)
    else (start_time, end_time, start_frequency, end_frequency) in
  if start_time =? end_time then Ok end_frequency
  else
    do d <- int_ok (end_time - start_time);
    Ok (add64 (mul64 (div64 (div64 (sub64 end_frequency start_frequency) (f64_of_Z d)) f64_2)
                     (sub64 position (f64_of_Z start_time))) start_frequency).

(** Tools.cpp 91-94: is_eq; 100 * epsilon is 25 * 2^-50. *)
Definition EQ_THRESHOLD : f64 := @B754_finite 53 1024 false 7036874417766400 (-98) eq_refl.
Definition is_eq (a b : f64) : bool := fle (Babs (sub64 a b)) EQ_THRESHOLD.

(** A point of a curve: time in samples and amplitude. *)
Definition point := (Z * f64)%type.
Definition last_time (l : list point) : Z := fst (last l (0, f64_0)).
(** The times t, t + 1, ..., t1. *)
Definition times (t t1 : Z) : list Z := map (fun i => t + Z.of_nat i) (seq 0 (Z.to_nat (t1 + 1 - t))).

Section Libm.
(** [std::sin], [std::pow], and Tools.cpp 198-390 (akimaInterpolation, bezierInterpolation, bsplineInterpolation), which
    InterpModel.v models. *)
Variable fsin : f64 -> f64.
Variable fpow : f64 -> f64 -> f64.
Variables akima bezier bspline : list point -> outcome (list f64).

(** Effect.cpp 379-401: computeBaseSignal. *)
Definition computeBaseSignal (e : effect) (time frequency phase : f64) : f64 :=
  let time := if feq frequency f64_0 then time else add64 time (div64 phase (mul64 (mul64 f64_2 M_PI) frequency)) in
  let base := match e_base e with Some b => b | None => Sine end in
  let tf := mul64 time frequency in
  if base =? Sine then fsin (mul64 (mul64 (mul64 f64_2 M_PI) time) frequency)
  else if base =? Square then sub64 f64_1 (mul64 f64_2 (fround (sub64 tf (ffloor tf))))
  else if base =? Triangle then
    sub64 f64_1 (mul64 f64_4 (Babs (sub64 (fround (sub64 tf f64_quarter)) (sub64 tf f64_quarter))))
  else if base =? SawToothUp then mul64 f64_2 (sub64 tf (ffloor (add64 tf f64_half)))
  else if base =? SawToothDown then mul64 f64_2 (sub64 (ffloor (add64 tf f64_half)) tf)
  else f64_1.

(** Effect.cpp 196-227: the amplitude at the relative position. *)
Definition amp_modulation (kfs : list keyframe) (relativePosition : f64) : outcome f64 :=
  match find_split (fun k => has_amp k && match k_pos k with Some t => fle relativePosition (f64_of_Z t) | None => false end) [] kfs with
  | Some (before, k1) =>
      do a1 <- amp_value k1;
      match find_last has_amp before with
      | None => Ok a1
      | Some k0 => do a0 <- amp_value k0; Ok (linearInterpolation (pos_or_0 k0, a0) (pos_or_0 k1, a1) relativePosition)
      end
  | None => match find_last has_amp kfs with Some k => amp_value k | None => Ok f64_1 end
  end.

(** Effect.cpp 236-262: the loop over the keyframes with a frequency.  [before] are the keyframes already passed.
    The result is the phase, and if the loop stopped early the keyframe it stopped at and the previous one with
    a frequency. *)
Fixpoint freq_loop (before l : list keyframe) (relativePosition phi : f64) : outcome (f64 * option (keyframe * option keyframe)) :=
  match l with
  | [] => Ok (phi, None)
  | k :: l' =>
      match k_freq k with
      | None => freq_loop (before ++ [k]) l' relativePosition phi
      | Some f =>
          let pos := pos_or_0 k in
          let prev := find_last has_freq before in
          if fle relativePosition (f64_of_Z pos) then Ok (phi, Some (k, prev))
          else
            do phi <- match prev with
                      | Some k0 =>
                          do deltaT <- int_ok (pos - pos_or_0 k0);
                          do f0 <- freq_value k0;
                          do fs <- int_ok (f0 + f);
                          Ok (add64 phi (mul64 (mul64 (mul64 M_PI (f64_of_Z deltaT)) MS_2_S) (f64_of_Z fs)))
                      | None =>
                          if 0 <? pos
                          then Ok (add64 phi (mul64 (mul64 (mul64 (mul64 f64_2 M_PI) (f64_of_Z pos)) MS_2_S) (f64_of_Z f)))
                          else Ok phi
                      end;
            freq_loop (before ++ [k]) l' relativePosition phi
      end
  end.

(** Effect.cpp 183-299: EvaluateVectorial.  [std::clamp] is undefined when the bounds are in the wrong order. *)
Definition EvaluateVectorial (e : effect) (position : f64) (low high : Z) (timescale : Z) : outcome f64 :=
  do len <- getEffectTimeLength e VectorialB f64_0;
  let max_position := add64 (f64_of_Z (e_pos e)) len in
  if flt position (f64_of_Z (e_pos e)) || flt max_position position || Nat.eqb (length (e_kfs e)) 0 then Ok f64_0
  else
    let relativePosition := sub64 position (f64_of_Z (e_pos e)) in
    do amp <- amp_modulation (e_kfs e) relativePosition;
    let phi := match e_phase e with Some p => f64_of_f32 p | None => f64_0 end in
    do '(phi, stop) <- freq_loop [] (e_kfs e) relativePosition phi;
    do '(freq, relativePosition) <-
      match stop with
      | Some (k1, None) => do f <- freq_value k1; Ok (f64_of_Z f, relativePosition)
      | Some (k1, Some k0) =>
          do f0 <- freq_value k0;
          do f1 <- freq_value k1;
          do f <- chirpInterpolation (pos_or_0 k0) (pos_or_0 k1) (f64_of_Z f0) (f64_of_Z f1) relativePosition;
          if high <? low then UB
          else Ok (fclamp f (f64_of_Z low) (f64_of_Z high), sub64 relativePosition (f64_of_Z (pos_or_0 k0)))
      | None =>
          match find_last has_freq (e_kfs e) with
          | Some k => do f <- freq_value k; Ok (f64_of_Z f, relativePosition)
          | None => Ok (f64_0, relativePosition)
          end
      end;
    Ok (mul64 amp (computeBaseSignal e (div64 relativePosition (f64_of_Z timescale)) freq phi)).

(** Effect.cpp 301-311: EvaluateWavelet. *)
Definition EvaluateWavelet (e : effect) (position : f64) (fs timescale : Z) : outcome f64 :=
  let relativePosition := div64 (mul64 (sub64 position (f64_of_Z (e_pos e))) (f64_of_Z fs)) (f64_of_Z timescale) in
  do index <- int_of_float i32 (ffloor relativePosition);
  if vec_size (e_samples e) <=? index then Ok f64_0
  else if index <? 0 then UB
  else match nth_error (e_samples e) (Z.to_nat index) with Some v => Ok v | None => UB end.

(** Effect.cpp 316-320: checkingFunction. *)
Definition transient_at (relativePosition transientDuration : f64) (k : keyframe) : bool :=
  match k_pos k with
  | Some t => fle (f64_of_Z t) relativePosition && fle relativePosition (add64 (f64_of_Z t) transientDuration)
  | None => false
  end.
(** Effect.cpp 324-333: the loop; the iterator is not advanced at a keyframe without amplitude.  [l] are the
    keyframes from the iterator on, in reverse order. *)
Fixpoint transient_loop (fuel : nat) (relativePosition transientDuration res : f64) (l : list keyframe) : outcome f64 :=
  match fuel with
  | O => NoFuel
  | S fuel =>
      match l with
      | [] => Ok res
      | k :: l' =>
          if transient_at relativePosition transientDuration k then
            match k_amp k with
            | None => transient_loop fuel relativePosition transientDuration res l
            | Some a =>
                do t <- pos_value k;
                transient_loop fuel relativePosition transientDuration
                  (add64 res (mul64 (fsin (div64 (mul64 (mul64 f64_4 M_PI) (sub64 relativePosition (f64_of_Z t))) transientDuration))
                                    (f64_of_f32 a))) l'
            end
          else Ok res
      end
  end.
(** Effect.cpp 322: the elements from the first one satisfying [f]. *)
Fixpoint from_first {A} (f : A -> bool) (l : list A) : list A :=
  match l with
  | [] => []
  | x :: l' => if f x then l else from_first f l'
  end.
(** Effect.cpp 313-336: EvaluateTransient. *)
Definition EvaluateTransient (fuel : nat) (e : effect) (position transientDuration : f64) : outcome f64 :=
  let relativePosition := sub64 position (f64_of_Z (e_pos e)) in
  transient_loop fuel relativePosition transientDuration f64_0
    (from_first (transient_at relativePosition transientDuration) (rev (e_kfs e))).

(** Effect.cpp 338-377: EvaluateKeyframes. *)
Definition EvaluateKeyframes (e : effect) (position : f64) (curveType timescale : Z) : outcome f64 :=
  let relativePosition := sub64 position (f64_of_Z (e_pos e)) in
  match find_split (fun k => match k_pos k with Some t => has_amp k && flt relativePosition (f64_of_Z t) | None => false end) [] (e_kfs e) with
  | None => Ok f64_0
  | Some (before, k1) =>
      do f1 <- amp_value k1;
      match find_last (fun k => has_pos k && has_amp k) before with
      | None => Ok f1
      | Some k0 =>
          do f0 <- amp_value k0;
          let t0 := div64 (f64_of_Z (pos_or_0 k0)) (f64_of_Z timescale) in
          let t1 := div64 (f64_of_Z (pos_or_0 k1)) (f64_of_Z timescale) in
          let t := div64 relativePosition (f64_of_Z timescale) in
          if curveType =? CubicC then
            let h := sub64 t1 t0 in
            Ok (add64 f0 (div64 (mul64 (mul64 (sub64 f1 f0) (add64 (mul64 f64_3 h) (mul64 f64_2 (sub64 t0 t)))) (fpow (sub64 t t0) f64_2)) (fpow h f64_3)))
          else if curveType =? LinearC then
            Ok (div64 (add64 (mul64 f0 (sub64 t1 t)) (mul64 f1 (sub64 t t0))) (sub64 t1 t0))
          else Ok f64_0
      end
  end.

(** Band.cpp 272-274: getTransientDuration (TIMESCALE is 1000). *)
Definition getTransientDuration (timescale : Z) : f64 :=
  div64 TRANSIENT_DURATION_MS (div64 (f64_of_Z 1000) (f64_of_Z timescale)).

(** Band.cpp 147-169: EvaluationSwitch. *)
Definition EvaluationSwitch (fuel : nat) (b : band) (position : f64) (e : effect) (low high timescale : Z) : outcome f64 :=
  if b_type b =? CurveB then
    EvaluateKeyframes e position (match b_curve b with Some c => c | None => UnknownC end) timescale
  else if b_type b =? VectorialB then EvaluateVectorial e position low high timescale
  else if b_type b =? WaveletB then EvaluateWavelet e position (b_up b) timescale
  else if b_type b =? TransientB then
    if fle (f64_of_Z (e_pos e)) position then
      do len <- getEffectTimeLength e (b_type b) (getTransientDuration timescale);
      if fle position (add64 (f64_of_Z (e_pos e)) len) then EvaluateTransient fuel e position (getTransientDuration timescale)
      else Ok f64_0
    else Ok f64_0
  else Ok f64_0.

(** Band.cpp 124-145: Evaluate. *)
Definition bandEvaluate (fuel : nat) (b : band) (position : f64) (low high timescale : Z) : outcome f64 :=
  match b_effects b with
  | [] => Ok f64_0
  | _ :: _ =>
      let back := last (b_effects b) effect0 in
      do out <-
        (if b_type b =? WaveletB then Ok false
         else
           do len <- getEffectTimeLength back (b_type b) TRANSIENT_DURATION_MS;
           Ok (flt (add64 (f64_of_Z (e_pos back)) len) position || flt position f64_0));
      if (out : bool) then Ok f64_0
      else
        match find_last (fun e => fle (f64_of_Z (e_pos e)) position) (b_effects b) with
        | Some e => EvaluationSwitch fuel b position e low high timescale
        | None => Ok f64_0
        end
  end.

(** Tools.cpp 96-115: linearInterpolation2.  The time [t] counts up by 1 from 0 below 2^31, so it is modelled as
    an integer.  [point_at t t0 f0 t1 f1] is the amplitude at [t] between two points. *)
Section Curve.
Variable point_at : Z -> point -> point -> f64.
Fixpoint interpolate2 (stop t : Z) (p0 : point) (l : list point) : list f64 :=
  match l with
  | [] => []
  | p1 :: l' =>
      if t <? stop then
        map (fun t => point_at t p0 p1) (times t (fst p1)) ++ interpolate2 stop (Z.max t (fst p1 + 1)) p1 l'
      else []
  end.
Definition interpolation2 (points : list point) : outcome (list f64) :=
  match points with
  | [] => UB
  | p0 :: l => Ok (interpolate2 (last_time points) 0 p0 l)
  end.
End Curve.
Definition linear_at (t : Z) (p0 p1 : point) : f64 :=
  let x := f64_of_Z t in let t0 := f64_of_Z (fst p0) in let t1 := f64_of_Z (fst p1) in
  div64 (add64 (mul64 (snd p0) (sub64 t1 x)) (mul64 (snd p1) (sub64 x t0))) (sub64 t1 t0).
(** Tools.cpp 117-137: cubicInterpolation2. *)
Definition cubic_at (t : Z) (p0 p1 : point) : f64 :=
  let x := f64_of_Z t in let t0 := f64_of_Z (fst p0) in let t1 := f64_of_Z (fst p1) in
  let h := sub64 t1 t0 in
  add64 (snd p0) (div64 (mul64 (mul64 (sub64 (snd p1) (snd p0)) (add64 (mul64 f64_3 h) (mul64 f64_2 (sub64 t0 x)))) (fpow (sub64 x t0) f64_2)) (fpow h f64_3)).
Definition linearInterpolation2 (points : list point) : outcome (list f64) := interpolation2 linear_at points.
Definition cubicInterpolation2 (points : list point) : outcome (list f64) := interpolation2 cubic_at points.

(** Band.cpp 179-190: the keyframes of an effect as points, times in samples relative to the first one.
    [value * fs / timescale] is an [int] product divided as [unsigned]. *)
Definition curve_time (fs timescale t : Z) : outcome Z :=
  do p <- int_ok (t * fs);
  if timescale =? 0 then UB else Ok (cast i32 (cast u32 p / timescale)).
Fixpoint curve_points (fs timescale : Z) (first : option Z) (l : list keyframe) : outcome (list point) :=
  match l with
  | [] => Ok []
  | k :: l' =>
      do t <- pos_value k;
      do t <- curve_time fs timescale t;
      do t' <- match first with Some t0 => int_ok (t - t0) | None => Ok t end;
      do a <- amp_value k;
      do ps <- curve_points fs timescale (match first with Some t0 => Some t0 | None => Some t end) l';
      Ok ((t', a) :: ps)
  end.

(** Band.cpp 222-227: [bandAmp[i] += effectAmp[count]] while [i] is below the number of samples and [count] is at
    most the last time. *)
Fixpoint add_at (bandAmp : list f64) (i : nat) (v : f64) : outcome (list f64) :=
  match bandAmp, i with
  | [], _ => UB
  | x :: l, O => Ok (add64 x v :: l)
  | x :: l, S i' => do l' <- add_at l i' v; Ok (x :: l')
  end.
Fixpoint add_curve (n : nat) (i count : Z) (effectAmp bandAmp : list f64) : outcome (list f64) :=
  match n with
  | O => Ok bandAmp
  | S n' =>
      match nth_error effectAmp (Z.to_nat count) with
      | None => UB
      | Some v => do bandAmp <- add_at bandAmp (Z.to_nat i) v; add_curve n' (i + 1) (count + 1) effectAmp bandAmp
      end
  end.

(** Band.cpp 176-229: one effect of a curve band.  With two keyframes the amplitudes are not used.  A negative
    length of the vector throws. *)
Definition add_curve_effect (sampleCount fs pad timescale curveType : Z) (e : effect) (bandAmp : list f64) : outcome (list f64) :=
  do ps <- curve_points fs timescale None (e_kfs e);
  match ps with
  | [] => UB
  | p0 :: l =>
      let points := (0, snd p0) :: l in
      if last_time points <? -1 then Throw
      else if Nat.eqb (length points) 2 then do _ <- linearInterpolation2 points; Ok bandAmp
      else
        do effectAmp <- (if curveType =? LinearC then linearInterpolation2 points
                         else if curveType =? CubicC then cubicInterpolation2 points
                         else if curveType =? AkimaC then akima points
                         else if curveType =? BezierC then bezier points
                         else if curveType =? BsplineC then bspline points
                         else cubicInterpolation2 points);
        do p <- int_ok (e_pos e + pad);
        do p <- int_ok (p * fs);
        let position := cast i32 (cast u32 (p * timescale)) in
        do '(position, count) <- (if position <? 0 then do c <- int_ok (- position); Ok (0, c) else Ok (position, 0));
        add_curve (Z.to_nat (Z.min (cast i32 sampleCount - position) (last_time points + 1 - count))) position count effectAmp bandAmp
  end.
Fixpoint add_curve_effects (sampleCount fs pad timescale curveType : Z) (es : list effect) (bandAmp : list f64) : outcome (list f64) :=
  match es with
  | [] => Ok bandAmp
  | e :: es' =>
      do bandAmp <- add_curve_effect sampleCount fs pad timescale curveType e bandAmp;
      add_curve_effects sampleCount fs pad timescale curveType es' bandAmp
  end.

(** Band.cpp 233-251: one sample of another band; the effects are added from the last to the first.  With no
    effects an iterator before the beginning is dereferenced. *)
Fixpoint add_effects (fuel : nat) (b : band) (position : f64) (timescale : Z) (res : f64) (es : list effect) : outcome f64 :=
  match es with
  | [] => Ok res
  | e :: es' =>
      do res <- (if fle (f64_of_Z (e_pos e)) position
                 then do v <- EvaluationSwitch fuel b position e (b_low b) (b_up b) timescale; Ok (add64 res v)
                 else Ok res);
      add_effects fuel b position timescale res es'
  end.
Definition sample_position (fs pad timescale ti : Z) : f64 :=
  mul64 (f64_of_Z timescale) (sub64 (div64 (f64_of_Z ti) (f64_of_Z fs)) (mul64 (f64_of_Z pad) MS_2_S)).
Definition band_sample (fuel : nat) (b : band) (fs pad timescale ti : Z) : outcome f64 :=
  match b_effects b with
  | [] => UB
  | _ :: _ =>
      do _ <- getEffectTimeLength (last (b_effects b) effect0) (b_type b) (getTransientDuration timescale);
      add_effects fuel b (sample_position fs pad timescale ti) timescale f64_0 (rev (b_effects b))
  end.
Fixpoint map_o {A B} (f : A -> outcome B) (l : list A) : outcome (list B) :=
  match l with
  | [] => Ok []
  | x :: l' => do y <- f x; do ys <- map_o f l'; Ok (y :: ys)
  end.
(** Band.cpp 171-257: EvaluationBand. *)
Definition EvaluationBand (fuel : nat) (b : band) (sampleCount fs pad timescale : Z) : outcome (list f64) :=
  if b_type b =? CurveB then
    add_curve_effects sampleCount fs pad timescale (match b_curve b with Some c => c | None => UnknownC end)
      (b_effects b) (repeat f64_0 (Z.to_nat sampleCount))
  else map_o (band_sample fuel b fs pad timescale) (times 0 (sampleCount - 1)).

(** Channel.cpp 171-186: Evaluate. *)
Fixpoint sum_bands (fuel : nat) (bs : list band) (position : f64) (timescale : Z) (res : f64) : outcome f64 :=
  match bs with
  | [] => Ok res
  | b :: bs' => do v <- bandEvaluate fuel b position (b_low b) (b_up b) timescale; sum_bands fuel bs' position timescale (add64 res v)
  end.
Definition limit (v : f64) : f64 := if flt v f64_m1 then f64_m1 else if flt f64_1 v then f64_1 else v.
Definition channelEvaluate (fuel : nat) (c : channel) (position : f64) (timescale : Z) : outcome f64 :=
  do res <- sum_bands fuel (c_bands c) position timescale f64_0;
  Ok (limit res).

(** Channel.cpp 188-204: EvaluateChannel; the sum is limited after every band. *)
Fixpoint add_band (channelAmp bandAmp : list f64) : list f64 :=
  match channelAmp, bandAmp with
  | x :: l, y :: m => limit (add64 x y) :: add_band l m
  | l, [] => l
  | [], _ :: _ => []
  end.
Fixpoint add_bands (fuel : nat) (bs : list band) (sampleCount fs pad timescale : Z) (channelAmp : list f64) : outcome (list f64) :=
  match bs with
  | [] => Ok channelAmp
  | b :: bs' =>
      do bandAmp <- EvaluationBand fuel b sampleCount fs pad timescale;
      add_bands fuel bs' sampleCount fs pad timescale (add_band channelAmp bandAmp)
  end.
Definition EvaluateChannel (fuel : nat) (c : channel) (sampleCount fs pad timescale : Z) : outcome (list f64) :=
  add_bands fuel (c_bands c) sampleCount fs pad timescale (repeat f64_0 (Z.to_nat sampleCount)).

(** Band.cpp 259-266: getBandTimeLength. *)
Definition getBandTimeLength (b : band) (timescale : Z) : outcome f64 :=
  match b_effects b with
  | [] => Ok f64_0
  | _ :: _ =>
      let back := last (b_effects b) effect0 in
      do len <- getEffectTimeLength back (b_type b) (getTransientDuration timescale);
      Ok (add64 (f64_of_Z (e_pos back)) len)
  end.
End Libm.

(** Band.cpp 113-122: isOverlapping. *)
Definition isOverlapping (b : band) (e : effect) (start stop : Z) : outcome bool :=
  do length <- getEffectTimeLength e (b_type b) TRANSIENT_DURATION_MS;
  let position := f64_of_Z (e_pos e) in
  let finish := add64 position length in
  Ok (((e_pos e <=? start) && fle (f64_of_Z start) finish) || ((e_pos e <=? stop) && fle (f64_of_Z stop) finish) ||
      ((start <=? e_pos e) && fle finish (f64_of_Z stop)) || ((e_pos e <=? start) && fle (f64_of_Z stop) finish)).
(** Channel.cpp 157-163: whether an effect of the band overlaps. *)
Fixpoint any_overlapping (b : band) (es : list effect) (start stop : Z) : outcome bool :=
  match es with
  | [] => Ok false
  | e :: es' => do o <- isOverlapping b e start stop; if (o : bool) then Ok true else any_overlapping b es' start stop
  end.
(** Channel.cpp 146-169: findBandAvailable; the result is the index of the band, none for a null pointer. *)
Fixpoint find_band (i : nat) (bs : list band) (position duration bandType : Z) : outcome (option nat) :=
  match bs with
  | [] => Ok None
  | b :: bs' =>
      if negb (b_type b =? bandType) then find_band (S i) bs' position duration bandType
      else
        do busy <- match b_effects b with
                   | [] => Ok false
                   | es => do stop <- int_ok (position + duration); any_overlapping b es position stop
                   end;
        if (busy : bool) then find_band (S i) bs' position duration bandType else Ok (Some i)
  end.
Definition findBandAvailable (c : channel) (position duration bandType : Z) : outcome (option nat) :=
  find_band 0 (c_bands c) position duration bandType.

(** Helper.cpp 45-76: getTimeLength; [value()] of an absent timescale throws. *)
Definition fmax (currentLength maxLength : f64) : f64 := if flt maxLength currentLength then currentLength else maxLength.
Fixpoint bands_length (bs : list band) (timescale : Z) (maxLength : f64) : outcome f64 :=
  match bs with
  | [] => Ok maxLength
  | b :: bs' => do n <- getBandTimeLength b timescale; bands_length bs' timescale (fmax n maxLength)
  end.
Fixpoint channels_length (cs : list channel) (timescale : Z) (maxLength : f64) : outcome f64 :=
  match cs with
  | [] => Ok maxLength
  | c :: cs' =>
      do maxLength <-
        match c_freq c, c_count c with
        | Some f, Some n => Ok (fmax (mul64 (f64_of_Z timescale) (div64 (f64_of_Z n) (f64_of_Z f))) maxLength)
        | _, _ => bands_length (c_bands c) timescale maxLength
        end;
      channels_length cs' timescale maxLength
  end.
Fixpoint perceptions_length (ps : list perception) (timescale : Z) (maxLength : f64) : outcome f64 :=
  match ps with
  | [] => Ok maxLength
  | p :: ps' => do m <- channels_length (p_channels p) timescale maxLength; perceptions_length ps' timescale m
  end.
Definition getTimeLength (h : haptics) : outcome f64 :=
  match h_timescale h with
  | None => Throw
  | Some timescale => perceptions_length (h_perceptions h) timescale f64_0
  end.
