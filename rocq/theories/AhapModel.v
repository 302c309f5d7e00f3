(** Import of AHAP files: source/Encoder/src/AhapEncoder.cpp and source/Encoder/include/AhapEncoder.h.  No proofs in this file.
    A document stands for what the code looks up in it: a member that is absent or of another kind is [None] (rapidjson is
    trusted).  A "ParameterCurve" without "ParameterID", an "Event" without "EventType" and an event parameter without
    "ParameterID" or with a "ParameterValue" that is not a number stop the program (an assertion of rapidjson) and are not
    represented. *)
From Coq Require Import Strings.String.
From Verif Require Import Base FloatBase FloatModel TypesModel ToolsModel SynthModel SemanticModel.
Local Open Scope Z_scope.
Local Open Scope list_scope.

(** A member of "ParameterCurveControlPoints": "Time" and "ParameterValue". *)
Record control := Control { co_time : option f64; co_value : option f64 }.
(** A "ParameterCurve": "ParameterID", "Time" and "ParameterCurveControlPoints". *)
Record curve := Curve { cu_id : str; cu_time : option f64; cu_points : option (list control) }.
(** An "Event": "EventType", "Time", "EventDuration" and "EventParameters", each with "ParameterID" and "ParameterValue". *)
Record event := Event { ev_type : str; ev_time : option f64; ev_duration : option f64; ev_params : option (list (str * f64)) }.
(** A member of "Pattern". *)
Record item := Item { it_curve : option curve; it_event : option event }.

(** AhapEncoder.cpp 50-62 and AhapEncoder.h: the constants. *)
Definition DEFAULT_AMPLITUDE : f32 := @B754_finite 24 128 false 8388608 (-24) eq_refl.
Definition DEFAULT_FREQUENCY : Z := 90.
Definition ACTUAL_AMPLITUDE_MIN_C : f64 := @B754_finite 53 1024 false 5528618902560021 (-53) eq_refl.
Definition ACTUAL_AMPLITUDE_MIN_T : f64 := @B754_finite 53 1024 false 7133701809754866 (-53) eq_refl.
Definition ACTUAL_FREQUENCY_MIN : Z := 65.
Definition ACTUAL_FREQUENCY_MAX : Z := 300.

(** Tools.cpp 79-90: genericNormalization. *)
Definition genericNormalization (start_in end_in start_out end_out x_in : f64) : f64 :=
  if feq (sub64 end_in start_in) f64_0 then f64_m1
  else add64 (mul64 (div64 (sub64 end_out start_out) (sub64 end_in start_in)) (sub64 x_in end_in)) end_out.
(** The three uses of it. *)
Definition normAmplitude (actual_max x : f64) : f64 := genericNormalization f64_0 f64_1 f64_0 actual_max x.
Definition normFrequency (x : f64) : f64 :=
  genericNormalization f64_0 f64_1 (f64_of_Z ACTUAL_FREQUENCY_MIN) (f64_of_Z ACTUAL_FREQUENCY_MAX) x.
(** [static_cast<int>(std::round(genericNormalization(...)))]. *)
Definition roundFrequency (x : f64) : outcome Z := int_of_float i32 (fround (normFrequency x)).

Definition set_amp (a : f32) (k : keyframe) : keyframe := Keyframe (k_pos k) (Some a) (k_freq k).
Definition set_freq (f : Z) (k : keyframe) : keyframe := Keyframe (k_pos k) (k_amp k) (Some f).
(** [getAmplitudeModulation().value()]. *)
Definition amp32_value (k : keyframe) : outcome f32 := match k_amp k with Some a => Ok a | None => Throw end.
(** [getKeyframeAt(0)] as an lvalue ([at] throws without keyframes). *)
Definition on_first (f : keyframe -> outcome keyframe) (e : effect) : outcome effect :=
  match e_kfs e with
  | [] => Throw
  | k :: r => do k' <- f k; Ok (set_kfs (k' :: r) e)
  end.

(** [static_cast<int>(std::round(x * timescale))]: the times of the events, AhapEncoder.cpp 223, 303, 314-315. *)
Definition eventTime (x : f64) (timescale : Z) : outcome Z := int_of_float i32 (fround (mul64 x (f64_of_Z timescale))).

(** extractKeyframes: AhapEncoder.cpp 182-209; [None] is EXIT_FAILURE. *)
Fixpoint controlPoints (curve_time : f64) (timescale : Z) (l : list control) : outcome (list point) :=
  match l with
  | [] => Ok []
  | c :: r =>
      match co_time c, co_value c with
      | Some t, Some v =>
          do first <- int_of_float i32 (mul64 (add64 t curve_time) (f64_of_Z timescale));
          do ps <- controlPoints curve_time timescale r;
          Ok ((first, v) :: ps)
      | _, _ => controlPoints curve_time timescale r
      end
  end.
Definition extractKeyframes (c : curve) (timescale : Z) (keyframes : list point) : outcome (option (list point)) :=
  match cu_time c, cu_points c with
  | Some t, Some l => do ps <- controlPoints t timescale l; Ok (Some (keyframes ++ ps))
  | _, _ => Ok None
  end.

(** [std::find_if] for the first point at or after [position]: the point before it (none at [begin()]), and the points from
    it on (none at [end()]). *)
Fixpoint find_from (prev : option point) (l : list point) (position : Z) : option point * list point :=
  match l with
  | [] => (prev, [])
  | p :: r => if fst p >=? position then (prev, l) else find_from (Some p) r position
  end.

(** The parameters of a transient: AhapEncoder.cpp 231-244. *)
Fixpoint transientParams (ps : list (str * f64)) (k : keyframe) : keyframe :=
  match ps with
  | [] => k
  | (id, v) :: r =>
      let k := if str_eqb id (bytes_of "HapticIntensity") then set_amp (f32_of_f64 (normAmplitude ACTUAL_AMPLITUDE_MIN_T v)) k else k in
      let k := if str_eqb id (bytes_of "HapticSharpness") then set_freq DEFAULT_FREQUENCY k else k in
      transientParams r k
  end.
(** extractTransients: AhapEncoder.cpp 211-288. *)
Definition transientAmplitude (amplitudes : list point) (position : Z) (k : keyframe) : outcome keyframe :=
  match amplitudes with
  | [] => Ok k
  | front :: _ =>
      do a <- amp32_value k;
      match find_from None amplitudes position with
      | (Some before, next :: _) => Ok (set_amp (mul32 (f32_of_f64 (linearInterpolation before next (f64_of_Z position))) a) k)
      | (None, _) => Ok (set_amp (mul32 (f32_of_f64 (snd front)) a) k)
      | (Some _, []) => Ok k
      end
  end.
Definition transientFrequency (frequencies : list point) (position : Z) (k : keyframe) : outcome keyframe :=
  match frequencies with
  | [] => Ok k
  | _ :: _ =>
      match find_from None frequencies position with
      | (Some before, next :: _) =>
          do freq <- int_of_float i32 (normFrequency (linearInterpolation before next (f64_of_Z position)));
          do f <- freq_value k;
          do f' <- int_ok (freq + f);
          Ok (set_freq f' k)
      | (None, _) => Ok (set_freq ACTUAL_FREQUENCY_MAX k)
      | (Some _, []) => Ok k
      end
  end.
Definition new_effect (position : Z) : effect :=
  Effect (-1) position (Some f32_0) None [] (Some Sine) BasisE [] [] [].
Definition extractTransients (ev : event) (amplitudes frequencies : list point) (timescale : Z) : outcome (option effect) :=
  match ev_time ev, ev_params ev with
  | Some time, Some params =>
      do position <- eventTime time timescale;
      let t := new_effect position in
      let k := transientParams params (Keyframe (Some 0) (Some DEFAULT_AMPLITUDE) (Some DEFAULT_FREQUENCY)) in
      do k <- transientAmplitude amplitudes position k;
      do k <- transientFrequency frequencies position k;
      Ok (Some (addKeyframe k t))
  | _, _ => Ok None
  end.

(** modulateContinuousOnAmplitude: AhapEncoder.cpp 349-399.  The loop of 376-398, from the point after [prev] on; [*(it - 1)]
    at the first point is undefined behaviour.  [it->first - position] is between 0 and the duration, it cannot overflow. *)
Fixpoint amplitudeLoop (prev : option point) (l : list point) (base_amp : f32) (c : effect) (k_end : keyframe)
  : outcome (effect * keyframe) :=
  match l with
  | [] => Ok (c, k_end)
  | p :: r =>
      do d <- pos_value k_end;
      do stop <- int_ok (e_pos c + d);
      if fst p >=? stop then
        match prev with
        | None => UB
        | Some q =>
            do a <- amp32_value k_end;
            Ok (c, set_amp (mul32 (f32_of_f64 (linearInterpolation q p (f64_of_Z stop))) a) k_end)
        end
      else
        let c :=
          if e_pos c <? fst p then
            let t := fst p - e_pos c in
            let c := match prev with None => addAmplitudeAt (Some base_amp) t true c | Some _ => c end in
            let c := addAmplitudeAt (Some (mul32 (f32_of_f64 (snd p)) base_amp)) t true c in
            match r with [] => addAmplitudeAt (Some base_amp) t true c | _ :: _ => c end
          else c in
        amplitudeLoop (Some p) r base_amp c k_end
  end.
(** AhapEncoder.cpp 349-375; [first_kf_a->first] at [end()] is undefined behaviour. *)
Definition modulateContinuousOnAmplitude (amplitudes : list point) (c : effect) (k_start k_end : keyframe)
  : outcome (effect * keyframe) :=
  match amplitudes with
  | [] => Ok (c, k_end)
  | _ :: _ =>
      do base_amp <- amp32_value k_start;
      match find_from None amplitudes (e_pos c) with
      | (_, []) => UB
      | (prev, p :: r) =>
          if (fst p =? e_pos c) && negb (Nat.eqb (length r) 0) then
            do c <- on_first (fun k => do a <- amp32_value k; Ok (set_amp (mul32 a (f32_of_f64 (snd p))) k)) c;
            amplitudeLoop (Some p) r base_amp c k_end
          else
            do c <- match prev with
                    | Some q =>
                        if e_pos c <? fst p then
                          on_first (fun k => do a <- amp32_value k;
                            Ok (set_amp (mul32 (f32_of_f64 (linearInterpolation q p (f64_of_Z (e_pos c)))) a) k)) c
                        else Ok c
                    | None => Ok c
                    end;
            amplitudeLoop prev (p :: r) base_amp c k_end
      end
  end.

(** modulateContinuousOnFrequency: AhapEncoder.cpp 401-469 (BASE_FREQUENCY_MIN = BASE_AMPLITUDE_MIN = 0,
    BASE_FREQUENCY_MAX = BASE_AMPLITUDE_MAX = 1).  The loop of 432-468. *)
Definition clamp01 (x : f64) : f64 := fclamp x f64_0 f64_1.
Fixpoint frequencyLoop (prev : option point) (l : list point) (base_freq : f64) (c : effect) (k_end : keyframe)
  : outcome (effect * keyframe) :=
  match l with
  | [] => Ok (c, k_end)
  | p :: r =>
      do d <- pos_value k_end;
      do stop <- int_ok (e_pos c + d);
      if fst p >=? stop then
        match prev with
        | None => UB
        | Some q =>
            do freq <- chirpInterpolation (fst q) (fst p) (add64 (snd q) base_freq) (add64 (snd p) base_freq) (f64_of_Z stop);
            do f <- roundFrequency (clamp01 (add64 freq base_freq));
            Ok (c, set_freq f k_end)
        end
      else
        do c <-
          if e_pos c <? fst p then
            let t := fst p - e_pos c in
            do c <- match prev with
                    | None => do f <- roundFrequency base_freq; Ok (addFrequencyAt (Some f) t c)
                    | Some _ => Ok c
                    end;
            do f <- roundFrequency (clamp01 (add64 (snd p) base_freq));
            let c := addFrequencyAt (Some f) t c in
            match r with
            | [] => do f <- roundFrequency base_freq; Ok (addFrequencyAt (Some f) t c)
            | _ :: _ => Ok c
            end
          else Ok c;
        frequencyLoop (Some p) r base_freq c k_end
  end.
(** AhapEncoder.cpp 401-430. *)
Definition modulateContinuousOnFrequency (frequencies : list point) (c : effect) (k_end : keyframe) (base_freq : f64)
  : outcome (effect * keyframe) :=
  match frequencies with
  | [] => Ok (c, k_end)
  | _ :: _ =>
      match find_from None frequencies (e_pos c) with
      | (_, []) => UB
      | (prev, p :: r) =>
          if (fst p =? e_pos c) && negb (Nat.eqb (length r) 0) then
            do f <- roundFrequency (clamp01 (add64 (snd p) base_freq));
            do c <- on_first (fun k => Ok (set_freq f k)) c;
            frequencyLoop (Some p) r base_freq c k_end
          else
            do c <- match prev with
                    | Some q =>
                        if e_pos c <? fst p then
                          do freq <- chirpInterpolation (fst q) (fst p) (add64 (snd q) base_freq) (add64 (snd p) base_freq)
                                       (f64_of_Z (e_pos c));
                          do f <- roundFrequency (clamp01 freq);
                          on_first (fun k => Ok (set_freq f k)) c
                        else Ok c
                    | None => Ok c
                    end;
            frequencyLoop prev (p :: r) base_freq c k_end
      end
  end.

(** The parameters of a continuous event: AhapEncoder.cpp 317-335; [k_end] gets the values of [k_start]. *)
Fixpoint continuousParams (ps : list (str * f64)) (a : f32) (f : Z) (base_freq : f64) : outcome (f32 * Z * f64) :=
  match ps with
  | [] => Ok (a, f, base_freq)
  | (id, v) :: r =>
      let a := if str_eqb id (bytes_of "HapticIntensity") then f32_of_f64 (normAmplitude ACTUAL_AMPLITUDE_MIN_C v) else a in
      do '(f, base_freq) <-
        (if str_eqb id (bytes_of "HapticSharpness") then do f <- int_of_float i32 (normFrequency v); Ok (f, v)
         else Ok (f, base_freq));
      continuousParams r a f base_freq
  end.
(** extractContinuous: AhapEncoder.cpp 290-347. *)
Definition extractContinuous (ev : event) (amplitudes frequencies : list point) (timescale : Z) : outcome (option effect) :=
  match ev_time ev, ev_duration ev, ev_params ev with
  | Some time, Some duration, Some params =>
      do position <- eventTime time timescale;
      do d <- eventTime duration timescale;
      do '(a, f, base_freq) <- continuousParams params DEFAULT_AMPLITUDE DEFAULT_FREQUENCY f64_1;
      let k_start := Keyframe (Some 0) (Some a) (Some f) in
      let k_end := Keyframe (Some d) (Some a) (Some f) in
      let c := addKeyframe k_start (new_effect position) in
      do '(c, k_end) <- modulateContinuousOnAmplitude amplitudes c k_start k_end;
      do '(c, k_end) <- modulateContinuousOnFrequency frequencies c k_end base_freq;
      Ok (Some (addKeyframe k_end c))
  | _, _, _ => Ok None
  end.

(** encode: AhapEncoder.cpp 66-180.  The control points: 97-116. *)
Fixpoint extractCurves (l : list item) (timescale : Z) (amplitudes frequencies : list point)
  : outcome (option (list point * list point)) :=
  match l with
  | [] => Ok (Some (amplitudes, frequencies))
  | i :: r =>
      match it_curve i with
      | None => extractCurves r timescale amplitudes frequencies
      | Some c =>
          do oa <- (if str_eqb (cu_id c) (bytes_of "HapticIntensityControl") then extractKeyframes c timescale amplitudes
                    else Ok (Some amplitudes));
          match oa with
          | None => Ok None
          | Some amplitudes =>
              do of <- (if str_eqb (cu_id c) (bytes_of "HapticSharpnessControl") then extractKeyframes c timescale frequencies
                        else Ok (Some frequencies));
              match of with
              | None => Ok None
              | Some frequencies => extractCurves r timescale amplitudes frequencies
              end
          end
      end
  end.
(** The events: 118-139. *)
Fixpoint extractEvents (l : list item) (amplitudes frequencies : list point) (timescale : Z)
  (transients continuous : list effect) : outcome (option (list effect * list effect)) :=
  match l with
  | [] => Ok (Some (transients, continuous))
  | i :: r =>
      match it_event i with
      | None => extractEvents r amplitudes frequencies timescale transients continuous
      | Some ev =>
          do ot <- (if str_eqb (ev_type ev) (bytes_of "HapticTransient") then
                      do o <- extractTransients ev amplitudes frequencies timescale;
                      Ok (match o with Some e => Some (transients ++ [e]) | None => None end)
                    else Ok (Some transients));
          match ot with
          | None => Ok None
          | Some transients =>
              do oc <- (if str_eqb (ev_type ev) (bytes_of "HapticContinuous") then
                          do o <- extractContinuous ev amplitudes frequencies timescale;
                          Ok (match o with Some e => Some (continuous ++ [e]) | None => None end)
                        else Ok (Some continuous));
              match oc with
              | None => Ok None
              | Some continuous => extractEvents r amplitudes frequencies timescale transients continuous
              end
          end
      end
  end.
(** The effect of all transients: 147-162. *)
Fixpoint transientKeyframes (ks : list keyframe) (pos : Z) (out : effect) : outcome effect :=
  match ks with
  | [] => Ok out
  | k :: r => do t <- int_ok (value_or (k_pos k) 0 + pos); transientKeyframes r pos (addKeyframe (Keyframe (Some t) (k_amp k) (k_freq k)) out)
  end.
Fixpoint transientEffect (l : list effect) (out : effect) : outcome effect :=
  match l with
  | [] => Ok out
  | e :: r => do out <- transientKeyframes (e_kfs e) (e_pos e) out; transientEffect r out
  end.
(** A new band (Band.h 71-73, Channel.cpp 119-130): no curve type, [blockLength] 0. *)
Definition new_band (t : Z) : band := Band t None (Some 0) 65 300 [] None.
(** The effect into the first band that is free: 164-176. *)
Definition injectContinuous (e : effect) (c : channel) : outcome channel :=
  match rev (e_kfs e) with
  | [] => Throw
  | k :: _ =>
      do duration <- pos_value k;
      do o <- findBandAvailable c (e_pos e) duration VectorialB;
      match o with
      | Some i => Ok (set_bands (upd_at (c_bands c) i (addEffect e)) c)
      | None => Ok (set_bands (c_bands c ++ [addEffect e (new_band VectorialB)]) c)
      end
  end.
Fixpoint injectContinuousAll (l : list effect) (c : channel) : outcome channel :=
  match l with
  | [] => Ok c
  | e :: r => do c <- injectContinuous e c; injectContinuousAll r c
  end.
(** The channel made if there is none: 141-145 (Channel.h 65-77). *)
Definition new_channel : channel :=
  Channel 0 (bytes_of "placeholder description") f32_1 f32_1 0 [] [] None None None None None None None None.
Definition encodeChannel (transients continuous : list effect) (c : channel) : outcome channel :=
  do t <- transientEffect transients effect0;
  injectContinuousAll continuous (addBand (addEffect t (new_band TransientB)) c).
(** [None] is EXIT_FAILURE; the "Pattern" that is no array is not represented. *)
Definition encode (pattern : list item) (timescale : Z) (p : perception) : outcome (option perception) :=
  if (1 <? length (p_channels p))%nat then Ok None
  else
    do o <- extractCurves pattern timescale [] [];
    match o with
    | None => Ok None
    | Some (amplitudes, frequencies) =>
        do o <- extractEvents pattern amplitudes frequencies timescale [] [];
        match o with
        | None => Ok None
        | Some (transients, continuous) =>
            let p := match p_channels p with [] => addChannel new_channel p | _ :: _ => p end in
            match p_channels p with
            | [] => Throw
            | c :: r => do c <- encodeChannel transients continuous c; Ok (Some (set_channels (c :: r) p))
            end
        end
    end.
