(** Curve bands from PCM signals: Encoder/src/PcmEncoder.cpp 143-239 (localExtrema, convertToCurveBand).
    No proofs in this file. *)
From Verif Require Import Base FloatBase FloatModel TypesModel MetaModel ToolsModel SynthModel.
Local Open Scope Z_scope.

(** PcmEncoder.cpp 217-220: whether [value] is kept. *)
Definition is_extremum (lastValue value nextValue : f64) : bool :=
  ((fle lastValue value && fle nextValue value) || (fle value lastValue && fle value nextValue)) &&
  negb (is_eq value lastValue && is_eq value nextValue).
(** PcmEncoder.cpp 215-229: the loop; the result is the extrema, and the last sample with its index.  [i] counts
    samples and is modelled as an integer. *)
Fixpoint extrema_loop (i : Z) (lastValue value : f64) (l : list f64) : list point * point :=
  match l with
  | [] => ([], (i, value))
  | nextValue :: l' =>
      let '(ps, e) := extrema_loop (i + 1) value nextValue l' in
      (if is_extremum lastValue value nextValue then (i, value) :: ps else ps, e)
  end.
(** PcmEncoder.cpp 174-237: localExtrema. *)
Definition localExtrema (signal : list f64) (includeBorder : bool) : list point :=
  match signal with
  | [] => []
  | [x] => if includeBorder then [(0, x); (0, x)] else []
  | [x; y] => if includeBorder then [(0, x); (1, y)] else []
  | x :: y :: l =>
      let '(ps, e) := extrema_loop 1 x y l in
      if includeBorder then (0, x) :: ps ++ [e] else ps
  end.

(** PcmEncoder.cpp 158-160: the position of a sample in ticks. *)
Definition tick_of (timescale : Z) (samplerate : f64) (i : Z) : outcome Z :=
  int_of_float i32 (fround (div64 (mul64 (f64_of_Z timescale) (f64_of_Z i)) samplerate)).
(** Effect.cpp 82-89: replaceKeyframeAt for the last keyframe, if any. *)
Definition replace_last (k : keyframe) (kfs : list keyframe) : list keyframe :=
  match kfs with [] => [] | _ :: _ => removelast kfs ++ [k] end.
(** PcmEncoder.cpp 156-168: the loop over the points; the amplitude is converted to [float]. *)
Fixpoint curve_loop (timescale : Z) (samplerate : f64) (lastPosition : Z) (points : list point) (kfs : list keyframe)
  : outcome (list keyframe) :=
  match points with
  | [] => Ok kfs
  | p :: points' =>
      do position <- tick_of timescale samplerate (fst p);
      let k := Keyframe (Some position) (Some (f32_of_f64 (snd p))) None in
      let kfs := if lastPosition <? position then kfs ++ [k]
                 else if position =? lastPosition then replace_last k kfs
                 else kfs in
      curve_loop timescale samplerate position points' kfs
  end.
(** PcmEncoder.cpp 138-172: convertToCurveBand ([out] is not null); the phase of the effect is 0 and its base signal
    a sine. *)
Definition convertToCurveBand (points : list point) (samplerate curveFrequencyLimit : f64) (timescale : Z) (out : band)
  : outcome (bool * band) :=
  if fle curveFrequencyLimit f64_0 then Ok (false, out)
  else
    do upper <- int_of_float i32 curveFrequencyLimit;
    do kfs <- curve_loop timescale samplerate (-1) points [];
    let e := Effect (-1) 0 (Some f32_0) None kfs (Some Sine) BasisE [] [] [] in
    Ok (true, Band CurveB (Some CubicC) (Some 0) 0 upper (insert_effect e (b_effects out)) (b_prio out)).
(** PcmEncoder.cpp 95-101, without filtering. *)
Definition curveBand (signal : list f64) (samplerate timescale : Z) : outcome (bool * band) :=
  convertToCurveBand (localExtrema signal true) (f64_of_Z samplerate) (f64_of_Z samplerate) timescale band0.
