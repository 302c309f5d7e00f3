(** What is expected of Akima, Bezier and B-spline curves. *)
From Coq Require Import Reals.
From Flocq Require Import Core.Raux.
From Verif Require Import Base FloatBase FloatModel TypesModel SynthModel.
Local Open Scope Z_scope.

(** [std::pow] squares a number without passing over a representable one, and 10^-8 is between 0 and 1. *)
Definition pow_faithful (fpow : f64 -> f64 -> f64) : Prop :=
  (forall x : f64, is_finite x = true -> (Rabs (B2R x) <= bpow radix2 400)%R ->
     is_finite (fpow x f64_2) = true /\
     forall y : f64, is_finite y = true ->
       ((B2R y <= B2R x * B2R x)%R -> (B2R y <= B2R (fpow x f64_2))%R) /\
       ((B2R x * B2R x <= B2R y)%R -> (B2R (fpow x f64_2) <= B2R y)%R)) /\
  (let p := fpow (f64_of_Z 10) (f64_of_Z (-8)) in is_finite p = true /\ (0 <= B2R p <= 1)%R).

(** The points of a curve: the time of each keyframe in samples, counted from the first one, and its amplitude. *)
Definition keyframe_at (fs timescale first : Z) (k : keyframe) (p : point) : Prop :=
  exists t a, k_pos k = Some t /\ k_amp k = Some a /\ 0 <= t /\ t * fs < 2 ^ 31 /\ p = (t * fs / timescale - first, f64_of_f32 a).
Definition curve_of (fs timescale : Z) (kfs : list keyframe) (points : list point) : Prop :=
  exists first a, Forall2 (keyframe_at fs timescale first) kfs points /\ hd_error points = Some (0, a).

(** The effect starts [start] samples after the beginning of the signal, which has [sampleCount] samples. *)
Definition starts (fs pad timescale sampleCount : Z) (e : effect) (start : Z) : Prop :=
  0 < timescale < 2 ^ 32 /\ 0 <= fs /\ start = (e_pos e + pad) * fs * timescale /\ 0 <= e_pos e + pad < 2 ^ 31 /\
  (e_pos e + pad) * fs < 2 ^ 31 /\ 0 <= start < 2 ^ 31 /\ 0 <= sampleCount < 2 ^ 31.

(** [after] is [before] with [ys] added from [start] on. *)
Definition added (start : Z) (ys before after : list f64) : Prop :=
  length after = length before /\
  forall j x, nth_error before j = Some x ->
    nth_error after j =
    Some (match (if Z.of_nat j <? start then None else nth_error ys (j - Z.to_nat start)) with Some y => add64 x y | None => x end).

(** Times of a curve: strictly one after the other, or in order. *)
Definition increasing (points : list point) : Prop :=
  forall i p q, nth_error points i = Some p -> nth_error points (S i) = Some q -> fst p < fst q.
Definition ordered (points : list point) : Prop :=
  forall i p q, nth_error points i = Some p -> nth_error points (S i) = Some q -> fst p <= fst q.
Definition finite_amplitudes (kfs : list keyframe) : Prop :=
  Forall (fun k => exists a, k_amp k = Some a /\ is_finite a = true) kfs.
(** The samples are numbers, and the sample at the time of a point is its amplitude. *)
Definition goes_through (ys : list f64) (p : point) : Prop :=
  exists y, nth_error ys (Z.to_nat (fst p)) = Some y /\ B2R y = B2R (snd p).
Definition numbers (ys : list f64) : Prop := Forall (fun y => is_finite y = true) ys.
(** [v] is the value at time [x] of the quadratic Bezier curve with the control points [p], [q] and [r]. *)
Definition on_bezier (p q r : point) (x : Z) (v : R) : Prop :=
  exists t : R, (0 <= t <= 1)%R /\
    IZR x = ((1 - t) * (1 - t) * IZR (fst p) + 2 * (1 - t) * t * IZR (fst q) + t * t * IZR (fst r))%R /\
    v = ((1 - t) * (1 - t) * B2R (snd p) + 2 * (1 - t) * t * B2R (snd q) + t * t * B2R (snd r))%R.
(** The value at time [x] of the cubic through the points [p] and [q] whose slopes there are [s] and [s']. *)
Definition hermite (p q : point) (s s' : R) (x : Z) : R :=
  let h := IZR (fst q - fst p) in
  let u := (IZR (x - fst p) / h)%R in
  (B2R (snd p) * ((1 + 2 * u) * (1 - u) * (1 - u)) + B2R (snd q) * (u * u * (3 - 2 * u)) +
   h * s * (u * (1 - u) * (1 - u)) - h * s' * (u * u * (1 - u)))%R.
(** The slope of the straight line through two points. *)
Definition chord (p q : point) : R := ((B2R (snd q) - B2R (snd p)) / IZR (fst q - fst p))%R.
(** By how much the slope changes at [q], and Akima's slope at [p2]: the mean of the slopes before and after it, each
    weighted with the change of the slope on the other side. *)
Definition bend (p q r : point) : R := Rabs (chord q r - chord p q).
Definition akima_slope (p0 p1 p2 p3 p4 : point) : R :=
  ((bend p2 p3 p4 * chord p1 p2 + bend p0 p1 p2 * chord p2 p3) / (bend p0 p1 p2 + bend p2 p3 p4))%R.
