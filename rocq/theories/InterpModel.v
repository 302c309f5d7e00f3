(** The curves of Tools/src/Tools.cpp that use more than two neighbouring keyframes: akimaInterpolation,
    bezierInterpolation and bsplineInterpolation.  No proofs in this file.
    [double] arithmetic is IEEE 754 binary64 (see FloatModel.v); [std::pow] is a parameter. *)
From Verif Require Import Base FloatBase FloatModel TypesModel ToolsModel SynthModel.
Local Open Scope Z_scope.

(** Tools.h 45-48. *)
Definition AKIMA_EPSILON : Z := -100.
Definition AKIMA_THRESHOLD : Z := 10.
Definition AKIMA_THRESHOLD2 : Z := -8.
Definition BSPLINE_STEP : Z := 10.

(** [v[i]] where the index is known to be below the length of the vector. *)
Definition at_ (l : list f64) (i : nat) : f64 := nth i l f64_0.
Definition time_of (points : list point) (i : nat) : Z := fst (nth i points (0, f64_0)).
Definition value_of (points : list point) (i : nat) : f64 := snd (nth i points (0, f64_0)).

Section Pow.
Variable fpow : f64 -> f64 -> f64.

(** Tools.cpp 213-214: [dx], as a [double]. *)
Definition akima_dx (points : list point) (i : nat) : f64 := f64_of_Z (time_of points (i + 1) - time_of points i).
(** Tools.cpp 213-218: [m]. *)
Definition akima_m (points : list point) : list f64 :=
  map (fun i => div64 (sub64 (value_of points (i + 1)) (value_of points i)) (akima_dx points i)) (seq 0 (length points - 1)).
(** Tools.cpp 217-223: [m1]. *)
Definition akima_m1 (m : list f64) : list f64 :=
  let k := length m in
  [sub64 (mul64 f64_3 (at_ m 0)) (mul64 f64_2 (at_ m 1)); sub64 (mul64 f64_2 (at_ m 0)) (at_ m 1)] ++ m ++
  [sub64 (mul64 f64_2 (at_ m (k - 1))) (at_ m (k - 2)); sub64 (mul64 f64_3 (at_ m (k - 1))) (mul64 f64_2 (at_ m (k - 2)))].
(** Tools.cpp 225-226: [dm]. *)
Definition akima_dm (m1 : list f64) (i : nat) : f64 := Babs (sub64 (at_ m1 (i + 1)) (at_ m1 i)).
(** Tools.cpp 234-237: [f]. *)
Definition akima_f (m1 : list f64) (i : nat) : f64 := add64 (akima_dm m1 (i + 2)) (akima_dm m1 i).
(** Tools.cpp 232-241: [max]. *)
Definition akima_max (m1 : list f64) (n : nat) : f64 :=
  fold_left (fun mx i => if flt mx (akima_f m1 i) then akima_f m1 i else mx) (seq 0 n) (f64_of_Z AKIMA_EPSILON).
(** Tools.cpp 227-229, 243-247: [b]. *)
Definition akima_b (m1 : list f64) (n : nat) (i : nat) : f64 :=
  if flt (mul64 (fpow (f64_of_Z AKIMA_THRESHOLD) (f64_of_Z AKIMA_THRESHOLD2)) (akima_max m1 n)) (akima_f m1 i)
  then div64 (add64 (mul64 (akima_dm m1 (i + 2)) (at_ m1 (i + 1))) (mul64 (akima_dm m1 i) (at_ m1 (i + 2)))) (akima_f m1 i)
  else at_ m1 (i + 1).
(** Tools.cpp 249-252: [c] and [d]. *)
Definition akima_c (points : list point) (m b : list f64) (i : nat) : f64 :=
  div64 (sub64 (sub64 (mul64 f64_3 (at_ m i)) (mul64 f64_2 (at_ b i))) (at_ b (i + 1))) (akima_dx points i).
Definition akima_d (points : list point) (m b : list f64) (i : nat) : f64 :=
  div64 (sub64 (add64 (at_ b i) (at_ b (i + 1))) (mul64 f64_2 (at_ m i))) (fpow (akima_dx points i) f64_2).
(** Tools.cpp 259-263 and 267-271: a cubic at [x] samples after its keyframe. *)
Definition akima_at (d c b y : f64) (x : Z) : f64 :=
  add64 (mul64 (add64 (mul64 (add64 (mul64 (f64_of_Z x) d) c) (f64_of_Z x)) b) (f64_of_Z x)) y.
(** Tools.cpp 257-265: the samples written from [count] on, starting with keyframe [i], and the final [count]. *)
Fixpoint akima_loop (points : list point) (m b : list f64) (segments i : nat) (count : Z) : list f64 * Z :=
  match segments with
  | O => ([], count)
  | S s =>
      let len := Z.to_nat (time_of points (i + 1) - time_of points i) in
      let ys := map (fun k => akima_at (akima_d points m b i) (akima_c points m b i) (at_ b i) (value_of points i)
                                (count + Z.of_nat k - time_of points i)) (seq 0 len) in
      let '(rest, count') := akima_loop points m b s (i + 1) (count + Z.of_nat len) in
      (ys ++ rest, count')
  end.
(** Tools.cpp 198-274: akimaInterpolation.  With less than three points [m[1]] or [m[n - 3]] is out of bounds.  The
    samples are written one after the other from the beginning of a vector of [points.back().first + 1] zeros; the
    vector throws if that is negative.  The differences of the times can only overflow if the times are not in order;
    then a sample is written past the end of the vector. *)
Definition akimaInterpolation (points : list point) : outcome (list f64) :=
  let n := length points in
  if (n <? 3)%nat then UB
  else
    let m := akima_m points in
    let m1 := akima_m1 m in
    let b := map (akima_b m1 n) (seq 0 n) in
    do size <- int_ok (last_time points + 1);
    if size <? 0 then Throw
    else
      let '(ys, count) := akima_loop points m b (n - 1) 0 0 in
      if size <=? count then UB
      else
        let y := akima_at (akima_d points m b (n - 2)) (akima_c points m b (n - 2)) (at_ b (n - 1)) (value_of points (n - 1))
                   (count - last_time points) in
        Ok (ys ++ [y] ++ repeat f64_0 (Z.to_nat (size - count - 1))).

(** Tools.cpp 301-306: the parameter [t] of sample [j] of a Bezier segment. *)
Definition bezier_t (dx1 dx2 j : Z) : outcome f64 :=
  do q <- int_ok (2 * dx1);
  do q <- int_ok (1 - q);
  do den <- int_ok (q + dx2);
  if negb (den =? 0) then
    do a <- int_ok (2 * j);
    do a <- int_ok (a * dx1);
    do c <- int_ok (j * dx2);
    let disc := sub64 (add64 (add64 (sub64 (fpow (f64_of_Z dx1) f64_2) (f64_of_Z a)) (f64_of_Z j)) (f64_of_Z c)) (f64_of_Z dx2) in
    Ok (div64 (add64 (f64_of_Z (1 - dx1)) (Bsqrt mode_NE disc)) (f64_of_Z den))
  else Ok (div64 (f64_of_Z (1 - j)) (f64_of_Z (2 * (1 - dx1)))).
(** Tools.cpp 307. *)
Definition bezier_value (t f0 f1 f2 : f64) : f64 :=
  let u := sub64 f64_1 t in
  add64 (add64 (mul64 (fpow u f64_2) f0) (mul64 (mul64 (mul64 u f64_2) t) f1)) (mul64 (fpow t f64_2) f2).
(** Tools.cpp 300-308: samples [j], [j + 1], ... of a segment. *)
Fixpoint bezier_segment (k : nat) (dx1 dx2 j : Z) (f0 f1 f2 : f64) : outcome (list f64) :=
  match k with
  | O => Ok []
  | S k' =>
      do t <- bezier_t dx1 dx2 j;
      do rest <- bezier_segment k' dx1 dx2 (j + 1) f0 f1 f2;
      Ok (bezier_value t f0 f1 f2 :: rest)
  end.
(** Tools.cpp 276-316: bezierInterpolation.  The segments use three points each, the last of one is the first of
    the next; if the number of points is even the last point is left out.  The samples of the last point used are
    appended at the end. *)
Fixpoint bezierInterpolation (points : list point) : outcome (list f64) :=
  match points with
  | p0 :: p1 :: ((p2 :: _) as rest) =>
      do dx1 <- int_ok (fst p1 - fst p0);
      do dx1 <- int_ok (dx1 + 1);
      do dx2 <- int_ok (fst p2 - fst p0);
      do dx2 <- int_ok (dx2 + 1);
      do ys <- bezier_segment (Z.to_nat (dx2 - 1)) dx1 dx2 1 (snd p0) (snd p1) (snd p2);
      do tail <- bezierInterpolation rest;
      Ok (ys ++ tail)
  | p0 :: _ => Ok [snd p0]
  | [] => UB
  end.
End Pow.

(** Tools.cpp 324-333: the knots [t]. *)
Definition bspline_knots (p : Z) : list f64 :=
  [f64_0; f64_0] ++ map (fun i => div64 (f64_of_Z (Z.of_nat i)) (f64_of_Z (p - 2))) (seq 0 (Z.to_nat (p - 1))) ++ [f64_1; f64_1].
(** Tools.cpp 346-349: the first [k] from the one given on with [t0 < t[k]]; past the end of the vector it is
    undefined. *)
Fixpoint bspline_find (t0 : f64) (knots : list f64) (k : nat) : outcome nat :=
  match knots with
  | [] => UB
  | t :: knots' => if fle t t0 then bspline_find t0 knots' (S k) else Ok k
  end.
(** Tools.cpp 356-362 and 374-380: the weight [wt]; [t_hi] and [t_lo] are [t[k + j - i]] and [t[k - 3 + j]]. *)
Definition bspline_weight (t0 t_lo t_hi : f64) : f64 :=
  let num := sub64 t0 t_lo in
  if feq num f64_0 then f64_0 else div64 num (sub64 t_hi t_lo).
Definition bspline_mix (wt a b : f64) : f64 := add64 (mul64 (sub64 f64_1 wt) a) (mul64 wt b).
(** Tools.cpp 350-365 and 368-383: [X[2][2]] for the three values [X[0][0]], [X[0][1]], [X[0][2]]. *)
Definition bspline_eval (knots : list f64) (t0 : f64) (k : nat) (x0 x1 x2 : f64) : f64 :=
  let w11 := bspline_weight t0 (at_ knots (k - 2)) (at_ knots k) in
  let w12 := bspline_weight t0 (at_ knots (k - 1)) (at_ knots (k + 1)) in
  let w22 := bspline_weight t0 (at_ knots (k - 1)) (at_ knots k) in
  bspline_mix w22 (bspline_mix w11 x0 x1) (bspline_mix w12 x1 x2).
(** [points[k - 3]], [points[k - 2]] and [points[k - 1]]. *)
Definition bspline_three (points : list point) (k : nat) : outcome (point * point * point) :=
  if (k <? 3)%nat then UB
  else
    match nth_error points (k - 3), nth_error points (k - 2), nth_error points (k - 1) with
    | Some a, Some b, Some c => Ok (a, b, c)
    | _, _, _ => UB
    end.
(** Tools.cpp 344-366: the inner loop for sample [m].  The state is [t0], [k] and [X1[2][2]]. *)
Fixpoint bspline_advance (fuel : nat) (points : list point) (knots : list f64) (step : f64) (m : Z) (t0 : f64) (k : nat) (x : f64)
  : outcome (f64 * nat * f64) :=
  match fuel with
  | O => NoFuel
  | S fuel' =>
      if flt x (f64_of_Z m) then
        let t0 := add64 t0 step in
        do k <- bspline_find t0 knots 0;
        do '(a, b, c) <- bspline_three points k;
        bspline_advance fuel' points knots step m t0 k
          (bspline_eval knots t0 k (f64_of_Z (fst a)) (f64_of_Z (fst b)) (f64_of_Z (fst c)))
      else Ok (t0, k, x)
  end.
(** Tools.cpp 343-385: the samples from [m] on. *)
Fixpoint bspline_loop (fuel : nat) (points : list point) (knots : list f64) (step : f64) (count : nat) (m : Z) (t0 : f64) (k : nat) (x : f64)
  : outcome (list f64) :=
  match count with
  | O => Ok []
  | S count' =>
      do '(t0, k, x) <- bspline_advance fuel points knots step m t0 k x;
      do '(a, b, c) <- bspline_three points k;
      do rest <- bspline_loop fuel points knots step count' (m + 1) t0 k x;
      Ok (bspline_eval knots t0 k (snd a) (snd b) (snd c) :: rest)
  end.
(** Tools.cpp 318-390: bsplineInterpolation.  If the last time is 0 the first sample is written twice. *)
Definition bsplineInterpolation (fuel : nat) (points : list point) : outcome (list f64) :=
  match points with
  | [] => UB
  | p0 :: _ =>
      let n := last_time points in
      do size <- int_ok (n + 1);
      if size <? 0 then Throw
      else if size =? 0 then UB
      else
        let knots := bspline_knots (Z.of_nat (length points)) in
        let step := div64 (div64 f64_1 (f64_of_Z n)) (f64_of_Z BSPLINE_STEP) in
        do ys <- bspline_loop fuel points knots step (Z.to_nat (n - 1)) 1 f64_0 0 f64_0;
        let y := snd (last points (0, f64_0)) in
        Ok (if n =? 0 then [y] else snd p0 :: ys ++ [y])
  end.
