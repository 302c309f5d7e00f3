(** What the search for peaks promises, independent of the code. *)
From Coq Require Import Reals ZArith List.
From Flocq Require Import Core BinarySingleNaN.
From Verif Require Import Base FloatBase FloatModel.
Import ListNotations.
Local Open Scope R_scope.

(** A spectrum of numbers (in dB; the bound keeps differences from overflowing), and its value in bin [i]. *)
Definition numbers (x : list f64) : Prop := Forall (fun v => is_finite v = true /\ Rabs (B2R v) <= 1000000000) x.
Definition val (x : list f64) (i : nat) : R := B2R (nth i x f64_0).
(** No two neighbouring bins are equal. *)
Definition no_plateau (x : list f64) : Prop := forall i, (S i < length x)%nat -> val x i <> val x (S i).
(** A bin that is higher than both of its neighbours. *)
Definition local_max (x : list f64) (i : nat) : Prop :=
  (1 <= i)%nat /\ (S i < length x)%nat /\ val x (i - 1) < val x i /\ val x (S i) < val x i.
(** The bins that one can reach from bin [i] to the left (down to [a]) or to the right (up to [b]) without getting higher
    than bin [i]. *)
Definition reach_left (x : list f64) (i a : nat) : Prop :=
  (a <= i)%nat /\ (forall j, (a <= j <= i)%nat -> val x j <= val x i) /\ (a = 0%nat \/ val x i < val x (a - 1)).
Definition reach_right (x : list f64) (i b : nat) : Prop :=
  (i <= b < length x)%nat /\ (forall j, (i <= j <= b)%nat -> val x j <= val x i) /\ (S b = length x \/ val x i < val x (S b)).
(** The lowest value of the bins from [a] to [b]. *)
Definition lowest (x : list f64) (a b : nat) (m : R) : Prop :=
  (exists j, (a <= j <= b)%nat /\ val x j = m) /\ forall j, (a <= j <= b)%nat -> m <= val x j.
(** The (topographic) prominence of bin [i]: how far one must get down from it to reach a higher bin, or the border. *)
Definition has_prominence (x : list f64) (i : nat) (p : R) : Prop :=
  exists a b l r, reach_left x i a /\ reach_right x i b /\ lowest x a i l /\ lowest x i b r /\ p = val x i - Rmax l r.
(** The highest value of a spectrum. *)
Definition highest (x : list f64) (top : f64) : Prop := In top x /\ forall v, In v x -> B2R v <= B2R top.
(** Peaks listed from left to right. *)
Definition in_order (ps : list (nat * f64)) : Prop :=
  forall i j p q, (i < j)%nat -> nth_error ps i = Some p -> nth_error ps j = Some q -> (fst p < fst q)%nat.

(** *** Masking *)
(** The mask in dB at frequency [g] of a peak of height [h] dB at frequency [f]: 5 dB below the peak, a little less for
    higher frequencies, and falling with the square of the relative distance. *)
Definition mask_db (f h g : R) : R := h - 5 + 5 / 1400 * f - 30 * ((g - f) / f) ^ 2.
(** A value that agrees with that up to rounding. *)
Definition mask_near (f h g m : R) : Prop :=
  Rabs (m - mask_db f h g) <= / 10000000000000 * (Rabs h + f + 30 * ((g - f) / f) ^ 2 + 10).

(** *** Bands *)
(** The bins of band [j], for a lowest band of [first] bins: the bands double in size. *)
Definition band_start (first j : nat) : nat := match j with O => 0 | S j' => first * 2 ^ j' end.
Definition band_bins (first j : nat) : list nat := seq (band_start first j) (first * 2 ^ j - band_start first j).
(** The sum over [bins] of [f], from left to right. *)
Definition sum64 (f : nat -> f64) (bins : list nat) : f64 := fold_left (fun e i => add64 e (f i)) bins f64_0.
