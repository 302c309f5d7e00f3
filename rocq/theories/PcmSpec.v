(** What the encoding of audio files promises, independent of the code. *)
From Coq Require Import Reals ZArith List.
From Flocq Require Import Core BinarySingleNaN.
From Verif Require Import Base FloatBase FloatModel TypesModel SynthModel ToolsModel WaveletModel WaveletSpec PcmModel.
Import ListNotations.
Local Open Scope R_scope.

(** A value limited to full scale. *)
Definition clipped (x : R) : R := Rmax (-1) (Rmin 1 x).
(** [d] is an error that the bit budget allows for a block [x] of [2^k] samples up to [M] (see [decoded_from]). *)
Definition block_bound (k : nat) (M : R) (budget : Z) (x : list f64) (d : R) : Prop :=
  exists c W Q bits, DWT x (dwtlevel (2 ^ k)) = Ok c /\ largest (map B2R c) W /\ scale_for W Q /\
    length bits = (k - 1)%nat /\ Forall (fun b => 0 <= b <= 15)%Z bits /\ sum_bits bits = Z.max 0 (Z.min budget (15 * (Z.of_nat k - 1))) /\
    d = block_error Q W M (2 ^ k) bits.
(** A band of decoded blocks: block [i] starts after [i * L] milliseconds and has [2^k] finite samples at a sampling
    frequency of [fs], so that it lasts [L] milliseconds. *)
Definition decoded_blocks (k L fs : nat) (b : band) : Prop :=
  b_type b = WaveletB /\ b_up b = Z.of_nat fs /\ (Z.of_nat fs < 2 ^ 31)%Z /\ (L * fs = 1000 * 2 ^ k)%nat /\
  forall i e, nth_error (b_effects b) i = Some e ->
    e_pos e = (Z.of_nat i * Z.of_nat L)%Z /\ length (e_samples e) = (2 ^ k)%nat /\ Forall (fun v => is_finite v = true) (e_samples e).
(** The samples of all blocks. *)
Definition all_samples (b : band) : list f64 := flat_map e_samples (b_effects b).

(** *** Settings *)
(** The number of bits for a target bitrate, before rounding: -6.506 + 3.433 r - 0.04421 r^2 + 0.0002573 r^3. *)
Definition bits_for (r : R) : R := 2573 / 10000000 * r ^ 3 - 4421 / 100000 * r ^ 2 + 3433 / 1000 * r - 6506 / 1000.
(** Powers that can be represented are exact in the C library. *)
Definition exact_powers (cube square : f64 -> f64) : Prop :=
  forall r, (Z.abs r <= 131072)%Z ->
    is_finite (cube (f64_of_Z r)) = true /\ B2R (cube (f64_of_Z r)) = IZR (r ^ 3) /\
    is_finite (square (f64_of_Z r)) = true /\ B2R (square (f64_of_Z r)) = IZR (r ^ 2).
(** [b] is [x] rounded down, but at least 1 and at most [most]; [x] is known up to 1/1000. *)
Definition rounded_down (x : R) (most b : Z) : Prop :=
  (1 <= b <= most)%Z /\ exists z, x - 1 - / 1000 <= IZR z <= x + / 1000 /\ b = Z.max 1 (Z.min most z).

(** *** Channels *)
(** Everything but the bands and the numbers of samples is the same. *)
Definition same_metadata (c c' : channel) : Prop :=
  c_id c' = c_id c /\ c_desc c' = c_desc c /\ c_gain c' = c_gain c /\ c_mix c' = c_mix c /\ c_mask c' = c_mask c /\ c_vertices c' = c_vertices c /\
  c_prio c' = c_prio c /\ c_device c' = c_device c /\ c_dir c' = c_dir c /\ c_res c' = c_res c /\ c_body c' = c_body c /\ c_target c' = c_target c.
(** Channel [c'] is channel [c] with the signal of [n] samples at sampling frequency [rate] added as at most two bands. *)
Definition extended (rate : Z) (n : nat) (c c' : channel) : Prop :=
  same_metadata c c' /\ c_freq c' = Some rate /\ c_count c' = Some (Z.of_nat n) /\
  exists new, c_bands c' = c_bands c ++ new /\ (length new <= 2)%nat.
