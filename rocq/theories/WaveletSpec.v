(** What the wavelet coding promises, independent of the code. *)
From Coq Require Import Reals ZArith List.
From Flocq Require Import Core BinarySingleNaN.
From Verif Require Import Base FloatBase FloatModel SynthModel ToolsModel WaveletModel.
Local Open Scope R_scope.

(** The scale factors that the header of a block can carry exactly: multiples of 1/128 below 1, and multiples of
    1/8 from 1 to 16.875. *)
Definition on_grid (Q : R) : Prop := exists j, (0 <= j < 128)%Z /\ (Q = IZR j / 128 \/ Q = 1 + IZR j / 8).
(** The step of a quantiser for values up to [Q] with [b] bits. *)
Definition step (Q : R) (b : Z) : R := Q / IZR (2 ^ b).
(** [z] steps stand for [x]: the closest multiple of the step, except that the largest number of steps is
    [2^b - 1]. *)
Definition stands_for (Q : R) (b z : Z) (x : R) : Prop :=
  (Z.abs z <= 2 ^ b - 1)%Z /\ 0 <= IZR z * x /\
  (Rabs x <= Q - step Q b / 2 -> Rabs (IZR z * step Q b - x) <= step Q b * (/ 2 + / 1073741824)) /\
  (Rabs x <= Q -> Rabs (IZR z * step Q b - x) <= step Q b) /\
  (Q < Rabs x -> (Z.abs z = 2 ^ b - 1)%Z).
(** The largest magnitude of a list of values. *)
Definition largest (l : list R) (W : R) : Prop := Forall (fun x => Rabs x <= W) l /\ Exists (fun x => Rabs x = W) l.
(** The scale factor chosen for values up to [W]: the next one of the grid, or the last one of its part. *)
Definition scale_for (W Q : R) : Prop :=
  on_grid Q /\ (W = 0 -> Q = 0) /\
  (W <= 127 / 128 -> W <= Q < W + / 128) /\
  (127 / 128 < W < 1 -> Q = 127 / 128) /\
  (1 <= W <= 135 / 8 -> W <= Q < W + / 8) /\
  (135 / 8 < W -> Q = 135 / 8).

(** *** The bit allocation *)
(** The next bit can be given: the first ratio is a number, and some ratio is a number below infinity. *)
Definition usable (ratios : list f64) : Prop :=
  is_nan (hd f64_0 ratios) = false /\ Exists (fun r => is_nan r = false /\ r <> B754_infinity false) ratios.
(** The states that the allocation loop goes through for a block. *)
Inductive visited (log10 pow2 : f64 -> f64) (bl : nat) (smr : nat -> f64 * f64) (dwt : list f64) (Q : f64) (budget : Z) : alloc -> Prop :=
  | visited_start : visited log10 pow2 bl smr dwt Q budget (alloc_start pow2 bl dwt)
  | visited_next st st' : visited log10 pow2 bl smr dwt Q budget st -> (bitalloc_sum st < budget)%Z ->
      alloc_step log10 pow2 bl smr dwt Q budget st = Ok st' -> visited log10 pow2 bl smr dwt Q budget st'.
(** In each of them the next bit can be given. *)
Definition always_usable (log10 pow2 : f64 -> f64) (bl : nat) (smr : nat -> f64 * f64) (dwt : list f64) (Q : f64) (budget : Z) : Prop :=
  forall st, visited log10 pow2 bl smr dwt Q (usable_budget bl budget) st -> (bitalloc_sum st < usable_budget bl budget)%Z ->
    usable (ratios log10 smr st).
(** Coefficient [y] is coefficient [x] quantised with [b] bits. *)
Definition quantised (Q : R) (b : Z) (x y : f64) : Prop :=
  exists z, is_finite y = true /\ B2R y = IZR z * step Q b /\ stands_for Q b z (B2R x).

(** The sum of the bits of all bands. *)
Definition sum_bits (bits : list Z) : Z := fold_right Z.add 0%Z bits.

(** *** Errors *)
(** The sum of the steps of all bands. *)
Fixpoint steps (Q : R) (bits : list Z) : R := match bits with [] => 0 | b :: l => step Q b + steps Q l end.
(** How far a decoded sample may be from the original one: a little more than the sum of the steps of all bands,
    plus what the largest coefficient exceeds the scale factor in each of them, plus rounding for samples up to [M]. *)
Definition block_error (Q W M : R) (bl : nat) (bits : list Z) : R :=
  116 / 100 * (steps Q bits + INR (length bits) * Rmax 0 (W - Q)) + M * INR bl / 4398046511104.
(** [b] is finite and within [d] of [a]. *)
Definition within (d : R) (a b : f64) : Prop := is_finite b = true /\ Rabs (B2R b - B2R a) <= d.

(** *** Blocks *)
(** Samples of magnitude at most [M]. *)
Definition samples_within (M : R) (l : list f64) : Prop := Forall (fun x => is_finite x = true /\ Rabs (B2R x) <= M) l.
(** Block [i] of a signal: [bl] samples from sample [i * bl] on, zero behind the end. *)
Definition block_at (bl : nat) (sig : list f64) (i : nat) : list f64 := map (fun j => nth (i * bl + j) sig f64_0) (seq 0 bl).
(** The block can be encoded: the bit allocation can always give the next bit. *)
Definition block_usable (log10 pow2 : f64 -> f64) (getSMR : list f64 -> nat -> f64 * f64) (bl : nat) (block : list f64) (budget : Z) : Prop :=
  forall c Q, DWT block (dwtlevel bl) = Ok c -> largestCoefficient c = Ok Q ->
    always_usable log10 pow2 bl (getSMR block) c Q budget.
(** No sound: zeros of either sign. *)
Definition no_signal (l : list f64) : Prop := Forall (fun x => x = B754_zero false \/ x = B754_zero true) l.
(** The C library functions as far as used for a silent block: squares of zeros, logarithm of infinity and of NaN. *)
Definition library_limits (log10 pow2 : f64 -> f64) : Prop :=
  (forall s, pow2 (B754_zero s) = B754_zero false) /\ log10 (B754_infinity false) = B754_infinity false /\ log10 B754_nan = B754_nan.
(** The quality of a decoded block [y] of [k - 1] bands for the original [x] of [2^k] samples up to [M]: there are a
    largest transform coefficient, a scale factor chosen for it and a division of the bit budget over the bands such
    that every sample is within the error given by them. *)
Definition decoded_from (k : nat) (M : R) (budget : Z) (x y : list f64) : Prop :=
  exists c W Q bits, DWT x (dwtlevel (2 ^ k)) = Ok c /\ largest (map B2R c) W /\ scale_for W Q /\
    length bits = (k - 1)%nat /\ Forall (fun b => 0 <= b <= 15)%Z bits /\ sum_bits bits = Z.max 0 (Z.min budget (15 * (Z.of_nat k - 1))) /\
    Forall2 (within (block_error Q W M (2 ^ k) bits)) x y.
(** Sampling frequencies of audio files. *)
Definition audio_rates : list Z := [44100; 48000; 22050; 11025; 24000]%Z.
