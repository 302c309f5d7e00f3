(** C04 and C05: quantised real-valued fields.  The bounds of the ranges of the format are instances
    of [range_ok] (see [C04_ranges]). *)
From Coq Require Import Reals.
From Verif Require Import Base BitsModel FloatBase FloatModel FloatSpec BitsProof FloatProof FloatFields.
Local Open Scope R_scope.

(** C04: writing a finite number and reading it back, from a file or from a bit vector, gives a number
    of the range at distance at most one step plus 2^-20 of the width of the range (binary32
    rounding) from the clamped number. *)
Theorem C04_round_trip :
  forall (T : ctype) (n : nat) (mn mx v : f32),
    code_type T n -> range_ok mn mx -> is_finite v = true ->
    exists (b : bits) (w : f32),
      writeFloatNBits T n v mn mx = Ok b /\ length b = n /\
      (forall st rest, (length (rs_unused st) < 8)%nat ->
         (rs_unused st ++ flat_map byte_bits (rs_file st))%list = (b ++ rest)%list ->
         exists st', readFloatNBits T n mn mx st = (w, st') /\ (length (rs_unused st') < 8)%nat /\
           (rs_unused st' ++ flat_map byte_bits (rs_file st'))%list = rest) /\
      (forall pre post, readFloatBits (pre ++ b ++ post) (length pre) n mn mx = Ok (w, (length pre + n)%nat)) /\
      is_finite w = true /\ B2R mn <= B2R w <= B2R mx /\
      Rabs (B2R w - clampR (B2R mn) (B2R mx) (B2R v))
        <= (B2R mx - B2R mn) * (/ (2 ^ n - 1) + / 1048576).
Proof. exact float_round_trip. Qed.
Print Assumptions C04_round_trip.

(** C04: whatever bits are read, the value is in the range. *)
Theorem C04_decoded_in_range :
  forall (T : ctype) (n : nat) (mn mx : f32) (bs : bits) (i : nat),
    code_type T n -> range_ok mn mx -> (i + n <= length bs)%nat ->
    exists w, readFloatBits bs i n mn mx = Ok (w, (i + n)%nat) /\ is_finite w = true /\ B2R mn <= B2R w <= B2R mx.
Proof. exact float_read_in_range. Qed.
Print Assumptions C04_decoded_in_range.

(** C04: the written code is monotone. *)
Theorem C04_monotone :
  forall (T : ctype) (n : nat) (mn mx v w : f32) (b c : bits),
    code_type T n -> range_ok mn mx -> is_finite v = true -> is_finite w = true -> B2R v <= B2R w ->
    writeFloatNBits T n v mn mx = Ok b -> writeFloatNBits T n w mn mx = Ok c ->
    (bits_val b <= bits_val c)%Z.
Proof. exact float_monotone. Qed.
Print Assumptions C04_monotone.

(** C04: infinities are clamped, but writing a NaN is undefined behaviour. *)
Theorem C04_infinities :
  forall (T : ctype) (n : nat) (mn mx : f32) (s : bool),
    code_type T n -> range_ok mn mx ->
    exists b, writeFloatNBits T n (B754_infinity s) mn mx = Ok b /\ length b = n /\
      bits_val b = (if s then 0 else 2 ^ Z.of_nat n - 1)%Z.
Proof. exact float_infinity. Qed.
Print Assumptions C04_infinities.
Theorem C04_nan_refuted : exists v : f32, writeFloatNBits u8 8 v (Bopp f32_1) f32_1 = UB.
Proof. exists B754_nan. reflexivity. Qed.
Print Assumptions C04_nan_refuted.

Example C04_ranges :
  range_ok (Bopp MAX_AMPLITUDE) MAX_AMPLITUDE /\ range_ok f32_0 MAX_PHASE /\
  range_ok f32_0 MAX_FLOAT /\ range_ok (Bopp MAX_FLOAT) MAX_FLOAT.
Proof. exact format_ranges. Qed.
Example C04_types : code_type u8 8 /\ code_type u16 16 /\ code_type u32 16 /\ code_type u32 32.
Proof. unfold code_type; cbn. repeat split; lia. Qed.
Example C04_run :
  writeFloatNBits u8 8 (@B754_finite 24 128 true 12582912 (-24) eq_refl) (Bopp MAX_AMPLITUDE) MAX_AMPLITUDE
  = Ok [false; false; false; true; true; true; true; true].
Proof. vm_compute. reflexivity. Qed.

(** C05.  Re-encoding a decoded code of at most 20 bits gives the same code or the one below; for any
    width the code moves by at most 1 + 2^(n-20). *)
Theorem C05_one_step :
  forall (T : ctype) (n : nat) (mn mx : f32) (k : Z),
    code_type T n -> range_ok mn mx -> (0 <= k < 2 ^ Z.of_nat n)%Z ->
    exists k', rewrite_code T n mn mx k = Ok k' /\ (0 <= k' < 2 ^ Z.of_nat n)%Z /\
      (Z.of_nat n <= 20 -> k - 1 <= k' <= k)%Z /\
      Rabs (IZR k' - IZR k) <= 1 + IZR (2 ^ Z.of_nat n) * / 1048576.
Proof. exact requantise. Qed.
Print Assumptions C05_one_step.

(** C05, amplitudes: the codes 1 to 63 (amplitudes below -0.5) lose one step at each rewrite, the others
    are stable. *)
Theorem C05_amplitude_codes_refuted :
  forall k, (0 <= k < 256)%Z ->
    rewrite_code u8 8 (Bopp MAX_AMPLITUDE) MAX_AMPLITUDE k
    = Ok (if (1 <=? k)%Z && (k <=? 63)%Z then k - 1 else k)%Z.
Proof. exact amplitude_rewrite. Qed.
Print Assumptions C05_amplitude_codes_refuted.

(** C05: an amplitude of about -0.51 (code 63) drifts to -1 (code 0) in 63 rewrites. *)
Theorem C05_amplitude_drift_refuted :
  rewrites 63 u8 8 (Bopp MAX_AMPLITUDE) MAX_AMPLITUDE 63 = Ok 0%Z /\
  B2R (decodeFloat 8 63 (Bopp MAX_AMPLITUDE) MAX_AMPLITUDE) > - (51 / 100) /\
  B2R (decodeFloat 8 0 (Bopp MAX_AMPLITUDE) MAX_AMPLITUDE) = -1.
Proof. exact amplitude_drift. Qed.
Print Assumptions C05_amplitude_drift_refuted.

(** C05: phases and gains drift too. *)
Theorem C05_phase_refuted : rewrite_code u16 16 f32_0 MAX_PHASE 1 = Ok 0%Z.
Proof. vm_compute. reflexivity. Qed.
Print Assumptions C05_phase_refuted.
Theorem C05_gain_refuted :
  rewrite_code u32 32 (Bopp MAX_FLOAT) MAX_FLOAT 2147483648 = Ok 2147483647%Z /\
  rewrite_code u32 32 (Bopp MAX_FLOAT) MAX_FLOAT 100 = Ok 0%Z.
Proof. vm_compute. split; reflexivity. Qed.
Print Assumptions C05_gain_refuted.
