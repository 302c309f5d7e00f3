(** Real-valued fields: readFloatNBits and writeFloatNBits of
    source/IOHaptics/include/IOBinaryPrimitives.h.  No proofs in this file.
    Floating-point arithmetic is IEEE 754 binary32/binary64 without contraction (no fused
    multiply-add), rounding to nearest even. *)
From Verif Require Import Base BitsModel FloatBase.

(** Conversion of an integer to [float] / [double]. *)
Definition f32_of_Z (z : Z) : f32 := binary_normalize 24 128 prec24 emax128 mode_NE z 0 false.
Definition f64_of_Z (z : Z) : f64 := binary_normalize 53 1024 prec53 emax1024 mode_NE z 0 false.

(** Conversions between [float] and [double]. *)
Definition f64_of_f32 (x : f32) : f64 :=
  match x with
  | B754_zero s => B754_zero s
  | B754_infinity s => B754_infinity s
  | B754_nan => B754_nan
  | B754_finite s m e _ => binary_normalize 53 1024 prec53 emax1024 mode_NE (cond_Zopp s (Zpos m)) e s
  end.
Definition f32_of_f64 (x : f64) : f32 :=
  match x with
  | B754_zero s => B754_zero s
  | B754_infinity s => B754_infinity s
  | B754_nan => B754_nan
  | B754_finite s m e _ => binary_normalize 24 128 prec24 emax128 mode_NE (cond_Zopp s (Zpos m)) e s
  end.

(** [+ - * /] on [float] and [double]. *)
Definition add32 (x y : f32) : f32 := Bplus mode_NE x y.
Definition sub32 (x y : f32) : f32 := Bminus mode_NE x y.
Definition mul32 (x y : f32) : f32 := Bmult mode_NE x y.
Definition div32 (x y : f32) : f32 := Bdiv mode_NE x y.
Definition add64 (x y : f64) : f64 := Bplus mode_NE x y.
Definition sub64 (x y : f64) : f64 := Bminus mode_NE x y.
Definition mul64 (x y : f64) : f64 := Bmult mode_NE x y.
Definition div64 (x y : f64) : f64 := Bdiv mode_NE x y.

(** [std::clamp<T>(v, lo, hi)] (a NaN is returned unchanged). *)
Definition fclamp {p e} (v lo hi : binary_float p e) : binary_float p e :=
  if flt v lo then lo else if flt hi v then hi else v.

(** [static_cast<T>(x)] for a floating [x] and an integer type T: truncation.  A NaN, an infinity and
    a value that does not fit are undefined behaviour. *)
Definition int_of_float {p e} (T : ctype) (x : binary_float p e) : outcome Z :=
  if is_finite x then
    let z := Btrunc x in
    if z =? cast T z then Ok z else UB
  else UB.

(** The constants: IOBinaryFields.h (MAX_FLOAT, MAX_FREQUENCY = 10000, MAX_AMPLITUDE = 1,
    MAX_PHASE = 6.28318F, the closest binary32 number is 13176784 / 2^21). *)
Definition f32_0 : f32 := B754_zero false.
Definition f64_0 : f64 := B754_zero false.
Definition MAX_FLOAT : f32 := @B754_finite 24 128 false 10240000 (-10) eq_refl.
Definition MAX_AMPLITUDE : f32 := f32_1.
Definition MAX_PHASE : f32 := @B754_finite 24 128 false 13176784 (-21) eq_refl.

(** IOBinaryPrimitives.h 111-119: the integer code ([intValue]); T is the unsigned type of at least
    [n] bits used at the call.  [maxIntValue] is 2^n - 1 exactly. *)
Definition encodeFloat (T : ctype) (n : nat) (value minValue maxValue : f32) : outcome Z :=
  let normalizedValue := fclamp (div32 (sub32 value minValue) (sub32 maxValue minValue)) f32_0 f32_1 in
  int_of_float T (mul64 (f64_of_f32 normalizedValue) (f64_of_Z (2 ^ Z.of_nat n - 1))).
Definition writeFloatNBits (T : ctype) (n : nat) (value minValue maxValue : f32) : outcome bits :=
  do k <- encodeFloat T n value minValue maxValue; Ok (writeNBits n k).

(** IOBinaryPrimitives.h 94-99 and 152-156: the value decoded from [intValue]. *)
Definition decodeFloat (n : nat) (intValue : Z) (minValue maxValue : f32) : f32 :=
  let maxIntValue := 2 ^ Z.of_nat n - 1 in
  let normalizedValue := fclamp (div32 (f32_of_Z intValue) (f32_of_Z maxIntValue)) f32_0 f32_1 in
  add32 (mul32 normalizedValue (sub32 maxValue minValue)) minValue.

(** IOBinaryPrimitives.h 91-101 (stream) and 141-159 (bit vector). *)
Definition readFloatNBits (T : ctype) (n : nat) (minValue maxValue : f32) (st : rstate) : f32 * rstate :=
  let '(k, st1) := readNBits T n st in (decodeFloat n k minValue maxValue, st1).
Definition readFloatBits (bs : bits) (start n : nat) (minValue maxValue : f32) : outcome (f32 * nat) :=
  do s <- slice bs start n;
  Ok (decodeFloat n (bits_val s) minValue maxValue, (start + n)%nat).
