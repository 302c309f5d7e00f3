(** The wavelet transform and the coding of wavelet bands: source/FilterBank/src/Wavelet.cpp,
    source/Encoder/src/WaveletEncoder.cpp and source/WaveletDecoder/src/WaveletDecoder.cpp.
    No proofs in this file.  Vectors are lists; sizes and indices are [nat]. *)
From Verif Require Import Base FloatBase FloatModel ArithModel SpihtModel TypesModel ToolsModel SynthModel.

(** *** The transform *)
(** FilterBank/include/Wavelet.h 44-55: the coefficients, as the closest doubles. *)
Definition LP_0 : f64 := @B754_finite 53 1024 false 7680426906092132 (-53) eq_refl.
Definition LP_1 : f64 := @B754_finite 53 1024 false 6798685439622839 (-54) eq_refl.
Definition LP_2 : f64 := @B754_finite 53 1024 true 7971328424270286 (-56) eq_refl.
Definition LP_3 : f64 := @B754_finite 53 1024 true 6874140273552989 (-58) eq_refl.
Definition LP_4 : f64 := @B754_finite 53 1024 false 5451654980009730 (-57) eq_refl.
Definition HP_0 : f64 := @B754_finite 53 1024 true 7102047056463097 (-53) eq_refl.
Definition HP_1 : f64 := @B754_finite 53 1024 false 7531680823560150 (-54) eq_refl.
Definition HP_2 : f64 := @B754_finite 53 1024 false 5863963071498637 (-57) eq_refl.
Definition HP_3 : f64 := @B754_finite 53 1024 true 4650516604137494 (-56) eq_refl.
(** Wavelet.h 73-76: the filters. *)
Definition lp : list f64 := [LP_4; LP_3; LP_2; LP_1; LP_0; LP_1; LP_2; LP_3; LP_4].
Definition hp : list f64 := [HP_3; HP_2; HP_1; HP_0; HP_1; HP_2; HP_3].
Definition lpr : list f64 := [HP_3; Bopp HP_2; HP_1; Bopp HP_0; HP_1; Bopp HP_2; HP_3].
Definition hpr : list f64 := [Bopp LP_4; LP_3; Bopp LP_2; LP_1; Bopp LP_0; LP_1; Bopp LP_2; LP_3; Bopp LP_4].

(** Wavelet.cpp 129-146: conv1D, element [j] of the result.  The first filter tap is assigned, the others are
    added in order. *)
Definition conv_at (inp h : list f64) (j : nat) : f64 :=
  fold_left
    (fun acc i => if (i <=? j)%nat && (j - i <? length inp)%nat
                  then add64 acc (mul64 (nth (j - i) inp f64_0) (nth i h f64_0)) else acc)
    (seq 1 (length h - 1))
    (if (j <? length inp)%nat then mul64 (nth j inp f64_0) (nth 0 h f64_0) else f64_0).
Definition conv1D (inp h : list f64) : list f64 := map (conv_at inp h) (seq 0 (length inp + length h - 1)).
(** Wavelet.cpp 81-102 and 104-127: symconv1D and symconv1DAdd, the values copied or added to [out].  The
    input is extended by reflection; a vector shorter than the extension is read outside.  The filters have
    odd lengths, so both functions copy the same part of the convolution. *)
Definition symconv (inp h : list f64) : outcome (list f64) :=
  let lext := (length h / 2)%nat in
  let n := length inp in
  if (n <? lext + 1)%nat then UB
  else
    let temp := rev (firstn lext (skipn 1 inp)) ++ inp ++ rev (firstn lext (skipn (n - lext - 1) inp)) in
    Ok (firstn n (skipn (2 * lext) (conv1D temp h))).

(** The elements at even and at odd positions. *)
Fixpoint evens {A} (l : list A) : list A :=
  match l with [] => [] | x :: l' => x :: match l' with [] => [] | _ :: l'' => evens l'' end end.
Definition odds {A} (l : list A) : list A := match l with [] => [] | _ :: l' => evens l' end.
(** Alternating elements of two lists. *)
Fixpoint interleave {A} (a b : list A) : list A :=
  match a, b with x :: a', y :: b' => x :: y :: interleave a' b' | _, _ => [] end.

(** Wavelet.cpp 44-60: one level of DWT.  [x] is the part of the vector [x] that is read at this level (its
    first [in.size() >> i] elements).  For an odd length [h[j + 1]] is read behind the end of [h].  The low
    part, which is the input of the next level, and the high part. *)
Definition dwt_level (x : list f64) : outcome (list f64 * list f64) :=
  do h <- symconv x hp;
  do l <- symconv x lp;
  if Nat.odd (length x) then UB else Ok (evens l, odds h).
(** Wavelet.cpp 39-62: DWT; [out] is overwritten from the start of the vector. *)
Fixpoint dwt_levels (levels : nat) (x out : list f64) : outcome (list f64) :=
  match levels with
  | O => Ok out
  | S n =>
      do '(low, high) <- dwt_level x;
      dwt_levels n low (low ++ high ++ skipn (length x) out)
  end.
Definition DWT (inp : list f64) (levels : nat) : outcome (list f64) :=
  dwt_levels levels inp (repeat f64_0 (length inp)).

(** Wavelet.cpp 69-77: one level of inv_DWT on the first [len] elements of [out].  For an odd length
    [h[j + 1]] is written behind the end of [h]. *)
Definition inv_level (len : nat) (out : list f64) : outcome (list f64) :=
  if Nat.odd len then UB
  else
    let half := (len / 2)%nat in
    let zeros := repeat f64_0 half in
    do hs <- symconv (interleave zeros (firstn half (skipn half out))) hpr;
    do ls <- symconv (interleave (firstn half out) zeros) lpr;
    Ok (map (fun '(a, b) => add64 a b) (combine hs ls) ++ skipn len out).
(** Wavelet.cpp 64-79: inv_DWT; [levels] counts down to 0. *)
Fixpoint inv_levels (levels : nat) (size : nat) (out : list f64) : outcome (list f64) :=
  match levels with
  | O => Ok out
  | S n => do out' <- inv_level (size / 2 ^ n) out; inv_levels n size out'
  end.
Definition inv_DWT (inp : list f64) (levels : nat) : outcome (list f64) := inv_levels levels (length inp) inp.

(** *** The encoder *)
(** Spiht_Enc.h 50. *)
Definition MAXBITS : Z := 15.
(** WaveletEncoder.cpp 39 and WaveletDecoder.cpp 44, 69: [(int)log2((double)bl / 4)], for [bl >= 4]; [log2] is
    taken to be accurate enough not to reach the next integer. *)
Definition dwtlevel (bl : nat) : nat := Z.to_nat (Z.log2 (Z.of_nat bl / 4)).
(** WaveletEncoder.cpp 41-53: the sizes of the bands and the positions where they start. *)
Definition book (bl : nat) : list nat :=
  let b0 := (bl / 2 ^ dwtlevel bl)%nat in
  b0 :: map (fun i => (b0 * 2 ^ i)%nat) (seq 0 (dwtlevel bl)).
Definition book_cumulative (bl : nat) : list nat :=
  let b0 := (bl / 2 ^ dwtlevel bl)%nat in
  0%nat :: map (fun i => (b0 * 2 ^ i)%nat) (seq 0 (dwtlevel bl + 1)).

Definition f64_half : f64 := @B754_finite 53 1024 false 4503599627370496 (-53) eq_refl.
Definition f64_10 : f64 := @B754_finite 53 1024 false 5629499534213120 (-49) eq_refl.
Definition f64_m1 : f64 := @B754_finite 53 1024 true 4503599627370496 (-52) eq_refl.
Definition MAXQUANTFACTOR : f64 := @B754_finite 53 1024 false 8998192055486251 (-53) eq_refl.
Definition fceil (x : f64) : f64 := Bnearbyint mode_UP x.
(** [1 << bits] for an [int]; for 31 the result is the smallest [int], from which 1 is subtracted at its only
    use on such values, so it counts as undefined. *)
Definition shift1 (bits : Z) : outcome Z := if (0 <=? bits) && (bits <? 31) then Ok (2 ^ bits) else UB.

(** WaveletEncoder.cpp 258-260: sgn. *)
Definition sgn (v : f64) : f64 :=
  sub64 (if flt f64_0 v then f64_1 else f64_0) (if flt v f64_0 then f64_1 else f64_0).
(** WaveletEncoder.cpp 207-217: the loop body of uniformQuant. *)
Definition quantise (max delta max_q x : f64) : f64 :=
  let sign := sgn x in
  if feq max f64_0 then f64_0
  else
    let q := mul64 (mul64 sign delta) (ffloor (add64 (div64 (Babs x) delta) f64_half)) in
    if flt max_q (Babs q) then mul64 sign max_q else q.
(** WaveletEncoder.cpp 202-219: uniformQuant, on the elements [start .. start + length - 1]. *)
Definition uniformQuant (inp : list f64) (start : nat) (max : f64) (bits : Z) (len : nat) (out : list f64)
  : outcome (list f64) :=
  do s <- shift1 bits;
  let delta := div64 max (f64_of_Z s) in
  let max_q := mul64 delta (f64_of_Z (s - 1)) in
  if (length inp <? start + len)%nat || (length out <? start + len)%nat then UB
  else Ok (firstn start out ++ map (quantise max delta max_q) (firstn len (skipn start inp)) ++ skipn (start + len) out).

(** WaveletEncoder.cpp 233-243: findMax for [double]s (the first element exists). *)
Definition findMax (l : list f64) : f64 :=
  match l with
  | [] => f64_0
  | x :: l' => fold_left (fun m y => if flt m (Babs y) then Babs y else m) l' (Babs x)
  end.
(** 233-243 for [int]s. *)
Definition findMaxInt (l : list Z) : Z :=
  match l with
  | [] => 0
  | x :: l' => fold_left (fun m y => if m <? Z.abs y then Z.abs y else m) l' (Z.abs x)
  end.
(** WaveletEncoder.cpp 245-256: findMinInd (the first element exists). *)
Definition findMinInd (l : list f64) : nat :=
  match l with
  | [] => 0%nat
  | x :: l' =>
      let '(_, index, _) :=
        fold_left (fun '(m, index, i) y => if flt y m then (y, i, S i) else (m, index, S i)) l' (x, 0%nat, 1%nat) in
      index
  end.

(** WaveletEncoder.cpp 221-231: maxQuant; [max] is (2^7 - 1) / 2^fractionbits and [pow(2, -fractionbits)] is
    exact. *)
Definition maxQuant (inp max delta : f64) : f64 :=
  let q := if fle max inp then mul64 (mul64 (sgn inp) max) MAXQUANTFACTOR else inp in
  mul64 (fceil (div64 (Babs q) delta)) delta.
Definition f64_127_128 : f64 := @B754_finite 53 1024 false 8936830510563328 (-53) eq_refl.
Definition f64_127_8 : f64 := @B754_finite 53 1024 false 8936830510563328 (-49) eq_refl.
(** WaveletEncoder.cpp 165-178: maximumWaveletCoefficient of a block, with getQuantMode and setBitwavmax of
    Spiht_Enc.cpp (whose bits are not used by the caller; the conversion to [int] is kept). *)
Definition largestCoefficient (sig : list f64) : outcome f64 :=
  let wavmax := findMax sig in
  if flt wavmax f64_one then
    let q := add64 (maxQuant (sub64 wavmax f64_0) f64_127_128 f64_2m7) f64_0 in
    do _ <- int_of_float i32 (mul64 (sub64 q f64_0) f64_128); Ok q
  else
    let q := add64 (maxQuant (sub64 wavmax f64_1) f64_127_8 f64_2m3) f64_1 in
    do _ <- int_of_float i32 (mul64 (sub64 q f64_1) f64_8); Ok q.

Section Encoder.
(** [log10] and [pow(x, 2)] of the C library, and the psychohaptic model: energy and signal-to-mask ratio of
    every band of a block (PsychohapticModel::getSMR, not modelled). *)
Variables log10 pow2 : f64 -> f64.
Variable getSMR : list f64 -> nat -> f64 * f64.

(** WaveletEncoder.cpp 110-114, 142-146: the energy of the quantisation error of a band. *)
Definition noise_of (dwt quant : list f64) (start stop : nat) : f64 :=
  fold_left (fun acc i => add64 acc (pow2 (sub64 (nth i dwt f64_0) (nth i quant f64_0)))) (seq start (stop - start)) f64_0.

(** The variables of the loop in encodeBlock. *)
Record alloc := Alloc {
  bitalloc : list Z;
  bitalloc_sum : Z;
  dwt_quant : list f64;
  noiseenergy : list f64
}.
(** WaveletEncoder.cpp 192-200 (updateNoise) and 124-128: the ratios, infinite for bands with all their bits. *)
Definition ratio (smr : nat -> f64 * f64) (noise : f64) (i : nat) : f64 :=
  sub64 (mul64 f64_10 (log10 (div64 (fst (smr i)) noise))) (snd (smr i)).
Definition ratios (smr : nat -> f64 * f64) (st : alloc) : list f64 :=
  map (fun '(i, (bits, noise)) => if MAXBITS <=? bits then B754_infinity false else ratio smr noise i)
    (combine (seq 0 (length (bitalloc st))) (combine (bitalloc st) (noiseenergy st))).

(** WaveletEncoder.cpp 121-147: one iteration. *)
Definition alloc_step (bl : nat) (smr : nat -> f64 * f64) (dwt : list f64) (qwavmax : f64) (bitbudget : Z) (st : alloc)
  : outcome alloc :=
  let index := findMinInd (ratios smr st) in
  let last := dwtlevel bl in
  let at_last := nth last (bitalloc st) 0 in
  let full := MAXBITS * Z.of_nat (dwtlevel bl) in
  let '(bits', sum') :=
    if full <=? bitalloc_sum st - at_last
    then (SpihtModel.set_at (bitalloc st) last (bitbudget - full), bitalloc_sum st + (bitbudget - full - at_last))
    else (SpihtModel.set_at (bitalloc st) index (nth index (bitalloc st) 0 + 1), bitalloc_sum st + 1) in
  do quant' <- uniformQuant dwt (nth index (book_cumulative bl) 0%nat) qwavmax (nth index bits' 0)
                 (nth index (book bl) 0%nat) (dwt_quant st);
  let noise' := noise_of dwt quant' (nth index (book_cumulative bl) 0%nat) (nth (index + 1) (book_cumulative bl) 0%nat) in
  Ok (Alloc bits' sum' quant' (SpihtModel.set_at (noiseenergy st) index noise')).
(** WaveletEncoder.cpp 121: the loop. *)
Fixpoint alloc_loop (fuel : nat) (bl : nat) (smr : nat -> f64 * f64) (dwt : list f64) (qwavmax : f64) (bitbudget : Z) (st : alloc)
  : outcome alloc :=
  match fuel with
  | O => NoFuel
  | S n =>
      if bitalloc_sum st <? bitbudget
      then do st' <- alloc_step bl smr dwt qwavmax bitbudget st; alloc_loop n bl smr dwt qwavmax bitbudget st'
      else Ok st
  end.
(** WaveletEncoder.cpp 94-115: the values before the loop. *)
Definition alloc_start (bl : nat) (dwt : list f64) : alloc :=
  let quant := repeat f64_0 bl in
  Alloc (repeat 0 (length (book bl))) 0 quant
    (map (fun b => noise_of dwt quant (nth b (book_cumulative bl) 0%nat) (nth (b + 1) (book_cumulative bl) 0%nat))
       (seq 0 (length (book bl)))).
(** WaveletEncoder.cpp 117-119: a band takes at most MAXBITS bits. *)
Definition usable_budget (bl : nat) (bitbudget : Z) : Z :=
  let most := Z.of_nat (length (book bl)) * MAXBITS in
  if most <? bitbudget then most else bitbudget.
(** 94-147: the bit allocation of a transformed block. *)
Definition allocate (bl : nat) (smr : nat -> f64 * f64) (dwt : list f64) (qwavmax : f64) (bitbudget : Z) : outcome alloc :=
  let budget := usable_budget bl bitbudget in
  alloc_loop (S (Z.to_nat budget)) bl smr dwt qwavmax budget (alloc_start bl dwt).

(** WaveletEncoder.cpp 149-159: the coefficients as integers. *)
Fixpoint scale_block (multiplicator : f64) (l : list f64) : outcome (list Z) :=
  match l with
  | [] => Ok []
  | x :: l' =>
      do v <- int_of_float i32 (fround (mul64 x multiplicator));
      do vs <- scale_block multiplicator l';
      Ok (v :: vs)
  end.
Definition integers (quant : list f64) (qwavmax : f64) (bitmax : Z) : outcome (list Z) :=
  do intmax <- shift1 bitmax;
  if feq qwavmax f64_0 then Ok (repeat 0 (length quant))
  else scale_block (div64 (f64_of_Z intmax) qwavmax) quant.

(** WaveletEncoder.cpp 86-163: encodeBlock: integers, bit count and scale factor given to the entropy coder. *)
Definition quantiseBlock (bl : nat) (block_time : list f64) (bitbudget : Z) : outcome (list Z * Z * f64) :=
  do dwt <- DWT block_time (dwtlevel bl);
  do qwavmax <- largestCoefficient dwt;
  do st <- allocate bl (getSMR block_time) dwt qwavmax bitbudget;
  let bitmax := findMaxInt (bitalloc st) in
  do ints <- integers (dwt_quant st) qwavmax bitmax;
  Ok (ints, bitmax, qwavmax).
(** [md0], [md10] and [cs] are the state of the entropy coder. *)
Definition encodeBlock (md0 md10 : list Z) (cs : counters) (bl : nat) (block_time : list f64) (bitbudget : Z)
  : outcome (list Z * counters) :=
  do '(ints, bitmax, qwavmax) <- quantiseBlock bl block_time bitbudget;
  encodeEffect md0 md10 cs ints (Z.to_nat bitmax) qwavmax [].

(** WaveletEncoder.cpp 62-82: the loop over the blocks.  [pos]: pos_effect; the rest of the signal is
    [sig_time] from [add_start] on.  [mds]: what the entropy coder keeps from the block before. *)
Fixpoint encode_blocks (mds : nat -> list Z * list Z) (bl : nat) (bitbudget blockLength : Z) (numBlocks : nat) (b : nat)
  (cs : counters) (pos : Z) (sig : list f64) (out : band) : outcome band :=
  match numBlocks with
  | O => Ok out
  | S n =>
      let block := firstn bl sig ++ repeat f64_0 (bl - length sig) in
      do '(bytes, cs') <- encodeBlock (fst (mds b)) (snd (mds b)) cs bl block bitbudget;
      let e := Effect (-1) pos None None [] None BasisE [] [] bytes in
      do pos' <- int_ok (pos + blockLength);
      encode_blocks mds bl bitbudget blockLength n (S b) cs' pos' (skipn bl sig) (addEffect e out)
  end.
(** WaveletEncoder.cpp 38-53 (block lengths below 8 write outside of [book]) and 55-84: encodeSignal of a
    default constructed band.  The number of blocks is computed in [double]s, which is exact below 2^31
    samples.  [timescale] is an [unsigned int] converted to [int]; [f_cutoff] is truncated. *)
Definition encodeSignal (mds : nat -> list Z * list Z) (bl fs : nat) (sig : list f64) (bitbudget f_cutoff timescale : Z)
  : outcome band :=
  if (bl <? 8)%nat || (fs =? 0)%nat then UB
  else
    do p <- int_ok (Z.of_nat bl * cast i32 timescale);
    let blockLength := Z.quot p (Z.of_nat fs) in
    encode_blocks mds bl bitbudget blockLength ((length sig + bl - 1) / bl) 0 resetCounter 0 sig
      (Band WaveletB None (Some blockLength) f_cutoff (Z.of_nat fs) [] None).
End Encoder.

(** *** The decoder *)
(** WaveletDecoder.h 56: MS_2_S_WAVELET. *)
Definition MS_2_S_WAVELET : f64 := @B754_finite 53 1024 false 4611686018427388 (-62) eq_refl.
(** [pow(2, bits)] for a bit count, exact. *)
Definition pow_2 (bits : Z) : f64 := f64_of_Z (2 ^ bits).
(** WaveletDecoder.cpp 89-98: decodeBlock. *)
Definition decodeBlock (block_dwt : list Z) (scalar : f64) (levels : nat) : outcome (list f64) :=
  inv_DWT (map (fun d => mul64 (f64_of_Z d) scalar) block_dwt) levels.
(** WaveletDecoder.cpp 73-78, 82-83: the samples of an effect. *)
Definition decodeSamples (bytes : list Z) (bl : nat) : outcome (list f64) :=
  do '(block_dwt, scalar, bits) <- decodeEffect resetCounter bytes (repeat 0 bl) bl;
  decodeBlock block_dwt (div64 scalar (pow_2 bits)) (dwtlevel bl).
(** WaveletDecoder.cpp 71-86: the loop over the effects: effect [b] and the following ones. *)
Fixpoint decode_effects (bl : nat) (upper timescale : Z) (b : Z) (l : list effect) : outcome (list effect) :=
  match l with
  | [] => Ok []
  | e :: l' =>
      do samples <- decodeSamples (e_wavelet e) bl;
      do pos <- int_of_float i32
        (div64 (mul64 (mul64 (f64_of_Z b) (f64_of_Z (Z.of_nat bl))) (f64_of_Z timescale)) (f64_of_Z upper));
      do rest <- decode_effects bl upper timescale (b + 1) l';
      Ok (Effect (-1) pos None None [] None BasisE [] samples [] :: rest)
  end.
(** WaveletDecoder.cpp 67-68: the number of samples of a block, from the block length of the band. *)
Definition decoded_length (blockLength upper : Z) : outcome Z :=
  int_of_float i32 (mul64 (mul64 (f64_of_Z blockLength) MS_2_S_WAVELET) (f64_of_Z upper)).
(** Band.h 105: DEFAULT_BLOCK_LENGTH; WaveletDecoder.cpp 61-87: transformBand.  Below 4 samples ([log2] of 0
    is infinite, its conversion undefined) the block is too short for the entropy decoder: not modelled, undefined. *)
Definition transformBand (b : band) (timescale : Z) : outcome band :=
  if negb (b_type b =? WaveletB) then Ok b
  else
    do bl <- decoded_length (match b_block b with Some n => n | None => 0 end) (b_up b);
    if bl <? 4 then UB
    else
      do l <- decode_effects (Z.to_nat bl) (b_up b) timescale 0 (b_effects b);
      Ok (set_effects l b).
