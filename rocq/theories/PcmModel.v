(** The encoding of audio files: source/Encoder/src/PcmEncoder.cpp 53-136 (encode), source/Encoder/include/PcmEncoder.h
    50-113 (the settings) and the choice of the settings in source/Encoder/src/main.cpp 134-157, 205-229, 248-269.
    No proofs in this file. *)
From Coq Require Import Strings.String.
From Verif Require Import Base FloatBase FloatModel TypesModel MetaModel ToolsModel SynthModel SemanticModel ConformModel SpihtModel WaveletModel CurveModel.
Local Open Scope Z_scope.
Local Open Scope list_scope.

(** What the WAV library reads from a file (WavParser.cpp 41-72): the sampling frequency and the samples of every
    channel, all of the same number. *)
Record wav := Wav { w_rate : Z; w_channels : list (list f64) }.
(** WavParser.h 63-66: the parser before a file is read. *)
Definition wav0 : wav := Wav 0 [].

(** PcmEncoder.h 61-76: EncodingConfig. *)
Record config := Config {
  curveFrequencyLimit : f64;
  wavelet_blockLength : Z;
  wavelet_bitbudget : Z;
  wavelet_enabled : bool;
  vectorial_enabled : bool
}.

(** PcmEncoder.cpp 63: the channel made for a channel of the file. *)
Definition placeholder (i : Z) : channel :=
  Channel i (bytes_of "I'm a placeholder") f32_1 f32_1 4294967295 [] [] None None None None None None None None.
Definition set_sampling (freq count : Z) (c : channel) : channel :=
  Channel (c_id c) (c_desc c) (c_gain c) (c_mix c) (c_mask c) (c_vertices c) (c_bands c) (c_prio c) (c_device c)
    (Some freq) (Some count) (c_dir c) (c_res c) (c_body c) (c_target c).
Definition set_curve (t : Z) (b : band) : band := Band (b_type b) (Some t) (b_block b) (b_low b) (b_up b) (b_effects b) (b_prio b).
(** PcmEncoder.cpp 102-110. *)
Definition curve_type_for (modality : Z) : Z :=
  if (modality =? ForceM) || (modality =? StiffnessM) then LinearC
  else if (modality =? VibrotactileM) || (modality =? VibrotactileTextureM) then CubicC
  else UnknownC.
(** PcmEncoder.cpp 86-87, 123-125: sample by sample difference; the second list is as long as the first. *)
Fixpoint minus (a b : list f64) : outcome (list f64) :=
  match a, b with
  | [], _ => Ok []
  | x :: a', y :: b' => do r <- minus a' b'; Ok (sub64 x y :: r)
  | _ :: _, [] => UB
  end.

Section Encoder.
(** [std::sin], [std::pow] and the interpolations of SynthModel.v, the C functions and the psychohaptic model of
    WaveletModel.v, and the low-pass filter (Filterbank.cpp 40-58; sampling frequency, signal, cutoff frequency). *)
Variable fsin : f64 -> f64.
Variable fpow : f64 -> f64 -> f64.
Variables akima bezier bspline : list point -> outcome (list f64).
Variables log10 pow2 : f64 -> f64.
Variable getSMR : list f64 -> nat -> f64 * f64.
Variable LP : f64 -> list f64 -> f64 -> list f64.

(** PcmEncoder.cpp 89-113: the curve band, if any; [low] is the filtered signal. *)
Definition pcm_curve (cfg : config) (rate timescale modality : Z) (signal low : list f64) (c : channel) : outcome (band * channel) :=
  let cutoff := flt f64_0 (curveFrequencyLimit cfg) in
  if vectorial_enabled cfg && (cutoff || negb (wavelet_enabled cfg)) then
    let filtered := if negb (wavelet_enabled cfg) && feq (curveFrequencyLimit cfg) f64_0 then signal else low in
    do '(ok, b) <- convertToCurveBand (localExtrema filtered true) (f64_of_Z rate)
                     (if cutoff then curveFrequencyLimit cfg else f64_of_Z rate) timescale band0;
    if (ok : bool) then let b := set_curve (curve_type_for modality) b in Ok (b, addBand b c) else Ok (b, c)
  else Ok (band0, c).
(** PcmEncoder.cpp 119-128: the signal of the wavelet band. *)
Definition pcm_residual (cfg : config) (rate timescale : Z) (signal high : list f64) (curve : band) : outcome (list f64) :=
  if flt f64_0 (curveFrequencyLimit cfg) then
    if vectorial_enabled cfg then
      do inter <- EvaluationBand fsin fpow akima bezier bspline 1 curve (vec_size signal) rate 0 timescale;
      minus signal inter
    else Ok high
  else Ok signal.
(** PcmEncoder.cpp 72-133: one channel of the file.  [mds]: what the entropy coder keeps from earlier blocks; its
    counters are those of a new coder (they are, after every block: C109).  [sampleCount] is [numSamples /
    numChannels], the number of samples of a channel. *)
Definition pcm_channel (mds : nat -> list Z * list Z) (cfg : config) (rate timescale modality : Z) (signal : list f64) (c : channel)
  : outcome channel :=
  let cutoff := flt f64_0 (curveFrequencyLimit cfg) in
  let zeros := repeat f64_0 (length signal) in
  let low := if cutoff then LP (f64_of_Z rate) signal (curveFrequencyLimit cfg) else zeros in
  do high <- (if cutoff then minus signal low else Ok zeros);
  do '(curve, c) <- pcm_curve cfg rate timescale modality signal low c;
  let c := set_sampling rate (cast u32 (vec_size signal)) c in
  if wavelet_enabled cfg then
    do residual <- pcm_residual cfg rate timescale signal high curve;
    do lower <- int_of_float i32 (curveFrequencyLimit cfg);
    do b <- encodeSignal log10 pow2 getSMR mds (Z.to_nat (wavelet_blockLength cfg)) (Z.to_nat rate) residual
              (wavelet_bitbudget cfg) lower timescale;
    Ok (addBand b c)
  else Ok c.
(** PcmEncoder.cpp 60-66: channels are added up to the number of channels of the file. *)
Definition placeholders (from n : nat) : list channel := map (fun i => placeholder (Z.of_nat i)) (seq from (n - from)).
(** PcmEncoder.cpp 74-135: the loop over the channels. *)
Fixpoint pcm_channels (mds : nat -> nat -> list Z * list Z) (cfg : config) (rate timescale modality : Z) (i : nat)
  (signals : list (list f64)) (cs : list channel) : outcome (list channel) :=
  match signals, cs with
  | s :: signals', c :: cs' =>
      do c' <- pcm_channel (mds i) cfg rate timescale modality s c;
      do r <- pcm_channels mds cfg rate timescale modality (S i) signals' cs';
      Ok (c' :: r)
  | _, _ => Ok []
  end.
(** WaveletEncoder.cpp 38-53 with PsychohapticModel.cpp 40-68: the construction of the wavelet encoder, which does not
    depend on [wavelet_enabled].  A negative block length makes too long a vector, as does 1 ([log2] is negative);
    0 and 2 to 7 write outside of a vector or convert an infinity. *)
Definition construct (bl : Z) : outcome unit := if (bl <? 0) || (bl =? 1) then Throw else if bl <? 8 then UB else Ok tt.
(** PcmEncoder.cpp 53-136: encode.  [file]: what the WAV library can read, if anything; the result of loadFile is not
    looked at.  [None]: EXIT_FAILURE. *)
Definition pcm_encode (mds : nat -> nat -> list Z * list Z) (file : option wav) (cfg : config) (timescale : Z) (out : perception)
  : outcome (option perception) :=
  let w := match file with Some w => w | None => wav0 end in
  let n := length (w_channels w) in
  let cs := p_channels out in
  if (n <? length cs)%nat then Ok None
  else
    do _ <- construct (wavelet_blockLength cfg);
    do cs' <- pcm_channels mds cfg (w_rate w) timescale (p_modality out) 0 (w_channels w) (cs ++ placeholders (length cs) n);
    Ok (Some (set_channels cs' out)).

(** *** The settings *)
(** PcmEncoder.h 50-59. *)
Definition DEFAULT_CUTOFF_FREQUENCY : f64 := @B754_finite 53 1024 false 5101733952880640 (-46) eq_refl.
Definition DEFAULT_BLOCK_LENGTH_SMP : Z := 1024.
Definition DEFAULT_BIT_BUDGET : Z := 16.
Definition PARAM_A : f64 := @B754_finite 53 1024 true 7325104793918112 (-50) eq_refl.
Definition PARAM_B : f64 := @B754_finite 53 1024 false 7730428760381456 (-51) eq_refl.
Definition PARAM_C : f64 := @B754_finite 53 1024 true 6371332464833588 (-57) eq_refl.
Definition PARAM_D : f64 := @B754_finite 53 1024 false 4746347250165468 (-64) eq_refl.
(** PcmEncoder.h 78-86. *)
Definition generateDefaultConfig (enable_wavelet enable_vectorial : bool) : config :=
  Config DEFAULT_CUTOFF_FREQUENCY DEFAULT_BLOCK_LENGTH_SMP DEFAULT_BIT_BUDGET enable_wavelet enable_vectorial.
(** PcmEncoder.h 88-94. *)
Definition generateConfigBudget (budget : Z) (cutoff : f64) (enable_wavelet enable_vectorial : bool) (bl : Z) : config :=
  Config cutoff bl budget enable_wavelet enable_vectorial.
(** PcmEncoder.h 101-103: the polynomial; the [pow]s are parameters. *)
Definition budget_poly (cube square : f64 -> f64) (bitrate : Z) : f64 :=
  let temp := f64_of_Z bitrate in
  add64 (add64 (add64 (mul64 PARAM_D (cube temp)) (mul64 PARAM_C (square temp))) (mul64 PARAM_B temp)) PARAM_A.
(** PcmEncoder.h 104: [(int)(log2(bl) - 1)] for [bl >= 1]; [log2] is taken to be accurate enough not to reach the next
    integer. *)
Definition max_bitbudget (bl : Z) : Z := (Z.log2 bl - 1) * MAXBITS.
Definition limit_budget (most budget : Z) : Z := if most <? budget then most else if budget <? 1 then 1 else budget.
(** PcmEncoder.h 96-112 ([bl] below 1: the logarithm is not finite). *)
Definition generateConfigParam (cube square : f64 -> f64) (bitrate : Z) (cutoff : f64) (enable_wavelet enable_vectorial : bool) (bl : Z)
  : outcome config :=
  do budget <- int_of_float i32 (ffloor (budget_poly cube square bitrate));
  if bl <? 1 then UB
  else Ok (Config cutoff bl (limit_budget (max_bitbudget bl) budget) enable_wavelet enable_vectorial).
(** main.cpp 134-157, 205-229 and 248-269: the settings from the options -kb, -bu, -bl, -cf. *)
Definition choose_config (cube square : f64 -> f64) (bitrate budget blocklength : option Z) (cf : option f64) (enable_wavelet enable_vectorial : bool)
  : outcome config :=
  let cutoff := match cf with Some f => f | None => DEFAULT_CUTOFF_FREQUENCY end in
  let bl := match blocklength with Some n => n | None => DEFAULT_BLOCK_LENGTH_SMP end in
  match bitrate, budget with
  | Some r, _ => generateConfigParam cube square r cutoff enable_wavelet enable_vectorial bl
  | None, Some n => Ok (generateConfigBudget n cutoff enable_wavelet enable_vectorial bl)
  | None, None => Ok (generateDefaultConfig enable_wavelet enable_vectorial)
  end.
End Encoder.
