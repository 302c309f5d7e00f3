(** Properties of the wavelet coding (Wavelet.cpp, WaveletEncoder.cpp, WaveletDecoder.cpp). *)
From Coq Require Import Reals Lra Lia ZArith List.
From Flocq Require Import Core BinarySingleNaN.
From Verif Require Import Base FloatBase FloatModel FloatProof ArithModel SpihtModel TypesModel ToolsModel SynthModel WaveletModel WaveletSpec WaveletInverse WaveletQuant WaveletAlloc WaveletBits WaveletCodec WaveletBlocks WaveletLength WaveletEnd.
Import ListNotations.
Local Open Scope Z_scope.

(** A signal for the examples: 12 samples, one and a half blocks of 8; [log10] and the psychohaptic model are
    replaced by simple functions. *)
Definition wx_signal : list f64 := map f64_of_Z [3; -2; 4; 0; 1; -3; 2; 2; -1; 4; -4; 1].
Definition wx_square (x : f64) : f64 := mul64 x x.
Definition wx_log (x : f64) : f64 := x.
Definition wx_smr (block : list f64) (band : nat) : f64 * f64 := (f64_of_Z 5, if (band =? 0)%nat then f64_1 else f64_0).
Definition wx_md (b : nat) : list Z * list Z := ([], []).
(** A logarithm with finite values only. *)
Definition wx_finite (x : f64) : f64 := if is_finite x then f64_1 else f64_0.
Lemma wx_within l M : Forall (fun z => Z.abs z <= M)%Z l -> (M <= 2 ^ 53)%Z -> samples_within (IZR M) (map f64_of_Z l).
Proof.
  intros F HM. apply Forall_forall. intros x Hx. apply in_map_iff in Hx. destruct Hx as (z & <- & I). rewrite Forall_forall in F. specialize (F z I). cbv beta in F.
  destruct (f64_of_Z_ok z ltac:(lia)) as [-> ->]. split; [reflexivity|]. rewrite <- abs_IZR. apply IZR_le, F.
Qed.
Lemma wx_samples : samples_within 4 wx_signal.
Proof. apply wx_within; [repeat constructor; lia|lia]. Qed.

(** ** C104 *)
(** The bits of the budget are all given to the bands of a block. *)
Theorem C104_budget :
  forall log10 pow2 bl smr dwt Q budget,
  allocate log10 pow2 bl smr dwt Q budget <> NoFuel /\
  forall st, allocate log10 pow2 bl smr dwt Q budget = Ok st ->
    length (bitalloc st) = S (dwtlevel bl) /\ Forall (fun b => 0 <= b) (bitalloc st) /\
    sum_bits (bitalloc st) = Z.max 0 (Z.min budget (15 * Z.of_nat (S (dwtlevel bl)))).
Proof.
  intros log10 pow2 bl smr dwt Q budget. destruct (allocate_sum log10 pow2 bl smr dwt Q budget) as [A B]. split; [exact A|].
  intros st E. destruct (B st E) as (L & _ & P & S). rewrite <- sum_zsum. split; [exact L|]. split; [exact P|exact S].
Qed.
Print Assumptions C104_budget.
Example C104_value :
  (do c <- DWT (firstn 8 wx_signal) (dwtlevel 8); do Q <- largestCoefficient c;
   do st <- allocate wx_log wx_square 8 (wx_smr []) c Q 7; Ok (bitalloc st)) = Ok [3; 4].
Proof. vm_compute. reflexivity. Qed.

(** ** C105 *)
(** No band gets more than 15 bits, if a bit can always be given: see [always_usable]. *)
Theorem C105_fifteen :
  forall log10 pow2 bl smr dwt Q budget, is_finite Q = true -> on_grid (B2R Q) -> length dwt = bl -> samples_within 1073741824 dwt ->
  (B2R Q = 0%R -> Forall (fun x => B2R x = 0%R) dwt) -> always_usable log10 pow2 bl smr dwt Q budget ->
  exists st, allocate log10 pow2 bl smr dwt Q budget = Ok st /\ Forall (fun b => 0 <= b <= 15) (bitalloc st).
Proof.
  intros log10 pow2 bl smr dwt Q budget A B C D E F. destruct (allocate_fine log10 pow2 bl smr dwt Q budget A B C D E F) as (st & Ea & Hb & _).
  exists st. split; [exact Ea|exact Hb].
Qed.
Print Assumptions C105_fifteen.
Example C105_hyps : block_usable wx_log wx_square wx_smr 8 (block_at 8 wx_signal 0) 7 /\ block_usable wx_log wx_square wx_smr 8 (block_at 8 wx_signal 1) 7.
Proof. split; apply block_check_ok; vm_compute; reflexivity. Qed.
(** False of the code without that condition: all bits of a silent block go to the first band. *)
Theorem C105_silent_refuted :
  forall log10 pow2 getSMR md0 md10 cs k block budget, library_limits log10 pow2 -> (forall i, flt (fst (getSMR block i)) f64_0 = false) ->
  (3 <= k)%nat -> length block = (2 ^ k)%nat -> no_signal block -> 0 <= budget ->
  (budget <= 30 -> budget <= 15 * (Z.of_nat k - 2) -> exists c Q st, DWT block (dwtlevel (2 ^ k)) = Ok c /\ largestCoefficient c = Ok Q /\
     allocate log10 pow2 (2 ^ k) (getSMR block) c Q budget = Ok st /\ bitalloc st = budget :: repeat 0 (k - 2)) /\
  ((5 <= k)%nat -> 31 <= budget -> encodeBlock log10 pow2 getSMR md0 md10 cs (2 ^ k) block budget = UB).
Proof. exact silent_block. Qed.
Print Assumptions C105_silent_refuted.
Example C105_silent_hyps : library_limits wx_log wx_square /\ (forall i, flt (fst (wx_smr [] i)) f64_0 = false) /\ no_signal (repeat f64_0 1024) /\ (30 <= 15 * (Z.of_nat 10 - 2)).
Proof.
  split; [split; [intros [|]; reflexivity|split; reflexivity]|]. split; [intros i; reflexivity|]. split; [|lia].
  apply Forall_forall. intros x Hx. apply repeat_spec in Hx. left. exact Hx.
Qed.

(** ** C106 *)
(** The scale factor of a block is the next one that its header can carry. *)
Theorem C106_scale :
  forall c, c <> [] -> samples_within 1000000000 c ->
  exists Q W, largestCoefficient c = Ok Q /\ is_finite Q = true /\ largest (map B2R c) W /\ scale_for W (B2R Q).
Proof. exact largest_ok. Qed.
Print Assumptions C106_scale.
(** A band is quantised to the closest multiples of its step, and nothing else changes. *)
Theorem C106_quantised :
  forall inp out start len Q b, is_finite Q = true -> on_grid (B2R Q) -> 0 <= b <= 15 -> (start + len <= length inp)%nat -> length out = length inp ->
  samples_within 1073741824 inp -> (B2R Q = 0%R -> Forall (fun x => B2R x = 0%R) inp) ->
  exists r, uniformQuant inp start Q b len out = Ok r /\ length r = length inp /\
    (forall i, (start <= i < start + len)%nat -> quantised (B2R Q) b (nth i inp f64_0) (nth i r f64_0)) /\
    (forall i, (i < start \/ start + len <= i)%nat -> nth i r f64_0 = nth i out f64_0).
Proof. exact quantiser. Qed.
Print Assumptions C106_quantised.
Example C106_hyps : samples_within 1000000000 wx_signal /\ on_grid (135 / 8).
Proof.
  split; [apply wx_within; [repeat constructor; lia|lia]|]. exists 127. split; [lia|]. right. lra.
Qed.
Example C106_value :
  (do Q <- largestCoefficient wx_signal; do r <- uniformQuant wx_signal 2 Q 2 3 (repeat f64_0 12); Ok (B2SF Q, map B2SF r)) =
  Ok (B2SF (f64_of_Z 4), map (fun z => B2SF (f64_of_Z z)) [0; 0; 3; 0; 1; 0; 0; 0; 0; 0; 0; 0]).
Proof. vm_compute. reflexivity. Qed.

(** ** C107 *)
(** The entropy coder gives the quantised coefficients back exactly, with their scale. *)
Theorem C107_exact :
  forall md0 md10 k Q bits ints, (3 <= k <= 22)%nat -> length ints = (2 ^ k)%nat -> is_finite Q = true -> on_grid (B2R Q) -> 0 <= bits <= 15 ->
  (forall i, (i < 2 ^ k)%nat -> Z.abs (nth i ints 0) < 2 ^ bits) ->
  exists bytes c', encodeEffect md0 md10 resetCounter ints (Z.to_nat bits) Q [] = Ok (bytes, resetCounter) /\
    decodeSamples bytes (2 ^ k) = inv_DWT c' (dwtlevel (2 ^ k)) /\ length c' = (2 ^ k)%nat /\
    forall i, (i < 2 ^ k)%nat -> is_finite (nth i c' f64_0) = true /\ B2R (nth i c' f64_0) = (IZR (nth i ints 0%Z) * step (B2R Q) bits)%R.
Proof. exact codec_ok. Qed.
Print Assumptions C107_exact.
Example C107_hyps : length [3; -2; 0; 0; 1; -3; 2; 2] = (2 ^ 3)%nat /\ on_grid (B2R f64_1) /\ forall i, Z.abs (nth i [3; -2; 0; 0; 1; -3; 2; 2] 0) < 2 ^ 2.
Proof.
  split; [reflexivity|]. split.
  - exists 0. split; [lia|]. right. unfold f64_1, B2R, F2R. cbn -[bpow]. change (-52)%Z with (Z.opp 52). rewrite (bpow_inv 52) by lia. cbn. lra.
  - intros i. do 9 (destruct i as [|i]; [cbn; lia|]). cbn. destruct i; lia.
Qed.

(** ** C108 *)
(** The inverse transform gives the samples back, up to rounding. *)
Theorem C108_inverse :
  forall n m x M, (1 <= n <= 100)%nat -> (3 <= m)%nat -> length x = (m * 2 ^ n)%nat -> (1 <= M <= IZR (2 ^ 100))%R -> samples_within M x ->
  exists c y, DWT x n = Ok c /\ length c = length x /\ samples_within (M * 2 ^ n) c /\ inv_DWT c n = Ok y /\ Forall2 (within (M * 2 ^ n / 1099511627776)) x y.
Proof. exact transform_back. Qed.
Print Assumptions C108_inverse.
Example C108_hyps : length wx_signal = (3 * 2 ^ 2)%nat /\ samples_within 4 wx_signal.
Proof. split; [reflexivity|exact wx_samples]. Qed.

(** ** C109 *)
(** A block is decoded within the error given by its bits. *)
Theorem C109_block :
  forall log10 pow2 getSMR md0 md10 k block M budget, (3 <= k <= 22)%nat -> length block = (2 ^ k)%nat -> (1 <= M <= 512)%R -> samples_within M block ->
  block_usable log10 pow2 getSMR (2 ^ k) block budget ->
  exists c Q W st bytes y,
    DWT block (dwtlevel (2 ^ k)) = Ok c /\ largestCoefficient c = Ok Q /\ largest (map B2R c) W /\ scale_for W (B2R Q) /\
    allocate log10 pow2 (2 ^ k) (getSMR block) c Q budget = Ok st /\ Forall (fun b => 0 <= b <= 15) (bitalloc st) /\
    encodeBlock log10 pow2 getSMR md0 md10 resetCounter (2 ^ k) block budget = Ok (bytes, resetCounter) /\
    decodeSamples bytes (2 ^ k) = Ok y /\
    Forall2 (within (block_error (B2R Q) W M (2 ^ k) (bitalloc st))) block y.
Proof. exact block_round. Qed.
Print Assumptions C109_block.
Example C109_hyps : length (block_at 8 wx_signal 0) = (2 ^ 3)%nat /\ samples_within 4 (block_at 8 wx_signal 0) /\ block_usable wx_log wx_square wx_smr 8 (block_at 8 wx_signal 0) 7.
Proof. split; [reflexivity|]. split; [apply block_within; [lra|exact wx_samples]|apply C105_hyps]. Qed.

(** ** C110 *)
(** The lengths for which transform and inverse transform are defined. *)
Theorem C110_inverse :
  forall c : list f64, (8 <= length c)%nat ->
  ((length c mod 2 ^ dwtlevel (length c) = 0)%nat -> exists y, inv_DWT c (dwtlevel (length c)) = Ok y /\ length y = length c) /\
  ((length c mod 2 ^ dwtlevel (length c) <> 0)%nat -> inv_DWT c (dwtlevel (length c)) = UB).
Proof. exact inverse_lengths. Qed.
Print Assumptions C110_inverse.
Theorem C110_forward :
  forall x : list f64, (8 <= length x)%nat ->
  ((length x mod 2 ^ dwtlevel (length x) = 0)%nat -> exists c, DWT x (dwtlevel (length x)) = Ok c /\ length c = length x) /\
  ((length x mod 2 ^ dwtlevel (length x) <> 0)%nat -> DWT x (dwtlevel (length x)) = UB).
Proof. exact forward_lengths. Qed.
Print Assumptions C110_forward.
(** Effects of other lengths are never decoded. *)
Theorem C110_effects :
  forall bytes bl y, (8 <= bl)%nat ->
  (decodeSamples bytes bl = Ok y -> length y = bl) /\ ((bl mod 2 ^ dwtlevel bl <> 0)%nat -> decodeSamples bytes bl <> Ok y).
Proof. intros bytes bl y H. split; [apply decode_length, H|apply decode_undefined, H]. Qed.
Print Assumptions C110_effects.
Example C110_values : (1024 mod 2 ^ dwtlevel 1024 = 0 /\ 48 mod 2 ^ dwtlevel 48 = 0 /\ 50 mod 2 ^ dwtlevel 50 <> 0)%nat.
Proof. split; [reflexivity|]. split; [reflexivity|discriminate]. Qed.

(** ** C111 *)
(** A signal is divided into blocks, one effect for each, at the time where the block starts. *)
Theorem C111_blocks :
  forall log10 pow2 getSMR mds bl fs sig budget f_cutoff ts r, 0 <= ts < 2 ^ 31 -> encodeSignal log10 pow2 getSMR mds bl fs sig budget f_cutoff ts = Ok r ->
  exists es, r = Band WaveletB None (Some (Z.of_nat bl * ts / Z.of_nat fs)) f_cutoff (Z.of_nat fs) es None /\ length es = ((length sig + bl - 1) / bl)%nat /\
    forall i, (i < length es)%nat -> exists e cs1 cs2, nth_error es i = Some e /\ e_pos e = Z.of_nat i * (Z.of_nat bl * ts / Z.of_nat fs) /\ e_type e = BasisE /\
      encodeBlock log10 pow2 getSMR (fst (mds i)) (snd (mds i)) cs1 bl (block_at bl sig i) budget = Ok (e_wavelet e, cs2).
Proof. exact signal_blocks. Qed.
Print Assumptions C111_blocks.
(** The encoder succeeds for every sampling frequency, if its blocks can be encoded. *)
Theorem C111_encoded :
  forall log10 pow2 getSMR mds k fs sig M budget f_cutoff ts, (3 <= k <= 22)%nat -> (0 < fs)%nat -> 0 <= ts -> Z.of_nat (2 ^ k) * ts < 2 ^ 31 ->
  (1 <= M <= 512)%R -> samples_within M sig ->
  (forall i, (i * 2 ^ k < length sig)%nat -> block_usable log10 pow2 getSMR (2 ^ k) (block_at (2 ^ k) sig i) budget) ->
  ts * (Z.of_nat (length sig) + Z.of_nat (2 ^ k)) < 2 ^ 31 * Z.of_nat fs ->
  exists band, encodeSignal log10 pow2 getSMR mds (2 ^ k) fs sig budget f_cutoff ts = Ok band.
Proof. exact encode_some. Qed.
Print Assumptions C111_encoded.
Example C111_hyps : forall i, (i * 2 ^ 3 < length wx_signal)%nat -> block_usable wx_log wx_square wx_smr (2 ^ 3) (block_at (2 ^ 3) wx_signal i) 7.
Proof. intros [|[|i]] H; [apply C105_hyps|apply C105_hyps|cbn in H; lia]. Qed.

(** ** C112 *)
(** The decoder finds the length of the blocks and their positions again, if a block lasts a whole number of
    milliseconds. *)
Theorem C112_length :
  forall k L fs, (k <= 21)%nat -> (L * fs = 1000 * 2 ^ k)%nat -> decoded_length (Z.of_nat L) (Z.of_nat fs) = Ok (Z.of_nat (2 ^ k)).
Proof. exact length_back. Qed.
Print Assumptions C112_length.
Example C112_hyps : (Z.to_nat 128 * Z.to_nat 8000 = 1000 * 2 ^ 10)%nat.
Proof. apply Nat2Z.inj. rewrite !Nat2Z.inj_mul, !Z2Nat.id, Nat2Z.inj_pow by lia. reflexivity. Qed.
(** False of the code for the usual sampling frequencies of audio files: the encoded band cannot be decoded. *)
Theorem C112_audio_refuted :
  forall log10 pow2 getSMR mds fs sig M budget f_cutoff, In fs audio_rates -> sig <> [] -> (1 <= M <= 512)%R -> samples_within M sig ->
  (forall i, (i * 1024 < length sig)%nat -> block_usable log10 pow2 getSMR 1024 (block_at 1024 sig i) budget) ->
  1000 * (Z.of_nat (length sig) + 1024) < 2 ^ 31 * fs ->
  exists band, encodeSignal log10 pow2 getSMR mds 1024 (Z.to_nat fs) sig budget f_cutoff 1000 = Ok band /\
    forall out, transformBand band 1000 <> Ok out.
Proof.
  intros log10 pow2 getSMR mds fs sig M budget f_cutoff Hf Hs HM B Us Hl.
  assert (P : 0 < fs) by (unfold audio_rates in Hf; cbn [In] in Hf; lia).
  assert (E : exists band, encodeSignal log10 pow2 getSMR mds 1024 (Z.to_nat fs) sig budget f_cutoff 1000 = Ok band).
  { apply (encode_some log10 pow2 getSMR mds 10 (Z.to_nat fs) sig M budget f_cutoff 1000); [lia|lia|lia|reflexivity|exact HM|exact B|exact Us|]. rewrite Z2Nat.id by lia. exact Hl. }
  destruct E as [band E]. exists band. split; [exact E|]. intros out. apply (audio_refuted _ _ _ _ _ _ _ _ _ _ Hf Hs E).
Qed.
Print Assumptions C112_audio_refuted.
Example C112_audio_hyps : forall block budget, block_usable wx_finite wx_square wx_smr 1024 block budget.
Proof.
  intros block budget. apply finite_usable. intros noise i. unfold ratio, wx_finite, wx_smr. cbn [fst snd].
  destruct (is_finite (div64 (f64_of_Z 5) noise)), (i =? 0)%nat; vm_compute; reflexivity.
Qed.
(** False of the code for other timescales: the blocks get another length. *)
Theorem C112_timescale_refuted :
  forall log10 pow2 getSMR mds sig budget f_cutoff band out,
  encodeSignal log10 pow2 getSMR mds 1024 (Z.to_nat 8000) sig budget f_cutoff 8000 = Ok band -> transformBand band 8000 = Ok out ->
  length (b_effects out) = ((length sig + 1023) / 1024)%nat /\ Forall (fun e => Z.of_nat (length (e_samples e)) = 8192) (b_effects out).
Proof. exact timescale_refuted. Qed.
Print Assumptions C112_timescale_refuted.

(** ** C113 *)
(** A signal comes back from encoder and decoder, block by block at the right times and within the error given by
    the bit budget, if a block lasts a whole number of milliseconds. *)
Theorem C113_signal :
  forall log10 pow2 getSMR mds k fs sig M budget f_cutoff, (3 <= k <= 21)%nat -> (0 < fs)%nat -> ((1000 * 2 ^ k) mod fs = 0)%nat ->
  (1 <= M <= 512)%R -> samples_within M sig ->
  (forall i, (i * 2 ^ k < length sig)%nat -> block_usable log10 pow2 getSMR (2 ^ k) (block_at (2 ^ k) sig i) budget) ->
  1000 * (Z.of_nat (length sig) + 2 ^ Z.of_nat k) < 2 ^ 31 * Z.of_nat fs ->
  exists band out, encodeSignal log10 pow2 getSMR mds (2 ^ k) fs sig budget f_cutoff 1000 = Ok band /\ transformBand band 1000 = Ok out /\
    b_type out = WaveletB /\ b_low out = f_cutoff /\ b_up out = Z.of_nat fs /\
    length (b_effects out) = ((length sig + 2 ^ k - 1) / 2 ^ k)%nat /\
    forall i e, nth_error (b_effects out) i = Some e -> e_pos e * Z.of_nat fs = 1000 * (Z.of_nat i * 2 ^ Z.of_nat k) /\ e_type e = BasisE /\
      decoded_from k M budget (block_at (2 ^ k) sig i) (e_samples e).
Proof. exact signal_round. Qed.
Print Assumptions C113_signal.
Example C113_hyps : ((1000 * 2 ^ 3) mod 1000 = 0)%nat /\ samples_within 4 wx_signal /\
  (forall i, (i * 2 ^ 3 < length wx_signal)%nat -> block_usable wx_log wx_square wx_smr (2 ^ 3) (block_at (2 ^ 3) wx_signal i) 7) /\
  1000 * (Z.of_nat (length wx_signal) + 2 ^ Z.of_nat 3) < 2 ^ 31 * Z.of_nat 1000.
Proof. split; [reflexivity|]. split; [exact wx_samples|]. split; [exact C111_hyps|reflexivity]. Qed.
