(** Properties of the encoding of audio files (PcmEncoder.cpp, PcmEncoder.h, Encoder main.cpp). *)
From Coq Require Import Reals Lra Lia ZArith List.
From Flocq Require Import Core BinarySingleNaN.
From Verif Require Import Base FloatBase FloatModel FloatProof Float64Proof TypesModel MetaModel ToolsModel SynthModel SynthProof ConformModel SpihtModel WaveletModel WaveletSpec WaveletEnd CurveModel PcmModel PcmSpec PcmEnd PcmConfig PcmProof.
Import ListNotations.
Local Open Scope Z_scope.

(** For the examples: simple functions in place of the C library, the psychohaptic model and the low-pass filter, and
    signals of a few samples within full scale. *)
Definition px_sin (x : f64) : f64 := x.
Definition px_pow (x y : f64) : f64 := x.
Definition px_curve (l : list point) : outcome (list f64) := Ok [].
Definition px_log (x : f64) : f64 := if is_finite x then f64_1 else f64_0.
Definition px_square (x : f64) : f64 := mul64 x x.
Definition px_smr (block : list f64) (band : nat) : f64 * f64 := (f64_of_Z 5, if (band =? 0)%nat then f64_1 else f64_0).
Definition px_md (b : nat) : list Z * list Z := ([], []).
Definition px_LP (fs : f64) (s : list f64) (cutoff : f64) : list f64 := s.
Definition px_signal : list f64 := map (fun z => div64 (f64_of_Z z) (f64_of_Z 4)) [3; -2; 4; 0; 1; -3; 2; 2; -1; 4; 1; -4].
Definition in_range (v : f64) : bool := is_finite v && fle v f64_1 && fle SynthModel.f64_m1 v.
Lemma range_within l : forallb in_range l = true -> samples_within 1 l.
Proof.
  intros H. rewrite forallb_forall in H. apply Forall_forall. intros v Hv. specialize (H v Hv). unfold in_range in H. rewrite !Bool.andb_true_iff in H. destruct H as [[F A] B]. split; [exact F|].
  rewrite fle_R in A by (exact F || reflexivity). rewrite fle_R in B by (exact F || reflexivity). rewrite f64_1_R in A. rewrite f64_m1_R in B.
  destruct (Rle_bool_spec (B2R v) 1); [|discriminate]. destruct (Rle_bool_spec (-1) (B2R v)); [|discriminate]. apply Rabs_le. lra.
Qed.
Lemma px_within : samples_within 1 px_signal.
Proof. apply range_within. vm_compute. reflexivity. Qed.
Lemma px_usable bl block budget : block_usable px_log px_square px_smr bl block budget.
Proof.
  apply finite_usable. intros noise i. unfold ratio, px_log, px_smr. cbn [fst snd].
  destruct (is_finite (div64 (f64_of_Z 5) noise)), (i =? 0)%nat; vm_compute; reflexivity.
Qed.

(** ** C114 *)
(** A decoded wavelet band of any number of blocks plays through without gap, overlap or echo: every output sample is
    the sample of the same number, or the one before. *)
Theorem C114_blocks_played :
  forall fsin fpow akima bezier bspline fuel b k L fs n, decoded_blocks k L fs b ->
  0 <= n <= Z.of_nat (length (b_effects b)) * 2 ^ Z.of_nat k -> Z.of_nat (length (b_effects b)) * 2 ^ Z.of_nat k <= 2 ^ 31 - 2 -> Z.of_nat (length (b_effects b)) * Z.of_nat L < 2 ^ 31 ->
  exists out, EvaluationBand fsin fpow akima bezier bspline fuel b n (Z.of_nat fs) 0 1000 = Ok out /\ Z.of_nat (length out) = n /\
    forall ti, Z.of_nat ti < n -> exists j, (j = ti \/ S j = ti) /\ is_finite (nth ti out f64_0) = true /\ B2R (nth ti out f64_0) = B2R (nth j (all_samples b) f64_0).
Proof. exact blocks_played. Qed.
Print Assumptions C114_blocks_played.
(** False of the code that it is always the sample of the same number: at 8000 Hz and with the default block length,
    sample 1001 of every band is sample 1000 again. *)
Theorem C114_same_sample_refuted :
  forall fsin fpow akima bezier bspline fuel b fs n out, Z.of_nat fs = 8000 -> decoded_blocks 10 128 fs b ->
  Z.of_nat (length (b_effects b)) * 128 < 2 ^ 31 -> 1001 < n ->
  EvaluationBand fsin fpow akima bezier bspline fuel b n 8000 0 1000 = Ok out -> B2R (nth 1001 out f64_0) = B2R (nth 1000 (all_samples b) f64_0).
Proof. exact sample_1001. Qed.
Print Assumptions C114_same_sample_refuted.
Definition px_block (i : Z) : effect := Effect (-1) (i * 128) (Some f32_0) None [] (Some Sine) BasisE [] (map f64_of_Z (map Z.of_nat (seq 0 1024))) [].
Definition px_band : band := Band WaveletB None None 0 8000 (map px_block [0; 1]) None.
Example C114_hyps : decoded_blocks 10 128 (Z.to_nat 8000) px_band /\ Z.of_nat (length (b_effects px_band)) * 2 ^ Z.of_nat 10 <= 2 ^ 31 - 2 /\ Z.of_nat (length (b_effects px_band)) * 128 < 2 ^ 31.
Proof.
  split; [|split; vm_compute; congruence]. split; [reflexivity|]. split; [reflexivity|]. split; [reflexivity|]. split; [lia|].
  assert (F : Forall (fun v : f64 => is_finite v = true) (map f64_of_Z (map Z.of_nat (seq 0 1024)))).
  { apply Forall_forall. intros v H. apply in_map_iff in H. destruct H as (z & <- & H). apply in_map_iff in H. destruct H as (i & <- & H). apply in_seq in H. apply f64_of_Z_ok. lia. }
  intros [|[|i]] e H; [| |destruct i; discriminate]; injection H as <-; cbn [px_block e_pos e_samples]; rewrite !map_length, seq_length; repeat split; exact F.
Qed.

(** ** C115 *)
(** With a cutoff frequency of 0, a channel of an audio file is encoded as one wavelet band, which is played back
    with the errors that the bit budget allows. *)
Theorem C115_wavelet_channel :
  forall fsin fpow akima bezier bspline log10 pow2 getSMR LP mds fuel k fs budget v modality signal c,
  (3 <= k <= 21)%nat -> (0 < fs)%nat -> ((1000 * 2 ^ k) mod fs = 0)%nat -> samples_within 1 signal ->
  (forall i, (i * 2 ^ k < length signal)%nat -> block_usable log10 pow2 getSMR (2 ^ k) (block_at (2 ^ k) signal i) budget) ->
  1000 * (Z.of_nat (length signal) + 2 ^ Z.of_nat k) < 2 ^ 31 * Z.of_nat fs -> Z.of_nat (length signal) + 2 ^ Z.of_nat k < 2 ^ 31 ->
  exists c' b w out,
    pcm_channel fsin fpow akima bezier bspline log10 pow2 getSMR LP mds (Config f64_0 (Z.of_nat (2 ^ k)) budget true v) (Z.of_nat fs) 1000 modality signal c = Ok c' /\
    c_bands c' = c_bands c ++ [b] /\ c_freq c' = Some (Z.of_nat fs) /\ c_count c' = Some (vec_size signal) /\
    transformBand b 1000 = Ok w /\
    EvaluateChannel fsin fpow akima bezier bspline fuel (set_bands [w] c') (vec_size signal) (Z.of_nat fs) 0 1000 = Ok out /\ length out = length signal /\
    forall ti, (ti < length signal)%nat -> exists j d, (j = ti \/ S j = ti) /\ block_bound k 1 budget (block_at (2 ^ k) signal (j / 2 ^ k)) d /\
      within (d + / 4503599627370496) (nth j signal f64_0) (nth ti out f64_0).
Proof. exact wavelet_channel. Qed.
Print Assumptions C115_wavelet_channel.
Example C115_hyps : ((1000 * 2 ^ 3) mod 1000 = 0)%nat /\ samples_within 1 px_signal /\ (forall i, block_usable px_log px_square px_smr (2 ^ 3) (block_at (2 ^ 3) px_signal i) 7) /\
  1000 * (Z.of_nat (length px_signal) + 2 ^ Z.of_nat 3) < 2 ^ 31 * Z.of_nat 1000.
Proof. split; [reflexivity|]. split; [exact px_within|]. split; [intros; apply px_usable|reflexivity]. Qed.

(** ** C116 *)
(** With a curve band, the wavelet band encodes what the curve leaves; played together they give the signal with the
    errors that the bit budget allows, as long as curve and wavelet band are played at the same samples. *)
Theorem C116_curve_channel :
  forall fsin fpow akima bezier bspline log10 pow2 getSMR LP mds k fs budget cf modality signal c cb cs res lower,
  (3 <= k <= 21)%nat -> (0 < fs)%nat -> ((1000 * 2 ^ k) mod fs = 0)%nat -> samples_within 1 signal ->
  1000 * (Z.of_nat (length signal) + 2 ^ Z.of_nat k) < 2 ^ 31 * Z.of_nat fs -> Z.of_nat (length signal) + 2 ^ Z.of_nat k < 2 ^ 31 ->
  let cfg := Config cf (Z.of_nat (2 ^ k)) budget true true in
  flt f64_0 cf = true -> int_of_float i32 cf = Ok lower -> length (LP (f64_of_Z (Z.of_nat fs)) signal cf) = length signal ->
  pcm_curve cfg (Z.of_nat fs) 1000 modality signal (LP (f64_of_Z (Z.of_nat fs)) signal cf) c = Ok (cb, addBand cb c) ->
  EvaluationBand fsin fpow akima bezier bspline 1 cb (vec_size signal) (Z.of_nat fs) 0 1000 = Ok cs -> samples_within 1 cs -> length cs = length signal ->
  minus signal cs = Ok res ->
  (forall i, (i * 2 ^ k < length signal)%nat -> block_usable log10 pow2 getSMR (2 ^ k) (block_at (2 ^ k) res i) budget) ->
  exists c' b w out,
    pcm_channel fsin fpow akima bezier bspline log10 pow2 getSMR LP mds cfg (Z.of_nat fs) 1000 modality signal c = Ok c' /\
    c_bands c' = c_bands c ++ [cb; b] /\ c_freq c' = Some (Z.of_nat fs) /\ c_count c' = Some (vec_size signal) /\
    transformBand b 1000 = Ok w /\
    EvaluateChannel fsin fpow akima bezier bspline 1 (set_bands [cb; w] c') (vec_size signal) (Z.of_nat fs) 0 1000 = Ok out /\ length out = length signal /\
    forall ti, (ti < length signal)%nat -> exists j d, (j = ti \/ S j = ti) /\ block_bound k 2 budget (block_at (2 ^ k) res (j / 2 ^ k)) d /\
      is_finite (nth ti out f64_0) = true /\
      (Rabs (B2R (nth ti out f64_0) - clipped (B2R (nth ti cs f64_0) + (B2R (nth j signal f64_0) - B2R (nth j cs f64_0)))) <= d + / 1125899906842624)%R.
Proof. exact curve_channel. Qed.
Print Assumptions C116_curve_channel.
Definition px_config : config := Config (f64_of_Z 72) 8 7 true true.
Definition curve_check (cfg : config) (rate m : Z) (signal low : list f64) : bool :=
  match pcm_curve cfg rate 1000 m signal low (placeholder 0) with
  | Ok (cb, c') =>
      negb (Nat.eqb (length (c_bands c')) 0) &&
      match EvaluationBand px_sin px_pow px_curve px_curve px_curve 1 cb (vec_size signal) rate 0 1000 with
      | Ok cs => Nat.eqb (length cs) (length signal) && forallb in_range cs && negb (forallb (fun v => feq v f64_0) cs) && match minus signal cs with Ok _ => true | _ => false end
      | _ => false
      end
  | _ => false
  end.
Lemma checked cfg rate m signal low : curve_check cfg rate m signal low = true -> exists cb cs res,
  pcm_curve cfg rate 1000 m signal low (placeholder 0) = Ok (cb, addBand cb (placeholder 0)) /\
  EvaluationBand px_sin px_pow px_curve px_curve px_curve 1 cb (vec_size signal) rate 0 1000 = Ok cs /\ samples_within 1 cs /\ length cs = length signal /\
  minus signal cs = Ok res /\ (forall i, block_usable px_log px_square px_smr (2 ^ 3) (block_at (2 ^ 3) res i) 7).
Proof.
  intros H. unfold curve_check in H.
  destruct (pcm_curve _ _ _ _ _ _ _) as [[cb c']| | |] eqn:E1; try discriminate. apply Bool.andb_true_iff in H. destruct H as [H1 H2].
  destruct (EvaluationBand _ _ _ _ _ _ cb _ _ _ _) as [cs| | |] eqn:E2; try discriminate. rewrite !Bool.andb_true_iff in H2. destruct H2 as [[[H2 H3] _] H4].
  destruct (minus signal cs) as [res| | |] eqn:E3; try discriminate. exists cb, cs, res.
  split. { destruct (curve_cases _ _ _ _ _ _ _ _ _ E1) as [-> | ->]; [discriminate|reflexivity]. }
  split; [exact E2|]. split; [apply range_within, H3|]. split; [apply Nat.eqb_eq, H2|]. split; [exact E3|]. intros i. apply px_usable.
Qed.
Example C116_hyps : flt f64_0 (f64_of_Z 72) = true /\ int_of_float i32 (f64_of_Z 72) = Ok 72 /\ exists cb cs res,
  pcm_curve px_config (Z.of_nat 1000) 1000 ForceM px_signal (px_LP (f64_of_Z (Z.of_nat 1000)) px_signal (f64_of_Z 72)) (placeholder 0) = Ok (cb, addBand cb (placeholder 0)) /\
  EvaluationBand px_sin px_pow px_curve px_curve px_curve 1 cb (vec_size px_signal) (Z.of_nat 1000) 0 1000 = Ok cs /\ samples_within 1 cs /\ length cs = length px_signal /\
  minus px_signal cs = Ok res /\ (forall i, block_usable px_log px_square px_smr (2 ^ 3) (block_at (2 ^ 3) res i) 7).
Proof. split; [vm_compute; reflexivity|]. split; [vm_compute; reflexivity|]. apply checked. vm_compute. reflexivity. Qed.

(** ** C117 *)
(** The result has a channel for every channel of the file; existing channels keep their metadata and bands, new ones
    are empty channels numbered from 0; nothing else of the perception changes. *)
Theorem C117_channels :
  forall fsin fpow akima bezier bspline log10 pow2 getSMR LP mds w cfg ts p q, Forall (fun s => Z.of_nat (length s) < 2 ^ 32) (w_channels w) ->
  pcm_encode fsin fpow akima bezier bspline log10 pow2 getSMR LP mds (Some w) cfg ts p = Ok (Some q) ->
  q = set_channels (p_channels q) p /\ length (p_channels q) = length (w_channels w) /\ (length (p_channels p) <= length (w_channels w))%nat /\
  forall i s, nth_error (w_channels w) i = Some s -> exists c', nth_error (p_channels q) i = Some c' /\
    extended (w_rate w) (length s) (nth i (p_channels p) (placeholder (Z.of_nat i))) c'.
Proof. exact encoded_channels. Qed.
Print Assumptions C117_channels.
(** The encoding of a file that can be read reports a failure exactly if the perception has more channels than it. *)
Theorem C117_failure :
  forall fsin fpow akima bezier bspline log10 pow2 getSMR LP mds w cfg ts p,
  pcm_encode fsin fpow akima bezier bspline log10 pow2 getSMR LP mds (Some w) cfg ts p = Ok None <-> (length (w_channels w) < length (p_channels p))%nat.
Proof. exact encode_fails. Qed.
Print Assumptions C117_failure.
(** False of the code that a file that cannot be read is reported: the result is a success without channels. *)
Theorem C117_unreadable_refuted :
  forall fsin fpow akima bezier bspline log10 pow2 getSMR LP mds cfg ts p, p_channels p = [] -> 8 <= wavelet_blockLength cfg ->
  pcm_encode fsin fpow akima bezier bspline log10 pow2 getSMR LP mds None cfg ts p = Ok (Some (set_channels [] p)).
Proof. exact unreadable. Qed.
Print Assumptions C117_unreadable_refuted.
Definition px_perception : perception := Perception 0 0 [] None None VibrotactileM [] [] None None [].
Definition px_file : wav := Wav 1000 [px_signal; rev px_signal].
Example C117_hyps :
  match pcm_encode px_sin px_pow px_curve px_curve px_curve px_log px_square px_smr px_LP (fun _ => px_md) (Some px_file) (Config f64_0 1024 16 false true) 1000 px_perception with
  | Ok (Some q) => map (fun c => length (c_bands c)) (p_channels q) = [1%nat; 1%nat]
  | _ => False
  end.
Proof. vm_compute. reflexivity. Qed.

(** ** C118 *)
(** False of the code that disabling one of the codings encodes everything with the other: with the vectorial coding
    disabled, a signal that the low-pass filter lets pass is encoded exactly like silence. *)
Theorem C118_disable_vectorial_refuted :
  forall fsin fpow akima bezier bspline log10 pow2 getSMR LP mds cf bl budget rate ts m s c, flt f64_0 cf = true -> Forall (fun v => is_finite v = true) s ->
  LP (f64_of_Z rate) s cf = s -> LP (f64_of_Z rate) (repeat f64_0 (length s)) cf = repeat f64_0 (length s) ->
  pcm_channel fsin fpow akima bezier bspline log10 pow2 getSMR LP mds (Config cf bl budget true false) rate ts m s c =
  pcm_channel fsin fpow akima bezier bspline log10 pow2 getSMR LP mds (Config cf bl budget true false) rate ts m (repeat f64_0 (length s)) c.
Proof. exact no_vectorial_loses. Qed.
Print Assumptions C118_disable_vectorial_refuted.
Example C118_hyps : flt f64_0 DEFAULT_CUTOFF_FREQUENCY = true /\ Forall (fun v => is_finite v = true) px_signal /\
  px_LP (f64_of_Z 8000) px_signal DEFAULT_CUTOFF_FREQUENCY = px_signal /\ (exists v, In v px_signal /\ B2SF v <> B2SF f64_0).
Proof.
  split; [vm_compute; reflexivity|]. split; [eapply Forall_impl; [|exact px_within]; intros v H; apply H|]. split; [reflexivity|].
  exists (div64 (f64_of_Z 3) (f64_of_Z 4)). split; [left; reflexivity|vm_compute; discriminate].
Qed.

(** ** C119 *)
(** False of the code that a file is encoded or an error reported: with both codings disabled, the result is a
    success with no band added to any channel. *)
Theorem C119_both_disabled_refuted :
  forall fsin fpow akima bezier bspline log10 pow2 getSMR LP mds w cf bl budget ts p, (forall r s f, length (LP r s f) = length s) ->
  (length (p_channels p) <= length (w_channels w))%nat -> 8 <= bl ->
  exists q, pcm_encode fsin fpow akima bezier bspline log10 pow2 getSMR LP mds (Some w) (Config cf bl budget false false) ts p = Ok (Some q) /\
    map c_bands (p_channels q) = map c_bands (p_channels p) ++ repeat [] (length (w_channels w) - length (p_channels p)).
Proof. exact nothing_encoded_file. Qed.
Print Assumptions C119_both_disabled_refuted.
(** False of the code also for a negative cutoff frequency with the wavelet coding disabled: the result does not depend on
    the samples. *)
Theorem C119_negative_cutoff_refuted :
  forall fsin fpow akima bezier bspline log10 pow2 getSMR LP mds cf bl budget rate ts m s s' c, flt cf f64_0 = true -> length s = length s' ->
  pcm_channel fsin fpow akima bezier bspline log10 pow2 getSMR LP mds (Config cf bl budget false true) rate ts m s c =
  pcm_channel fsin fpow akima bezier bspline log10 pow2 getSMR LP mds (Config cf bl budget false true) rate ts m s' c.
Proof. exact negative_cutoff. Qed.
Print Assumptions C119_negative_cutoff_refuted.
Example C119_hyps : (forall r s f, length (px_LP r s f) = length s) /\ (length (p_channels px_perception) <= length (w_channels px_file))%nat /\
  flt (f64_of_Z (-1)) f64_0 = true /\ length px_signal = length (rev px_signal).
Proof. split; [reflexivity|]. split; [cbn; lia|]. split; vm_compute; reflexivity. Qed.

(** ** C120 *)
(** False of the code that every file can be encoded with the default settings: one whose channels have no or only
    one sample leads to undefined behaviour. *)
Theorem C120_short_file_refuted :
  forall fsin fpow akima bezier bspline log10 pow2 getSMR LP mds cf bl budget ts w p s rest upper, flt f64_0 cf = true -> int_of_float i32 cf = Ok upper -> 8 <= bl ->
  (forall r s f, length (LP r s f) = length s) -> w_channels w = s :: rest -> (length s <= 1)%nat -> (length (p_channels p) <= length (w_channels w))%nat ->
  0 < ts < 2 ^ 31 -> 0 < w_rate w < 2 ^ 31 ->
  pcm_encode fsin fpow akima bezier bspline log10 pow2 getSMR LP mds (Some w) (Config cf bl budget true true) ts p = UB.
Proof. exact short_file. Qed.
Print Assumptions C120_short_file_refuted.
Example C120_hyps : generateDefaultConfig true true = Config DEFAULT_CUTOFF_FREQUENCY 1024 16 true true /\ flt f64_0 DEFAULT_CUTOFF_FREQUENCY = true /\
  int_of_float i32 DEFAULT_CUTOFF_FREQUENCY = Ok 72 /\ (forall r s f, length (px_LP r s f) = length s) /\ w_channels (Wav 8000 [[f64_1]]) = [f64_1] :: [].
Proof. repeat split; vm_compute; reflexivity. Qed.

(** ** C121 *)
(** The bit budget for a bitrate is the polynomial of it rounded down, at least 1 and at most the largest budget that
    the block length allows. *)
Theorem C121_budget :
  forall cube square r cf w v bl, exact_powers cube square -> Z.abs r <= 20000 -> 8 <= bl ->
  exists b, generateConfigParam cube square r cf w v bl = Ok (Config cf bl b w v) /\ rounded_down (bits_for (IZR r)) (15 * (Z.log2 bl - 1)) b.
Proof. exact config_budget. Qed.
Print Assumptions C121_budget.
(** A higher bitrate never gives a smaller budget. *)
Theorem C121_monotone :
  forall cube square r1 r2 cf1 cf2 w1 w2 v1 v2 bl c1 c2, exact_powers cube square -> - 20000 <= r1 <= r2 -> r2 <= 20000 -> 8 <= bl ->
  generateConfigParam cube square r1 cf1 w1 v1 bl = Ok c1 -> generateConfigParam cube square r2 cf2 w2 v2 bl = Ok c2 -> wavelet_bitbudget c1 <= wavelet_bitbudget c2.
Proof. exact config_monotone. Qed.
Print Assumptions C121_monotone.
(** False of the code for large bitrates: the polynomial does not fit an [int], and its conversion is undefined. *)
Theorem C121_large_refuted :
  forall cube square r cf w v bl, exact_powers cube square -> 20350 <= r <= 131072 -> generateConfigParam cube square r cf w v bl = UB.
Proof. exact config_overflow. Qed.
Print Assumptions C121_large_refuted.
Definition px_cube (x : f64) : f64 := mul64 x (mul64 x x).
Example C121_hyps : exact_powers px_cube px_square.
Proof.
  intros r Hr. destruct (f64_of_Z_ok r ltac:(lia)) as [E F]. unfold px_cube, px_square.
  assert (Q2 : Z.abs (r * r) <= 17179869184) by nia. assert (Q3 : Z.abs (r * (r * r)) <= 2251799813685248) by nia.
  destruct (mul64_ok (f64_of_Z r) (f64_of_Z r) F F) as [E2 F2].
  { rewrite E, <- mult_IZR. apply SpihtHeader.bound1000. split; apply IZR_le; lia. }
  rewrite E, <- mult_IZR, rnd64_id in E2 by (apply fmt64_Z; lia).
  destruct (mul64_ok (f64_of_Z r) (mul64 (f64_of_Z r) (f64_of_Z r)) F F2) as [E3 F3].
  { rewrite E, E2, <- mult_IZR. apply SpihtHeader.bound1000. split; apply IZR_le; lia. }
  rewrite E, E2, <- mult_IZR, rnd64_id in E3 by (apply fmt64_Z; lia).
  split; [exact F3|]. split; [rewrite E3; f_equal; ring|]. split; [exact F2|]. rewrite E2. f_equal. ring.
Qed.
Example C121_value : generateConfigParam px_cube px_square 16 f64_0 true true 1024 = Ok (Config f64_0 1024 38 true true).
Proof. vm_compute. reflexivity. Qed.

(** ** C122 *)
(** With a bitrate or a budget, the given cutoff frequency and block length are used. *)
Theorem C122_used :
  forall cube square r n bl cf w v cfg, choose_config cube square r n (Some bl) (Some cf) w v = Ok cfg -> r <> None \/ n <> None ->
  curveFrequencyLimit cfg = cf /\ wavelet_blockLength cfg = bl /\ wavelet_enabled cfg = w /\ vectorial_enabled cfg = v.
Proof. exact options_used. Qed.
Print Assumptions C122_used.
(** False of the code that the options are used alone: without a bitrate or a budget, any cutoff frequency and block
    length give the default settings. *)
Theorem C122_ignored_refuted :
  forall cube square bl cf w v, choose_config cube square None None bl cf w v = Ok (generateDefaultConfig w v).
Proof. exact options_ignored. Qed.
Print Assumptions C122_ignored_refuted.
Example C122_hyps : choose_config px_cube px_square None (Some 20) (Some 512) (Some f64_0) true true = Ok (Config f64_0 512 20 true true).
Proof. reflexivity. Qed.
