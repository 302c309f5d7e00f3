(** Properties of the psychohaptic model (PsychohapticModel.cpp), without the Fourier transform. *)
From Coq Require Import Reals Lra Lia ZArith List. From Coq Require Floats.SpecFloat.
From Flocq Require Import Core BinarySingleNaN.
From Verif Require Import Base FloatBase FloatModel FloatProof Float64Proof ToolsModel SynthModel SynthProof SpihtModel WaveletModel PeakModel PeakSpec PeakProof MaskFloat PeakMask PeakBand.
Import ListNotations.
Local Open Scope nat_scope.

(** For the examples: a spectrum of 8 bins with two peaks, and one with equal neighbours. *)
Definition kx_spect : list f64 := map f64_of_Z [0; 40; 10; 30; 25; 28; -5; 1]%Z.
Definition kx_flat : list f64 := map f64_of_Z [0; 20; 20; 40; 0]%Z.
Definition kx_small (v : f64) : bool := is_finite v && fle v (f64_of_Z 1000000000) && fle (f64_of_Z (-1000000000)) v.
Definition kx_view (o : outcome (list peak)) : option (list (nat * SpecFloat.spec_float)) :=
  match o with Ok ps => Some (map (fun p => (fst p, B2SF (snd p))) ps) | _ => None end.
Lemma small_numbers l : forallb kx_small l = true -> numbers l.
Proof.
  intros H. rewrite forallb_forall in H. apply Forall_forall. intros v Hv. specialize (H v Hv). unfold kx_small in H. rewrite !Bool.andb_true_iff in H. destruct H as [[F A] B]. split; [exact F|].
  destruct (f64_of_Z_ok 1000000000 ltac:(lia)) as [E1 F1]. destruct (f64_of_Z_ok (-1000000000) ltac:(lia)) as [E2 F2].
  rewrite fle_R in A by assumption. rewrite fle_R in B by assumption. rewrite E1 in A. rewrite E2 in B.
  destruct (Rle_bool_spec (B2R v) 1000000000); [|discriminate]. destruct (Rle_bool_spec (-1000000000) (B2R v)); [|discriminate]. apply Rabs_le. lra.
Qed.
Lemma kx_val i : val kx_spect i = IZR (nth i [0; 40; 10; 30; 25; 28; -5; 1]%Z 0%Z).
Proof. unfold val, kx_spect. change f64_0 with (f64_of_Z 0). rewrite map_nth. apply f64_of_Z_ok. do 9 (destruct i as [|i]; [cbn; lia|]). cbn. lia. Qed.
Lemma kx_no_plateau : no_plateau kx_spect.
Proof. intros i Hi. rewrite !kx_val. change (length kx_spect) with 8 in Hi. do 7 (destruct i as [|i]; [cbn; lra|]). lia. Qed.

(** ** C123 *)
(** The analysis of a block is defined for every block length of at least 8, whatever the samples and the results of the C
    library (also if they are infinite or no numbers), and gives one ratio and one energy for every band. *)
Theorem C123_defined :
  forall inv_sqrt pow10 log10 raw bl fs correction absolutes, 8 <= bl -> bl <= length absolutes ->
  exists r c, model_SMR inv_sqrt pow10 log10 bl (model_freqs bl fs) (model_percthres raw (model_freqs bl fs)) correction absolutes = Ok (r, c) /\
    length r = S (Z.to_nat (Z.log2 (Z.of_nat bl / 4))).
Proof. exact model_defined. Qed.
Print Assumptions C123_defined.
(** The search for peaks too, for every spectrum; what it finds are bins of the spectrum with their heights. *)
Theorem C123_search :
  forall x mp mh, exists ps, findPeaks x mp mh = Ok ps /\ Forall (fun p => fst p < length x /\ snd p = nth (fst p) x f64_0) ps.
Proof. exact peaks_found. Qed.
Print Assumptions C123_search.
Example C123_value : kx_view (findPeaks kx_flat f64_1 f64_0) = Some [(2, B2SF (nth 2 kx_flat f64_0))].
Proof. vm_compute. reflexivity. Qed.

(** ** C124 *)
(** For a spectrum without equal neighbours the search finds, from left to right, exactly the bins that are higher than
    both neighbours, have at least the minimal height, and whose prominence (rounded to a double) is at least the minimal
    prominence. *)
Theorem C124_peaks :
  forall x, numbers x -> no_plateau x -> forall mp mh, is_finite mp = true -> is_finite mh = true ->
  exists ps, findPeaks x mp mh = Ok ps /\ in_order ps /\
    forall i h, In (i, h) ps <-> local_max x i /\ h = nth i x f64_0 /\ (B2R mh <= val x i)%R /\ exists p, has_prominence x i p /\ (B2R mp <= rnd64 p)%R.
Proof. exact search_exact. Qed.
Print Assumptions C124_peaks.
(** Every bin has exactly one prominence. *)
Theorem C124_prominence :
  forall x i p q, has_prominence x i p -> has_prominence x i q -> p = q.
Proof. exact prominence_unique. Qed.
Print Assumptions C124_prominence.
Example C124_hyps : numbers kx_spect /\ no_plateau kx_spect /\ kx_view (findPeaks kx_spect (f64_of_Z 12) (f64_of_Z (-5))) = Some [(1, B2SF (f64_of_Z 40)); (3, B2SF (f64_of_Z 30))].
Proof. split; [apply small_numbers; vm_compute; reflexivity|]. split; [exact kx_no_plateau|vm_compute; reflexivity]. Qed.

(** ** C125 *)
(** False of the code for spectra with equal neighbours: on the way up to a peak, two equal bins are taken for a peak, and
    the peak is missed, whatever the three heights (if the criteria admit them). *)
Theorem C125_plateau_refuted :
  forall a b c mp mh, numbers [a; b; c] -> is_finite mp = true -> is_finite mh = true -> (B2R a < B2R b)%R -> (B2R b < B2R c)%R ->
  (B2R mh <= B2R b)%R -> (B2R mp <= rnd64 (B2R b - B2R a))%R ->
  findPeaks [a; b; b; c; a] mp mh = Ok [(2, b)] /\ (val [a; b; b; c; a] 2 < val [a; b; b; c; a] 3)%R /\
  local_max [a; b; b; c; a] 3 /\ has_prominence [a; b; b; c; a] 3 (B2R c - B2R a).
Proof. intros a b c mp mh N F1 F2 H1 H2 H3 H4. split; [exact (plateau_wrong a b c mp mh N F1 F2 H1 H2 H3 H4)|]. split; [exact H2|exact (true_peak a b c H1 H2)]. Qed.
Print Assumptions C125_plateau_refuted.
Example C125_hyps : kx_view (findPeaks kx_flat (f64_of_Z 12) (f64_of_Z (-5))) = Some [(2, B2SF (f64_of_Z 20))] /\ nth 3 kx_flat f64_0 = f64_of_Z 40.
Proof. split; [vm_compute; reflexivity|reflexivity]. Qed.

(** ** C126 *)
(** The masking threshold of a block is the perceptual threshold if the spectrum has no peaks of prominence 12 at most 45
    below its highest value.  Otherwise it is, in every bin, the perceptual threshold plus the power of the highest of the
    masks of the peaks, where a peak of [h] dB at [f] Hz masks [h - 5 + 5 / 1400 f - 30 ((g - f) / f)^2] dB at [g] Hz, up to
    rounding. *)
Theorem C126_threshold :
  forall pow10 bl fs percthres spect, 1 <= bl -> (Z.of_nat bl <= 65536)%Z -> (1 <= fs < 2 ^ 31)%Z -> numbers spect -> length spect = bl -> length percthres = bl ->
  exists top ps t, highest spect top /\ findPeaks spect (f64_of_Z 12) (sub64 top (f64_of_Z 45)) = Ok ps /\
  globalMaskingThreshold pow10 (model_freqs bl fs) percthres spect = Ok t /\ length t = bl /\
  (ps = [] -> t = percthres) /\
  (ps <> [] -> forall k, k < bl -> let freq i := B2R (nth i (model_freqs bl fs) f64_0) in
    exists m : f64, nth k t f64_0 = add64 (pow10 (div64 m (f64_of_Z 10))) (nth k percthres f64_0) /\ is_finite m = true /\
      (exists p, In p ps /\ mask_near (freq (fst p)) (B2R (snd p)) (freq k) (B2R m)) /\
      forall p, In p ps -> exists m', mask_near (freq (fst p)) (B2R (snd p)) (freq k) m' /\ (m' <= B2R m)%R).
Proof. exact threshold_exact. Qed.
Print Assumptions C126_threshold.
Example C126_hyps : numbers kx_spect /\ length kx_spect = 8 /\
  kx_view (findPeaks kx_spect (f64_of_Z 12) (sub64 (f64_of_Z 40) (f64_of_Z 45))) = Some [(1, B2SF (f64_of_Z 40)); (3, B2SF (f64_of_Z 30))].
Proof. split; [apply small_numbers; vm_compute; reflexivity|]. split; [reflexivity|vm_compute; reflexivity]. Qed.

(** ** C127 *)
(** For a block length of [4 * 2^k], [k >= 1], band [j] has the bins from [4 * 2^(j - 1)] (0 for band 0) to [4 * 2^j - 1]; its
    energy is the sum over its bins of the power of the spectrum, and its ratio is 10 times the logarithm of the energy
    divided by the sum of the masking threshold. *)
Theorem C127_bands :
  forall inv_sqrt pow10 log10 raw k fs absolutes r c, 1 <= k -> 4 * 2 ^ k <= length absolutes ->
  let bl := 4 * 2 ^ k in let freqs := model_freqs bl fs in let percthres := model_percthres raw freqs in
  let spect := map (fun a => mul64 (f64_of_Z 20) (log10 (mul64 (inv_sqrt bl) a))) (firstn bl absolutes) in
  model_SMR inv_sqrt pow10 log10 bl freqs percthres None absolutes = Ok (r, c) ->
  exists mask, globalMaskingThreshold pow10 freqs percthres spect = Ok mask /\ length mask = bl /\
  r = map (fun j => let e := sum64 (fun i => pow10 (div64 (nth i spect f64_0) (f64_of_Z 10))) (band_bins 4 j) in
                    (mul64 (f64_of_Z 10) (log10 (div64 e (sum64 (fun i => nth i mask f64_0) (band_bins 4 j)))), e)) (seq 0 (S k)).
Proof.
  intros inv_sqrt pow10 log10 raw k fs absolutes r c H1 H2 bl freqs percthres spect E. destruct (level_power k H1) as [D F]. assert (B : 8 <= bl) by (unfold bl; destruct k; [lia|]; cbn [Nat.pow]; pose proof (pow2_pos k); lia).
  destruct (model_energies inv_sqrt pow10 log10 raw bl fs None absolutes r c B H2 E) as (mask & M1 & M2 & M3). change (4 * 2 ^ k) with bl in D, F. rewrite D, F in M3. exists mask. split; [exact M1|]. split; [exact M2|exact M3].
Qed.
Print Assumptions C127_bands.
(** Every bin is in exactly one of these bands. *)
Theorem C127_partition :
  forall k i, i < 4 * 2 ^ k -> exists j, j <= k /\ In i (band_bins 4 j) /\ forall j', In i (band_bins 4 j') -> j' = j.
Proof. exact (one_band 4). Qed.
Print Assumptions C127_partition.
(** False of the code for other block lengths: with a block length of 1000 the bins from 896 on are in no band, so that
    the energies are the same whatever the spectrum is there. *)
Theorem C127_length_refuted :
  forall inv_sqrt pow10 log10 raw fs correction absolutes absolutes' r c r' c', length absolutes = 1000 -> length absolutes' = 1000 ->
  firstn 896 absolutes = firstn 896 absolutes' ->
  model_SMR inv_sqrt pow10 log10 1000 (model_freqs 1000 fs) (model_percthres raw (model_freqs 1000 fs)) correction absolutes = Ok (r, c) ->
  model_SMR inv_sqrt pow10 log10 1000 (model_freqs 1000 fs) (model_percthres raw (model_freqs 1000 fs)) correction absolutes' = Ok (r', c') ->
  map snd r = map snd r'.
Proof.
  intros inv_sqrt pow10 log10 raw fs correction absolutes absolutes' r c r' c' L L' E. apply ignored_bins; [lia|lia|lia|]. replace (first_band 1000 * 2 ^ dwtlevel 1000) with 896 by reflexivity. exact E.
Qed.
Print Assumptions C127_length_refuted.
Example C127_hyps :
  match model_SMR (fun _ => f64_1) (fun v => v) (fun v => v) (4 * 2 ^ 1) (model_freqs 8 8000) (model_percthres (fun _ => f64_1) (model_freqs 8 8000)) None kx_spect with
  | Ok (r, _) => map (fun p => B2SF (snd p)) r = [B2SF (f64_of_Z 160); B2SF (f64_of_Z 98)] | _ => False end /\
  firstn 896 (repeat f64_0 1000) = firstn 896 (repeat f64_0 896 ++ repeat f64_1 104).
Proof. split; [vm_compute; reflexivity|reflexivity]. Qed.

(** ** C128 *)
(** The frequency of bin [k] is [k * fs / (2 * bl - 1)] up to a billionth of the sampling frequency. *)
Theorem C128_frequencies :
  forall bl fs k, 1 <= bl -> (Z.of_nat bl <= 65536)%Z -> (1 <= fs < 2 ^ 31)%Z -> k < bl ->
  let f := nth k (model_freqs bl fs) f64_0 in
  is_finite f = true /\ (Rabs (B2R f - IZR (Z.of_nat k) * (IZR fs / IZR (2 * Z.of_nat bl - 1))) <= / 1000000000 * IZR fs)%R.
Proof. intros bl fs k H1 H2 H3 H4. destruct (freqs_ok bl fs k H1 H2 H3 H4) as (A & _ & _ & B). split; assumption. Qed.
Print Assumptions C128_frequencies.
(** The perceptual threshold of a bin is 1 if the curve has reached 1 in this bin or a lower one, and the value of the
    curve otherwise. *)
Theorem C128_thresholds :
  forall raw freqs k, k < length freqs ->
  nth k (model_percthres raw freqs) f64_0 = if existsb (fun f => fle f64_1 (raw f)) (firstn (S k) freqs) then f64_1 else raw (nth k freqs f64_0).
Proof. exact thresholds_exact. Qed.
Print Assumptions C128_thresholds.
Example C128_value : B2SF (nth 2 (model_freqs 8 30) f64_0) = B2SF (f64_of_Z 4) /\
  map B2SF (model_percthres (fun f => if feq f (f64_of_Z 3) then f64_1 else f64_0) (map f64_of_Z [1; 3; 2]%Z)) = map B2SF [f64_0; f64_1; f64_1].
Proof. split; vm_compute; reflexivity. Qed.

(** ** C129 *)
(** False of the code that the analysis of a block depends on the block only: after a block of another length has been
    analysed in the same process, the spectrum is scaled with the factor of that length. *)
Theorem C129_static_refuted :
  forall inv_sqrt log10 bl1 bl2 first second,
  fst (magnitudes inv_sqrt log10 bl2 (snd (magnitudes inv_sqrt log10 bl1 None first)) second) =
    map (fun a => mul64 (f64_of_Z 20) (log10 (mul64 (inv_sqrt bl1) a))) (firstn bl2 second) /\
  fst (magnitudes inv_sqrt log10 bl2 None second) = map (fun a => mul64 (f64_of_Z 20) (log10 (mul64 (inv_sqrt bl2) a))) (firstn bl2 second).
Proof. intros. split; reflexivity. Qed.
Print Assumptions C129_static_refuted.
Definition kx_inv_sqrt (n : nat) : f64 := if n =? 16 then div64 f64_1 (f64_of_Z 4) else div64 f64_1 (f64_of_Z 8).
Example C129_differs : let second := repeat f64_1 64 in
  map B2SF (fst (magnitudes kx_inv_sqrt (fun v => v) 64 (snd (magnitudes kx_inv_sqrt (fun v => v) 16 None second)) second)) <> map B2SF (fst (magnitudes kx_inv_sqrt (fun v => v) 64 None second)).
Proof. intros second H. apply (f_equal (fun l => nth 0 l SpecFloat.S754_nan)) in H. vm_compute in H. discriminate. Qed.
