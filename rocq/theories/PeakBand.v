(** The bands of the psychohaptic model, and spectra with plateaus. *)
From Coq Require Import Reals Psatz.
From Flocq Require Import Core.Core.
From Verif Require Import Base FloatBase FloatModel FloatSpec FloatProof Float64Proof ToolsModel SynthModel SynthProof SpihtModel SpihtHeader WaveletModel PeakModel PeakSpec PeakProof MaskFloat PeakMask.

(** *** Bands *)
Local Open Scope nat_scope.
Lemma pow2_pos j : 1 <= 2 ^ j. Proof. induction j; cbn; lia. Qed.
Lemma start_le first j : band_start first j <= first * 2 ^ j.
Proof. destruct j; cbn [band_start]; [lia|]. cbn [Nat.pow]. nia. Qed.
Section Bands.
Variables (pow10 log10 : f64 -> f64) (spect mask : list f64).
Let energy i := pow10 (div64 (nth i spect f64_0) f64_10).
Let masked i := nth i mask f64_0.
Lemma band_sums_ok : forall n i e m, i + n <= length spect -> i + n <= length mask ->
  band_sums pow10 spect mask i n e m = Ok (fold_left (fun e i => add64 e (energy i)) (seq i n) e, fold_left (fun e i => add64 e (masked i)) (seq i n) m).
Proof.
  induction n as [|n IH]; intros i e m H1 H2; [reflexivity|]. cbn [band_sums seq fold_left]. rewrite (at_ok spect) by lia. rewrite (at_ok mask) by lia. cbn [obind]. apply IH; lia.
Qed.
Definition band_result (first j : nat) : f64 * f64 :=
  let e := sum64 energy (band_bins first j) in (mul64 f64_10 (log10 (div64 e (sum64 masked (band_bins first j)))), e).
Lemma bands_ok first : forall n j, first * 2 ^ (j + n - 1) <= length spect -> first * 2 ^ (j + n - 1) <= length mask ->
  band_results pow10 log10 spect mask (band_start first j) (map (fun i => Z.of_nat (first * 2 ^ i)) (seq j n)) = Ok (map (band_result first) (seq j n)).
Proof.
  induction n as [|n IH]; intros j H1 H2; [reflexivity|]. cbn [seq map band_results]. rewrite Nat2Z.id.
  assert (M : first * 2 ^ j <= first * 2 ^ (j + S n - 1)) by (apply Nat.mul_le_mono_l, Nat.pow_le_mono_r; lia).
  pose proof (start_le first j) as S0. rewrite band_sums_ok by lia. cbn [obind]. replace (Nat.max (band_start first j) (first * 2 ^ j)) with (band_start first (S j)) by (cbn [band_start]; lia).
  rewrite IH by (replace (S j + n - 1) with (j + S n - 1) by lia; assumption). reflexivity.
Qed.
Lemma all_bands_ok first n : first * 2 ^ n <= length spect -> first * 2 ^ n <= length mask ->
  band_results pow10 log10 spect mask 0 (map (fun i => Z.of_nat (first * 2 ^ i)) (seq 0 (S n))) = Ok (map (band_result first) (seq 0 (S n))).
Proof. intros H1 H2. apply (bands_ok first (S n) 0); replace (0 + S n - 1) with n by lia; assumption. Qed.
End Bands.
Lemma book_loop_snd : forall n b c, snd (book_loop n b c) = map (fun i => (c * 2 ^ Z.of_nat (S i))%Z) (seq 0 n).
Proof.
  induction n as [|n IH]; intros b c; [reflexivity|]. cbn [book_loop]. destruct (book_loop n (b * 2) (c * 2)) as [b' c'] eqn:E. cbn [snd]. specialize (IH (b * 2)%Z (c * 2)%Z). rewrite E in IH. cbn [snd] in IH. rewrite IH.
  cbn [seq map]. f_equal. rewrite <- seq_shift, map_map. apply map_ext. intros i. rewrite (Nat2Z.inj_succ (S i)), Z.pow_succ_r by lia. lia.
Qed.
Definition first_band (bl : nat) : nat := bl / 2 ^ dwtlevel bl.
Lemma level_bounds bl : 8 <= bl -> 1 <= dwtlevel bl /\ 4 * 2 ^ dwtlevel bl <= bl < 8 * 2 ^ dwtlevel bl.
Proof.
  intros H. unfold dwtlevel. assert (P : (2 <= Z.of_nat bl / 4)%Z) by (apply Z.div_le_lower_bound; lia).
  pose proof (Z.log2_spec (Z.of_nat bl / 4) ltac:(lia)) as [A B]. pose proof (Z.log2_le_mono 2 _ P) as C. change (Z.log2 2) with 1%Z in C.
  split; [lia|]. rewrite Z.pow_succ_r in B by lia. set (l := Z.log2 (Z.of_nat bl / 4)) in *.
  assert (E : Z.of_nat (2 ^ Z.to_nat l) = (2 ^ l)%Z) by (rewrite Nat2Z.inj_pow, Z2Nat.id by lia; reflexivity).
  pose proof (Z.mul_div_le (Z.of_nat bl) 4 ltac:(lia)). pose proof (Z.mul_succ_div_gt (Z.of_nat bl) 4 ltac:(lia)). split; apply Nat2Z.inj_le || apply Nat2Z.inj_lt; rewrite Nat2Z.inj_mul, E; lia.
Qed.
Lemma model_stops bl : 8 <= bl -> tl (snd (model_book bl)) = map (fun i => Z.of_nat (first_band bl * 2 ^ i)) (seq 0 (S (dwtlevel bl))).
Proof.
  intros H. destruct (level_bounds bl H) as [L _]. unfold model_book. cbv zeta.
  destruct (book_loop (S (dwtlevel bl) - 2) (Z.of_nat bl / 2 ^ Z.of_nat (dwtlevel bl)) (Z.of_nat bl / 2 ^ Z.of_nat (dwtlevel bl) * 2)) as [b c] eqn:E. cbn [snd tl].
  assert (Ec : c = snd (book_loop (S (dwtlevel bl) - 2) (Z.of_nat bl / 2 ^ Z.of_nat (dwtlevel bl)) (Z.of_nat bl / 2 ^ Z.of_nat (dwtlevel bl) * 2))) by (rewrite E; reflexivity).
  rewrite book_loop_snd in Ec. rewrite Ec.
  assert (B0 : (Z.of_nat bl / 2 ^ Z.of_nat (dwtlevel bl))%Z = Z.of_nat (first_band bl)) by (unfold first_band; rewrite Nat2Z.inj_div, Nat2Z.inj_pow; reflexivity). rewrite B0.
  replace (S (dwtlevel bl)) with (S (S (dwtlevel bl - 1))) at 2 by lia. cbn [seq map]. f_equal; [rewrite Nat.pow_0_r, Nat.mul_1_r; reflexivity|]. f_equal; [rewrite Nat.pow_1_r, Nat2Z.inj_mul; reflexivity|].
  replace (S (dwtlevel bl) - 2) with (dwtlevel bl - 1) by lia. rewrite <- !seq_shift, !map_map. apply map_ext. intros i.
  rewrite Nat2Z.inj_mul, Nat2Z.inj_pow. change (Z.of_nat 2) with 2%Z. rewrite !(Nat2Z.inj_succ), !Z.pow_succ_r by lia. ring.
Qed.
Lemma used_bins bl : 8 <= bl -> first_band bl * 2 ^ dwtlevel bl <= bl.
Proof. intros H. unfold first_band. rewrite Nat.mul_comm. apply Nat.mul_div_le. pose proof (pow2_pos (dwtlevel bl)). lia. Qed.

(** *** The whole model *)
Lemma threshold_ok pow10 freqs percthres spect : spect <> [] -> length spect = length freqs -> length percthres = length freqs ->
  exists mask, globalMaskingThreshold pow10 freqs percthres spect = Ok mask /\ length mask = length freqs.
Proof.
  intros N L1 L2. unfold globalMaskingThreshold. destruct spect as [|v spect'] eqn:Es; [congruence|]. cbn [findMaxVector obind]. rewrite <- Es in *. set (top := fold_left _ _ _).
  destruct (peaks_found spect MIN_PEAK_PROMINENCE (sub64 top MIN_PEAK_HEIGHT_DIFF)) as (ps & -> & F). cbn [obind].
  destruct (peakMask_ok freqs ps) as (r & -> & C). { eapply Forall_impl; [|exact F]. cbn. intros p [P _]. lia. } cbn [obind].
  destruct C as [[_ ->]|[_ C]]; [exists percthres; auto|]. destruct r as [|m r]; [exists percthres; auto|]. destruct (Nat.ltb_spec (length (m :: r)) (length percthres)); [lia|].
  eexists. split; [reflexivity|]. rewrite map_length, combine_length. lia.
Qed.
Theorem model_defined inv_sqrt pow10 log10 raw bl fs correction absolutes : 8 <= bl -> bl <= length absolutes ->
  exists r c, model_SMR inv_sqrt pow10 log10 bl (model_freqs bl fs) (model_percthres raw (model_freqs bl fs)) correction absolutes = Ok (r, c) /\ length r = S (dwtlevel bl).
Proof.
  intros H1 H2. unfold model_SMR. destruct (magnitudes inv_sqrt log10 bl correction absolutes) as [spect c] eqn:E.
  assert (L : length spect = bl). { unfold magnitudes in E. injection E as <- _. rewrite map_length, firstn_length. lia. }
  destruct (threshold_ok pow10 (model_freqs bl fs) (model_percthres raw (model_freqs bl fs)) spect) as (mask & -> & Lm).
  { intros ->. cbn in L. lia. } { rewrite (freqs_length bl _ _ : length (model_freqs bl fs) = bl). exact L. } { apply thresholds_length. }
  cbn [obind]. rewrite (freqs_length bl _ _ : length (model_freqs bl fs) = bl) in Lm. rewrite (model_stops bl H1). pose proof (used_bins bl H1) as U.
  rewrite (all_bands_ok pow10 log10 spect mask (first_band bl) (dwtlevel bl)) by lia.
  cbn [obind]. do 2 eexists. split; [reflexivity|]. rewrite map_length, seq_length. reflexivity.
Qed.
(** The energies of the bands. *)
Theorem model_energies inv_sqrt pow10 log10 raw bl fs correction absolutes r c : 8 <= bl -> bl <= length absolutes ->
  model_SMR inv_sqrt pow10 log10 bl (model_freqs bl fs) (model_percthres raw (model_freqs bl fs)) correction absolutes = Ok (r, c) ->
  exists mask, globalMaskingThreshold pow10 (model_freqs bl fs) (model_percthres raw (model_freqs bl fs)) (fst (magnitudes inv_sqrt log10 bl correction absolutes)) = Ok mask /\ length mask = bl /\
  r = map (band_result pow10 log10 (fst (magnitudes inv_sqrt log10 bl correction absolutes)) mask (first_band bl)) (seq 0 (S (dwtlevel bl))).
Proof.
  intros H1 H2. unfold model_SMR. destruct (magnitudes inv_sqrt log10 bl correction absolutes) as [spect c'] eqn:E. cbn [fst].
  assert (L : length spect = bl). { unfold magnitudes in E. injection E as <- _. rewrite map_length, firstn_length. lia. }
  destruct (threshold_ok pow10 (model_freqs bl fs) (model_percthres raw (model_freqs bl fs)) spect) as (mask & -> & Lm).
  { intros ->. cbn in L. lia. } { rewrite (freqs_length bl _ _ : length (model_freqs bl fs) = bl). exact L. } { apply thresholds_length. }
  cbn [obind]. rewrite (freqs_length bl _ _ : length (model_freqs bl fs) = bl) in Lm. rewrite (model_stops bl H1). pose proof (used_bins bl H1) as U.
  rewrite (all_bands_ok pow10 log10 spect mask (first_band bl) (dwtlevel bl)) by lia.
  cbn [obind]. intros Er. injection Er as <- _. exists mask. auto.
Qed.
Lemma level_power k : 1 <= k -> dwtlevel (4 * 2 ^ k) = k /\ first_band (4 * 2 ^ k) = 4.
Proof.
  intros H. assert (D : dwtlevel (4 * 2 ^ k) = k). { unfold dwtlevel. rewrite Nat2Z.inj_mul, Nat2Z.inj_pow. change (Z.of_nat 4) with 4%Z. change (Z.of_nat 2) with 2%Z. rewrite Z.mul_comm, Z.div_mul by lia. rewrite Z.log2_pow2 by lia. lia. }
  split; [exact D|]. unfold first_band. rewrite D. apply Nat.div_mul. pose proof (pow2_pos k). lia.
Qed.
(** Every bin is in one band. *)
Lemma bin_in_band first j i : In i (band_bins first j) <-> band_start first j <= i < first * 2 ^ j.
Proof. unfold band_bins. rewrite in_seq. pose proof (start_le first j). lia. Qed.
Lemma one_band first k i : i < first * 2 ^ k -> exists j, j <= k /\ In i (band_bins first j) /\ forall j', In i (band_bins first j') -> j' = j.
Proof.
  intros H. assert (U : forall j j', In i (band_bins first j) -> In i (band_bins first j') -> j < j' -> False).
  { intros j j' A B L. apply bin_in_band in A. apply bin_in_band in B. destruct j' as [|j']; [lia|]. cbn [band_start] in B. assert (first * 2 ^ j <= first * 2 ^ j') by (apply Nat.mul_le_mono_l, Nat.pow_le_mono_r; lia). lia. }
  assert (E : exists j, j <= k /\ In i (band_bins first j)).
  { clear U. induction k as [|k IH]; [exists 0; split; [lia|]; apply bin_in_band; cbn [band_start]; lia|]. destruct (Nat.lt_ge_cases i (first * 2 ^ k)) as [L|L]; [destruct (IH L) as (j & J & I); exists j; split; [lia|exact I]|].
    exists (S k). split; [lia|]. apply bin_in_band. cbn [band_start]. lia. }
  destruct E as (j & J & I). exists j. split; [exact J|]. split; [exact I|]. intros j' I'. destruct (Nat.lt_total j j') as [L|[L|L]]; [exfalso; exact (U j j' I I' L)|lia|exfalso; exact (U j' j I' I L)].
Qed.
(** The energies depend on the used bins only. *)
Lemma sum64_ext f g bins : (forall i, In i bins -> f i = g i) -> sum64 f bins = sum64 g bins.
Proof. unfold sum64. generalize f64_0. induction bins as [|i bins IH]; intros e H; [reflexivity|]. cbn [fold_left]. rewrite (H i) by (left; reflexivity). apply IH. intros k Hk. apply H. right. exact Hk. Qed.
Lemma firstn_nth_eq {A} (l l' : list A) n i d : firstn n l = firstn n l' -> i < n -> nth i l d = nth i l' d.
Proof. revert l l' i. induction n as [|n IH]; intros l l' i E H; [lia|]. destruct l as [|a l], l' as [|a' l']; cbn [firstn] in E; try discriminate; [reflexivity|]. injection E as -> E. destruct i as [|i]; [reflexivity|]. cbn [nth]. apply IH; [exact E|lia]. Qed.
Theorem ignored_bins inv_sqrt pow10 log10 raw bl fs correction absolutes absolutes' r c r' c' : 8 <= bl -> bl <= length absolutes -> bl <= length absolutes' ->
  firstn (first_band bl * 2 ^ dwtlevel bl) absolutes = firstn (first_band bl * 2 ^ dwtlevel bl) absolutes' ->
  model_SMR inv_sqrt pow10 log10 bl (model_freqs bl fs) (model_percthres raw (model_freqs bl fs)) correction absolutes = Ok (r, c) ->
  model_SMR inv_sqrt pow10 log10 bl (model_freqs bl fs) (model_percthres raw (model_freqs bl fs)) correction absolutes' = Ok (r', c') ->
  map snd r = map snd r'.
Proof.
  intros H1 H2 H2' Ef E E'. destruct (model_energies _ _ _ _ _ _ _ _ _ _ H1 H2 E) as (m & _ & _ & ->). destruct (model_energies _ _ _ _ _ _ _ _ _ _ H1 H2' E') as (m' & _ & _ & ->).
  rewrite !map_map. apply map_ext_in. intros j Hj. apply in_seq in Hj. unfold band_result. cbn [snd]. apply sum64_ext. intros i Hi. apply bin_in_band in Hi. pose proof (used_bins bl H1) as U.
  assert (B : first_band bl * 2 ^ j <= first_band bl * 2 ^ dwtlevel bl) by (apply Nat.mul_le_mono_l, Nat.pow_le_mono_r; lia).
  f_equal. f_equal. unfold magnitudes. cbn [fst]. set (g := fun a => mul64 (f64_of_Z 20) (log10 (mul64 (use_correction inv_sqrt bl correction) a))).
  rewrite (nth_indep (map g (firstn bl absolutes)) f64_0 (g f64_0)) by (rewrite map_length, firstn_length; lia).
  rewrite (nth_indep (map g (firstn bl absolutes')) f64_0 (g f64_0)) by (rewrite map_length, firstn_length; lia). rewrite !map_nth. f_equal.
  apply (firstn_nth_eq _ _ (first_band bl * 2 ^ dwtlevel bl)); [|lia]. rewrite !firstn_firstn, Nat.min_l by lia. exact Ef.
Qed.

(** *** The threshold *)
Lemma loop_positive x : forall fuel i ps, 1 <= i -> peaks_loop fuel x i = Ok ps -> Forall (fun p => 1 <= fst p) ps.
Proof.
  induction fuel as [|fuel IH]; intros i ps Hi H; [discriminate|]. cbn [peaks_loop] in H. destruct (Nat.ltb_spec i (length x - 1)) as [L|L]; [|injection H as <-; constructor].
  rewrite (at_ok x (i - 1)), (at_ok x i) in H by lia. cbn [obind] in H.
  assert (Emit : forall k l (b : f64), i <= k -> 1 <= l -> (do r <- peaks_loop fuel x (S k); Ok ((l, b) :: r)) = Ok ps -> Forall (fun p => 1 <= fst p) ps).
  { intros k l b Hk Hl E. destruct (peaks_loop fuel x (S k)) as [r| | |] eqn:Er; try discriminate. cbn [obind] in E. injection E as <-. constructor; [exact Hl|]. apply (IH (S k)); [lia|exact Er]. }
  assert (Next : peaks_loop fuel x (S i) = Ok ps -> Forall (fun p => 1 <= fst p) ps) by (apply IH; lia).
  destruct (flt _ _); [|exact (Next H)]. rewrite (at_ok x (i + 1)) in H by lia. cbn [obind] in H.
  destruct (flt _ _); [exact (Emit i i _ ltac:(lia) Hi H)|]. destruct (feq _ _); [|exact (Next H)]. cbv zeta in H.
  set (ip := plateau_end _ _ _) in H. pose proof (plateau_bounds (skipn (i + 1) x) (nth i x f64_0) (i + 1)) as B. fold ip in B.
  assert (P : 1 <= plateau_peak (length x) i ip). { unfold plateau_peak. cbv zeta. assert (1 <= (i + ip) / 2) by (apply Nat.div_le_lower_bound; lia). destruct (length x <=? (i + ip) / 2); lia. }
  destruct (Nat.leb_spec (length x - 1) ip); [exact (Emit ip _ _ ltac:(lia) P H)|].
  rewrite (at_ok x (ip + 1)) in H by lia. cbn [obind] in H. destruct (flt _ _); [exact (Emit ip _ _ ltac:(lia) P H)|exact (Next H)].
Qed.
Lemma peaks_positive x mp mh ps : findPeaks x mp mh = Ok ps -> Forall (fun p => 1 <= fst p) ps.
Proof.
  unfold findPeaks. destruct x as [|v x']; [intros H; injection H as <-; constructor|]. set (x := v :: x'). destruct (peaks_ok x (length x) 1) as (all & E & F); [lia|lia|cbn; lia|]. unfold findAllPeakLocations. rewrite E. cbn [obind].
  pose proof (loop_positive x _ _ _ (le_n 1) E) as P. set (high := filterPeakCriterion all mh). assert (Fh : Forall (fun p => (fst p < length x)%nat) high) by (apply filter_forall, F). assert (Ph : Forall (fun p => 1 <= fst p) high) by (apply filter_forall, P).
  destruct (prominences_ok x high [] Fh) as (qs & -> & Eq). cbn [obind].
  assert (Fq : Forall (fun p => (fst p < length x)%nat) (filterPeakCriterion qs mp)) by (apply filter_forall, (by_fst (fun i => (i < length x)%nat) _ _ Eq Fh)).
  rewrite (heights_ok x _ Fq). intros H. injection H as <-. apply Forall_map. cbn [fst]. apply filter_forall, (by_fst (fun i => 1 <= i) _ _ Eq Ph).
Qed.
Local Open Scope R_scope.
Lemma fold_max l : forall m, is_finite m = true -> Forall (fun v : f64 => is_finite v = true) l ->
  let t := fold_left (fun m y => if flt m y then y else m) l m in is_finite t = true /\ In t (m :: l) /\ forall v, In v (m :: l) -> B2R v <= B2R t.
Proof.
  induction l as [|y l IH]; intros m Fm F; cbn [fold_left].
  - split; [exact Fm|]. split; [left; reflexivity|]. intros v [<-|[]]. lra.
  - destruct (flt m y) eqn:C.
    + apply flt_R in C; [|exact Fm|exact (Forall_inv F)]. destruct (IH y (Forall_inv F) (Forall_inv_tail F)) as (A & B & D). split; [exact A|]. split; [right; exact B|]. intros v [<-|Hv]; [specialize (D y (or_introl eq_refl)); lra|apply D, Hv].
    + assert (C' : B2R y <= B2R m). { destruct (Rle_lt_dec (B2R y) (B2R m)) as [G|G]; [exact G|]. apply flt_R in G; [congruence|exact Fm|exact (Forall_inv F)]. }
      destruct (IH m Fm (Forall_inv_tail F)) as (A & B & D). split; [exact A|]. split; [destruct B as [B|B]; [left; exact B|right; right; exact B]|].
      intros v [<-|[<-|Hv]]; [apply D; left; reflexivity|specialize (D m (or_introl eq_refl)); lra|apply D; right; exact Hv].
Qed.
Theorem threshold_exact pow10 bl fs percthres spect : (1 <= bl)%nat -> (Z.of_nat bl <= 65536)%Z -> (1 <= fs < 2 ^ 31)%Z -> numbers spect -> length spect = bl -> length percthres = bl ->
  exists top ps t, highest spect top /\ findPeaks spect (f64_of_Z 12) (sub64 top (f64_of_Z 45)) = Ok ps /\
  globalMaskingThreshold pow10 (model_freqs bl fs) percthres spect = Ok t /\ length t = bl /\
  (ps = [] -> t = percthres) /\
  (ps <> [] -> forall k, (k < bl)%nat -> let freq i := B2R (nth i (model_freqs bl fs) f64_0) in
    exists m : f64, nth k t f64_0 = add64 (pow10 (div64 m f64_10)) (nth k percthres f64_0) /\ is_finite m = true /\
      (exists p, In p ps /\ mask_near (freq (fst p)) (B2R (snd p)) (freq k) (B2R m)) /\
      forall p, In p ps -> exists m', mask_near (freq (fst p)) (B2R (snd p)) (freq k) m' /\ m' <= B2R m).
Proof.
  intros H1 H2 H3 Hn L1 L2. assert (Fn : Forall (fun v : f64 => is_finite v = true) spect) by (eapply Forall_impl; [|exact Hn]; cbn; tauto).
  destruct spect as [|v spect'] eqn:Es; [cbn in L1; lia|]. destruct (fold_max spect' v (Forall_inv Fn) (Forall_inv_tail Fn)) as (T1 & T2 & T3).
  unfold globalMaskingThreshold. cbn [findMaxVector obind]. set (top := fold_left _ _ _) in *. rewrite <- Es in *.
  change MIN_PEAK_PROMINENCE with (f64_of_Z 12). change MIN_PEAK_HEIGHT_DIFF with (f64_of_Z 45).
  destruct (peaks_found spect (f64_of_Z 12) (sub64 top (f64_of_Z 45))) as (ps & E & F). rewrite E. cbn [obind]. pose proof (peaks_positive _ _ _ _ E) as P.
  assert (L : length (model_freqs bl fs) = bl) by apply freqs_length.
  destruct (peakMask_ok (model_freqs bl fs) ps) as (r & Er & C). { eapply Forall_impl; [|exact F]. cbn. intros p [Q _]. lia. } rewrite Er. cbn [obind].
  exists top, ps. destruct C as [[-> ->]|[N C]].
  { exists percthres. split; [split; [exact T2|exact T3]|]. split; [exact E|]. split; [reflexivity|]. split; [exact L2|]. split; [reflexivity|]. intros Z. contradiction Z. reflexivity. }
  destruct r as [|m0 r0] eqn:Em; [cbn in C; lia|]. rewrite <- Em in *. destruct (Nat.ltb_spec (length r) (length percthres)) as [G|G]; [lia|].
  eexists. split; [split; [exact T2|exact T3]|]. split; [exact E|]. split; [reflexivity|]. split; [rewrite map_length, combine_length; lia|]. split; [intros Z; contradiction (N Z)|]. intros _ k Hk.
  destruct (mask_exact bl fs ps H1 H2 H3 N) as (mask & Em' & Lm & K).
  { apply Forall_forall. intros p Hp. rewrite Forall_forall in F, P. destruct (F p Hp) as [Q1 Q2]. specialize (P p Hp). split; [lia|]. rewrite Q2. unfold numbers in Hn. rewrite Forall_forall in Hn. apply Hn, nth_In. exact Q1. }
  rewrite Er in Em'. injection Em' as <-. destruct (K k Hk) as (K1 & K2 & K3). exists (nth k r f64_0). split; [|auto].
  set (h := fun '(m, t) => add64 (pow10 (div64 m f64_10)) t). rewrite (nth_indep (map h (combine r percthres)) f64_0 (h (f64_0, f64_0))) by (rewrite map_length, combine_length; lia). rewrite map_nth, combine_nth by lia. reflexivity.
Qed.

(** *** Plateaus *)
Local Open Scope R_scope.
Lemma compare_self (v : f64) : is_finite v = true -> flt v v = false /\ feq v v = true /\ fle v v = true.
Proof. intros F. unfold flt, feq, fle. rewrite Bcompare_correct by assumption. rewrite Rcompare_Eq by reflexivity. auto. Qed.
Lemma compare_less (a b : f64) : is_finite a = true -> is_finite b = true -> B2R a < B2R b -> flt a b = true /\ flt b a = false /\ feq a b = false /\ feq b a = false /\ fle a b = true /\ fle b a = false.
Proof. intros F G H. unfold flt, feq, fle. rewrite !Bcompare_correct by assumption. rewrite Rcompare_Lt by exact H. rewrite Rcompare_Gt by exact H. auto 10. Qed.
Theorem plateau_wrong a b c mp mh : numbers [a; b; c] -> is_finite mp = true -> is_finite mh = true -> B2R a < B2R b -> B2R b < B2R c ->
  B2R mh <= B2R b -> B2R mp <= rnd64 (B2R b - B2R a) -> findPeaks [a; b; b; c; a] mp mh = Ok [(2%nat, b)].
Proof.
  intros N Fmp Fmh H1 H2 Hh Hp. destruct (Forall_inv N) as [Fa Sa]. apply Forall_inv_tail in N. destruct (Forall_inv N) as [Fb Sb]. apply Forall_inv_tail in N. destruct (Forall_inv N) as [Fc Sc]. clear N.
  destruct (compare_self b Fb) as (b1 & b2 & b3). destruct (compare_less a b Fa Fb H1) as (ab1 & ab2 & ab3 & ab4 & ab5 & ab6). destruct (compare_less b c Fb Fc H2) as (bc1 & bc2 & bc3 & bc4 & bc5 & bc6). destruct (compare_self a Fa) as (a1 & a2 & a3).
  assert (M : fle mh b = true) by (rewrite (fle_R mh b Fmh Fb); apply Rle_bool_true, Hh).
  apply Raux.Rabs_le_inv in Sa, Sb. destruct (sub64_ok b a Fb Fa) as [D FD]; [apply bound1000; lra|].
  assert (P : fle mp (sub64 b a) = true) by (rewrite (fle_R mp _ Fmp FD), D; apply Rle_bool_true, Hp).
  assert (X : max_ a a = a) by (unfold max_; rewrite a1; reflexivity).
  assert (All : findAllPeakLocations [a; b; b; c; a] = Ok [(2%nat, b)]). 
  { set (x := [a; b; b; c; a]).
    assert (E0 : at_ x 0 = Ok a) by reflexivity. assert (E1 : at_ x 1 = Ok b) by reflexivity. assert (E2 : at_ x 2 = Ok b) by reflexivity. assert (E4 : at_ x 4 = Ok a) by reflexivity.
    assert (P1 : plateau_end (skipn 2 x) b 2 = 3%nat) by (unfold x; cbn [skipn plateau_end]; rewrite b2, bc4; reflexivity). assert (Lx : length x = 5%nat) by reflexivity.
    assert (Step : forall f, peaks_loop (S f) x 1 = (do r <- peaks_loop f x 4; Ok ((2%nat, b) :: r))).
    { intros f. clearbody x. cbn [peaks_loop]. rewrite Lx. cbn [Nat.sub Nat.add Nat.ltb Nat.leb]. rewrite E0, E1. cbn [obind]. rewrite ab1, E2. cbn [obind]. rewrite b1, b2. cbv zeta. rewrite P1. cbn [Nat.leb Nat.add]. rewrite E4. cbn [obind]. rewrite ab1. reflexivity. }
    assert (End : forall f, peaks_loop (S f) x 4 = Ok []) by (intros f; cbn [peaks_loop]; rewrite Lx; reflexivity).
    unfold findAllPeakLocations. rewrite Lx, Step, End. reflexivity. }
  unfold findPeaks. rewrite All. cbn [obind filterPeakCriterion filter snd]. rewrite M.
  assert (Pr : peakProminence [a; b; b; c; a] [] [(2%nat, b)] = Ok [(2%nat, sub64 b a)]).
  { set (x := [a; b; b; c; a]). assert (E : peakProminence x [] [(2%nat, b)] = (do h <- prominence x [] [] (2%nat, b); Ok [(2%nat, h)])) by reflexivity. rewrite E. clear E.
    assert (L : scan x (rev (seq 0 2)) b 0 = Ok 0%nat) by (unfold x; cbn [rev seq app scan at_ nth_error obind]; rewrite b3, ab5; reflexivity).
    assert (R : scan x (seq 3 2) b 0 = Ok 4%nat) by (unfold x; cbn [seq scan at_ nth_error obind]; rewrite bc6, ab5; reflexivity).
    assert (E : prominence x [] [] (2%nat, b) = (do left <- scan x (rev (seq 0 2)) b 0; do right <- scan x (seq 3 2) b 0; do l <- at_ x left; do r <- at_ x right; Ok (sub64 b (max_ l r)))) by reflexivity.
    rewrite E, L, R. cbn [obind]. replace (at_ x 0) with (Ok a) by reflexivity. replace (at_ x 4) with (Ok a) by reflexivity. cbn [obind]. rewrite X. reflexivity. }
  rewrite Pr. cbn [obind filterPeakCriterion filter snd]. rewrite P. reflexivity.
Qed.
Lemma true_peak a b c : B2R a < B2R b -> B2R b < B2R c -> local_max [a; b; b; c; a] 3 /\ has_prominence [a; b; b; c; a] 3 (B2R c - B2R a).
Proof.
  intros H1 H2. assert (All : forall j, (j < 5)%nat -> B2R a <= val [a; b; b; c; a] j <= B2R c) by (intros j Hj; do 5 (destruct j as [|j]; [unfold val; cbn [nth]; lra|]); lia).
  split; [split; [lia|]; split; [cbn; lia|]; unfold val; cbn [nth Nat.sub]; lra|]. exists 0%nat, 4%nat, (B2R a), (B2R a).
  split; [split; [lia|]; split; [intros j Hj; apply All; lia|left; reflexivity]|].
  split; [split; [cbn; lia|]; split; [intros j Hj; apply All; lia|left; reflexivity]|].
  split; [split; [exists 0%nat; split; [lia|reflexivity]|intros j Hj; apply All; lia]|].
  split; [split; [exists 4%nat; split; [lia|reflexivity]|intros j Hj; apply All; lia]|].
  rewrite Rmax_left by lra. reflexivity.
Qed.
