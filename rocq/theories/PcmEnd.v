(** From the encoder of audio files to the played signal. *)
From Coq Require Import Reals Psatz.
From Flocq Require Import Core.Core.
From Verif Require Import Base FloatBase FloatModel FloatSpec FloatProof Float64Proof TypesModel MetaModel ToolsModel ToolsFloatProof SynthModel SynthSpec SynthProof SynthIndex SpihtModel WaveletModel WaveletSpec WaveletLength WaveletEnd CurveModel PcmModel PcmSpec PcmPlay PcmBand.
Local Open Scope R_scope.

Theorem blocks_played fsin fpow akima bezier bspline fuel b k L fs n : decoded_blocks k L fs b ->
  (0 <= n <= Z.of_nat (length (b_effects b)) * 2 ^ Z.of_nat k)%Z -> (Z.of_nat (length (b_effects b)) * 2 ^ Z.of_nat k <= 2 ^ 31 - 2)%Z -> (Z.of_nat (length (b_effects b)) * Z.of_nat L < 2 ^ 31)%Z ->
  exists out, EvaluationBand fsin fpow akima bezier bspline fuel b n (Z.of_nat fs) 0 1000 = Ok out /\ Z.of_nat (length out) = n /\
    forall ti, (Z.of_nat ti < n)%Z -> exists j, (j = ti \/ S j = ti) /\ is_finite (nth ti out f64_0) = true /\ B2R (nth ti out f64_0) = B2R (nth j (all_samples b) f64_0).
Proof.
  intros (T & U & Hf & HL & He) Hn H1 H2. assert (E : (Z.of_nat (2 ^ k) = 2 ^ Z.of_nat k)%Z) by (rewrite Nat2Z.inj_pow; reflexivity). rewrite <- E in Hn, H1.
  apply (band_evaluates fsin fpow akima bezier bspline fuel b T k L fs HL U Hf He H1 H2 n Hn).
Qed.

(** *** Limits *)
Lemma clipped_id x : -1 <= x <= 1 -> clipped x = x.
Proof. intros H. unfold clipped. rewrite Rmin_right by lra. rewrite Rmax_right by lra. reflexivity. Qed.
Lemma clipped_close x y d : Rabs (x - y) <= d -> Rabs (clipped x - clipped y) <= d.
Proof.
  intros H. apply Raux.Rabs_le_inv in H. assert (0 <= d) by lra. unfold clipped, Rmax, Rmin. apply Rabs_le.
  repeat destruct (Rle_dec _ _); lra.
Qed.
Lemma limit_R v : is_finite v = true -> is_finite (limit v) = true /\ B2R (limit v) = clipped (B2R v).
Proof.
  intros F. unfold limit, clipped. destruct (Rlt_or_le (B2R v) (-1)) as [A|A].
  - rewrite (flt_true v SynthModel.f64_m1 F eq_refl) by (rewrite f64_m1_R; exact A). split; [reflexivity|]. rewrite f64_m1_R, Rmin_right by lra. rewrite Rmax_left by lra. reflexivity.
  - rewrite (flt_false v SynthModel.f64_m1 F eq_refl) by (rewrite f64_m1_R; exact A). destruct (Rlt_or_le 1 (B2R v)) as [B|B].
    + rewrite (flt_true f64_1 v eq_refl F) by (rewrite f64_1_R; exact B). split; [reflexivity|]. rewrite f64_1_R, Rmin_left by lra. rewrite Rmax_right by lra. reflexivity.
    + rewrite (flt_false f64_1 v eq_refl F) by (rewrite f64_1_R; exact B). split; [exact F|]. rewrite Rmin_right by lra. rewrite Rmax_right by lra. reflexivity.
Qed.

(** *** Differences *)
Lemma minus_nth : forall a b r, minus a b = Ok r -> length r = length a /\ forall i, (i < length a)%nat -> nth i r f64_0 = sub64 (nth i a f64_0) (nth i b f64_0).
Proof.
  induction a as [|x a IH]; intros b r H; [injection H as <-; split; [reflexivity|cbn; lia]|]. destruct b as [|y b]; [discriminate|].
  cbn [minus] in H. destruct (minus a b) as [r'| | |] eqn:E; try discriminate. injection H as <-. destruct (IH b r' E) as [A B].
  split; [cbn; lia|]. intros [|i] Hi; [reflexivity|]. cbn [nth]. apply B. cbn in Hi. lia.
Qed.
Lemma minus_ok : forall a b, length b = length a -> exists r, minus a b = Ok r.
Proof.
  induction a as [|x a IH]; intros b H; [eexists; reflexivity|]. destruct b as [|y b]; [discriminate|]. destruct (IH b) as [r E]; [cbn in H; lia|].
  cbn [minus]. rewrite E. eexists. reflexivity.
Qed.

(** *** Through coder and decoder *)
Lemma Forall2_nth {A} (P : A -> A -> Prop) d : forall x y i, Forall2 P x y -> (i < length x)%nat -> P (nth i x d) (nth i y d).
Proof.
  induction x as [|a x IH]; intros y i H Hi; [cbn in Hi; lia|]. inversion H as [|? b ? y' H1 H2]; subst. destruct i as [|i]; [exact H1|]. cbn [nth]. apply IH; [exact H2|cbn in Hi; lia].
Qed.
Lemma Forall2_len {A B} (P : A -> B -> Prop) x y : Forall2 P x y -> length x = length y.
Proof. induction 1; cbn; lia. Qed.
Theorem coded_played fsin fpow akima bezier bspline fuel log10 pow2 getSMR mds k fs sig M budget f_cutoff :
  (3 <= k <= 21)%nat -> (0 < fs)%nat -> ((1000 * 2 ^ k) mod fs = 0)%nat -> 1 <= M <= 512 -> samples_within M sig ->
  (forall i, (i * 2 ^ k < length sig)%nat -> block_usable log10 pow2 getSMR (2 ^ k) (block_at (2 ^ k) sig i) budget) ->
  (1000 * (Z.of_nat (length sig) + 2 ^ Z.of_nat k) < 2 ^ 31 * Z.of_nat fs)%Z -> (Z.of_nat (length sig) + 2 ^ Z.of_nat k < 2 ^ 31)%Z ->
  exists band w out, encodeSignal log10 pow2 getSMR mds (2 ^ k) fs sig budget f_cutoff 1000 = Ok band /\ transformBand band 1000 = Ok w /\ b_type w = WaveletB /\
    EvaluationBand fsin fpow akima bezier bspline fuel w (vec_size sig) (Z.of_nat fs) 0 1000 = Ok out /\ length out = length sig /\
    forall ti, (ti < length sig)%nat -> exists j d, (j = ti \/ S j = ti) /\ block_bound k M budget (block_at (2 ^ k) sig (j / 2 ^ k)) d /\
      within d (nth j sig f64_0) (nth ti out f64_0).
Proof.
  intros Hk Hf Hm HM Hs Us H1 H2.
  destruct (signal_round log10 pow2 getSMR mds k fs sig M budget f_cutoff Hk Hf Hm HM Hs Us H1) as (band & w & E1 & E2 & Tw & _ & Uw & Lw & Hw).
  set (P := (2 ^ k)%nat) in *. assert (P1 : (1 <= P)%nat) by (unfold P; assert (2 ^ k <> 0)%nat by (apply Nat.pow_nonzero; lia); lia).
  assert (ZP : (Z.of_nat P = 2 ^ Z.of_nat k)%Z) by (unfold P; rewrite Nat2Z.inj_pow; reflexivity). rewrite <- ZP in H1, H2.
  assert (ZP2 : (Z.of_nat P <= 2 ^ 21)%Z) by (rewrite ZP; apply Z.pow_le_mono_r; lia). change (2 ^ 21)%Z with 2097152%Z in ZP2.
  set (L := (1000 * P / fs)%nat).
  assert (HL : (L * fs = 1000 * P)%nat) by (unfold L; rewrite Nat.mul_comm; symmetry; apply Nat.div_exact; lia).
  assert (S31 : (2 ^ 31 = 2147483648)%Z) by reflexivity. rewrite S31 in *.
  set (N := length (b_effects w)) in *.
  assert (HN : (length sig <= N * P <= length sig + P - 1)%nat).
  { rewrite Lw. pose proof (Nat.div_mod (length sig + P - 1) P ltac:(lia)). pose proof (Nat.mod_upper_bound (length sig + P - 1) P ltac:(lia)). nia. }
  assert (D : decoded_blocks k L fs w).
  { split; [exact Tw|]. split; [exact Uw|]. split; [rewrite S31; assert (1 <= L)%nat by nia; nia|]. split; [exact HL|].
    intros i e Ne. destruct (Hw i e Ne) as (Ep & _ & c & W & Q & bits & _ & _ & _ & _ & _ & _ & F2). fold P. split; [|split].
    - assert (Z.of_nat L * Z.of_nat fs = 1000 * Z.of_nat P)%Z by lia. rewrite <- ZP in Ep. nia.
    - rewrite <- (Forall2_len _ _ _ F2). unfold block_at. rewrite map_length, seq_length. reflexivity.
    - clear -F2. induction F2 as [|a b l l' [F _] _ IH]; constructor; assumption. }
  assert (NL : (Z.of_nat N * Z.of_nat L < 2147483648)%Z).
  { apply (Z.mul_lt_mono_pos_r (Z.of_nat fs)); [lia|]. assert (Z.of_nat L * Z.of_nat fs = 1000 * Z.of_nat P)%Z by lia. nia. }
  destruct (blocks_played fsin fpow akima bezier bspline fuel w k L fs (vec_size sig) D) as (out & Eo & Lo & Ho).
  - fold N. rewrite <- ZP. unfold vec_size. lia.
  - fold N. rewrite <- ZP, S31. lia.
  - fold N. rewrite S31. exact NL.
  - exists band, w, out. split; [exact E1|]. split; [exact E2|]. split; [exact Tw|]. split; [exact Eo|]. split; [unfold vec_size in Lo; lia|].
    intros ti Hti. destruct (Ho ti) as (j & Hj & Fv & Rv); [unfold vec_size; lia|].
    assert (Lj : (j < length sig)%nat) by lia.
    pose proof (Nat.div_mod j P ltac:(lia)) as Dj. pose proof (Nat.mod_upper_bound j P ltac:(lia)) as Mj. set (i := (j / P)%nat) in *. set (r := (j mod P)%nat) in *.
    destruct (nth_error (b_effects w) i) as [e|] eqn:Ne; [|apply nth_error_None in Ne; fold N in Ne; nia].
    destruct (Hw i e Ne) as (_ & _ & c & W & Q & bits & A1 & A2 & A3 & A4 & A5 & A6 & F2).
    exists j, (block_error Q W M P bits). split; [exact Hj|]. split; [exists c, W, Q, bits; auto 10|].
    split; [exact Fv|]. rewrite Rv.
    assert (Es : nth j (all_samples w) f64_0 = nth r (e_samples e) f64_0).
    { rewrite Dj at 1. rewrite (Nat.mul_comm P i). apply concat_nth; [|exact Ne|exact Mj]. apply Forall_forall. intros e' He. apply In_nth_error in He. destruct He as [m Hm'].
      destruct D as (_ & _ & _ & _ & D). apply (D m e' Hm'). }
    rewrite Es. pose proof (Forall2_nth _ f64_0 _ _ r F2) as [_ G]; [unfold block_at; rewrite map_length, seq_length; exact Mj|].
    assert (Eb : nth r (block_at P sig i) f64_0 = nth j sig f64_0).
    { unfold block_at. rewrite (nth_indep _ f64_0 ((fun j => nth (i * P + j) sig f64_0) 0%nat)) by (rewrite map_length, seq_length; exact Mj).
      rewrite (map_nth (fun j => nth (i * P + j) sig f64_0)). rewrite seq_nth by exact Mj. f_equal. lia. }
    rewrite Eb in G. exact G.
Qed.

(** *** Sums *)
Lemma add_limited a b : is_finite a = true -> is_finite b = true -> Rabs (B2R a) <= 1 -> Rabs (B2R b) <= 1000000000000 ->
  is_finite (limit (add64 a b)) = true /\ Rabs (B2R (limit (add64 a b)) - clipped (B2R a + B2R b)) <= / 4503599627370496.
Proof.
  intros Fa Fb Ha Hb. assert (Hs : Rabs (B2R a + B2R b) <= 1000000000001) by (eapply Rle_trans; [apply Rabs_triang|lra]).
  destruct (add64_ok a b Fa Fb) as [E F]; [apply SpihtHeader.bound1000; apply Raux.Rabs_le_inv in Hs; lra|]. destruct (limit_R _ F) as [Fl El]. split; [exact Fl|]. rewrite El, E.
  set (s := B2R a + B2R b) in *. pose proof tiny_small. assert (O : rnd64 1 = 1) by (apply rnd64_id, (fmt64_Z 1); cbn; lia). assert (N : rnd64 (-1) = -1) by (apply rnd64_id, (fmt64_Z (-1)); cbn; lia).
  destruct (Rle_or_lt 1 s) as [G|G].
  { assert (1 <= rnd64 s) by (rewrite <- O; apply rnd64_le; exact G). unfold clipped. rewrite !Rmin_left by lra. rewrite Rminus_diag_eq by reflexivity. rewrite Rabs_R0. lra. }
  destruct (Rle_or_lt s (-1)) as [G'|G'].
  { assert (rnd64 s <= -1) by (rewrite <- N; apply rnd64_le; exact G'). unfold clipped. rewrite !Rmin_right by lra. rewrite !Rmax_left by lra. rewrite Rminus_diag_eq by reflexivity. rewrite Rabs_R0. lra. }
  apply clipped_close. eapply Rle_trans; [apply err64|]. assert (Rabs s <= 1) by (apply Rabs_le; lra). lra.
Qed.
Lemma sub_close a b : is_finite a = true -> is_finite b = true -> Rabs (B2R a) <= 1 -> Rabs (B2R b) <= 1 ->
  is_finite (sub64 a b) = true /\ Rabs (B2R (sub64 a b) - (B2R a - B2R b)) <= / 2251799813685248 /\ Rabs (B2R (sub64 a b)) <= 2.
Proof.
  intros Fa Fb Ha Hb. assert (Hs : Rabs (B2R a - B2R b) <= 2) by (apply Rabs_le; apply Raux.Rabs_le_inv in Ha, Hb; lra).
  destruct (sub64_ok a b Fa Fb) as [E F]; [apply SpihtHeader.bound1000; apply Raux.Rabs_le_inv in Hs; lra|]. split; [exact F|]. rewrite E. split.
  - eapply Rle_trans; [apply err64|]. pose proof tiny_small. lra.
  - apply Raux.Rabs_le_inv in Hs. assert (O : rnd64 2 = 2) by (apply rnd64_id, (fmt64_Z 2); cbn; lia). assert (N : rnd64 (-2) = -2) by (apply rnd64_id, (fmt64_Z (-2)); cbn; lia).
    assert (rnd64 (-2) <= rnd64 (B2R a - B2R b)) by (apply rnd64_le; lra). assert (rnd64 (B2R a - B2R b) <= rnd64 2) by (apply rnd64_le; lra). apply Rabs_le. lra.
Qed.

Lemma steps_le Q bits : 0 <= Q -> Forall (fun b => 0 <= b <= 15)%Z bits -> steps Q bits <= INR (length bits) * Q.
Proof.
  intros HQ H. induction H as [|b l Hb _ IH]; [cbn; lra|]. cbn [steps length]. rewrite S_INR. unfold step.
  assert (1 <= IZR (2 ^ b)) by (apply IZR_le; apply (Z.pow_le_mono_r 2 0 b); lia).
  assert (Q / IZR (2 ^ b) <= Q); [|lra]. apply Rmult_le_reg_r with (IZR (2 ^ b)); [lra|]. unfold Rdiv. rewrite Rmult_assoc, Rinv_l by lra. nra.
Qed.
Lemma bound_small k M budget x d : (3 <= k <= 21)%nat -> 1 <= M <= 512 -> length x = (2 ^ k)%nat -> samples_within M x -> block_bound k M budget x d -> 0 <= d <= 999999999000.
Proof.
  intros Hk HM Lx Sx (c & W & Q & bits & Ec & Lg & Sc & Lb & Fb & _ & ->).
  destruct (WaveletBlocks.transform_ok k x M ltac:(lia) Lx HM Sx) as (c' & Q' & W' & Ec' & _ & Bc & _). assert (c' = c) as -> by congruence.
  destruct Lg as [_ Ex]. apply Exists_exists in Ex. destruct Ex as (r & Hr & ER). apply in_map_iff in Hr. destruct Hr as (v & <- & Hv).
  unfold WaveletInverse.all_bounded in Bc. rewrite Forall_forall in Bc. destruct (Bc v Hv) as [_ Bv]. assert (HW : 0 <= W <= 1000000000) by (split; [rewrite <- ER; apply Rabs_pos|lra]).
  destruct Sc as [(j & Hj & HQ) _].
  assert (IZR 0 <= IZR j <= IZR 127) by (split; apply IZR_le; lia).
  assert (0 <= Q <= 17) by (destruct HQ as [->| ->]; lra).
  pose proof (steps_le Q bits ltac:(lra) Fb) as St.
  assert (Sp : 0 <= steps Q bits).
  { clear -H0. induction bits as [|b l IH]; [cbn; lra|]. cbn [steps]. unfold step. assert (0 <= Q / IZR (2 ^ b)); [|lra]. apply Rmult_le_pos; [lra|].
    destruct (Z_lt_le_dec b 0) as [G|G]; [rewrite Z.pow_neg_r by lia; rewrite Rinv_0; lra|]. apply Rlt_le, Rinv_0_lt_compat, IZR_lt. apply Z.pow_pos_nonneg; lia. }
  assert (Ln : 0 <= INR (length bits) <= 20) by (rewrite Lb; rewrite INR_IZR_INZ; split; apply IZR_le; lia).
  assert (Mx : 0 <= Rmax 0 (W - Q) <= 1000000000) by (unfold Rmax; destruct (Rle_dec 0 (W - Q)); lra).
  assert (Pw : 0 <= INR (2 ^ k) <= 2097152).
  { rewrite INR_IZR_INZ. rewrite Nat2Z.inj_pow. split; apply IZR_le; [apply Z.pow_nonneg; lia|]. change 2097152%Z with (2 ^ 21)%Z. apply Z.pow_le_mono_r; lia. }
  unfold block_error. assert (0 <= INR (length bits) * Rmax 0 (W - Q) <= 20 * 1000000000) by (split; [apply Rmult_le_pos; lra|apply Rmult_le_compat; lra]).
  assert (INR (length bits) * Q <= 20 * 17) by (apply Rmult_le_compat; lra).
  assert (0 <= M * INR (2 ^ k) <= 512 * 2097152) by (split; [apply Rmult_le_pos; lra|apply Rmult_le_compat; lra]).
  split; lra.
Qed.

(** *** Channels *)
Lemma add_bands_one l m : length l = length m -> forall i, (i < length l)%nat -> nth i (add_band l m) f64_0 = limit (add64 (nth i l f64_0) (nth i m f64_0)).
Proof.
  revert m. induction l as [|x l IH]; intros m H i Hi; [cbn in Hi; lia|]. destruct m as [|y m]; [discriminate|]. destruct i as [|i]; [reflexivity|].
  cbn [add_band nth]. apply IH; [cbn in H; lia|cbn in Hi; lia].
Qed.
Lemma nth_zeros n i : nth i (repeat f64_0 n) f64_0 = f64_0.
Proof. revert i. induction n as [|n IH]; intros [|i]; try reflexivity. apply IH. Qed.
Lemma rate_nat k : Z.to_nat (Z.of_nat (2 ^ k)) = (2 ^ k)%nat.
Proof. apply Nat2Z.id. Qed.
Lemma block_length bl (sig : list f64) i : length (block_at bl sig i) = bl.
Proof. unfold block_at. rewrite map_length, seq_length. reflexivity. Qed.

Section Play.
Variable fsin : f64 -> f64.
Variable fpow : f64 -> f64 -> f64.
Variables akima bezier bspline : list point -> outcome (list f64).
Variables log10 pow2 : f64 -> f64.
Variable getSMR : list f64 -> nat -> f64 * f64.
Variable LP : f64 -> list f64 -> f64 -> list f64.
Variable mds : nat -> list Z * list Z.
Let channel_of := pcm_channel fsin fpow akima bezier bspline log10 pow2 getSMR LP mds.
Let play fuel := EvaluateChannel fsin fpow akima bezier bspline fuel.

Theorem wavelet_channel fuel k fs budget v modality signal c :
  (3 <= k <= 21)%nat -> (0 < fs)%nat -> ((1000 * 2 ^ k) mod fs = 0)%nat -> samples_within 1 signal ->
  (forall i, (i * 2 ^ k < length signal)%nat -> block_usable log10 pow2 getSMR (2 ^ k) (block_at (2 ^ k) signal i) budget) ->
  (1000 * (Z.of_nat (length signal) + 2 ^ Z.of_nat k) < 2 ^ 31 * Z.of_nat fs)%Z -> (Z.of_nat (length signal) + 2 ^ Z.of_nat k < 2 ^ 31)%Z ->
  exists c' b w out, channel_of (Config f64_0 (Z.of_nat (2 ^ k)) budget true v) (Z.of_nat fs) 1000 modality signal c = Ok c' /\
    c_bands c' = c_bands c ++ [b] /\ c_freq c' = Some (Z.of_nat fs) /\ c_count c' = Some (vec_size signal) /\
    transformBand b 1000 = Ok w /\ play fuel (set_bands [w] c') (vec_size signal) (Z.of_nat fs) 0 1000 = Ok out /\ length out = length signal /\
    forall ti, (ti < length signal)%nat -> exists j d, (j = ti \/ S j = ti) /\ block_bound k 1 budget (block_at (2 ^ k) signal (j / 2 ^ k)) d /\
      within (d + / 4503599627370496) (nth j signal f64_0) (nth ti out f64_0).
Proof.
  intros Hk Hf Hm Hs Us H1 H2.
  destruct (coded_played fsin fpow akima bezier bspline fuel log10 pow2 getSMR mds k fs signal 1 budget 0 Hk Hf Hm ltac:(lra) Hs Us H1 H2) as (b & w & out & E1 & E2 & Tw & Eo & Lo & Ho).
  assert (Cast : cast u32 (vec_size signal) = vec_size signal).
  { apply SynthProof.cast_u32. unfold vec_size. change (2 ^ 32)%Z with 4294967296%Z. change (2 ^ 31)%Z with 2147483648%Z in H2. pose proof (Z.pow_nonneg 2 (Z.of_nat k) ltac:(lia)). lia. }
  exists (addBand b (set_sampling (Z.of_nat fs) (vec_size signal) c)), b, w, (add_band (repeat f64_0 (length signal)) out).
  split.
  { unfold channel_of, pcm_channel, pcm_curve, pcm_residual. cbn [curveFrequencyLimit wavelet_enabled vectorial_enabled wavelet_blockLength wavelet_bitbudget].
    replace (flt f64_0 f64_0) with false by reflexivity. cbn [obind negb orb]. rewrite Bool.andb_false_r. cbn [obind].
    replace (int_of_float i32 f64_0) with (@Ok Z 0%Z) by reflexivity. cbn [obind]. rewrite !Nat2Z.id, E1, Cast. reflexivity. }
  split; [reflexivity|]. split; [reflexivity|]. split; [reflexivity|]. split; [exact E2|]. split.
  { unfold play, EvaluateChannel. cbn [c_bands set_bands]. cbn [add_bands]. rewrite Eo. cbn [obind]. unfold vec_size. rewrite Nat2Z.id. reflexivity. }
  split; [rewrite add_band_length, repeat_length; reflexivity|].
  intros ti Hti. destruct (Ho ti Hti) as (j & d & Hj & Hb & Fw & Cw). exists j, d. split; [exact Hj|]. split; [exact Hb|].
  rewrite add_bands_one by (rewrite repeat_length; lia). rewrite nth_zeros.
  pose proof (bound_small k 1 budget _ d Hk ltac:(lra) (block_length _ _ _) (block_within _ _ _ 1 ltac:(lra) Hs) Hb) as Hd.
  assert (Sj : Rabs (B2R (nth j signal f64_0)) <= 1) by (unfold samples_within in Hs; rewrite Forall_forall in Hs; apply Hs, nth_In; lia).
  destruct (add_limited f64_0 (nth ti out f64_0) eq_refl Fw) as [Fa Ca]; [cbn; rewrite Rabs_R0; lra|apply Raux.Rabs_le_inv in Cw, Sj; apply Rabs_le; lra|].
  split; [exact Fa|]. cbn [B2R f64_0] in Ca. change (B2R f64_0) with 0 in Ca. rewrite Rplus_0_l in Ca.
  assert (Cc : Rabs (clipped (B2R (nth ti out f64_0)) - clipped (B2R (nth j signal f64_0))) <= d) by (apply clipped_close; exact Cw).
  rewrite (clipped_id (B2R (nth j signal f64_0))) in Cc by (apply Raux.Rabs_le_inv in Sj; lra).
  apply Raux.Rabs_le_inv in Ca, Cc. apply Rabs_le. lra.
Qed.

Theorem curve_channel k fs budget cf modality signal c cb cs res lower :
  (3 <= k <= 21)%nat -> (0 < fs)%nat -> ((1000 * 2 ^ k) mod fs = 0)%nat -> samples_within 1 signal ->
  (1000 * (Z.of_nat (length signal) + 2 ^ Z.of_nat k) < 2 ^ 31 * Z.of_nat fs)%Z -> (Z.of_nat (length signal) + 2 ^ Z.of_nat k < 2 ^ 31)%Z ->
  let cfg := Config cf (Z.of_nat (2 ^ k)) budget true true in
  flt f64_0 cf = true -> int_of_float i32 cf = Ok lower -> length (LP (f64_of_Z (Z.of_nat fs)) signal cf) = length signal ->
  pcm_curve cfg (Z.of_nat fs) 1000 modality signal (LP (f64_of_Z (Z.of_nat fs)) signal cf) c = Ok (cb, addBand cb c) ->
  EvaluationBand fsin fpow akima bezier bspline 1 cb (vec_size signal) (Z.of_nat fs) 0 1000 = Ok cs -> samples_within 1 cs -> length cs = length signal ->
  minus signal cs = Ok res ->
  (forall i, (i * 2 ^ k < length signal)%nat -> block_usable log10 pow2 getSMR (2 ^ k) (block_at (2 ^ k) res i) budget) ->
  exists c' b w out, channel_of cfg (Z.of_nat fs) 1000 modality signal c = Ok c' /\
    c_bands c' = c_bands c ++ [cb; b] /\ c_freq c' = Some (Z.of_nat fs) /\ c_count c' = Some (vec_size signal) /\
    transformBand b 1000 = Ok w /\ play 1 (set_bands [cb; w] c') (vec_size signal) (Z.of_nat fs) 0 1000 = Ok out /\ length out = length signal /\
    forall ti, (ti < length signal)%nat -> exists j d, (j = ti \/ S j = ti) /\ block_bound k 2 budget (block_at (2 ^ k) res (j / 2 ^ k)) d /\
      is_finite (nth ti out f64_0) = true /\
      Rabs (B2R (nth ti out f64_0) - clipped (B2R (nth ti cs f64_0) + (B2R (nth j signal f64_0) - B2R (nth j cs f64_0)))) <= d + / 1125899906842624.
Proof.
  intros Hk Hf Hm Hs H1 H2 cfg Hcf Hlow Hlp Hcb Hcs Scs Lcs Hres Us.
  destruct (minus_nth _ _ _ Hres) as [Lr Nr].
  assert (Bs : forall l i, samples_within 1 l -> (i < length l)%nat -> is_finite (nth i l f64_0) = true /\ Rabs (B2R (nth i l f64_0)) <= 1).
  { intros l i Hl Hi. unfold samples_within in Hl. rewrite Forall_forall in Hl. apply Hl, nth_In, Hi. }
  assert (Rr : forall i, (i < length signal)%nat -> is_finite (nth i res f64_0) = true /\ Rabs (B2R (nth i res f64_0) - (B2R (nth i signal f64_0) - B2R (nth i cs f64_0))) <= / 2251799813685248 /\ Rabs (B2R (nth i res f64_0)) <= 2).
  { intros i Hi. rewrite Nr by exact Hi. destruct (Bs signal i Hs Hi) as [A1 A2]. destruct (Bs cs i Scs ltac:(lia)) as [B1 B2]. apply sub_close; assumption. }
  assert (Sr : samples_within 2 res).
  { apply Forall_forall. intros x Hx. apply In_nth with (d := f64_0) in Hx. destruct Hx as (i & Hi & <-). rewrite Lr in Hi. destruct (Rr i Hi) as (A & _ & B). auto. }
  rewrite <- Lr in H1, H2, Us.
  destruct (coded_played fsin fpow akima bezier bspline 1 log10 pow2 getSMR mds k fs res 2 budget lower Hk Hf Hm ltac:(lra) Sr Us H1 H2) as (b & w & out & E1 & E2 & Tw & Eo & Lo & Ho).
  rewrite Lr in H1, H2, Us.
  assert (Cast : cast u32 (vec_size signal) = vec_size signal).
  { apply SynthProof.cast_u32. unfold vec_size. change (2 ^ 32)%Z with 4294967296%Z. change (2 ^ 31)%Z with 2147483648%Z in H2. pose proof (Z.pow_nonneg 2 (Z.of_nat k) ltac:(lia)). lia. }
  assert (Vs : vec_size res = vec_size signal) by (unfold vec_size; rewrite Lr; reflexivity). rewrite Vs in Eo.
  exists (addBand b (set_sampling (Z.of_nat fs) (vec_size signal) (addBand cb c))), b, w, (add_band (add_band (repeat f64_0 (length signal)) cs) out).
  split.
  { unfold channel_of, pcm_channel, pcm_residual. change (curveFrequencyLimit cfg) with cf. change (wavelet_enabled cfg) with true. change (vectorial_enabled cfg) with true. change (wavelet_blockLength cfg) with (Z.of_nat (2 ^ k)). change (wavelet_bitbudget cfg) with budget.
    rewrite Hcf. destruct (minus_ok signal (LP (f64_of_Z (Z.of_nat fs)) signal cf) Hlp) as [high Eh]. rewrite Eh. cbn [obind]. rewrite Hcb. cbn [obind].
    rewrite Hcs. cbn [obind]. rewrite Hres. cbn [obind]. rewrite Hlow. cbn [obind]. rewrite !Nat2Z.id, E1, Cast. reflexivity. }
  split; [cbn [c_bands addBand set_bands set_sampling]; rewrite <- app_assoc; reflexivity|]. split; [reflexivity|]. split; [reflexivity|]. split; [exact E2|]. split.
  { unfold play, EvaluateChannel. cbn [c_bands set_bands]. cbn [add_bands]. rewrite Hcs. cbn [obind]. rewrite Eo. cbn [obind]. unfold vec_size. rewrite Nat2Z.id. reflexivity. }
  split; [rewrite !add_band_length, repeat_length; reflexivity|].
  intros ti Hti. destruct (Ho ti ltac:(lia)) as (j & d & Hj & Hb & Fw & Cw). exists j, d. split; [exact Hj|]. split; [exact Hb|].
  rewrite add_bands_one by (rewrite ?add_band_length, ?repeat_length; lia). rewrite add_bands_one by (rewrite ?repeat_length; lia). rewrite nth_zeros.
  pose proof (bound_small k 2 budget _ d Hk ltac:(lra) (block_length _ _ _) (block_within _ _ _ 2 ltac:(lra) Sr) Hb) as Hd.
  destruct (Bs cs ti Scs ltac:(lia)) as [Fc Bc]. destruct (Rr j ltac:(lia)) as (_ & Cj & Bj).
  assert (Z0 : is_finite (limit (add64 f64_0 (nth ti cs f64_0))) = true /\ B2R (limit (add64 f64_0 (nth ti cs f64_0))) = B2R (nth ti cs f64_0)).
  { destruct (add_0_l (nth ti cs f64_0) f64_0 Fc eq_refl eq_refl) as [Fz Ez]. destruct (limit_R _ Fz) as [Fl El]. split; [exact Fl|]. rewrite El, Ez. apply clipped_id. apply Raux.Rabs_le_inv in Bc. lra. }
  destruct Z0 as [Fz Ez].
  destruct (add_limited _ (nth ti out f64_0) Fz Fw) as [Fa Ca]; [rewrite Ez; exact Bc|apply Raux.Rabs_le_inv in Cw, Bj; apply Rabs_le; lra|].
  split; [exact Fa|]. rewrite Ez in Ca.
  assert (Cc : Rabs (clipped (B2R (nth ti cs f64_0) + B2R (nth ti out f64_0)) - clipped (B2R (nth ti cs f64_0) + (B2R (nth j signal f64_0) - B2R (nth j cs f64_0)))) <= d + / 2251799813685248).
  { apply clipped_close. apply Raux.Rabs_le_inv in Cw, Cj. apply Rabs_le. lra. }
  apply Raux.Rabs_le_inv in Ca, Cc. apply Rabs_le. lra.
Qed.
End Play.
