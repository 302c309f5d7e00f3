(** More proofs about the synthesis. *)
From Coq Require Import Reals Psatz.
From Flocq Require Import Core.Core.
From Verif Require Import Base FloatBase FloatModel FloatSpec FloatProof Float64Proof TypesModel ToolsModel SynthModel SynthSpec SynthProof SynthIndex.
Local Open Scope Z_scope.
Ltac Zify.zify_post_hook ::= Z.div_mod_to_equations.

(** ** Free bands are found *)
Lemma time_length_defined bt e len d : effect_length bt e len -> exists x, getEffectTimeLength e bt d = Ok x.
Proof.
  intros H. unfold getEffectTimeLength. destruct (e_kfs e) as [|k0 l0] eqn:E; [eauto|]. rewrite <- E.
  pose proof (find_last_pos (e_kfs e)) as F.
  destruct H as [[H _]|[(_ & T & _)|(t & P & _)]]; [congruence|rewrite T; cbn; eauto|].
  destruct (find_last has_pos (e_kfs e)) as [k|].
  - destruct (bt =? TransientB); [eauto|]. destruct (_ || _); eauto.
  - destruct P as (pre & k & post & Ek & Hk & _). rewrite Ek in F. apply Forall_app in F as [_ F]. inversion F; subst. congruence.
Qed.
Lemma any_overlapping_defined b es start stop : Forall (placed (b_type b)) es -> exists r, any_overlapping b es start stop = Ok r.
Proof.
  induction 1 as [|e es (_ & len & He & _) Hes (r & IH)]; cbn [any_overlapping]; [eauto|].
  destruct (time_length_defined _ _ _ TRANSIENT_DURATION_MS He) as (x & Hx). unfold isOverlapping at 1. rewrite Hx. cbn [obind].
  destruct (_ || _ : bool); eauto.
Qed.
Lemma find_band_defined position duration bt : - 2 ^ 31 <= position -> 0 <= duration -> position + duration < 2 ^ 31 ->
  forall bs i, Forall (fun b => b_type b = bt -> Forall (placed bt) (b_effects b)) bs ->
  exists r, find_band i bs position duration bt = Ok r.
Proof.
  intros Hp Hd Hs. induction bs as [|b bs IH]; intros i H; cbn [find_band]; [eauto|]. inversion H as [|? ? Hb Hbs]; subst.
  destruct (Z.eqb_spec (b_type b) bt) as [T|T]; cbn [negb]; [|apply IH, Hbs].
  destruct (b_effects b) as [|e es] eqn:Ee; [cbn [obind]; eauto|].
  rewrite int_ok_fits by lia. cbn [obind].
  destruct (any_overlapping_defined b (e :: es) position (position + duration)) as (r & ->); [rewrite T; apply Hb, T|].
  cbn [obind]. destruct r; [apply IH, Hbs|eauto].
Qed.
Lemma free_band c position duration bt : 0 <= bt <= 3 -> - 2 ^ 31 <= position -> 0 <= duration -> position + duration < 2 ^ 31 ->
  Forall (fun b => b_type b = bt -> Forall (placed bt) (b_effects b)) (c_bands c) ->
  exists r, findBandAvailable c position duration bt = Ok r /\
  match r with
  | Some j => exists b, nth_error (c_bands c) j = Some b /\ b_type b = bt /\ Forall (fun e => ~ touches bt position duration e) (b_effects b)
  | None => Forall (fun b => b_type b = bt -> Exists (touches bt position duration) (b_effects b)) (c_bands c)
  end.
Proof.
  intros Hbt Hp Hd Hs H. destruct (find_band_defined position duration bt Hp Hd Hs _ 0%nat H) as (r & Hr). exists r. split; [exact Hr|].
  pose proof (find_band_spec position duration bt Hbt Hp Hd _ _ _ H Hr) as Q. destruct r as [j|]; [|exact Q].
  destruct Q as (b & _ & Q). rewrite Nat.sub_0_r in Q. eauto.
Qed.

Section S.
Variable fsin : f64 -> f64.
Variable fpow : f64 -> f64 -> f64.
Variables akima bezier bspline : list point -> outcome (list f64).
Local Notation EvaluateChannel := (EvaluateChannel fsin fpow akima bezier bspline).
Local Notation EvaluationBand := (EvaluationBand fsin fpow akima bezier bspline).

(** ** The sum of the bands *)
Lemma map_o_nth {A B} (f : A -> outcome B) : forall l m, map_o f l = Ok m ->
  length m = length l /\ forall k a d, nth_error l k = Some a -> f a = Ok (nth k m d).
Proof.
  induction l as [|x l IH]; intros m H; cbn [map_o] in H.
  - injection H as <-. split; [reflexivity|]. intros [|k]; discriminate.
  - apply bind_inv in H as (y & Hy & H). apply bind_inv in H as (ys & Hys & H). injection H as <-. destruct (IH _ Hys) as [L Q].
    split; [cbn; congruence|]. intros [|k] a d Hk; cbn in *; [congruence|]. apply Q, Hk.
Qed.
Lemma add_at_length : forall l i v l', add_at l i v = Ok l' -> length l' = length l.
Proof.
  induction l as [|x l IH]; intros [|i] v l' H; cbn in H; try discriminate; [injection H as <-; reflexivity|].
  apply bind_inv in H as (l1 & H1 & H). injection H as <-. cbn. f_equal. eapply IH, H1.
Qed.
Lemma add_curve_length : forall n i c ea l l', add_curve n i c ea l = Ok l' -> length l' = length l.
Proof.
  induction n as [|n IH]; intros i c ea l l' H; cbn in H; [congruence|]. destruct (nth_error _ _); [|discriminate].
  apply bind_inv in H as (l1 & H1 & H). rewrite (IH _ _ _ _ _ H). eapply add_at_length, H1.
Qed.
Lemma add_curve_effect_length sc fs pad ts ct e l l' : add_curve_effect fpow akima bezier bspline sc fs pad ts ct e l = Ok l' -> length l' = length l.
Proof.
  intros H. unfold add_curve_effect in H. apply bind_inv in H as (ps & _ & H). destruct ps as [|p0 ps]; [discriminate|].
  destruct (_ <? _); [discriminate|]. destruct (Nat.eqb _ _); [apply bind_inv in H as (x & _ & H); congruence|].
  apply bind_inv in H as (ea & _ & H). apply bind_inv in H as (p & _ & H). apply bind_inv in H as (q & _ & H).
  apply bind_inv in H as ([p2 c] & _ & H). eapply add_curve_length, H.
Qed.
Lemma add_curve_effects_length sc fs pad ts ct : forall es l l', add_curve_effects fpow akima bezier bspline sc fs pad ts ct es l = Ok l' -> length l' = length l.
Proof.
  induction es as [|e es IH]; intros l l' H; cbn [add_curve_effects] in H; [congruence|].
  apply bind_inv in H as (l1 & H1 & H). rewrite (IH _ _ H). eapply add_curve_effect_length, H1.
Qed.
Lemma band_length fuel b sc fs pad ts l : EvaluationBand fuel b sc fs pad ts = Ok l -> length l = Z.to_nat sc.
Proof.
  intros H. unfold SynthModel.EvaluationBand in H. destruct (b_type b =? CurveB).
  - rewrite (add_curve_effects_length _ _ _ _ _ _ _ _ H), repeat_length. reflexivity.
  - apply map_o_nth in H as [H _]. rewrite H. unfold times. rewrite map_length, seq_length. f_equal. lia.
Qed.
Lemma nth_add_band k : forall l m, length l = length m -> (k < length l)%nat ->
  nth k (add_band l m) f64_0 = limit (add64 (nth k l f64_0) (nth k m f64_0)).
Proof.
  induction k as [|k IH]; intros [|x l] [|y m] H Hk; cbn in *; try lia; [reflexivity|]. apply IH; lia.
Qed.
Lemma add_band_length : forall l m, length l = length m -> length (add_band l m) = length l.
Proof. induction l as [|x l IH]; intros [|y m] H; cbn in *; try lia. rewrite IH; lia. Qed.
Lemma add_bands_sum fuel sc fs pad ts : forall bs l out, length l = Z.to_nat sc ->
  add_bands fsin fpow akima bezier bspline fuel bs sc fs pad ts l = Ok out ->
  exists sigs, Forall2 (fun b s => EvaluationBand fuel b sc fs pad ts = Ok s) bs sigs /\
    forall k, (k < Z.to_nat sc)%nat ->
      nth k out f64_0 = fold_left (fun a v => limit (add64 a v)) (at_instant k sigs) (nth k l f64_0).
Proof.
  induction bs as [|b bs IH]; intros l out L H; cbn [add_bands] in H.
  - injection H as <-. exists []. split; [constructor|]. reflexivity.
  - apply bind_inv in H as (s & Hs & H). pose proof (band_length _ _ _ _ _ _ _ Hs) as Ls.
    destruct (IH (add_band l s) out) as (sigs & F & Q); [rewrite add_band_length; congruence|exact H|].
    exists (s :: sigs). split; [constructor; assumption|]. intros k Hk. rewrite Q by exact Hk.
    rewrite nth_add_band by congruence. reflexivity.
Qed.
Lemma fold_limit : forall vs a, (forall n, full_scale (fold_left add64 (firstn n vs) a)) ->
  fold_left (fun a v => limit (add64 a v)) vs a = fold_left add64 vs a.
Proof.
  induction vs as [|v vs IH]; intros a H; [reflexivity|]. cbn [fold_left].
  rewrite limit_id by exact (H 1%nat). apply IH. intros n. exact (H (S n)).
Qed.
Lemma channel_sum fuel c sc fs pad ts out : EvaluateChannel fuel c sc fs pad ts = Ok out ->
  exists sigs, Forall2 (fun b s => EvaluationBand fuel b sc fs pad ts = Ok s) (c_bands c) sigs /\
    forall k, (k < Z.to_nat sc)%nat -> never_clipped (at_instant k sigs) -> nth k out f64_0 = mix (at_instant k sigs).
Proof.
  intros H. unfold SynthModel.EvaluateChannel in H. apply add_bands_sum in H as (sigs & F & Q); [|apply repeat_length].
  exists sigs. split; [exact F|]. intros k Hk N. rewrite Q by exact Hk. rewrite nth_repeat. apply fold_limit, N.
Qed.

(** ** A decoded wavelet band *)
Lemma add0 (v : f64) : is_finite v = true -> B2R (add64 f64_0 v) = B2R v /\ is_finite (add64 f64_0 v) = true.
Proof.
  intros F. pose proof (Bplus_correct 53 1024 _ _ mode_NE f64_0 v eq_refl F) as H.
  change (B2R f64_0) with 0%R in H. rewrite Rplus_0_l in H. fold (add64 f64_0 v) in H.
  change (round radix2 (SpecFloat.fexp 53 1024) (round_mode mode_NE) (B2R v)) with (rnd64 (B2R v)) in H.
  rewrite rnd64_id in H by apply fmt64_B2R. rewrite Rlt_bool_true in H by (apply abs_B2R_lt_emax). tauto.
Qed.
Lemma sample_position_0 fs ts ti : (1 <= fs < 2 ^ 31) -> (1 <= ts < 2 ^ 32) -> (0 <= ti < 2 ^ 31) ->
  fle (f64_of_Z 0) (sample_position fs 0 ts ti) = true.
Proof.
  intros Hfs Hts Hti. unfold sample_position. change (f64_of_Z 0) with f64_0. change (mul64 f64_0 MS_2_S) with f64_0.
  destruct (f64_of_Z_ok ti ltac:(lia)) as [Ei Fi]. destruct (f64_of_Z_ok fs ltac:(lia)) as [Ef Ff]. destruct (f64_of_Z_ok ts ltac:(lia)) as [Es Fs].
  assert (Rfs : (1 <= IZR fs <= 2147483648)%R) by (split; apply IZR_le; lia).
  assert (Rts : (1 <= IZR ts <= 4294967296)%R) by (split; apply IZR_le; lia).
  assert (Rti : (0 <= IZR ti <= 2147483648)%R) by (split; apply IZR_le; lia).
  assert (B100 : (IZR (2 ^ 100) = 1267650600228229401496703205376)%R) by reflexivity.
  assert (Q : (0 <= IZR ti / IZR fs <= IZR ti)%R).
  { assert (0 < / IZR fs <= 1)%R by (split; [apply Rinv_0_lt_compat; lra|rewrite <- Rinv_1; apply Rinv_le_contravar; lra]). unfold Rdiv. nra. }
  destruct (div64_ok (f64_of_Z ti) (f64_of_Z fs) Fi) as [E1 F1]; [rewrite Ef; lra|rewrite Ei, Ef; apply bpow_1000; rewrite B100; lra|].
  rewrite Ei, Ef in E1.
  assert (B1 : (0 <= B2R (div64 (f64_of_Z ti) (f64_of_Z fs)) <= 2147483648)%R).
  { rewrite E1. split; [rewrite <- rnd64_0; apply rnd64_le; lra|]. rewrite <- (rnd64_id 2147483648) by (apply (fmt64_Z 2147483648); lia). apply rnd64_le. lra. }
  set (x1 := div64 _ _) in *. destruct (sub64_ok x1 f64_0 F1 eq_refl) as [E2 F2].
  { change (B2R f64_0) with 0%R. rewrite Rminus_0_r. apply bpow_1000; rewrite B100; lra. }
  change (B2R f64_0) with 0%R in E2. rewrite Rminus_0_r, rnd64_id in E2 by apply fmt64_B2R.
  destruct (mul64_ok (f64_of_Z ts) (sub64 x1 f64_0) Fs F2) as [E3 F3]; [rewrite Es, E2; apply bpow_1000; rewrite B100; nra|].
  rewrite fle_R by (assumption || reflexivity). change (B2R f64_0) with 0%R. apply Rle_bool_true. rewrite E3, Es, E2.
  rewrite <- rnd64_0. apply rnd64_le. nra.
Qed.
Lemma nth_times k n : (k < Z.to_nat n)%nat -> nth_error (times 0 (n - 1)) k = Some (Z.of_nat k).
Proof.
  intros H. unfold times. replace (n - 1 + 1 - 0) with n by lia. rewrite nth_error_map.
  assert (E : nth_error (seq 0 (Z.to_nat n)) k = Some k).
  { rewrite (nth_error_nth' _ 0%nat) by (rewrite seq_length; exact H). rewrite seq_nth by exact H. reflexivity. }
  rewrite E. cbn. f_equal; lia.
Qed.
Lemma wavelet_band_played fuel b e sc ts out : b_type b = WaveletB -> b_effects b = [e] -> e_pos e = 0 ->
  (1 <= b_up b < 2 ^ 31) -> (1 <= ts < 2 ^ 32) -> sc < 2 ^ 31 -> vec_size (e_samples e) < 2 ^ 31 ->
  Forall (fun v => is_finite v = true) (e_samples e) ->
  EvaluationBand fuel b sc (b_up b) 0 ts = Ok out ->
  forall k, (k < Z.to_nat sc)%nat -> exists i, (i = k \/ S i = k) /\ B2R (nth k out f64_0) = B2R (nth i (e_samples e) f64_0) /\ is_finite (nth k out f64_0) = true.
Proof.
  intros T Eb Hp Hfs Hts Hsc Hn Hf H k Hk. unfold SynthModel.EvaluationBand in H. rewrite T in H. change (WaveletB =? CurveB) with false in H. cbv iota in H.
  destruct (map_o_nth _ _ _ H) as [_ Q]. specialize (Q k (Z.of_nat k) f64_0 (nth_times _ _ Hk)).
  unfold band_sample in Q. rewrite Eb in Q. apply bind_inv in Q as (x & _ & Q). cbn [rev app add_effects] in Q.
  rewrite Hp, sample_position_0 in Q by lia. apply bind_inv in Q as (r & Hr & Q). apply bind_inv in Hr as (v & Hv & Hr).
  unfold EvaluationSwitch in Hv. rewrite T in Hv. change (WaveletB =? CurveB) with false in Hv. change (WaveletB =? VectorialB) with false in Hv. rewrite Z.eqb_refl in Hv. cbv iota in Hv.
  destruct (played_index (b_up b) ts (Z.of_nat k) e Hfs Hts ltac:(lia) Hp Hn) as (i & Hi & Hi0 & Hv'). rewrite Hv in Hv'.
  assert (Ev : v = nth (Z.to_nat i) (e_samples e) f64_0) by congruence.
  assert (Fv : is_finite v = true).
  { subst v. destruct (nth_in_or_default (Z.to_nat i) (e_samples e) f64_0) as [I| ->]; [|reflexivity]. rewrite Forall_forall in Hf. apply Hf, I. }
  destruct (add0 v Fv) as [E F]. exists (Z.to_nat i). assert (Er : nth k out f64_0 = add64 f64_0 v) by congruence. rewrite Er, E, F, Ev.
  split; [lia|]. auto.
Qed.

End S.

(** ** Length *)
Lemma fle_flt_trans (a b c : f64) : fle a b = true -> flt b c = true -> fle a c = true.
Proof.
  assert (I : forall x y : f64, fle x y = true -> is_finite x = true -> is_finite y = true -> (B2R x <= B2R y)%R).
  { intros x y H F1 F2. rewrite fle_R in H by assumption. destruct (Rle_bool_spec (B2R x) (B2R y)); [assumption|discriminate]. }
  intros H1 H2. destruct (is_finite a && is_finite b && is_finite c) eqn:F.
  - apply andb_prop in F as [F Fc]. apply andb_prop in F as [Fa Fb].
    rewrite fle_R by assumption. apply Rle_bool_true. apply I in H1; [|assumption..]. apply (flt_R b c Fb Fc) in H2. lra.
  - clear I. destruct a as [sa|sa| |sa ma ea Ba], b as [sb|sb| |sb mb eb Bb], c as [sc|sc| |sc mc ec Bc]; try discriminate F; try discriminate H1; try discriminate H2;
    try (destruct sa; try discriminate H1; try reflexivity); try (destruct sb; try discriminate H1; try discriminate H2); try (destruct sc; try discriminate H2; try reflexivity).
Qed.
Lemma fle_refl (x : f64) : is_nan x = false -> fle x x = true.
Proof. intros H. destruct (is_finite x) eqn:F; [rewrite fle_R by assumption; apply Rle_bool_true; lra|]. destruct x as [|[|]| |]; try discriminate; reflexivity. Qed.
Lemma fmax_max (n m : f64) : is_nan m = false ->
  is_nan (fmax n m) = false /\ fle m (fmax n m) = true /\ (is_nan n = false -> fle n (fmax n m) = true).
Proof.
  pose proof fle_refl as R.
  intros H. unfold fmax. destruct (flt m n) eqn:L.
  - assert (N : is_nan n = false) by (destruct n; try reflexivity; destruct m; discriminate L).
    split; [exact N|]. split; [|intros _; apply R, N]. eapply fle_flt_trans; [apply R, H|exact L].
  - split; [exact H|]. split; [apply R, H|]. intros N. destruct (is_finite n && is_finite m) eqn:F.
    + apply andb_prop in F as [Fn Fm]. rewrite fle_R by assumption. apply Rle_bool_true. apply Rnot_lt_le. intros Hl. rewrite flt_true in L by assumption. discriminate.
    + destruct n as [|[|]| |], m as [|[|]| |]; try discriminate; reflexivity.
Qed.
Lemma fle_trans (a b c : f64) : fle a b = true -> fle b c = true -> fle a c = true.
Proof.
  intros H1 H2. destruct (flt b c) eqn:L; [eapply fle_flt_trans; eassumption|].
  destruct (is_finite a && is_finite b && is_finite c) eqn:F.
  - apply andb_prop in F as [F Fc]. apply andb_prop in F as [Fa Fb]. rewrite fle_R in * by assumption.
    destruct (Rle_bool_spec (B2R a) (B2R b)), (Rle_bool_spec (B2R b) (B2R c)); try discriminate. apply Rle_bool_true. lra.
  - destruct a as [sa|sa| |sa ma ea Ba], b as [sb|sb| |sb mb eb Bb], c as [sc|sc| |sc mc ec Bc]; try discriminate F; try discriminate H1; try discriminate H2;
    try (destruct sa; try discriminate H1; try reflexivity); try (destruct sb; try discriminate H1; try discriminate H2); try (destruct sc; try discriminate H2; try reflexivity).
Qed.
(** A length [n] covers [m], and whatever each part asks for. *)
Lemma bands_cover ts : forall bs m n, is_nan m = false -> bands_length bs ts m = Ok n ->
  is_nan n = false /\ fle m n = true /\ forall b x, In b bs -> getBandTimeLength b ts = Ok x -> is_nan x = false -> fle x n = true.
Proof.
  induction bs as [|b bs IH]; intros m n Hm H; cbn [bands_length] in H.
  - injection H as <-. split; [exact Hm|]. split; [|intros b x []]. apply fle_refl, Hm.
  - apply bind_inv in H as (y & Hy & H). destruct (fmax_max y m Hm) as (N & L1 & L2). destruct (IH _ _ N H) as (N' & L & Q).
    split; [exact N'|]. split; [eapply fle_trans; eassumption|]. intros b' x [<-|I] Hx Nx; [|eapply Q; eassumption].
    assert (x = y) by congruence. subst y. eapply fle_trans; [apply L2, Nx|exact L].
Qed.
Lemma channels_cover ts : forall cs m n, is_nan m = false -> channels_length cs ts m = Ok n ->
  is_nan n = false /\ fle m n = true /\ forall c b x, In c cs -> (c_freq c = None \/ c_count c = None) -> In b (c_bands c) ->
    getBandTimeLength b ts = Ok x -> is_nan x = false -> fle x n = true.
Proof.
  induction cs as [|c cs IH]; intros m n Hm H; cbn [channels_length] in H.
  - injection H as <-. split; [exact Hm|]. split; [|intros c b x []]. apply fle_refl, Hm.
  - apply bind_inv in H as (y & Hy & H).
    assert (P : is_nan y = false /\ fle m y = true /\ ((c_freq c = None \/ c_count c = None) -> forall b x, In b (c_bands c) -> getBandTimeLength b ts = Ok x -> is_nan x = false -> fle x y = true)).
    { destruct (c_freq c) as [f|] eqn:Ef, (c_count c) as [k|] eqn:Ek.
      - assert (E : y = fmax (mul64 (f64_of_Z ts) (div64 (f64_of_Z k) (f64_of_Z f))) m) by congruence. subst y.
        destruct (fmax_max (mul64 (f64_of_Z ts) (div64 (f64_of_Z k) (f64_of_Z f))) m Hm) as (N & L & _). split; [exact N|]. split; [exact L|]. intros [|]; discriminate.
      - destruct (bands_cover _ _ _ _ Hm Hy) as (N & L & Q). split; [exact N|]. split; [exact L|]. intros _. exact Q.
      - destruct (bands_cover _ _ _ _ Hm Hy) as (N & L & Q). split; [exact N|]. split; [exact L|]. intros _. exact Q.
      - destruct (bands_cover _ _ _ _ Hm Hy) as (N & L & Q). split; [exact N|]. split; [exact L|]. intros _. exact Q. }
    destruct P as (N & L & Q). destruct (IH _ _ N H) as (N' & L' & Q'). split; [exact N'|]. split; [eapply fle_trans; eassumption|].
    intros c' b x [<-|I] Hc Hb Hx Nx; [|eapply Q'; eassumption]. eapply fle_trans; [eapply Q; eassumption|exact L'].
Qed.
Lemma perceptions_cover ts : forall ps m n, is_nan m = false -> perceptions_length ps ts m = Ok n ->
  is_nan n = false /\ fle m n = true /\ forall p c b x, In p ps -> In c (p_channels p) -> (c_freq c = None \/ c_count c = None) -> In b (c_bands c) ->
    getBandTimeLength b ts = Ok x -> is_nan x = false -> fle x n = true.
Proof.
  induction ps as [|p ps IH]; intros m n Hm H; cbn [perceptions_length] in H.
  - injection H as <-. split; [exact Hm|]. split; [|intros p c b x []]. apply fle_refl, Hm.
  - apply bind_inv in H as (y & Hy & H). destruct (channels_cover _ _ _ _ Hm Hy) as (N & L & Q). destruct (IH _ _ N H) as (N' & L' & Q').
    split; [exact N'|]. split; [eapply fle_trans; eassumption|].
    intros p' c b x [<-|I] Hc Hf Hb Hx Nx; [|eapply Q'; eassumption]. eapply fle_trans; [eapply Q; eassumption|exact L'].
Qed.
(** The end of the last effect of every band, in a band type whose length is given by keyframes, at most 2^31 ticks. *)
Lemma length_covers h ts n p c b e len : h_timescale h = Some ts -> getTimeLength h = Ok n ->
  In p (h_perceptions h) -> In c (p_channels p) -> (c_freq c = None \/ c_count c = None) -> In b (c_bands c) ->
  (exists es, b_effects b = es ++ [e]) -> b_type b <> TransientB -> 0 <= b_type b <= 3 -> small_times e -> effect_length (b_type b) e len ->
  is_nan n = false /\ fle (f64_of_Z (e_pos e + len)) n = true.
Proof.
  intros Ht H Ip Ic Hc Ib (es & Eb) T Hb Hs Hl. unfold getTimeLength in H. rewrite Ht in H.
  destruct (perceptions_cover ts (h_perceptions h) f64_0 n eq_refl H) as (N & _ & Q). split; [exact N|].
  assert (Ex : exists x, getEffectTimeLength e (b_type b) (getTransientDuration ts) = Ok x /\ B2R x = IZR len /\ is_finite x = true /\ - 2 ^ 31 <= len < 2 ^ 32).
  { destruct (time_length_defined _ _ _ (getTransientDuration ts) Hl) as (x & Hx). exists x. split; [exact Hx|].
    assert (Hx' : getEffectTimeLength e (b_type b) TRANSIENT_DURATION_MS = Ok x).
    { unfold getEffectTimeLength in *. destruct (e_kfs e); [exact Hx|]. destruct (Z.eqb_spec (b_type b) TransientB); [contradiction|exact Hx]. }
    destruct (time_length b e x Hb Hs Hx') as (len' & Hl' & E). rewrite (effect_length_unique _ _ _ _ Hl Hl'). exact E. }
  destruct Ex as (x & Hx & E & F & B). destruct Hs as [Hs _].
  destruct (f64_of_Z_ok (e_pos e) ltac:(lia)) as [E1 F1]. destruct (f64_of_Z_ok (e_pos e + len) ltac:(lia)) as [E2 F2].
  destruct (add64_ok (f64_of_Z (e_pos e)) x F1 F) as [E4 F4].
  { rewrite E1, E, <- plus_IZR, <- abs_IZR. apply Rle_trans with (bpow radix2 34); [|apply bpow_le; lia]. rewrite bpow_IZR by lia. apply IZR_le. lia. }
  rewrite E1, E, <- plus_IZR in E4. rewrite rnd64_id in E4 by (apply fmt64_Z; lia).
  assert (Hb' : getBandTimeLength b ts = Ok (add64 (f64_of_Z (e_pos e)) x)).
  { unfold getBandTimeLength. rewrite Eb. destruct (es ++ [e]) as [|e0 l0] eqn:El; [destruct es; discriminate|]. rewrite <- El, last_last, Hx. reflexivity. }
  apply fle_trans with (add64 (f64_of_Z (e_pos e)) x).
  - rewrite fle_R by assumption. apply Rle_bool_true. rewrite E2, E4. lra.
  - eapply Q; try eassumption. destruct (add64 (f64_of_Z (e_pos e)) x); try reflexivity; discriminate.
Qed.
Lemma no_position e bt d : bt = TransientB \/ bt = CurveB \/ bt = VectorialB -> e_kfs e <> [] ->
  Forall (fun k => k_pos k = None) (e_kfs e) -> getEffectTimeLength e bt d = UB.
Proof.
  intros T N H. unfold getEffectTimeLength. rewrite find_last_none.
  - destruct (e_kfs e); [contradiction|]. destruct T as [-> |[-> | ->]]; reflexivity.
  - revert H. apply Forall_impl. intros k Hk. unfold has_pos. rewrite Hk. reflexivity.
Qed.
Lemma full_scale_flt v : flt f64_m1 v && flt v f64_1 = true -> full_scale v.
Proof.
  intros H. apply andb_prop in H as [H1 H2].
  assert (F : is_finite v = true) by (destruct v as [|[|]| |]; try discriminate; reflexivity).
  apply (flt_R f64_m1 v eq_refl F) in H1. apply (flt_R v f64_1 F eq_refl) in H2. rewrite f64_m1_R in H1. rewrite f64_1_R in H2. split; [exact F|lra].
Qed.
