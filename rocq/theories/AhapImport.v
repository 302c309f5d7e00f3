(** Proofs about the import of AHAP files: events, bands and the document. *)
From Coq Require Import Reals Lra Lia Sorting.Permutation Sorting.Sorted Strings.String.
From Flocq Require Core.Raux.
From Verif Require Import Base FloatBase FloatModel TypesModel SemanticModel ToolsModel ToolsSpec ToolsProof TypesSpec TypesProof SynthModel SynthSpec SynthProof SynthMore IvsSpec IvsImport AhapModel AhapSpec AhapFloat AhapProof.
Local Open Scope Z_scope.
Local Open Scope list_scope.

(** *** Parameters *)
Lemma given_ok id ps v : params_ok ps -> id = Intensity \/ id = Sharpness -> given id ps = Some v -> between 0 1 v.
Proof.
  intros H Hid. induction H as [|(i, w) ps Hw H IH]; cbn [given]; [discriminate|]. destruct (given id ps) as [u|]; [exact IH|].
  destruct (str_eqb i id) eqn:E; [|discriminate]. apply str_eqb_iff in E. subst i. intros Q. injection Q as <-. apply Hw, Hid.
Qed.
Lemma continuous_params ps : params_ok ps -> forall a f s, exists a' f' s', continuousParams ps a f s = Ok (a', f', s') /\
  a' = match given Intensity ps with None => a | Some v => f32_of_f64 (normAmplitude ACTUAL_AMPLITUDE_MIN_C v) end /\
  match given Sharpness ps with None => f' = f /\ s' = s | Some v => int_of_float i32 (normFrequency v) = Ok f' /\ s' = v end.
Proof.
  intros H. induction H as [|(i, w) ps Hw H IH]; intros a f s; cbn [continuousParams given].
  - exists a, f, s. auto.
  - fold Intensity Sharpness. destruct (str_eqb i Sharpness) eqn:E.
    + pose proof E as E'. apply str_eqb_iff in E'. destruct (frequency_trunc w) as (g & Eg & _); [apply Hw; right; exact E'|]. rewrite Eg. cbn [obind].
      destruct (IH (if str_eqb i Intensity then f32_of_f64 (normAmplitude ACTUAL_AMPLITUDE_MIN_C w) else a) g w) as (a' & f' & s' & -> & A & B).
      exists a', f', s'. split; [reflexivity|]. split.
      * rewrite A. destruct (given Intensity ps); [reflexivity|]. destruct (str_eqb i Intensity); reflexivity.
      * destruct (given Sharpness ps); [exact B|]. destruct B as (-> & ->). auto.
    + cbn [obind]. destruct (IH (if str_eqb i Intensity then f32_of_f64 (normAmplitude ACTUAL_AMPLITUDE_MIN_C w) else a) f s) as (a' & f' & s' & -> & A & B).
      exists a', f', s'. split; [reflexivity|]. split.
      * rewrite A. destruct (given Intensity ps); [reflexivity|]. destruct (str_eqb i Intensity); reflexivity.
      * destruct (given Sharpness ps); exact B.
Qed.
Lemma transient_params ps : forall p a, transientParams ps (Keyframe (Some p) (Some a) (Some 90)) =
  Keyframe (Some p) (Some (match given Intensity ps with None => a | Some v => f32_of_f64 (normAmplitude ACTUAL_AMPLITUDE_MIN_T v) end)) (Some 90).
Proof.
  induction ps as [|(i, w) ps IH]; intros p a; cbn [transientParams given]; [reflexivity|]. fold Intensity Sharpness.
  replace (if str_eqb i Sharpness then _ else _) with
    (Keyframe (Some p) (Some (if str_eqb i Intensity then f32_of_f64 (normAmplitude ACTUAL_AMPLITUDE_MIN_T w) else a)) (Some 90))
    by (destruct (str_eqb i Intensity), (str_eqb i Sharpness); reflexivity).
  rewrite IH. destruct (given Intensity ps); [reflexivity|]. destruct (str_eqb i Intensity); reflexivity.
Qed.
Lemma amplitude_ok (L : f64) (R0 : R) ps a : L = ACTUAL_AMPLITUDE_MIN_C /\ R0 = limit_continuous \/ L = ACTUAL_AMPLITUDE_MIN_T /\ R0 = limit_transient -> params_ok ps ->
  a = match given Intensity ps with None => DEFAULT_AMPLITUDE | Some v => f32_of_f64 (normAmplitude L v) end -> amplitude_for R0 ps a /\ between 0 1 a.
Proof.
  intros HL H ->. unfold amplitude_for. destruct (given Intensity ps) as [v|] eqn:E.
  - assert (V : between 0 1 v) by (eapply given_ok; [exact H|left; reflexivity|exact E]).
    destruct (norm_amplitude L v) as (A & B); [destruct HL as [(-> & _)|(-> & _)]; auto|exact V|]. split; [split; [exact A|]|exact A].
    assert (C : (Rabs (B2R L - R0) <= / 16777216)%R).
    { unfold limit_continuous, limit_transient in HL. apply Rabs_le. destruct HL as [(-> & ->)|(-> & ->)]; [rewrite limit_C|rewrite limit_T]; lra. }
    destruct V as (_ & V). replace (B2R (f32_of_f64 (normAmplitude L v)) - R0 * B2R v)%R with ((B2R (f32_of_f64 (normAmplitude L v)) - B2R L * B2R v) + (B2R L - R0) * B2R v)%R by ring.
    eapply Rle_trans; [apply Rabs_triang|]. rewrite Rabs_mult, (Rabs_pos_eq (B2R v)) by lra.
    assert (Q : (Rabs (B2R L - R0) * B2R v <= / 16777216 * 1)%R) by (apply Rmult_le_compat; [apply Rabs_pos|lra|exact C|lra]). lra.
  - split; [split; [reflexivity|apply default_amplitude]|]. split; [reflexivity|]. rewrite default_amplitude. lra.
Qed.

(** *** Control points *)
Lemma reaches_ok ts cs ps t d pos D : on_ticks ts cs ps -> spans ts cs t d -> nearest (in_tick ts t) pos -> nearest (in_tick ts d) D -> reaches pos D ps.
Proof.
  intros H S Nt Nd. unfold nearest, eps in *. apply Raux.Rabs_le_inv in Nt. apply Raux.Rabs_le_inv in Nd. destruct S as [-> |(He & c & r & Ec & Hc)]; [left; inversion H; reflexivity|]. right. split.
  - clear Hc Ec. induction H as [|x p cs ps (_ & Hp) H IH]; [inversion He|]. unfold below, eps in Hp. inversion He as [? ? Hx|? ? He']; subst; [left|right; auto].
    apply Zlt_succ_le, lt_IZR. rewrite succ_IZR. lra.
  - subst cs. inversion H as [|? p ? ps' (_ & Hp) _]; subst. unfold below, eps in Hp. apply lt_IZR. rewrite plus_IZR. lra.
Qed.

(** *** Continuous events *)
Lemma two_keyframes pos D a f : 0 < D -> between 0 1 a -> 65 <= f <= 300 ->
  inv pos D a (addKeyframe (Keyframe (Some 0) (Some a) (Some f)) (new_effect pos)) (Keyframe (Some D) (Some a) (Some f)).
Proof.
  intros HD Ha Hf. assert (B : forall t, bounded a (Keyframe t (Some a) (Some f))).
  { intros t. split; cbn; intros x E; injection E as <-; [apply self_ok, Ha|exact Hf]. }
  split; [reflexivity|]. split; [reflexivity|]. split.
  - cbn. exists 0. split; [reflexivity|]. split; [lia|]. split; [reflexivity|lia].
  - apply Forall_cons; [apply B|]. apply Forall_cons; [apply B|apply Forall_nil].
Qed.
Lemma in_app_amp l k t x : amp_at l t x -> amp_at (l ++ [k]) t x.
Proof. intros (k0 & I & E). exists k0. split; [apply in_or_app; left; exact I|exact E]. Qed.
Lemma in_app_freq l k t x : freq_at l t x -> freq_at (l ++ [k]) t x.
Proof. intros (k0 & I & E). exists k0. split; [apply in_or_app; left; exact I|exact E]. Qed.
Lemma frequency_range ps f : params_ok ps -> match given Sharpness ps with None => f = DEFAULT_FREQUENCY | Some v => int_of_float i32 (normFrequency v) = Ok f end ->
  65 <= f <= 300 /\ frequency_for ps f.
Proof.
  intros H Hf. unfold frequency_for. destruct (given Sharpness ps) as [v|] eqn:E; [|subst f; unfold DEFAULT_FREQUENCY; lia].
  destruct (frequency_trunc v) as (g & Eg & Rg & Bg); [eapply given_ok; [exact H|right; reflexivity|exact E]|]. rewrite Eg in Hf. injection Hf as <-. auto.
Qed.
Lemma sharpness_ok ps : params_ok ps -> between 0 1 (sharpness_of ps).
Proof.
  intros H. unfold sharpness_of. destruct (given Sharpness ps) as [v|] eqn:E; [eapply given_ok; [exact H|right; reflexivity|exact E]|].
  split; [reflexivity|]. rewrite one_R. lra.
Qed.
Lemma continuous_ok_effect ts cs ds amps freqs ev : 1 <= ts < 2 ^ 32 -> continuous_ok ts cs ds ev -> on_ticks ts cs amps -> on_ticks ts ds freqs ->
  Forall (point_ok 0) amps -> Forall (point_ok (-1)) freqs ->
  exists e, extractContinuous ev amps freqs ts = Ok (Some e) /\ continuous_effect ts amps freqs ev e.
Proof.
  intros Hts (t & d & ps & Et & Ed & Ep & Hps & Ft & Fd & Rt & Rd & Rs & S1 & S2) T1 T2 P1 P2. unfold extractContinuous. rewrite Et, Ed, Ep.
  destruct (event_time ts t) as (pos & -> & Npos & Rpos); [lia|exact Ft|lra|]. destruct (event_time ts d) as (D & -> & ND & RD); [lia|exact Fd|lra|]. cbn [obind].
  assert (HD : 0 < D) by (unfold nearest, eps in ND; apply Raux.Rabs_le_inv in ND; apply lt_IZR; lra).
  assert (HS : pos + D < 2 ^ 31).
  { unfold nearest, eps in *. apply Raux.Rabs_le_inv in ND. apply Raux.Rabs_le_inv in Npos. change (2 ^ 31) with (Z.succ 2147483647). apply Zle_lt_succ, Zlt_succ_le, lt_IZR.
    rewrite succ_IZR, plus_IZR. lra. }
  destruct (continuous_params ps Hps DEFAULT_AMPLITUDE DEFAULT_FREQUENCY f64_1) as (a & f & s & -> & Ea & Ef). cbn [obind].
  destruct (amplitude_ok ACTUAL_AMPLITUDE_MIN_C limit_continuous ps a (or_introl (conj eq_refl eq_refl)) Hps Ea) as (Aa & Ra).
  destruct (frequency_range ps f Hps) as (Rf & Af). { destruct (given Sharpness ps); apply Ef. }
  assert (Es : s = sharpness_of ps). { unfold sharpness_of. destruct (given Sharpness ps); apply Ef. }
  pose proof (sharpness_ok ps Hps) as Hs. rewrite <- Es in Hs.
  pose proof (two_keyframes pos D a f HD Ra Rf) as I0.
  destruct (modulate_amplitude pos D a (proj1 Rpos) HD HS Ra amps _ _ (Some f) (eq_refl : e_kfs (addKeyframe _ (new_effect pos)) = _) I0 eq_refl P1 (reaches_ok _ _ _ _ _ _ _ T1 S1 Npos ND))
    as (c1 & k1 & -> & I1 & C1 & K1 & N1 & (x0 & k0 & In0 & _) & A1 & A2 & A3). cbn [obind].
  destruct (e_kfs c1) as [|k2 r2] eqn:Ec1; [contradiction|].
  destruct (modulate_frequency pos D a (proj1 Rpos) HD HS s Hs freqs c1 k1 k2 r2 Ec1 I1 P2 (reaches_ok _ _ _ _ _ _ _ T2 S2 Npos ND))
    as (c2 & k3 & -> & I2 & C2 & K2 & N2 & B1 & B2). cbn [obind]. rewrite <- Ec1 in *.
  eexists. split; [reflexivity|]. destruct I2 as (Q1 & Q2 & Q3 & Q4).
  exists t, d, ps, D, a, f. unfold addKeyframe. cbn [e_pos e_kfs e_type e_base set_kfs]. rewrite Q1.
  split; [exact Et|]. split; [exact Ed|]. split; [exact Ep|]. split; [exact Npos|]. split; [exact ND|]. split; [lia|]. split; [exact HD|]. split; [exact HS|].
  split; [rewrite C2, C1; reflexivity|]. split; [rewrite C2, C1; reflexivity|]. split; [exact Q3|]. split; [exact Aa|]. split; [exact Af|].
  split; [|split; [exact Q4|split; [|split]]].
  - intros Na Nf. destruct (N1 Na) as (-> & ->). destruct (N2 Nf) as (-> & ->). reflexivity.
  - split; [|split].
    + intros before p after E Hn Hr Hin. apply in_app_amp, B1. specialize (A1 before p after E Hr Hin). destruct after; [contradiction|exact A1].
    + intros before q p after E Hf Hp. destruct (A2 before q p after E Hf Hp) as (x & Ax & Ex). exists x. split; [apply in_app_amp, B1, Ax|exact Ex].
    + intros before q p after E Hf Hp. destruct (A3 before q p after E Hf Hp) as (x & Ax & Ex). exists x. split; [|exact Ex].
      exists k3. split; [apply in_or_app; right; left; reflexivity|]. split; [rewrite Q2; f_equal; lia|congruence].
  - intros before p after E Hn Hr Hin. destruct (B2 before p after E Hr Hin) as (g & Ag & Ng). exists g. split; [apply in_app_freq, Ag|]. destruct after; [contradiction|]. cbn in Ng. rewrite Es in Ng. exact Ng.
  - intros before p E Hr Hin. apply in_app_amp, B1. exact (A1 before p [] E Hr Hin).
Qed.
(** A curve that misses the event. *)
Definition astray (pos D : Z) (ps : list point) : Prop :=
  ps <> [] /\ (Forall (fun p => fst p < pos) ps \/ match ps with p :: _ => pos + D <= fst p | [] => False end).
Lemma misses_ok ts cs ps t d pos D : on_ticks ts cs ps -> misses ts cs t d -> nearest (in_tick ts t) pos -> nearest (in_tick ts d) D -> astray pos D ps.
Proof.
  intros H (Hn & Hm) Nt Nd. unfold nearest, eps in *. apply Raux.Rabs_le_inv in Nt. apply Raux.Rabs_le_inv in Nd. split.
  - intros ->. inversion H; subst. contradiction.
  - destruct Hm as [Hm|(c & r & -> & Hm)]; [left|right].
    + clear Hn. induction H as [|x p cs ps (_ & Hp) H IH]; [constructor|]. unfold below, eps in Hp. inversion Hm; subst. constructor; [|auto]. apply lt_IZR. lra.
    + inversion H as [|? p ? ps' (_ & Hp) _]; subst. unfold below, eps in Hp. apply Zlt_succ_le, lt_IZR. rewrite succ_IZR, plus_IZR. lra.
Qed.
Lemma astray_find pos D ps : 0 < D -> astray pos D ps -> (exists q, find_from None ps pos = (q, [])) \/ exists p r, find_from None ps pos = (None, p :: r) /\ pos + D <= fst p.
Proof.
  intros HD (Hn & [H|H]).
  - left. generalize (@None point). clear Hn. induction H as [|p ps Hp H IH]; intros q; cbn [find_from]; [eauto|]. destruct (Z.geb_spec (fst p) pos); [lia|]. apply IH.
  - right. destruct ps as [|p r]; [contradiction|]. cbn [find_from]. exists p, r. destruct (Z.geb_spec (fst p) pos); [auto|lia].
Qed.
Lemma astray_amplitude pos D a amps c k f : 0 < D -> 0 <= pos -> pos + D < 2 ^ 31 -> e_pos c = pos -> k_pos k = Some D -> astray pos D amps ->
  modulateContinuousOnAmplitude amps c (Keyframe (Some 0) (Some a) f) k = UB.
Proof.
  intros HD Hp HS Ec Ek H. unfold modulateContinuousOnAmplitude. destruct amps as [|p0 amps0]; [destruct H; contradiction|].
  unfold amp32_value at 1. cbn [k_amp obind]. rewrite Ec. destruct (astray_find pos D _ HD H) as [(q & ->)|(p & r & -> & L)]; [reflexivity|].
  destruct (Z.eqb_spec (fst p) pos); [lia|]. cbn [andb obind amplitudeLoop]. unfold pos_value. rewrite Ek, Ec. cbn [obind]. rewrite int_ok_fits by lia. cbn [obind].
  destruct (Z.geb_spec (fst p) (pos + D)); [reflexivity|lia].
Qed.
Lemma astray_frequency pos D s freqs c k : 0 < D -> 0 <= pos -> pos + D < 2 ^ 31 -> e_pos c = pos -> k_pos k = Some D -> astray pos D freqs ->
  modulateContinuousOnFrequency freqs c k s = UB.
Proof.
  intros HD Hp HS Ec Ek H. unfold modulateContinuousOnFrequency. destruct freqs as [|p0 freqs0]; [destruct H; contradiction|].
  rewrite Ec. destruct (astray_find pos D _ HD H) as [(q & ->)|(p & r & -> & L)]; [reflexivity|].
  destruct (Z.eqb_spec (fst p) pos); [lia|]. cbn [andb obind frequencyLoop]. unfold pos_value. rewrite Ek, Ec. cbn [obind]. rewrite int_ok_fits by lia. cbn [obind].
  destruct (Z.geb_spec (fst p) (pos + D)); [reflexivity|lia].
Qed.
Lemma astray_effect ts cs ds amps freqs ev t d ps : 1 <= ts < 2 ^ 32 -> ev_time ev = Some t -> ev_duration ev = Some d -> ev_params ev = Some ps -> params_ok ps ->
  is_finite t = true -> is_finite d = true -> (0 <= in_tick ts t)%R -> (1 <= in_tick ts d)%R -> (in_tick ts t + in_tick ts d <= 2147483646)%R ->
  on_ticks ts cs amps -> on_ticks ts ds freqs -> Forall (point_ok 0) amps -> Forall (point_ok (-1)) freqs ->
  misses ts cs t d \/ (spans ts cs t d /\ misses ts ds t d) -> extractContinuous ev amps freqs ts = UB.
Proof.
  intros Hts Et Ed Ep Hps Ft Fd Rt Rd Rs T1 T2 P1 P2 HM. unfold extractContinuous. rewrite Et, Ed, Ep.
  destruct (event_time ts t) as (pos & -> & Npos & Rpos); [lia|exact Ft|lra|]. destruct (event_time ts d) as (D & -> & ND & RD); [lia|exact Fd|lra|]. cbn [obind].
  assert (HD : 0 < D) by (unfold nearest, eps in ND; apply Raux.Rabs_le_inv in ND; apply lt_IZR; lra).
  assert (HS : pos + D < 2 ^ 31).
  { unfold nearest, eps in *. apply Raux.Rabs_le_inv in ND. apply Raux.Rabs_le_inv in Npos. change (2 ^ 31) with (Z.succ 2147483647). apply Zle_lt_succ, Zlt_succ_le, lt_IZR.
    rewrite succ_IZR, plus_IZR. lra. }
  destruct (continuous_params ps Hps DEFAULT_AMPLITUDE DEFAULT_FREQUENCY f64_1) as (a & f & s & -> & Ea & Ef). cbn [obind].
  destruct HM as [HM|(S1 & HM)].
  - rewrite (astray_amplitude pos D); [reflexivity|exact HD|lia|exact HS|reflexivity|reflexivity|eapply misses_ok; eassumption].
  - destruct (amplitude_ok ACTUAL_AMPLITUDE_MIN_C limit_continuous ps a (or_introl (conj eq_refl eq_refl)) Hps Ea) as (Aa & Ra).
    destruct (frequency_range ps f Hps) as (Rf & Af). { destruct (given Sharpness ps); apply Ef. }
    pose proof (two_keyframes pos D a f HD Ra Rf) as I0.
    destruct (modulate_amplitude pos D a (proj1 Rpos) HD HS Ra amps _ _ (Some f) (eq_refl : e_kfs (addKeyframe _ (new_effect pos)) = _) I0 eq_refl P1 (reaches_ok _ _ _ _ _ _ _ T1 S1 Npos ND))
      as (c1 & k1 & -> & (I1 & I2 & _) & _). cbn [obind].
    rewrite (astray_frequency pos D); [reflexivity|exact HD|lia|exact HS|exact I1|exact I2|eapply misses_ok; eassumption].
Qed.

(** *** Transient events *)
Lemma transient_amplitude_ok amps p pos0 b f : 0 <= p < 2 ^ 31 -> between 0 1 b -> Forall (point_ok 0) amps ->
  exists a, transientAmplitude amps p (Keyframe pos0 (Some b) f) = Ok (Keyframe pos0 (Some a) f) /\ between 0 (B2R b) a /\ transient_intensity p b amps a.
Proof.
  intros Hp Hb H. unfold transientAmplitude. destruct amps as [|front rest] eqn:Eamps.
  { exists b. split; [reflexivity|]. split; [apply self_ok, Hb|]. split; [reflexivity|]. split; [discriminate|]. intros [|] *; discriminate. }
  rewrite <- Eamps in H |- *. unfold amp32_value at 1. cbn [k_amp obind].
  destruct (find_from_spec p amps None) as (before & E & F & Hd & N1 & N2). destruct (find_from None amps p) as [prev l] eqn:Ef. cbn [fst snd] in *.
  destruct (last_or_nil before) as [-> |(b1 & q & ->)].
  - pose proof (N1 eq_refl) as ->. cbn [app] in E. subst l. assert (Hf : p <= fst front) by (rewrite Eamps in Hd; exact Hd).
    exists (point_amp b front false). split; [reflexivity|].
    rewrite Eamps in *. inversion H as [|? ? Hfr Hr]; subst. split; [apply point_amp_ok; assumption|]. split; [|split].
    + intros F1. inversion F1; subst. lia.
    + intros x r Q _. injection Q as <- <-. reflexivity.
    + intros [|y b2] q x after Q F1 _; cbn [app] in Q; injection Q as <- _; inversion F1; subst; lia.
  - pose proof (N2 b1 q eq_refl) as ->. destruct l as [|x r].
    + exists b. split; [reflexivity|]. split; [apply self_ok, Hb|]. rewrite app_nil_r in E. split; [reflexivity|]. split.
      * intros x r Q L. rewrite <- E, Q in F. inversion F; subst. lia.
      * intros b2 y x after Q _ L. rewrite <- E, Q in F. apply Forall_app in F. destruct F as (_ & F). inversion F as [|? ? _ F']; inversion F'; subst. lia.
    + rewrite <- app_assoc in E. cbn [app] in E. rewrite Forall_forall in H.
      assert (Hq : point_ok 0 q) by (apply H; rewrite E; apply in_or_app; right; left; reflexivity).
      assert (Hx : point_ok 0 x) by (apply H; rewrite E; apply in_or_app; right; right; left; reflexivity).
      assert (Lq : fst q < p) by (apply Forall_app in F; destruct F as (_ & F); inversion F; assumption).
      destruct Hq as (Rq & Vq), Hx as (Rx & Vx). destruct (interpolated q x p b) as (I1 & I2); try assumption; try lia.
      eexists. split; [reflexivity|]. split; [exact I1|]. split; [|split].
      * intros F1. rewrite E in F1. apply Forall_app in F1. destruct F1 as (_ & F1). inversion F1 as [|? ? _ F2]; inversion F2; subst. lia.
      * intros y s Q L. rewrite E in Q. destruct b1 as [|z b1]; cbn [app] in Q, F; injection Q as <- _; inversion F; subst; lia.
      * intros b2 q2 y after Q F1 L. rewrite E in Q.
        destruct (split_first (fun y => fst y < p) x y (b1 ++ [q]) (b2 ++ [q2]) r after) as (Q1 & <- & _); try assumption; try lia.
        { rewrite <- !app_assoc. exact Q. }
        apply app_inj_tail in Q1. destruct Q1 as (_ & <-). exact I2.
Qed.
Lemma transient_frequency_ok freqs p pos0 a : 0 <= p < 2 ^ 31 -> Forall (point_ok (-1)) freqs ->
  exists f, transientFrequency freqs p (Keyframe pos0 (Some a) (Some 90)) = Ok (Keyframe pos0 (Some a) (Some f)) /\ transient_hertz p freqs f.
Proof.
  intros Hp H. unfold transientFrequency. destruct freqs as [|front rest] eqn:Efreqs.
  { exists 90. split; [reflexivity|]. split; [reflexivity|]. split; [discriminate|]. intros [|] *; discriminate. }
  rewrite <- Efreqs in H |- *.
  destruct (find_from_spec p freqs None) as (before & E & F & Hd & N1 & N2). destruct (find_from None freqs p) as [prev l] eqn:Ef. cbn [fst snd] in *.
  destruct (last_or_nil before) as [-> |(b1 & q & ->)].
  - cbn [app] in E. subst l. assert (Hf : p <= fst front) by (rewrite Efreqs in Hd; exact Hd). pose proof (N1 eq_refl) as ->.
    exists 300. split; [reflexivity|]. rewrite Efreqs in *. split; [|split].
    + intros F1. inversion F1; subst. lia.
    + reflexivity.
    + intros [|y b2] q x after Q F1 _; cbn [app] in Q; injection Q as <- _; inversion F1; subst; lia.
  - pose proof (N2 b1 q eq_refl) as ->. destruct l as [|x r].
    + exists 90. split; [reflexivity|]. rewrite app_nil_r in E. split; [reflexivity|]. split.
      * intros x r Q L. rewrite <- E, Q in F. inversion F; subst. lia.
      * intros b2 y x after Q _ L. rewrite <- E, Q in F. apply Forall_app in F. destruct F as (_ & F). inversion F as [|? ? _ F']; inversion F'; subst. lia.
    + rewrite <- app_assoc in E. cbn [app] in E. rewrite Forall_forall in H.
      assert (Hq : point_ok (-1) q) by (apply H; rewrite E; apply in_or_app; right; left; reflexivity).
      assert (Hx : point_ok (-1) x) by (apply H; rewrite E; apply in_or_app; right; right; left; reflexivity).
      assert (Lq : fst q < p) by (apply Forall_app in F; destruct F as (_ & F); inversion F; assumption).
      destruct Hq as (Rq & Vq), Hx as (Rx & Vx). destruct (transient_frequency q x p) as (z & -> & Bz & Nz); try assumption; try lia.
      unfold freq_value. cbn [obind k_freq]. rewrite int_ok_fits by lia. cbn [obind]. exists (z + 90). split; [reflexivity|]. split; [|split].
      * intros F1. rewrite E in F1. apply Forall_app in F1. destruct F1 as (_ & F1). inversion F1 as [|? ? _ F2]; inversion F2; subst. lia.
      * intros y s Q L. rewrite E in Q. destruct b1 as [|w b1]; cbn [app] in Q, F; injection Q as <- _; inversion F; subst; lia.
      * intros b2 q2 y after Q F1 L. rewrite E in Q.
        destruct (split_first (fun y => fst y < p) x y (b1 ++ [q]) (b2 ++ [q2]) r after) as (Q1 & <- & _); try assumption; try lia.
        { rewrite <- !app_assoc. exact Q. }
        apply app_inj_tail in Q1. destruct Q1 as (_ & <-). rewrite plus_IZR. apply Raux.Rabs_le_inv in Nz. apply Rabs_le. lra.
Qed.
Lemma transient_ok_effect ts amps freqs ev : 1 <= ts < 2 ^ 32 -> transient_ok ts ev -> Forall (point_ok 0) amps -> Forall (point_ok (-1)) freqs ->
  exists p a f, extractTransients ev amps freqs ts = Ok (Some (addKeyframe (Keyframe (Some 0) (Some a) (Some f)) (new_effect p))) /\
    transient_keyframe ts amps freqs ev (Keyframe (Some p) (Some a) (Some f)).
Proof.
  intros Hts (t & ps & Et & Ep & Hps & Ft & Rt) P1 P2. unfold extractTransients. rewrite Et, Ep.
  destruct (event_time ts t) as (p & -> & Np & Rp); [lia|exact Ft|lra|]. cbn [obind]. unfold DEFAULT_FREQUENCY. rewrite transient_params.
  set (b := match given Intensity ps with None => _ | Some v => _ end).
  destruct (amplitude_ok ACTUAL_AMPLITUDE_MIN_T limit_transient ps b (or_intror (conj eq_refl eq_refl)) Hps eq_refl) as (Ab & Rb).
  destruct (transient_amplitude_ok amps p (Some 0) b (Some 90) Rp Rb P1) as (a & -> & Ra & Ha). cbn [obind].
  destruct (transient_frequency_ok freqs p (Some 0) a Rp P2) as (f & -> & Hf). cbn [obind].
  exists p, a, f. split; [reflexivity|]. exists t, ps, p, a, b, f. auto 12.
Qed.

(** *** The document *)
Lemma control_points ts lo t l : 1 <= ts < 2 ^ 32 ->
  Forall (fun '((t, u, v) as p) => is_finite t = true /\ is_finite u = true /\ (0 <= when ts p <= 2147483646)%R /\ between lo 1 v) (flat_map (control_of t) l) ->
  exists ps, controlPoints t ts l = Ok ps /\ on_ticks ts (flat_map (control_of t) l) ps /\ Forall (point_ok lo) ps.
Proof.
  intros Hts. induction l as [|c l IH]; intros H; cbn [controlPoints flat_map].
  - exists []. split; [reflexivity|]. split; constructor.
  - cbn [flat_map] in H. apply Forall_app in H. destruct H as (H1 & H2). destruct (IH H2) as (ps & E & P1 & P2). unfold control_of at 1. unfold control_of at 1 in H1.
    destruct (co_time c) as [u|]; [|exists ps; auto]. destruct (co_value c) as [v|]; [|exists ps; auto].
    apply Forall_inv in H1. cbv beta iota in H1. destruct H1 as (F1 & F2 & R & B). unfold when in R.
    destruct (control_time ts t u Hts F1 F2 R) as (z & -> & Bz & Rz). cbn [obind]. rewrite E. cbn [obind].
    exists ((z, v) :: ps). split; [reflexivity|]. split; constructor; try assumption; split; auto.
Qed.
Lemma curves_ok ts : 1 <= ts < 2 ^ 32 -> forall d, Forall (curve_ok ts 0 IntensityControl) d -> Forall (curve_ok ts (-1) SharpnessControl) d -> forall A F,
  exists amps freqs, extractCurves d ts A F = Ok (Some (A ++ amps, F ++ freqs)) /\
    on_ticks ts (controls IntensityControl d) amps /\ on_ticks ts (controls SharpnessControl d) freqs /\ Forall (point_ok 0) amps /\ Forall (point_ok (-1)) freqs.
Proof.
  intros Hts d H1. induction H1 as [|i d Hi H1 IH]; intros H2 A F; cbn [extractCurves].
  - exists [], []. rewrite !app_nil_r. split; [reflexivity|]. repeat split; constructor.
  - inversion H2 as [|? ? Hj H2']; subst. unfold controls. cbn [flat_map]. unfold controls_of at 1 3.
    destruct (it_curve i) as [c|] eqn:Ec; [|apply IH, H2']. fold IntensityControl SharpnessControl.
    assert (X : forall id lo K, curve_ok ts lo id i -> str_eqb (cu_id c) id = true -> exists ps,
      extractKeyframes c ts K = Ok (Some (K ++ ps)) /\ on_ticks ts (match cu_time c, cu_points c with Some t, Some l => flat_map (control_of t) l | _, _ => [] end) ps /\ Forall (point_ok lo) ps).
    { intros id lo K Hc Eid. apply str_eqb_iff in Eid. destruct (Hc c Ec Eid) as (T & P & Q). unfold extractKeyframes. unfold controls_of in Q. rewrite Ec in Q.
      rewrite (proj2 (str_eqb_iff _ _) Eid) in Q. destruct (cu_time c) as [t|]; [|contradiction]. destruct (cu_points c) as [l|]; [|contradiction].
      destruct (control_points ts lo t l Hts Q) as (ps & -> & S1 & S2). exists ps. auto. }
    assert (XA : exists pa, (if str_eqb (cu_id c) IntensityControl then extractKeyframes c ts A else Ok (Some A)) = Ok (Some (A ++ pa)) /\
      on_ticks ts (if str_eqb (cu_id c) IntensityControl then match cu_time c, cu_points c with Some t, Some l => flat_map (control_of t) l | _, _ => [] end else []) pa /\ Forall (point_ok 0%R) pa).
    { destruct (str_eqb (cu_id c) IntensityControl) eqn:Eid; [apply (X _ 0%R A Hi Eid)|]. exists []. rewrite app_nil_r. split; [reflexivity|]. split; constructor. }
    assert (XF : exists pf, (if str_eqb (cu_id c) SharpnessControl then extractKeyframes c ts F else Ok (Some F)) = Ok (Some (F ++ pf)) /\
      on_ticks ts (if str_eqb (cu_id c) SharpnessControl then match cu_time c, cu_points c with Some t, Some l => flat_map (control_of t) l | _, _ => [] end else []) pf /\ Forall (point_ok (-1)) pf).
    { destruct (str_eqb (cu_id c) SharpnessControl) eqn:Eid; [apply (X _ (-1)%R F Hj Eid)|]. exists []. rewrite app_nil_r. split; [reflexivity|]. split; constructor. }
    destruct XA as (pa & -> & A1 & A2). destruct XF as (pf & -> & F1 & F2). cbn [obind].
    destruct (IH H2' (A ++ pa) (F ++ pf)) as (amps & freqs & -> & Q1 & Q2 & Q3 & Q4). exists (pa ++ amps), (pf ++ freqs). rewrite !app_assoc. split; [reflexivity|].
    split; [apply Forall2_app; assumption|]. split; [apply Forall2_app; assumption|]. split; apply Forall_app; auto.
Qed.
(** A transient as the code has it: a keyframe at 0 in an effect at the time. *)
Definition single (e : effect) (k : keyframe) : Prop :=
  exists p a f, e = addKeyframe (Keyframe (Some 0) (Some a) (Some f)) (new_effect p) /\ k = Keyframe (Some p) (Some a) (Some f) /\ 0 <= p < 2 ^ 31.
Lemma events_ok ts amps freqs cs ds : 1 <= ts < 2 ^ 32 -> Forall (point_ok 0) amps -> Forall (point_ok (-1)) freqs -> on_ticks ts cs amps -> on_ticks ts ds freqs ->
  forall d, Forall (transient_ok ts) (events Transient d) -> Forall (continuous_ok ts cs ds) (events Continuous d) -> forall T C,
  exists tr ks es, extractEvents d amps freqs ts T C = Ok (Some (T ++ tr, C ++ es)) /\ Forall2 single tr ks /\
    Forall2 (transient_keyframe ts amps freqs) (events Transient d) ks /\ Forall2 (continuous_effect ts amps freqs) (events Continuous d) es.
Proof.
  intros Hts P1 P2 T1 T2. induction d as [|i d IH]; intros H1 H2 T C; cbn [extractEvents].
  - exists [], [], []. rewrite !app_nil_r. split; [reflexivity|]. repeat split; constructor.
  - unfold events in *. cbn [flat_map] in *. apply Forall_app in H1, H2. destruct H1 as (H1 & H1'), H2 as (H2 & H2'). unfold event_of at 1 3. unfold event_of in H1. unfold event_of in H2.
    destruct (it_event i) as [ev|] eqn:Ee; [|apply IH; assumption]. fold Transient Continuous.
    assert (XT : exists tr ks, (if str_eqb (ev_type ev) Transient then do o <- extractTransients ev amps freqs ts; Ok (match o with Some e => Some (T ++ [e]) | None => None end) else Ok (Some T)) = Ok (Some (T ++ tr)) /\
      Forall2 single tr ks /\ Forall2 (transient_keyframe ts amps freqs) (if str_eqb (ev_type ev) Transient then [ev] else []) ks).
    { destruct (str_eqb (ev_type ev) Transient); [|exists [], []; rewrite app_nil_r; split; [reflexivity|]; split; constructor].
      inversion H1 as [|? ? Hev _]; subst. destruct (transient_ok_effect ts amps freqs ev Hts Hev P1 P2) as (p & a & f & -> & K). cbn [obind].
      eexists [_], [_]. split; [reflexivity|]. split; [|constructor; [exact K|constructor]]. constructor; [|constructor]. exists p, a, f. split; [reflexivity|]. split; [reflexivity|].
      destruct K as (? & ? & ? & ? & ? & ? & _ & _ & Ek & _ & R & _). injection Ek as -> _ _. exact R. }
    assert (XC : exists es, (if str_eqb (ev_type ev) Continuous then do o <- extractContinuous ev amps freqs ts; Ok (match o with Some e => Some (C ++ [e]) | None => None end) else Ok (Some C)) = Ok (Some (C ++ es)) /\
      Forall2 (continuous_effect ts amps freqs) (if str_eqb (ev_type ev) Continuous then [ev] else []) es).
    { destruct (str_eqb (ev_type ev) Continuous); [|exists []; rewrite app_nil_r; split; [reflexivity|constructor]].
      inversion H2 as [|? ? Hev _]; subst. destruct (continuous_ok_effect ts cs ds amps freqs ev Hts Hev T1 T2 P1 P2) as (e & -> & K). cbn [obind].
      eexists [_]. split; [reflexivity|]. constructor; [exact K|constructor]. }
    destruct XT as (tr & ks & -> & S1 & S2). destruct XC as (es & -> & S3). cbn [obind].
    destruct (IH H1' H2' (T ++ tr) (C ++ es)) as (tr2 & ks2 & es2 & -> & Q1 & Q2 & Q3). exists (tr ++ tr2), (ks ++ ks2), (es ++ es2). rewrite !app_assoc. split; [reflexivity|].
    split; [apply Forall2_app; assumption|]. split; apply Forall2_app; assumption.
Qed.
Lemma transient_effect_ok tr ks : Forall2 single tr ks -> forall out, transientEffect tr out = Ok (set_kfs (e_kfs out ++ ks) out).
Proof.
  induction 1 as [|e k tr ks (p & a & f & -> & -> & R) H IH]; intros out; cbn [transientEffect].
  - rewrite app_nil_r. destruct out. reflexivity.
  - cbn [transientKeyframes addKeyframe new_effect e_kfs e_pos set_kfs app k_pos value_or k_amp k_freq]. rewrite int_ok_fits by lia. cbn [obind]. rewrite IH.
    f_equal. unfold addKeyframe. cbn [e_kfs set_kfs]. rewrite <- app_assoc. reflexivity.
Qed.

(** *** The bands *)
Definition vband_ok (b : band) : Prop := band_ok b /\ b_low b = 65 /\ b_up b = 300.
Lemma effect_same e : set_pos (e_pos e) e = e. Proof. destruct e. reflexivity. Qed.
Lemma inject_one ts amps freqs ev e c tb bs : continuous_effect ts amps freqs ev e -> c_bands c = tb :: bs -> b_type tb = TransientB -> Forall vband_ok bs ->
  exists bs', injectContinuous e c = Ok (set_bands (tb :: bs') c) /\ Forall vband_ok bs' /\ Permutation (flat_map b_effects bs') (e :: flat_map b_effects bs).
Proof.
  intros (t & d & ps & D & a & f & _ & _ & _ & _ & _ & Hp & HD & HS & _ & _ & HE & _) Ec Ht Hb. apply envelope1_envelope in HE. unfold injectContinuous.
  destruct (envelope_within _ _ _ HE) as (_ & r & k & Ek & Pk). rewrite Ek, rev_app_distr. cbn [rev app].
  unfold pos_value. rewrite Pk. cbn [obind].
  destruct (free_band c (e_pos e) D VectorialB) as (o & -> & Ho).
  { unfold VectorialB. lia. } { lia. } { lia. } { lia. }
  { rewrite Ec. constructor; [intros Q; rewrite Ht in Q; discriminate|]. eapply Forall_impl; [|exact Hb]. intros b ((_ & _ & _ & H) & _) _. exact H. }
  cbn [obind]. destruct o as [j|].
  - destruct Ho as (b & Ej & Hty & Hfree). unfold upd_at. rewrite Ej. destruct (vec_set_split _ _ b (addEffect e b) Ej) as (x & y & El & ->).
    rewrite Ec in El. destruct x as [|x0 x]; cbn [app] in El; injection El as <- El; [rewrite Ht in Hty; discriminate|]. subst bs.
    apply Forall_app in Hb. destruct Hb as (Hx & Hy). inversion Hy as [|? ? (Hbb & Hl & Hu) Hy']; subst.
    exists (x ++ addEffect e b :: y). split; [reflexivity|]. split.
    + apply Forall_app. split; [exact Hx|]. constructor; [|exact Hy']. split; [|split; [exact Hl|exact Hu]].
      rewrite <- (effect_same e). apply (band_add b e D (e_pos e)); [exact Hbb|exact HE|lia|lia|exact Hfree].
    + rewrite !flat_map_app. cbn [flat_map]. cbn [addEffect set_effects b_effects].
      eapply Permutation_trans; [apply Permutation_app_head, Permutation_app_tail, insert_perm|]. cbn [app]. apply Permutation_sym, Permutation_middle.
  - rewrite Ec. exists (bs ++ [addEffect e (new_band VectorialB)]). split; [reflexivity|]. split.
    + apply Forall_app. split; [exact Hb|]. constructor; [|constructor]. split; [|split; reflexivity]. rewrite <- (effect_same e). apply (band_add _ e D (e_pos e)); [|exact HE|lia|lia|constructor].
      split; [reflexivity|]. split; [constructor|]. split; constructor.
    + rewrite flat_map_app. cbn [flat_map addEffect set_effects b_effects insert_effect new_band app]. apply Permutation_sym, Permutation_cons_append.
Qed.
Lemma inject_all ts amps freqs evs es : Forall2 (continuous_effect ts amps freqs) evs es -> forall c tb bs, c_bands c = tb :: bs -> b_type tb = TransientB -> Forall vband_ok bs ->
  exists bs', injectContinuousAll es c = Ok (set_bands (tb :: bs') c) /\ Forall vband_ok bs' /\ Permutation (flat_map b_effects bs') (es ++ flat_map b_effects bs).
Proof.
  induction 1 as [|ev e evs es He H IH]; intros c tb bs Ec Ht Hb; cbn [injectContinuousAll].
  - exists bs. split; [rewrite <- Ec; destruct c; reflexivity|]. split; [exact Hb|apply Permutation_refl].
  - destruct (inject_one ts amps freqs ev e c tb bs He Ec Ht Hb) as (b1 & -> & V1 & S1). cbn [obind].
    destruct (IH (set_bands (tb :: b1) c) tb b1 eq_refl Ht V1) as (b2 & -> & V2 & S2). exists b2. split; [reflexivity|]. split; [exact V2|].
    eapply Permutation_trans; [exact S2|]. eapply Permutation_trans; [apply Permutation_app_head, S1|]. apply Permutation_sym, Permutation_middle.
Qed.
Theorem import_ok ts d p : 1 <= ts < 2 ^ 32 -> document_ok ts d -> p_channels p = [] ->
  exists c, encode d ts p = Ok (Some (set_channels [c] p)) /\ imported ts d c.
Proof.
  intros Hts (H1 & H2 & H3 & H4) Hp. unfold encode. rewrite Hp. cbn [length]. change (1 <? 0)%nat with false. cbv iota.
  destruct (curves_ok ts Hts d H1 H2 [] []) as (amps & freqs & -> & T1 & T2 & P1 & P2). cbn [app obind].
  destruct (events_ok ts amps freqs _ _ Hts P1 P2 T1 T2 d H3 H4 [] []) as (tr & ks & es & -> & S1 & S2 & S3). cbn [app obind].
  unfold addChannel. rewrite Hp. cbn [app p_channels set_channels]. unfold encodeChannel. rewrite (transient_effect_ok tr ks S1). cbn [obind].
  set (te := set_kfs _ effect0).
  destruct (inject_all ts amps freqs _ es S3 (addBand (addEffect te (new_band TransientB)) new_channel) (addEffect te (new_band TransientB)) [] eq_refl eq_refl (Forall_nil _))
    as (bs & -> & V & S). cbn [obind].
  eexists. split; [reflexivity|]. exists amps, freqs, (addEffect te (new_band TransientB)), bs, ks, es.
  split; [exact T1|]. split; [exact T2|]. split; [reflexivity|]. split; [reflexivity|]. split; [reflexivity|]. split; [reflexivity|].
  split; [exists te; split; [reflexivity|]; split; reflexivity|]. split; [exact S2|]. split; [|split; [exact S3|]].
  - eapply Forall_impl; [|exact V]. intros b ((B1 & B2 & B3 & _) & B4 & B5). auto.
  - cbn [flat_map] in S. rewrite app_nil_r in S. exact S.
Qed.

(** *** Curves that miss an event *)
Lemma events_undefined ts amps freqs ev r : 1 <= ts < 2 ^ 32 -> Forall (point_ok 0) amps -> Forall (point_ok (-1)) freqs -> extractContinuous ev amps freqs ts = UB ->
  forall d, Forall (transient_ok ts) (events Transient d) -> events Continuous d = ev :: r -> forall T C, extractEvents d amps freqs ts T C = UB.
Proof.
  intros Hts P1 P2 HU. induction d as [|i d IH]; intros H1 H2 T C; cbn [extractEvents]; [discriminate|].
  unfold events in *. cbn [flat_map] in *. apply Forall_app in H1. destruct H1 as (H1 & H1'). unfold event_of in H1. unfold event_of at 1 in H2.
  destruct (it_event i) as [ev1|] eqn:Ee; [|apply IH; assumption]. fold Transient Continuous.
  match goal with |- obind ?m _ = _ => assert (XT : exists T', m = Ok (Some T')) end.
  { destruct (str_eqb (ev_type ev1) Transient); [|eauto].
    apply Forall_inv in H1. destruct (transient_ok_effect ts amps freqs ev1 Hts H1 P1 P2) as (p & a & f & -> & _). cbn [obind]. eauto. }
  destruct XT as (T' & ->). cbn [obind]. destruct (str_eqb (ev_type ev1) Continuous).
  - cbn [app] in H2. injection H2 as -> _. rewrite HU. reflexivity.
  - cbn [obind]. apply IH; assumption.
Qed.
Lemma import_undefined ts d p ev r t dur ps : 1 <= ts < 2 ^ 32 -> (length (p_channels p) <= 1)%nat ->
  Forall (curve_ok ts 0 IntensityControl) d -> Forall (curve_ok ts (-1) SharpnessControl) d -> Forall (transient_ok ts) (events Transient d) ->
  events Continuous d = ev :: r -> ev_time ev = Some t -> ev_duration ev = Some dur -> ev_params ev = Some ps -> params_ok ps ->
  is_finite t = true -> is_finite dur = true -> (0 <= in_tick ts t)%R -> (1 <= in_tick ts dur)%R -> (in_tick ts t + in_tick ts dur <= 2147483646)%R ->
  misses ts (controls IntensityControl d) t dur \/ (spans ts (controls IntensityControl d) t dur /\ misses ts (controls SharpnessControl d) t dur) ->
  encode d ts p = UB.
Proof.
  intros Hts Hl H1 H2 H3 Hev Et Ed Ep Hps Ft Fd Rt Rd Rs HM. unfold encode. destruct (Nat.ltb_spec 1 (length (p_channels p))); [lia|].
  destruct (curves_ok ts Hts d H1 H2 [] []) as (amps & freqs & -> & T1 & T2 & P1 & P2). cbn [app obind].
  rewrite (events_undefined ts amps freqs ev r Hts P1 P2); [reflexivity| |exact H3|exact Hev].
  eapply astray_effect; eassumption.
Qed.
