From Coq Require Import Sorting.Permutation Sorting.Sorted Reals Lra Strings.String.
From Flocq Require Import Core BinarySingleNaN.
From Verif Require Import Base FloatBase FloatModel FloatProof Float64Proof TypesModel TypesSpec TypesProof ToolsModel ToolsProof SemanticModel SynthModel SynthSpec SynthProof SynthMore IvsModel IvsSpec IvsProof IvsFloatProof IvsImport.
Local Open Scope Z_scope.
Local Open Scope list_scope.

(** *** The getters *)
Lemma start_same l : launch_time l = start_of l. Proof. unfold launch_time, start_of. destruct (la_time l); reflexivity. Qed.
Lemma lasts_same b l : getDuration b l = lasts b l.
Proof. unfold getDuration, lasts, asked. destruct (la_duration l), (ba_duration b); reflexivity. Qed.
Lemma strength_same b l : getMagnitude b l = strength b l.
Proof. unfold getMagnitude, strength, asked. destruct (la_magnitude l), (ba_magnitude b); reflexivity. Qed.
Lemma float_same f : floatToInt f = milliseconds f.
Proof. unfold floatToInt, milliseconds. destruct (f <? 0); [|reflexivity]. f_equal. lia. Qed.
Lemma period_same b l : getPeriod b l = period_of b l.
Proof. unfold getPeriod, period_of, asked. destruct (la_period l) as [p|], (ba_period b) as [q|]; cbn [option_map]; try apply float_same; reflexivity. Qed.
Lemma wave_same b w : wave_named (ba_waveform b) w -> getWaveform b = w.
Proof. unfold getWaveform. intros H. inversion H as [E|E|E|E|E]; vm_compute; reflexivity. Qed.
Lemma attack_same b : value_or (ba_attack_level b) 0 = attack_level b.
Proof. unfold attack_level. destruct (ba_attack_level b); reflexivity. Qed.
Lemma fade_same b : value_or (ba_fade_level b) 0 = fade_level b.
Proof. unfold fade_level. destruct (ba_fade_level b); reflexivity. Qed.
Lemma names_differ x y : str_eqb x y = false -> y <> x.
Proof. intros H E. subst y. assert (T : str_eqb x x = true) by (apply str_eqb_iff; reflexivity). congruence. Qed.
Lemma launches_same bs l b : launches bs l b <-> getLaunchedEffect bs l = Some b.
Proof.
  unfold getLaunchedEffect. split.
  - intros (pre & post & -> & E & F). induction F as [|x pre Hx F IH]; cbn.
    + rewrite E. assert (T : str_eqb (la_effect l) (la_effect l) = true) by (apply str_eqb_iff; reflexivity). rewrite T. reflexivity.
    + destruct (str_eqb (la_effect l) (ba_name x)) eqn:Ex; [apply str_eqb_iff in Ex; congruence|exact IH].
  - induction bs as [|x bs IH]; cbn; [discriminate|]. destruct (str_eqb (la_effect l) (ba_name x)) eqn:Ex.
    + intros E. injection E as <-. apply str_eqb_iff in Ex. exists [], bs. split; [reflexivity|]. split; [congruence|constructor].
    + intros H. destruct (IH H) as (pre & post & -> & E & F). exists (x :: pre), post. split; [reflexivity|]. split; [exact E|]. constructor; [|exact F].
      apply names_differ, Ex.
Qed.
Lemma none_same bs l : launches_none bs l <-> getLaunchedEffect bs l = None.
Proof.
  unfold getLaunchedEffect, launches_none. induction bs as [|x bs IH]; cbn; [split; auto|]. destruct (str_eqb (la_effect l) (ba_name x)) eqn:Ex.
  - split; [|discriminate]. intros H. apply str_eqb_iff in Ex. inversion H; congruence.
  - rewrite <- IH. split; [intros H; inversion H; assumption|]. intros H. constructor; [|exact H]. apply names_differ, Ex.
Qed.
Lemma times_same ts b l : times_ok ts b l <-> times_m ts b l.
Proof. unfold times_ok, times_m. pose proof (lasts_same b l) as E. rewrite E. tauto. Qed.
Lemma launched_same bs ts ls es : launched bs (converted ts) ls es <-> launched_m bs ts ls es.
Proof.
  split; induction 1.
  - constructor.
  - apply MaUnknown; [apply none_same; assumption|assumption].
  - eapply MaOther; [apply launches_same; eassumption|assumption|assumption].
  - eapply MaEffect; [apply launches_same; eassumption|assumption|assumption].
  - constructor.
  - apply LaUnknown; [apply none_same; assumption|assumption].
  - eapply LaOther; [apply launches_same; eassumption|assumption|assumption].
  - eapply LaEffect; [apply launches_same; eassumption|assumption|assumption].
Qed.

(** *** Amplitudes *)
Section Amplitude.
Local Open Scope R_scope.
Lemma scale_value : B2R MAGNITUDE_2_AMPLITUDE = 13743895 / 137438953472.
Proof. unfold MAGNITUDE_2_AMPLITUDE, B2R, F2R. cbn -[bpow]. change (-37)%Z with (Z.opp 37). rewrite (bpow_inv 37) by lia. cbn. lra. Qed.
Lemma amplitude_level m : level m (amplitude_of m).
Proof.
  intros Hm. destruct (Z.eq_dec m 0) as [->|Hz].
  { split; [vm_compute; reflexivity|]. replace (B2R (amplitude_of 0)) with 0; [|vm_compute; reflexivity].
    replace (0 - 0 / 10000) with 0 by lra. rewrite Rabs_R0. apply Rmult_le_pos; [apply Rabs_pos|lra]. }
  assert (Lo : 1 <= Rabs (IZR m)) by (rewrite <- abs_IZR; apply IZR_le; lia).
  assert (Hi : Rabs (IZR m) <= 2147483648) by (rewrite <- abs_IZR; apply IZR_le; lia).
  destruct (f32_of_Z_ok m) as (E0 & F0); [lia|]. pose proof (err32 (IZR m)) as R0. rewrite <- E0 in R0.
  assert (Tiny : 0 < bpow radix2 (-150) <= / 1099511627776).
  { split; [apply bpow_gt_0|]. change (-150)%Z with (Z.opp 150). apply Rle_trans with (bpow radix2 (Z.opp 40)); [apply bpow_le; lia|]. rewrite (bpow_inv 40) by lia. cbn. lra. }
  set (x := B2R (f32_of_Z m)) in *. set (t := bpow radix2 (-150)) in *. assert (X : Rabs x <= 2200000000).
  { replace x with (x - IZR m + IZR m) by ring. eapply Rle_trans; [apply Rabs_triang|]. lra. }
  destruct (mul32_ok (f32_of_Z m) MAGNITUDE_2_AMPLITUDE F0 eq_refl) as (E1 & F1).
  { rewrite scale_value, Rabs_mult. fold x. rewrite (Rabs_pos_eq (13743895 / 137438953472)) by lra.
    apply Rle_trans with (bpow radix2 30); [|apply bpow_le; lia]. rewrite bpow_IZR by lia. cbn. lra. }
  split; [exact F1|]. unfold amplitude_of. rewrite E1, scale_value. fold x. pose proof (err32 (x * (13743895 / 137438953472))) as R1. fold t in R1.
  rewrite Rabs_mult in R1. rewrite (Rabs_pos_eq (13743895 / 137438953472)) in R1 by lra.
  set (y := rnd32 (x * (13743895 / 137438953472))) in *.
  replace (Rabs (IZR m / 10000)) with (Rabs (IZR m) / 10000) by (unfold Rdiv; rewrite Rabs_mult, (Rabs_pos_eq (/ 10000)); lra).
  assert (Xm : Rabs x <= Rabs (IZR m) * (1 + / 8388608)).
  { replace x with (x - IZR m + IZR m) by ring. eapply Rle_trans; [apply Rabs_triang|]. lra. }
  replace (y - IZR m / 10000) with ((y - x * (13743895 / 137438953472)) + ((x - IZR m) * (13743895 / 137438953472) + IZR m * (13743895 / 137438953472 - / 10000))) by (unfold Rdiv; ring).
  eapply Rle_trans; [apply Rabs_triang|]. eapply Rle_trans; [apply Rplus_le_compat_l, Rabs_triang|].
  rewrite !Rabs_mult. rewrite (Rabs_pos_eq (13743895 / 137438953472)) by lra.
  assert (C : Rabs (13743895 / 137438953472 - / 10000) <= / 10000 / 16777216) by (apply Rabs_le; lra).
  pose proof (Rmult_le_compat_l _ _ _ (Rabs_pos (IZR m)) C) as C1. lra.
Qed.
End Amplitude.

(** *** Effects *)
Lemma effect_periodic ts b l : 0 <= ts < 2 ^ 32 -> times_ok ts b l -> periodic b -> 1 <= period_of b l <= 2 ^ 24 ->
  exists e f, convertToEffect b l ts = Ok (Some e) /\ rendered ts b l f e /\ frequency_for (period_of b l) f /\
    (forall w, wave_named (ba_waveform b) w -> e_base e = Some w).
Proof.
  intros Hts Ht Hb Hp. rewrite <- (period_same b l) in Hp |- *. apply times_same in Ht.
  destruct (convert_periodic ts b l Hts Ht Hb Hp) as (e & D & a0 & f & aD & E & Q1 & Q2 & Q3 & Q4 & Q5 & Q6 & Q7 & Q8 & Q9 & Q10 & Q11).
  exists e, f. split; [exact E|]. rewrite lasts_same, attack_same, fade_same, strength_same, start_same in *. split; [|split; [exact Q5|]].
  - split; [exact Q1|]. exists D, a0, aD. do 5 (split; [assumption|]). split; [|split].
    + intros Ea. rewrite (Q9 Ea). apply amplitude_level.
    + intros t Ea H. rewrite (Q10 t Ea H). apply amplitude_level.
    + intros H. destruct (Q11 H) as (R1 & R2). split; intros Ef; [rewrite (R1 Ef)|rewrite (R2 Ef)]; apply amplitude_level.
  - intros w Hw. rewrite Q2. f_equal. apply wave_same, Hw.
Qed.
Lemma effect_magsweep ts b l : 0 <= ts < 2 ^ 32 -> times_ok ts b l -> magsweep b ->
  exists e, convertToEffect b l ts = Ok (Some e) /\ rendered ts b l 170 e /\ e_base e = Some Sine.
Proof.
  intros Hts Ht Hb. apply times_same in Ht.
  destruct (convert_magsweep ts b l Hts Ht Hb) as (e & D & a0 & aD & E & Q1 & Q2 & Q3 & Q4 & Q6 & Q7 & Q8 & Q9 & Q10 & Q11).
  exists e. split; [exact E|]. rewrite lasts_same, attack_same, fade_same, strength_same, start_same in *. split; [|exact Q2].
  split; [exact Q1|]. exists D, a0, aD. do 5 (split; [assumption|]). split; [|split].
  - intros Ea. rewrite (Q9 Ea). apply amplitude_level.
  - intros t Ea H. rewrite (Q10 t Ea H). apply amplitude_level.
  - intros H. destruct (Q11 H) as (R1 & R2). split; intros Ef; [rewrite (R1 Ef)|rewrite (R2 Ef)]; apply amplitude_level.
Qed.
Lemma kinds_differ b : periodic b -> magsweep b -> False.
Proof. unfold periodic, magsweep. intros H1 H2. rewrite H1 in H2. vm_compute in H2. discriminate. Qed.
Lemma launched_rendered bs ts ls es : 0 <= ts < 2 ^ 32 ->
  (forall l b, In l ls -> launches bs l b -> times_ok ts b l /\ (periodic b -> 1 <= period_of b l <= 2 ^ 24)) ->
  launched_m bs ts ls es -> launched bs (rendered_as ts) ls es.
Proof.
  intros Hts H L. revert H. induction L as [|l ls es E L IH|l b ls es E Ec L IH|l b e ls es E Ec L IH]; intros H.
  - constructor.
  - apply LaUnknown; [apply none_same, E|]. apply IH. intros l' b' Hl. apply H. right. exact Hl.
  - apply launches_same in E. destruct (H l b (or_introl eq_refl) E) as (Ht & Hp). eapply LaOther; [exact E| |apply IH; intros l' b' Hl; apply H; right; exact Hl].
    split; intros K.
    + destruct (effect_periodic ts b l Hts Ht K (Hp K)) as (e & f & Q & _). congruence.
    + destruct (effect_magsweep ts b l Hts Ht K) as (e & Q & _). congruence.
  - apply launches_same in E. destruct (H l b (or_introl eq_refl) E) as (Ht & Hp). eapply LaEffect; [exact E| |apply IH; intros l' b' Hl; apply H; right; exact Hl].
    destruct (str_eqb (ba_type b) (bytes_of "periodic")) eqn:E1; [apply str_eqb_iff in E1|].
    { destruct (effect_periodic ts b l Hts Ht E1 (Hp E1)) as (e' & f & Q & R1 & R2 & R3). rewrite Q in Ec. injection Ec as <-.
      exists f. split; [exact R1|]. left. auto. }
    destruct (str_eqb (ba_type b) (bytes_of "magsweep")) eqn:E2; [apply str_eqb_iff in E2|].
    { destruct (effect_magsweep ts b l Hts Ht E2) as (e' & Q & R1 & R2). rewrite Q in Ec. injection Ec as <-. exists 170. split; [exact R1|]. right. auto. }
    rewrite convert_other in Ec; [discriminate| |]; intros Q; [unfold periodic in Q|unfold magsweep in Q]; apply str_eqb_iff in Q; congruence.
Qed.

(** *** Timelines and documents *)
Lemma timeline_effects bs ts t es : separate (te_repeats t) -> launched bs (converted ts) (te_launches t) es -> in_time_order es ->
  exists out, timelineEffects bs ts t = Ok out /\ Permutation out (flat_map (played (te_repeats t)) es).
Proof. intros H1 H2. apply timeline_flat; [exact H1|]. apply launched_same, H2. Qed.
Lemma sorted_impl {A} (P Q : A -> A -> Prop) l : (forall a b, P a b -> Q a b) -> StronglySorted P l -> StronglySorted Q l.
Proof. intros H. induction 1 as [|a l S IH F]; constructor; [exact IH|]. eapply Forall_impl; [|exact F]. cbn. auto. Qed.
Lemma importable_same bs ts t : importable bs ts t -> importable_m bs ts t.
Proof.
  intros (H1 & H2 & H3). split; [exact H1|]. split.
  - eapply sorted_impl; [|exact H2]. intros a b H. pose proof (start_same a) as E1. pose proof (start_same b) as E2. cbv beta in *. lia.
  - intros l b Hl Hb. apply launches_same in Hb. destruct (H3 l b Hl Hb) as (Q1 & Q2 & Q3). split; [apply times_same, Q1|]. split.
    + intros Kp. rewrite period_same. auto.
    + pose proof (start_same l) as E1. pose proof (lasts_same b l) as E2. rewrite E1, E2. exact Q3.
Qed.
Lemma imported_same bs ts date t c : 0 <= ts < 2 ^ 32 -> importable bs ts t -> imported_m bs ts date t c -> imported bs ts date t c.
Proof.
  intros Hts (_ & _ & H3) (Q1 & Q2 & es & es' & L & F & P). split; [exact Q1|]. split; [exact Q2|]. exists es, es'. split; [|split; assumption].
  apply launched_rendered; [exact Hts| |exact L]. intros l b Hl Hb. destruct (H3 l b Hl Hb) as (R1 & R2 & _). split; assumption.
Qed.
Lemma encode_document d ts p : 0 <= ts < 2 ^ 32 -> p_channels p = [] -> Forall (importable (iv_basis d) ts) (iv_timelines d) ->
  exists cs, encode d ts p = Ok (set_channels cs p) /\ Forall2 (imported (iv_basis d) ts (iv_modified d)) (iv_timelines d) cs.
Proof.
  intros Hts Hp H. destruct (encode_imported d ts p Hts Hp) as (cs & E & F).
  { eapply Forall_impl; [|exact H]. intros t. apply importable_same. }
  exists cs. split; [exact E|]. clear E. induction F as [|t c tl cl Ht F IH]; [constructor|]. inversion H as [|? ? H1 H2]; subst.
  constructor; [apply imported_same; assumption|apply IH, H2].
Qed.
Lemma nested_none bs ts t es r s : In r (te_repeats t) -> In s (te_repeats t) -> r_start r < r_start s < r_end r ->
  launched bs (converted ts) (te_launches t) es -> Forall (fun e => Forall (fun q => ~ covers q (e_pos e)) (te_repeats t)) es ->
  timelineEffects bs ts t = Ok [].
Proof. intros H1 H2 H3 H4 H5. apply launched_same in H4. exact (nested_lost bs ts t es r s H1 H2 H3 H4 H5). Qed.
Lemma order_delayed bs ts t r a b : te_repeats t = [r] -> 0 < r_length r /\ 0 <= r_count r -> launched bs (converted ts) (te_launches t) [a; b] ->
  r_end r <= e_pos a -> e_pos b < r_start r ->
  let d := r_count r * r_length r in
  timelineEffects bs ts t = Ok [set_pos (e_pos a + d) a; set_pos (e_pos b + d) b].
Proof. intros H1 H2 H3. apply launched_same in H3. exact (out_of_order bs ts t r a b H1 H2 H3). Qed.
Lemma zero_period b l ts : periodic b -> period_of b l = 0 -> convertToEffect b l ts = UB.
Proof. intros H E. apply period_zero; [exact H|]. rewrite period_same. exact E. Qed.
Lemma missing_period b l ts : periodic b -> ba_period b = None -> la_period l = None -> times_ok ts b l -> 0 <= ts < 2 ^ 32 ->
  exists e D a0 aD, convertToEffect b l ts = Ok (Some e) /\ begins (e_kfs e) 0 a0 (-1000) /\ finishes (e_kfs e) D aD.
Proof. intros H1 H2 H3 H4. apply times_same in H4. apply period_missing; assumption. Qed.

(** *** An attack and a fade that do not overlap *)
Lemma ticks_positive ts ms r : ticks ts ms r -> 2000 <= ms * ts -> 1 <= r. Proof. unfold ticks. lia. Qed.
Lemma envelope_kfs ts b l ta tf : 0 <= ts < 2 ^ 32 -> times_ok ts b l -> periodic b /\ 1 <= period_of b l <= 2 ^ 24 \/ magsweep b ->
  ba_attack_time b = Some ta -> ba_fade_time b = Some tf -> 2000 <= ta * ts -> 2000 <= tf * ts -> (ta + tf) * ts + 1000 < lasts b l * ts ->
  exists e D A F a0 a aD f, convertToEffect b l ts = Ok (Some e) /\ ticks ts (lasts b l) D /\ ticks ts ta A /\ ticks ts tf F /\
    level (attack_level b) a0 /\ level (strength b l) a /\ level (fade_level b) aD /\
    e_kfs e = [Keyframe (Some 0) (Some a0) (Some f); Keyframe (Some A) (Some a) None; Keyframe (Some (D - F)) (Some a) None;
               Keyframe (Some D) (Some aD) (Some f)].
Proof.
  intros Hts Ht Hk Ea Ef Ha Hf Hs. destruct Ht as (Ht1 & Ht2 & Ht3 & Ht4). specialize (Ht3 ta Ea). specialize (Ht4 tf Ef).
  destruct (ticks_ok _ ts Ht1 Hts) as (D & ED & RD & TD). destruct (ticks_ok ta ts Ht3 Hts) as (A & EA & RA & TA). destruct (ticks_ok tf ts Ht4 Hts) as (F & EF & RF & TF).
  pose proof (ticks_positive _ _ _ TA Ha) as PA. pose proof (ticks_positive _ _ _ TF Hf) as PF.
  assert (Gap : A < D - F) by (clear - TD TA TF Hs; unfold ticks in *; nia).
  assert (K : exists f w, (if str_eqb (ba_type b) (bytes_of "periodic") then
       do freq <- int_of_float i32 (div64 f64_1 (mul64 (f64_of_f32 (f32_of_Z (getPeriod b l))) MS_2_S));
       Ok (Some (getWaveform b, freq))
     else if str_eqb (ba_type b) (bytes_of "magsweep") then Ok (Some (Sine, 170))
     else Ok None) = Ok (Some (w, f))).
  { destruct Hk as [(Hk & Hp)|Hk]; rewrite Hk.
    - change (str_eqb (bytes_of "periodic") (bytes_of "periodic")) with true. cbn iota. rewrite <- (period_same b l) in Hp.
      destruct (frequency_ok _ Hp) as (f & Ef' & _). exists f. eexists. rewrite Ef'. reflexivity.
    - change (str_eqb (bytes_of "magsweep") (bytes_of "periodic")) with false. change (str_eqb (bytes_of "magsweep") (bytes_of "magsweep")) with true.
      exists 170. eexists. reflexivity. }
  destruct K as (f & w & K).
  eexists. exists D, A, F, (amplitude_of (attack_level b)), (amplitude_of (strength b l)), (amplitude_of (fade_level b)), f.
  assert (Na : ta <> -1) by (destruct Ht3; lia). assert (Nf : tf <> -1) by (destruct Ht4; lia).
  split; [|do 3 (split; [assumption|]); do 3 (split; [apply amplitude_level|])].
  - unfold convertToEffect. rewrite K. cbn [obind]. rewrite lasts_same, ED. cbn [obind]. rewrite Ea, Ef. cbn [value_or].
    rewrite (proj2 (Z.eqb_neq ta (-1)) Na), (proj2 (Z.eqb_neq tf (-1)) Nf). cbn [negb]. rewrite EA. cbn [obind]. destruct (Z.geb_spec A D); [lia|]. cbn [obind].
    rewrite EF. cbn [obind]. rewrite fade_bound by lia. cbn [obind]. rewrite (Z.max_l A 0) by lia. destruct (Z.ltb_spec (D - F) A); [lia|].
    rewrite Z.gtb_ltb. destruct (Z.ltb_spec A (D - F)); [|lia]. reflexivity.
  - rewrite !kfs_after. cbn [e_kfs]. rewrite attack_same, fade_same, strength_same. cbn [kfs_addAmplitudeAt k_pos]. rewrite !opt_ge_some, !opt_is_some.
    change (0 >=? 0) with true. change (0 =? 0) with true. cbn iota. cbn [kfs_addAmplitudeAt k_pos k_freq].
    rewrite ?opt_ge_some, ?opt_is_some. destruct (Z.geb_spec 0 A); [lia|]. destruct (Z.geb_spec D A); [|lia]. destruct (Z.eqb_spec D A); [lia|].
    cbn [kfs_addAmplitudeAt k_pos]. rewrite ?opt_ge_some, ?opt_is_some. destruct (Z.geb_spec 0 (D - F)); [lia|]. destruct (Z.geb_spec A (D - F)); [lia|].
    destruct (Z.geb_spec D (D - F)); [|lia]. destruct (Z.eqb_spec D (D - F)); [lia|].
    cbn [kfs_addAmplitudeAt k_pos]. rewrite ?opt_ge_some, ?opt_is_some. destruct (Z.geb_spec 0 D); [lia|]. destruct (Z.geb_spec A D); [lia|].
    destruct (Z.geb_spec (D - F) D); [lia|]. destruct (Z.geb_spec D D); [|lia]. destruct (Z.eqb_spec D D); [|lia]. reflexivity.
Qed.
