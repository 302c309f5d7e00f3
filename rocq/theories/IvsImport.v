From Coq Require Import Sorting.Permutation Sorting.Sorted Reals Strings.String.
From Verif Require Import Base FloatBase FloatModel TypesModel TypesSpec TypesProof ToolsModel ToolsProof SemanticModel SynthModel SynthSpec SynthProof SynthMore IvsModel IvsSpec IvsProof IvsFloatProof.
Local Open Scope Z_scope.
Local Open Scope list_scope.

(** *** Keyframes *)
Lemma opt_ge_some p t : opt_ge (Some p) t = (p >=? t). Proof. reflexivity. Qed.
Lemma opt_is_some p t : opt_is (Some p) t = (p =? t). Proof. reflexivity. Qed.
Lemma envelope_add a p ov stop l : forall lo, envelope lo stop l -> lo <= p <= stop -> p < stop \/ ov = true ->
  envelope lo stop (kfs_addAmplitudeAt a p ov l).
Proof.
  induction l as [|k l IH]; intros lo H Hp Ho; [contradiction|]. cbn [kfs_addAmplitudeAt]. destruct l as [|k' l].
  - cbn in H. destruct H as (E & H). rewrite E, opt_ge_some, opt_is_some. destruct (Z.geb_spec stop p); [|lia].
    destruct (Z.eqb_spec stop p).
    + destruct Ho as [Ho| ->]; [lia|]. cbn. auto.
    + cbn. exists p. repeat split; auto; lia.
  - destruct H as (q & E & Hq & H). rewrite E, opt_ge_some, opt_is_some. destruct (Z.geb_spec q p).
    + destruct (Z.eqb_spec q p).
      * subst q. destruct ov.
        { exists p. repeat split; auto; lia. }
        { exists p. split; [exact E|]. split; [lia|]. exists p. split; [reflexivity|]. split; [lia|exact H]. }
      * exists p. split; [reflexivity|]. split; [lia|]. exists q. split; [exact E|]. split; [lia|exact H].
    + specialize (IH q H ltac:(lia) Ho). destruct (kfs_addAmplitudeAt a p ov (k' :: l)) as [|x y] eqn:Ex; [contradiction|].
      exists q. split; [exact E|]. split; [lia|exact IH].
Qed.
Lemma finish_add a p ov stop r f x : p < stop ->
  exists r', kfs_addAmplitudeAt a p ov (r ++ [Keyframe (Some stop) x f]) = r' ++ [Keyframe (Some stop) x f].
Proof.
  intros H. induction r as [|k r (r' & IH)]; cbn [app kfs_addAmplitudeAt].
  - cbn [k_pos]. rewrite opt_ge_some, opt_is_some. destruct (Z.geb_spec stop p); [|lia]. destruct (Z.eqb_spec stop p); [lia|].
    exists [Keyframe (Some p) a None]. reflexivity.
  - destruct (opt_ge (k_pos k) p); [destruct (opt_is (k_pos k) p); [destruct ov|]|].
    + eexists (_ :: r). reflexivity.
    + eexists (_ :: _ :: r). reflexivity.
    + eexists (_ :: _ :: r). reflexivity.
    + rewrite IH. exists (k :: r'). reflexivity.
Qed.
Lemma finish_over a stop r f x : forall lo, envelope lo stop (r ++ [Keyframe (Some stop) x f]) ->
  kfs_addAmplitudeAt a stop true (r ++ [Keyframe (Some stop) x f]) = r ++ [Keyframe (Some stop) a f].
Proof.
  induction r as [|k r IH]; intros lo H; cbn [app kfs_addAmplitudeAt].
  - cbn [k_pos k_freq]. rewrite opt_ge_some, opt_is_some, Z.eqb_refl. destruct (Z.geb_spec stop stop); [reflexivity|lia].
  - cbn [app] in H. destruct (r ++ [Keyframe (Some stop) x f]) as [|k' l] eqn:E; [destruct r; discriminate|].
    destruct H as (p & Ek & Hp & H). rewrite Ek, opt_ge_some. destruct (Z.geb_spec p stop); [lia|]. f_equal. eapply IH, H.
Qed.
Definition shape (D : Z) (l : list keyframe) (a0 : f32) (f : Z) (aD : f32) : Prop := envelope 0 D l /\ begins l 0 a0 f /\ finishes l D aD.
Lemma shape_zero D l a0 f aD a : 0 < D -> shape D l a0 f aD -> shape D (kfs_addAmplitudeAt (Some a) 0 true l) a f aD.
Proof.
  intros HD (H1 & (r & ->) & (r' & f' & E)). split; [apply envelope_add; [exact H1|lia|right; reflexivity]|]. split.
  - exists r. reflexivity.
  - rewrite E. destruct (finish_add (Some a) 0 true D r' f' (Some aD) HD) as (r2 & ->). exists r2, f'. reflexivity.
Qed.
Lemma shape_mid D l a0 f aD a p ov : 0 <= p < D -> 0 < p \/ ov = false -> shape D l a0 f aD -> shape D (kfs_addAmplitudeAt (Some a) p ov l) a0 f aD.
Proof.
  intros Hp Ho (H1 & (r & ->) & (r' & f' & E)). split; [apply envelope_add; [exact H1|lia|left; lia]|]. split.
  - cbn [kfs_addAmplitudeAt k_pos]. rewrite opt_ge_some, opt_is_some. destruct (Z.geb_spec 0 p).
    + destruct (Z.eqb_spec 0 p); [|lia]. destruct Ho as [|Ho]; [lia|]. subst ov. eexists. reflexivity.
    + eexists. reflexivity.
  - rewrite E. destruct (finish_add (Some a) p ov D r' f' (Some aD)) as (r2 & ->); [lia|]. exists r2, f'. reflexivity.
Qed.
Lemma shape_end D l a0 f aD a : 0 < D -> shape D l a0 f aD -> shape D (kfs_addAmplitudeAt (Some a) D true l) a0 f a.
Proof.
  intros HD (H1 & (r & ->) & (r' & f' & E)). split; [apply envelope_add; [exact H1|lia|right; reflexivity]|]. split.
  - cbn [kfs_addAmplitudeAt k_pos]. rewrite opt_ge_some. destruct (Z.geb_spec 0 D); [lia|]. eexists. reflexivity.
  - rewrite E in *. rewrite (finish_over _ _ _ _ _ 0 H1). exists r', f'. reflexivity.
Qed.
Lemma kfs_after a p ov e : e_kfs (addAmplitudeAt a p ov e) = kfs_addAmplitudeAt a p ov (e_kfs e). Proof. reflexivity. Qed.
Lemma pos_after a p ov e : e_pos (addAmplitudeAt a p ov e) = e_pos e. Proof. reflexivity. Qed.
Lemma base_after a p ov e : e_base (addAmplitudeAt a p ov e) = e_base e. Proof. reflexivity. Qed.

(** The effect is good: what the import into bands needs. *)
Definition good (ts ms : Z) (e : effect) : Prop := exists D, ticks ts ms D /\ 0 < D < 2 ^ 31 /\ envelope 0 D (e_kfs e).

Lemma fade_bound D fd : 0 <= D < 2 ^ 31 -> 0 <= fd < 2 ^ 31 -> int_ok (D - fd) = Ok (D - fd).
Proof. intros. apply int_ok_fits. lia. Qed.

Lemma convert_kind ts b l wave f D :
  0 <= ts < 2 ^ 32 -> times_m ts b l ->
  (periodic b /\ int_of_float i32 (div64 f64_1 (mul64 (f64_of_f32 (f32_of_Z (getPeriod b l))) MS_2_S)) = Ok f /\ wave = getWaveform b) \/ (magsweep b /\ f = 170 /\ wave = Sine) ->
  millisecondsToTimeScale (getDuration b l) ts = Ok D -> 0 < D < 2 ^ 31 -> ticks ts (getDuration b l) D ->
  exists e a0 aD, convertToEffect b l ts = Ok (Some e) /\ e_pos e = launch_time l /\ e_base e = Some wave /\ shape D (e_kfs e) a0 f aD /\
    (ba_attack_time b = None -> a0 = amplitude_of (getMagnitude b l)) /\
    (forall t, ba_attack_time b = Some t -> 2000 <= t * ts -> a0 = amplitude_of (value_or (ba_attack_level b) 0)) /\
    ((forall t, ba_attack_time b = Some t -> t * ts + 1000 < getDuration b l * ts) ->
      (ba_fade_time b = None -> aD = amplitude_of (getMagnitude b l)) /\
      (ba_fade_time b <> None -> aD = amplitude_of (value_or (ba_fade_level b) 0))).
Proof.
  intros Hts (Hd & _ & Hat & Hft) Hkind ED HD TD.
  set (A := amplitude_of (getMagnitude b l)).
  set (e0 := Effect (-1) (launch_time l) (Some f32_0) None
               [Keyframe (Some 0) (Some A) (Some f); Keyframe (Some D) (Some A) (Some f)] (Some wave) BasisE [] [] []).
  assert (S0 : shape D (e_kfs e0) A f A).
  { split; [|split].
    - cbn. exists 0. repeat split; lia.
    - eexists. reflexivity.
    - exists [Keyframe (Some 0) (Some A) (Some f)], (Some f). reflexivity. }
  assert (K : exists k : outcome (option effect), convertToEffect b l ts = k /\ k =
    (do '(e, attackTime, finished) <-
        (if negb (value_or (ba_attack_time b) (-1) =? -1) then
           do attackTime <- millisecondsToTimeScale (value_or (ba_attack_time b) (-1)) ts;
           let attackAmplitude := amplitude_of (value_or (ba_attack_level b) 0) in
           let e := addAmplitudeAt (Some attackAmplitude) 0 true e0 in
           if attackTime >=? D then
             let a := linearInterpolation (0, f64_of_f32 attackAmplitude) (attackTime, f64_of_f32 A) (f64_of_Z D) in
             Ok (addAmplitudeAt (Some (f32_of_f64 a)) D true e, attackTime, true)
           else Ok (addAmplitudeAt (Some A) attackTime true e, attackTime, false)
         else Ok (e0, value_or (ba_attack_time b) (-1), false));
      if (finished : bool) then Ok (Some e)
      else
        if negb (value_or (ba_fade_time b) (-1) =? -1) then
          do fadeDuration <- millisecondsToTimeScale (value_or (ba_fade_time b) (-1)) ts;
          do fadeTime <- int_ok (D - fadeDuration);
          let fadeAmplitude := amplitude_of (value_or (ba_fade_level b) 0) in
          let actualAttackTime := Z.max attackTime 0 in
          let e :=
            if fadeTime <? actualAttackTime then
              let a := linearInterpolation (fadeTime, f64_of_f32 A) (D, f64_of_f32 fadeAmplitude)
                         (f64_of_Z actualAttackTime) in
              addAmplitudeAt (Some (f32_of_f64 a)) actualAttackTime false e
            else if fadeTime >? actualAttackTime then addAmplitudeAt (Some A) fadeTime true e
            else e in
          Ok (Some (addAmplitudeAt (Some fadeAmplitude) D true e))
        else Ok (Some e))).
  { eexists. split; [reflexivity|]. unfold convertToEffect. destruct Hkind as [(Hk & Ef & ->)|(Hk & -> & ->)]; rewrite Hk.
    - change (str_eqb (bytes_of "periodic") (bytes_of "periodic")) with true. cbn iota. rewrite Ef. cbn [obind]. rewrite ED. cbn [obind]. reflexivity.
    - change (str_eqb (bytes_of "magsweep") (bytes_of "periodic")) with false. change (str_eqb (bytes_of "magsweep") (bytes_of "magsweep")) with true.
      cbn iota. cbn [obind]. rewrite ED. cbn [obind]. reflexivity. }
  destruct K as (k & -> & ->).
  assert (Step : exists e1 at1 fin a0 aD, (if negb (value_or (ba_attack_time b) (-1) =? -1) then
           do attackTime <- millisecondsToTimeScale (value_or (ba_attack_time b) (-1)) ts;
           let attackAmplitude := amplitude_of (value_or (ba_attack_level b) 0) in
           let e := addAmplitudeAt (Some attackAmplitude) 0 true e0 in
           if attackTime >=? D then
             let a := linearInterpolation (0, f64_of_f32 attackAmplitude) (attackTime, f64_of_f32 A) (f64_of_Z D) in
             Ok (addAmplitudeAt (Some (f32_of_f64 a)) D true e, attackTime, true)
           else Ok (addAmplitudeAt (Some A) attackTime true e, attackTime, false)
         else Ok (e0, value_or (ba_attack_time b) (-1), false)) = Ok (e1, at1, fin) /\
    e_pos e1 = launch_time l /\ e_base e1 = Some wave /\ shape D (e_kfs e1) a0 f aD /\
    (ba_attack_time b = None -> a0 = A) /\
    (forall t, ba_attack_time b = Some t -> 2000 <= t * ts -> a0 = amplitude_of (value_or (ba_attack_level b) 0)) /\
    ((forall t, ba_attack_time b = Some t -> t * ts + 1000 < getDuration b l * ts) -> fin = false) /\ (fin = false -> at1 < D /\ aD = A)).
  { destruct (ba_attack_time b) as [t|] eqn:Ea; cbn [value_or].
    - specialize (Hat t eq_refl). destruct (ticks_ok t ts Hat Hts) as (at1 & E1 & R1 & T1). destruct (Z.eqb_spec t (-1)) as [->|_].
      { destruct Hat as ((? & _) & _). lia. }
      cbn [negb]. rewrite E1. cbn [obind]. destruct (Z.geb_spec at1 D).
      + do 5 eexists. split; [reflexivity|]. split; [reflexivity|]. split; [reflexivity|]. rewrite !kfs_after.
        split; [eapply shape_end; [lia|]; eapply shape_zero; [lia|exact S0]|]. split; [discriminate|]. split; [reflexivity|]. split; [|discriminate].
        intros Hq. specialize (Hq t eq_refl). unfold ticks in *. lia.
      + destruct (Z.eq_dec at1 0) as [->|Hz].
        * exists (addAmplitudeAt (Some A) 0 true (addAmplitudeAt (Some (amplitude_of (value_or (ba_attack_level b) 0))) 0 true e0)), 0, false, A, A.
          split; [reflexivity|]. split; [reflexivity|]. split; [reflexivity|]. rewrite !kfs_after.
          split; [eapply shape_zero; [lia|]; eapply shape_zero; [lia|exact S0]|]. split; [discriminate|]. split; [|split; [reflexivity|intros _; split; [lia|reflexivity]]].
          intros t' Et Ht. injection Et as <-. unfold ticks in T1. lia.
        * do 5 eexists. split; [reflexivity|]. split; [reflexivity|]. split; [reflexivity|]. rewrite !kfs_after.
          split; [eapply shape_mid; [lia|left; lia|]; eapply shape_zero; [lia|exact S0]|]. split; [discriminate|]. split; [reflexivity|]. split; [reflexivity|].
          intros _. split; [lia|reflexivity].
    - change (-1 =? -1) with true. cbn [negb]. exists e0, (-1), false, A, A. split; [reflexivity|]. split; [reflexivity|]. split; [reflexivity|].
      split; [exact S0|]. split; [reflexivity|]. split; [discriminate|]. split; [reflexivity|]. intros _. split; [lia|reflexivity]. }
  destruct Step as (e1 & at1 & fin & a0 & aD & -> & P1 & B1 & S1 & H1 & H2 & H3 & H4). cbn [obind]. destruct fin.
  { exists e1, a0, aD. split; [reflexivity|]. repeat (split; [assumption|]). intros Hq. specialize (H3 Hq). discriminate. }
  destruct (H4 eq_refl) as (Hat1 & ->). destruct (ba_fade_time b) as [t|] eqn:Ef; cbn [value_or].
  - specialize (Hft t eq_refl). destruct (ticks_ok t ts Hft Hts) as (fd & E2 & R2 & T2). destruct (Z.eqb_spec t (-1)) as [->|_].
    { destruct Hft as ((? & _) & _). lia. }
    cbn [negb]. rewrite E2. cbn [obind]. rewrite fade_bound by lia. cbn [obind].
    set (m := Z.max at1 0). assert (Hm : 0 <= m < D) by (unfold m; lia). clearbody m.
    destruct (Z.ltb_spec (D - fd) m); [|rewrite Z.gtb_ltb; destruct (Z.ltb_spec m (D - fd))].
    + do 3 eexists. split; [reflexivity|]. rewrite !pos_after, !base_after, !kfs_after. split; [exact P1|]. split; [exact B1|].
      split; [eapply shape_end; [lia|]; eapply shape_mid; [lia|right; reflexivity|exact S1]|]. split; [exact H1|]. split; [exact H2|]. intros _. split; [discriminate|reflexivity].
    + do 3 eexists. split; [reflexivity|]. rewrite !pos_after, !base_after, !kfs_after. split; [exact P1|]. split; [exact B1|].
      split; [|split; [exact H1|]; split; [exact H2|]; intros _; split; [discriminate|reflexivity]].
      destruct (Z.eq_dec fd 0) as [->|Hfd].
      * rewrite Z.sub_0_r. eapply shape_end; [lia|]. eapply shape_end; [lia|exact S1].
      * eapply shape_end; [lia|]. eapply shape_mid; [lia|left; lia|exact S1].
    + do 3 eexists. split; [reflexivity|]. rewrite !pos_after, !base_after, !kfs_after. split; [exact P1|]. split; [exact B1|].
      split; [eapply shape_end; [lia|exact S1]|]. split; [exact H1|]. split; [exact H2|]. intros _. split; [discriminate|reflexivity].
  - change (-1 =? -1) with true. cbn [negb]. exists e1, a0, A. split; [reflexivity|]. repeat (split; [assumption|]). intros _. split; [reflexivity|congruence].
Qed.
Lemma long_enough ts b l D : times_m ts b l -> ticks ts (getDuration b l) D -> 0 < D.
Proof. unfold times_m, ticks. lia. Qed.
Lemma convert_periodic ts b l : 0 <= ts < 2 ^ 32 -> times_m ts b l -> periodic b -> 1 <= getPeriod b l <= 2 ^ 24 ->
  exists e D a0 f aD, convertToEffect b l ts = Ok (Some e) /\ e_pos e = launch_time l /\ e_base e = Some (getWaveform b) /\
    ticks ts (getDuration b l) D /\ 0 < D < 2 ^ 31 /\ frequency_for (getPeriod b l) f /\
    envelope 0 D (e_kfs e) /\ begins (e_kfs e) 0 a0 f /\ finishes (e_kfs e) D aD /\
    (ba_attack_time b = None -> a0 = amplitude_of (getMagnitude b l)) /\
    (forall t, ba_attack_time b = Some t -> 2000 <= t * ts -> a0 = amplitude_of (value_or (ba_attack_level b) 0)) /\
    ((forall t, ba_attack_time b = Some t -> t * ts + 1000 < getDuration b l * ts) ->
      (ba_fade_time b = None -> aD = amplitude_of (getMagnitude b l)) /\
      (ba_fade_time b <> None -> aD = amplitude_of (value_or (ba_fade_level b) 0))).
Proof.
  intros Hts Ht Hk Hp. destruct (frequency_ok _ Hp) as (f & Ef & Hf). destruct (ticks_ok (getDuration b l) ts (proj1 Ht) Hts) as (D & ED & RD & TD).
  pose proof (long_enough _ _ _ _ Ht TD) as D0.
  destruct (convert_kind ts b l (getWaveform b) f D Hts Ht) as (e & a0 & aD & E & Q1 & Q2 & (Q3 & Q4 & Q5) & Q6); [left; auto|exact ED|lia|exact TD|].
  exists e, D, a0, f, aD. split; [exact E|]. split; [exact Q1|]. split; [exact Q2|]. split; [exact TD|]. split; [lia|]. split; [exact Hf|].
  split; [exact Q3|]. split; [exact Q4|]. split; [exact Q5|]. exact Q6.
Qed.
Lemma convert_magsweep ts b l : 0 <= ts < 2 ^ 32 -> times_m ts b l -> magsweep b ->
  exists e D a0 aD, convertToEffect b l ts = Ok (Some e) /\ e_pos e = launch_time l /\ e_base e = Some Sine /\
    ticks ts (getDuration b l) D /\ 0 < D < 2 ^ 31 /\
    envelope 0 D (e_kfs e) /\ begins (e_kfs e) 0 a0 170 /\ finishes (e_kfs e) D aD /\
    (ba_attack_time b = None -> a0 = amplitude_of (getMagnitude b l)) /\
    (forall t, ba_attack_time b = Some t -> 2000 <= t * ts -> a0 = amplitude_of (value_or (ba_attack_level b) 0)) /\
    ((forall t, ba_attack_time b = Some t -> t * ts + 1000 < getDuration b l * ts) ->
      (ba_fade_time b = None -> aD = amplitude_of (getMagnitude b l)) /\
      (ba_fade_time b <> None -> aD = amplitude_of (value_or (ba_fade_level b) 0))).
Proof.
  intros Hts Ht Hk. destruct (ticks_ok (getDuration b l) ts (proj1 Ht) Hts) as (D & ED & RD & TD).
  pose proof (long_enough _ _ _ _ Ht TD) as D0.
  destruct (convert_kind ts b l Sine 170 D Hts Ht) as (e & a0 & aD & E & Q1 & Q2 & (Q3 & Q4 & Q5) & Q6); [right; auto|exact ED|lia|exact TD|].
  exists e, D, a0, aD. split; [exact E|]. split; [exact Q1|]. split; [exact Q2|]. split; [exact TD|]. split; [lia|].
  split; [exact Q3|]. split; [exact Q4|]. split; [exact Q5|]. exact Q6.
Qed.
Lemma convert_other ts b l : ~ periodic b -> ~ magsweep b -> convertToEffect b l ts = Ok None.
Proof.
  intros H1 H2. unfold convertToEffect. destruct (str_eqb (ba_type b) (bytes_of "periodic")) eqn:E1; [apply str_eqb_iff in E1; contradiction|].
  destruct (str_eqb (ba_type b) (bytes_of "magsweep")) eqn:E2; [apply str_eqb_iff in E2; contradiction|]. reflexivity.
Qed.

(** *** Bands *)
Lemma envelope_within lo stop l : envelope lo stop l -> Forall (fun k => exists t, k_pos k = Some t /\ lo <= t <= stop) l /\
  exists r k, l = r ++ [k] /\ k_pos k = Some stop.
Proof.
  revert lo. induction l as [|k l IH]; intros lo H; [contradiction|]. destruct l as [|k' l].
  - destruct H as (E & H). split; [constructor; [|constructor]; exists stop; split; [exact E|lia]|]. exists [], k. auto.
  - destruct H as (p & E & Hp & H). destruct (IH p H) as (Q1 & r & k2 & Er & Q2). split.
    + constructor; [exists p; split; [exact E|lia]|]. eapply Forall_impl; [|exact Q1]. cbn. intros a (t & Et & Ht). exists t. split; [exact Et|lia].
    + exists (k :: r), k2. rewrite Er. auto.
Qed.
Lemma envelope_length e D : envelope 0 D (e_kfs e) -> effect_length VectorialB e D.
Proof.
  intros H. apply envelope_within in H. destruct H as (_ & r & k & E & Ek). right. right. exists D. split; [|right; split; [right; reflexivity|reflexivity]].
  exists r, k, []. split; [exact E|]. split; [exact Ek|constructor].
Qed.
Lemma envelope_placed e D p : envelope 0 D (e_kfs e) -> 0 <= D < 2 ^ 31 -> 0 <= p < 2 ^ 31 -> placed VectorialB (set_pos p e).
Proof.
  intros H HD Hp. split.
  - split; [cbn; lia|]. cbn [e_kfs set_pos]. destruct (envelope_within _ _ _ H) as (Q & _). eapply Forall_impl; [|exact Q].
    cbn. intros k (t & -> & Ht). lia.
  - exists D. split; [|lia]. apply (envelope_length (set_pos p e)). exact H.
Qed.
Definition band_ok (b : band) : Prop :=
  b_type b = VectorialB /\ no_overlap b /\ sorted_by_position (b_effects b) /\ Forall (placed VectorialB) (b_effects b).
Lemma apart_effects_sym bt e f : apart_effects bt e f -> apart_effects bt f e.
Proof. intros (m & n & A & B & C). exists n, m. split; [exact B|]. split; [exact A|]. unfold meets in *. lia. Qed.
Lemma insert_apart bt x l : Forall (apart_effects bt x) l -> ForallOrdPairs (apart_effects bt) l -> ForallOrdPairs (apart_effects bt) (insert_effect x l).
Proof.
  induction l as [|e l IH]; intros Hx H; cbn [insert_effect]; [constructor; constructor|].
  inversion Hx as [|? ? Hxe Hx']; inversion H as [|? ? He H']; subst. destruct (e_pos e >? e_pos x).
  - constructor; [assumption|]. constructor; assumption.
  - constructor; [|auto]. eapply Permutation_Forall; [apply Permutation_sym, insert_perm|]. constructor; [apply apart_effects_sym, Hxe|exact He].
Qed.
Lemma band_add b e D p : band_ok b -> envelope 0 D (e_kfs e) -> 0 <= D < 2 ^ 31 -> 0 <= p < 2 ^ 31 ->
  Forall (fun f => ~ touches VectorialB p D f) (b_effects b) -> band_ok (addEffect (set_pos p e) b).
Proof.
  intros (H1 & H2 & H3 & H4) He HD Hp Hfree. assert (L : effect_length VectorialB (set_pos p e) D) by (apply envelope_length; exact He).
  split; [exact H1|]. split; [|split].
  - unfold no_overlap. cbn [addEffect set_effects b_type b_effects]. rewrite H1. unfold no_overlap in H2. rewrite H1 in H2. apply insert_apart; [|exact H2].
    rewrite Forall_forall in *. intros f Hf. specialize (H4 f Hf). destruct H4 as (_ & n & Ln & _). exists D, n. split; [exact L|]. split; [exact Ln|].
    intros M. apply (Hfree f Hf). exists n. split; [exact Ln|]. unfold meets in *. cbn in M. lia.
  - cbn. apply insert_sorted, H3.
  - cbn. eapply Permutation_Forall; [apply Permutation_sym, insert_perm|]. constructor; [|exact H4]. eapply envelope_placed; eassumption.
Qed.
Lemma vec_set_split {A} (l : list A) : forall i x y, nth_error l i = Some x -> exists a b, l = a ++ x :: b /\ vec_set l i y = a ++ y :: b.
Proof.
  induction l as [|z l IH]; intros [|i] x y H; cbn in H; try discriminate.
  - injection H as ->. exists [], l. auto.
  - destruct (IH i x y H) as (a & b & -> & E). exists (z :: a), b. cbn. rewrite E. auto.
Qed.
Lemma inject_ok ts ms e c : 0 <= ts < 2 ^ 32 -> good ts ms e -> convertible ts (e_pos e) -> (e_pos e + ms) * ts <= 1000 * (2 ^ 31 - 2) ->
  Forall band_ok (c_bands c) ->
  exists bs e', injectIntoBands ts e c = Ok (set_bands bs c) /\ Forall band_ok bs /\ in_ticks ts e e' /\
    Permutation (flat_map b_effects bs) (e' :: flat_map b_effects (c_bands c)).
Proof.
  intros Hts (D & TD & RD & HE) Hc Hs Hb. destruct (ticks_ok (e_pos e) ts Hc Hts) as (p & Ep & Rp & Tp). unfold injectIntoBands. rewrite Ep. cbn [obind].
  change (e_kfs (set_pos p e)) with (e_kfs e). destruct (envelope_within _ _ _ HE) as (_ & r & k & Ek & Pk). rewrite Ek, rev_app_distr. cbn [rev app].
  unfold pos_value. rewrite Pk. cbn [obind].
  destruct (free_band c p D VectorialB) as (o & -> & Ho).
  { unfold VectorialB. lia. } { lia. } { lia. } { unfold ticks in *. lia. }
  { eapply Forall_impl; [|exact Hb]. intros b (_ & _ & _ & H) _. exact H. }
  cbn [obind].
  destruct o as [j|].
  - destruct Ho as (b & Ej & _ & Hfree). unfold upd_at. rewrite Ej. destruct (vec_set_split _ _ b (addEffect (set_pos p e) b) Ej) as (x & y & El & ->).
    exists (x ++ addEffect (set_pos p e) b :: y), (set_pos p e). split; [reflexivity|]. rewrite El in Hb. apply Forall_app in Hb. destruct Hb as (Hx & Hy). inversion Hy as [|? ? Hbb Hy']; subst. split; [|split].
    + apply Forall_app. split; [exact Hx|]. constructor; [|exact Hy']. apply (band_add b e D p); [exact Hbb|exact HE|lia|lia|exact Hfree].
    + exists p. split; [exact Tp|reflexivity].
    + rewrite El, !flat_map_app. cbn [flat_map]. cbn [addEffect set_effects b_effects].
      eapply Permutation_trans; [apply Permutation_app_head, Permutation_app_tail, insert_perm|]. cbn [app]. apply Permutation_sym, Permutation_middle.
  - eexists _, (set_pos p e). split; [reflexivity|]. split; [|split].
    + apply Forall_app. split; [exact Hb|]. constructor; [|constructor]. apply (band_add _ e D p); [|exact HE|lia|lia|constructor].
      split; [reflexivity|]. split; [constructor|]. split; constructor.
    + exists p. split; [exact Tp|reflexivity].
    + rewrite flat_map_app. cbn [flat_map addEffect set_effects b_effects insert_effect app]. apply Permutation_sym, Permutation_cons_append.
Qed.
Definition injectable (ts : Z) (e : effect) : Prop :=
  exists ms, good ts ms e /\ convertible ts (e_pos e) /\ (e_pos e + ms) * ts <= 1000 * (2 ^ 31 - 2).
Lemma injectAll_ok ts : 0 <= ts < 2 ^ 32 -> forall l c, Forall (injectable ts) l -> Forall band_ok (c_bands c) ->
  exists bs l', injectAll ts l c = Ok (set_bands bs c) /\ Forall band_ok bs /\ Forall2 (in_ticks ts) l l' /\
    Permutation (flat_map b_effects bs) (l' ++ flat_map b_effects (c_bands c)).
Proof.
  intros Hts. induction l as [|e l IH]; intros c Hl Hb; cbn [injectAll].
  - exists (c_bands c), []. split; [destruct c; reflexivity|]. split; [exact Hb|]. split; [constructor|apply Permutation_refl].
  - inversion Hl as [|? ? (ms & G1 & G2 & G3) Hl']; subst. destruct (inject_ok ts ms e c Hts G1 G2 G3 Hb) as (bs & e' & -> & Q1 & Q2 & Q3). cbn [obind].
    destruct (IH (set_bands bs c) Hl' Q1) as (bs2 & l' & E & R1 & R2 & R3). exists bs2, (e' :: l'). rewrite E. split; [reflexivity|]. split; [exact R1|].
    split; [constructor; assumption|]. eapply Permutation_trans; [exact R3|]. cbn [set_bands c_bands].
    eapply Permutation_trans; [apply Permutation_app_head, Q3|]. apply Permutation_sym, Permutation_middle.
Qed.

(** *** Timelines and documents *)
Lemma launched_ok ts bs rs ls : 0 <= ts < 2 ^ 32 ->
  (forall l b, In l ls -> getLaunchedEffect bs l = Some b ->
     times_m ts b l /\ (periodic b -> 1 <= getPeriod b l <= 2 ^ 24) /\
     Forall (fun m => convertible ts m /\ (m + getDuration b l) * ts <= 1000 * (2 ^ 31 - 2)) (plays rs (launch_time l))) ->
  exists es, launched_m bs ts ls es /\ Forall (fun e => Forall (injectable ts) (played rs e)) es /\
    (StronglySorted (fun a b => launch_time a <= launch_time b) ls -> in_time_order es) /\
    (forall t, Forall (fun l => t <= launch_time l) ls -> Forall (fun e => t <= e_pos e) es).
Proof.
  intros Hts. induction ls as [|l ls IH]; intros H.
  - exists []. split; [constructor|]. split; [constructor|]. split; intros; constructor.
  - destruct IH as (es & I1 & I2 & I3 & I4). { intros l' b Hl' Eb. apply H; [right; exact Hl'|exact Eb]. }
    assert (Skip : launched_m bs ts (l :: ls) es -> exists es, launched_m bs ts (l :: ls) es /\ Forall (fun e => Forall (injectable ts) (played rs e)) es /\
      (StronglySorted (fun a b => launch_time a <= launch_time b) (l :: ls) -> in_time_order es) /\
      (forall t, Forall (fun l => t <= launch_time l) (l :: ls) -> Forall (fun e => t <= e_pos e) es)).
    { intros Hn. exists es. split; [exact Hn|]. split; [exact I2|]. split; [intros S1; inversion S1; auto|]. intros t F1. inversion F1; auto. }
    destruct (getLaunchedEffect bs l) as [b|] eqn:Eb; [|apply Skip; apply MaUnknown; assumption].
    destruct (H l b (or_introl eq_refl) Eb) as (Ht & Hp & Hm).
    assert (Add : forall e D, convertToEffect b l ts = Ok (Some e) -> e_pos e = launch_time l -> ticks ts (getDuration b l) D -> 0 < D < 2 ^ 31 ->
      envelope 0 D (e_kfs e) -> exists es, launched_m bs ts (l :: ls) es /\ Forall (fun e => Forall (injectable ts) (played rs e)) es /\
      (StronglySorted (fun a b => launch_time a <= launch_time b) (l :: ls) -> in_time_order es) /\
      (forall t, Forall (fun l => t <= launch_time l) (l :: ls) -> Forall (fun e => t <= e_pos e) es)).
    { intros e D Ee Pe TD RD HE. exists (e :: es). split; [eapply MaEffect; eassumption|]. split; [|split].
      - constructor; [|exact I2]. unfold played. rewrite Pe. clear -Hm TD RD HE. induction Hm as [|m ms (M1 & M2) Hm IHm]; cbn; constructor; [|exact IHm].
        exists (getDuration b l). split; [exists D; auto|]. split; [exact M1|exact M2].
      - intros S1. inversion S1 as [|? ? S2 F1]; subst. constructor; [apply I3, S2|]. eapply Forall_impl; [|exact (I4 (launch_time l) F1)]. cbn. intros; lia.
      - intros t F1. inversion F1; subst. constructor; [rewrite Pe; assumption|auto]. }
    destruct (str_eqb (ba_type b) (bytes_of "periodic")) eqn:E1; [apply str_eqb_iff in E1|].
    { destruct (convert_periodic ts b l Hts Ht E1 (Hp E1)) as (e & D & a0 & f & aD & Q1 & Q2 & _ & Q3 & Q4 & _ & Q5 & _). eapply Add; eassumption. }
    destruct (str_eqb (ba_type b) (bytes_of "magsweep")) eqn:E2; [apply str_eqb_iff in E2|].
    { destruct (convert_magsweep ts b l Hts Ht E2) as (e & D & a0 & aD & Q1 & Q2 & _ & Q3 & Q4 & Q5 & _). eapply Add; eassumption. }
    apply Skip. eapply MaOther; [exact Eb| |exact I1]. apply convert_other; intros Q; [unfold periodic in Q|unfold magsweep in Q]; apply str_eqb_iff in Q; congruence.
Qed.
Lemma Forall2_perm {A B} (P : A -> B -> Prop) l m : Permutation l m -> forall l', Forall2 P l l' -> exists m', Forall2 P m m' /\ Permutation l' m'.
Proof.
  induction 1 as [|x l m HP IH|x y l|l m n H1 IH1 H2 IH2]; intros l' F.
  - inversion F; subst. exists []. split; constructor.
  - inversion F as [|? y' ? l2 Hx F']; subst. destruct (IH _ F') as (m' & G1 & G2). exists (y' :: m'). split; [constructor; assumption|apply perm_skip, G2].
  - inversion F as [|? a ? l2 Ha F']; subst. inversion F' as [|? b ? l3 Hb F'']; subst. exists (b :: a :: l3).
    split; [constructor; [exact Hb|constructor; assumption]|apply perm_swap].
  - destruct (IH1 _ F) as (m' & G1 & G2). destruct (IH2 _ G1) as (n' & G3 & G4). exists n'. split; [exact G3|eapply Permutation_trans; eassumption].
Qed.
Lemma timeline_imported bs ts date t : 0 <= ts < 2 ^ 32 -> importable_m bs ts t ->
  exists c, encodeTimeline bs ts t (new_channel (te_name t) date) = Ok c /\ imported_m bs ts date t c.
Proof.
  intros Hts (H1 & H2 & H3). destruct (launched_ok ts bs (te_repeats t) (te_launches t) Hts H3) as (es & L1 & L2 & L3 & _). specialize (L3 H2).
  destruct (timeline_flat bs ts t es H1 L1 L3) as (out & E & P). unfold encodeTimeline. rewrite E. cbn [obind].
  assert (I : Forall (injectable ts) out).
  { eapply Permutation_Forall; [apply Permutation_sym, P|]. clear -L2. induction L2; cbn; [constructor|]. apply Forall_app. auto. }
  destruct (injectAll_ok ts Hts out (new_channel (te_name t) date) I) as (bands & l' & E2 & Q1 & Q2 & Q3); [constructor|].
  exists (set_bands bands (new_channel (te_name t) date)). split; [exact E2|]. cbn [new_channel c_bands flat_map] in Q3. rewrite app_nil_r in Q3. split; [reflexivity|]. split.
  - cbn [set_bands c_bands]. eapply Forall_impl; [|exact Q1]. intros b (B1 & B2 & B3 & _). auto.
  - destruct (Forall2_perm _ _ _ P _ Q2) as (m' & G1 & G2). exists es, m'. split; [exact L1|]. split; [exact G1|].
    cbn [set_bands c_bands]. eapply Permutation_trans; eassumption.
Qed.
Lemma vec_set_end {A} (l : list A) x y : vec_set (l ++ [x]) (length l) y = l ++ [y].
Proof. induction l as [|z l IH]; cbn; [reflexivity|rewrite IH; reflexivity]. Qed.
Lemma encode_gen bs ts date : 0 <= ts < 2 ^ 32 -> forall tl p, Forall (importable_m bs ts) tl ->
  exists cs, encodeTimelines bs date ts (length (p_channels p)) tl p = Ok (set_channels (p_channels p ++ cs) p) /\ Forall2 (imported_m bs ts date) tl cs.
Proof.
  intros Hts. induction tl as [|t tl IH]; intros p H; cbn [encodeTimelines].
  - exists []. rewrite app_nil_r. split; [destruct p; reflexivity|constructor].
  - inversion H as [|? ? Ht H']; subst. rewrite Nat.leb_refl. cbn [addChannel set_channels p_channels].
    rewrite nth_error_app2, Nat.sub_diag by apply Nat.le_refl. cbn [nth_error]. destruct (timeline_imported bs ts date t Hts Ht) as (c & -> & Hc). cbn [obind].
    rewrite vec_set_end. destruct (IH (set_channels (p_channels p ++ [c]) p) H') as (cs & E & F). cbn [set_channels p_channels] in E.
    rewrite app_length in E. cbn [length] in E. rewrite Nat.add_1_r in E. exists (c :: cs). split; [|constructor; assumption].
    cbn [set_channels p_channels] in *. unfold set_channels in *. rewrite <- app_assoc in E. exact E.
Qed.
Lemma encode_imported d ts p : 0 <= ts < 2 ^ 32 -> p_channels p = [] -> Forall (importable_m (iv_basis d) ts) (iv_timelines d) ->
  exists cs, encode d ts p = Ok (set_channels cs p) /\ Forall2 (imported_m (iv_basis d) ts (iv_modified d)) (iv_timelines d) cs.
Proof.
  intros Hts Hp H. destruct (encode_gen (iv_basis d) ts (iv_modified d) Hts (iv_timelines d) p H) as (cs & E & F). rewrite Hp in E. exists cs. split; [exact E|exact F].
Qed.

(** *** What goes wrong *)
Lemma period_zero b l ts : periodic b -> getPeriod b l = 0 -> convertToEffect b l ts = UB.
Proof. intros H E. unfold convertToEffect. rewrite H, E. reflexivity. Qed.
Lemma period_missing b l ts : periodic b -> ba_period b = None -> la_period l = None -> times_m ts b l -> 0 <= ts < 2 ^ 32 ->
  exists e D a0 aD, convertToEffect b l ts = Ok (Some e) /\ begins (e_kfs e) 0 a0 (-1000) /\ finishes (e_kfs e) D aD.
Proof.
  intros H E1 E2 Ht Hts. destruct (ticks_ok (getDuration b l) ts (proj1 Ht) Hts) as (D & ED & RD & TD). pose proof (long_enough _ _ _ _ Ht TD) as D0.
  destruct (convert_kind ts b l (getWaveform b) (-1000) D Hts Ht) as (e' & a0 & aD & E & Q1 & Q2 & (Q3 & Q4 & Q5) & Q6); [left|exact ED|lia|exact TD|].
  - split; [exact H|]. split; [|reflexivity]. unfold getPeriod. rewrite E1, E2. vm_compute. reflexivity.
  - exists e', D, a0, aD. auto.
Qed.
Lemma ids_zero bs date ts : forall tl n p p', encodeTimelines bs date ts n tl p = Ok p' -> Forall (fun c => c_id c = 0) (p_channels p) -> Forall (fun c => c_id c = 0) (p_channels p').
Proof.
  assert (Inj : forall e c c', injectIntoBands ts e c = Ok c' -> c_id c' = c_id c).
  { intros e c c' H. unfold injectIntoBands in H. apply bind_inv in H. destruct H as (p & _ & H). destruct (rev (e_kfs (set_pos p e))); [discriminate|].
    apply bind_inv in H. destruct H as (q & _ & H). apply bind_inv in H. destruct H as (o & _ & H). destruct o; injection H as <-; reflexivity. }
  assert (All : forall l c c', injectAll ts l c = Ok c' -> c_id c' = c_id c).
  { induction l as [|e l IH]; intros c c' H; cbn [injectAll] in H; [injection H as <-; reflexivity|]. apply bind_inv in H. destruct H as (c1 & H1 & H2).
    rewrite (IH _ _ H2). apply (Inj _ _ _ H1). }
  induction tl as [|t tl IH]; intros n p p' H HZ; cbn [encodeTimelines] in H; [injection H as <-; exact HZ|].
  set (p1 := if (length (p_channels p) <=? n)%nat then addChannel (new_channel (te_name t) date) p else p) in *.
  assert (H1 : Forall (fun c => c_id c = 0) (p_channels p1)).
  { unfold p1. destruct (length (p_channels p) <=? n)%nat; [|exact HZ]. cbn. apply Forall_app. split; [exact HZ|]. constructor; [reflexivity|constructor]. }
  destruct (nth_error (p_channels p1) n) as [c|] eqn:En; [|discriminate]. apply bind_inv in H. destruct H as (c' & Hc & H). apply IH in H; [exact H|]. cbn [set_channels p_channels].
  destruct (vec_set_split _ _ c c' En) as (x & y & El & ->). rewrite El in H1. apply Forall_app in H1. destruct H1 as (X1 & Y1). inversion Y1 as [|? ? Z1 Y2]; subst.
  apply Forall_app. split; [exact X1|]. constructor; [|exact Y2]. unfold encodeTimeline in Hc. apply bind_inv in Hc. destruct Hc as (l & _ & Hc). rewrite (All _ _ _ Hc). exact Z1.
Qed.
