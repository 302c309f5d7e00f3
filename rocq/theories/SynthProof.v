(** Proofs about the synthesis. *)
From Coq Require Import Reals Psatz.
From Flocq Require Import Core.Core.
From Verif Require Import Base FloatBase FloatModel FloatSpec FloatProof Float64Proof TypesModel ToolsModel SynthModel SynthSpec.
Local Open Scope Z_scope.
Ltac Zify.zify_post_hook ::= Z.div_mod_to_equations.

Lemma bind_inv {A B} (o : outcome A) (f : A -> outcome B) b : (do x <- o; f x) = Ok b -> exists a, o = Ok a /\ f a = Ok b.
Proof. destruct o; cbn; try discriminate. eauto. Qed.

(** ** Limits *)
Lemma f64_1_R : B2R f64_1 = 1%R.
Proof. unfold f64_1, B2R, F2R. cbn -[bpow]. change (-52)%Z with (Z.opp 52). rewrite (bpow_inv 52) by lia. change (2 ^ 52)%Z with 4503599627370496%Z. lra. Qed.
Lemma f64_m1_R : B2R f64_m1 = (-1)%R.
Proof. unfold f64_m1, B2R, F2R. cbn -[bpow]. change (-52)%Z with (Z.opp 52). rewrite (bpow_inv 52) by lia. change (2 ^ 52)%Z with 4503599627370496%Z. lra. Qed.

Lemma limit_ok v : is_nan v = false -> full_scale (limit v).
Proof.
  intros H. unfold limit, full_scale. destruct (is_finite v) eqn:F.
  - destruct (flt v f64_m1) eqn:E1; [split; [reflexivity|rewrite f64_m1_R; lra]|].
    destruct (flt f64_1 v) eqn:E2; [split; [reflexivity|rewrite f64_1_R; lra]|].
    split; [exact F|]. split.
    + apply Rnot_lt_le. intros L. rewrite (flt_true v f64_m1 F eq_refl) in E1; [discriminate|rewrite f64_m1_R; exact L].
    + apply Rnot_lt_le. intros L. rewrite (flt_true f64_1 v eq_refl F) in E2; [discriminate|rewrite f64_1_R; exact L].
  - destruct v as [s|s| |s m e B]; try discriminate. destruct s; cbn.
    + split; [reflexivity|]. change (-1 <= B2R f64_m1 <= 1)%R. rewrite f64_m1_R. lra.
    + split; [reflexivity|]. change (-1 <= B2R f64_1 <= 1)%R. rewrite f64_1_R. lra.
Qed.
Lemma limit_bounds v : is_nan (limit v) = true \/ full_scale (limit v).
Proof.
  destruct (is_nan v) eqn:E; [|right; apply limit_ok, E]. left. destruct v; try discriminate. reflexivity.
Qed.
Lemma limit_id v : full_scale v -> limit v = v.
Proof.
  intros [F H]. unfold limit. rewrite (flt_false v f64_m1 F eq_refl) by (rewrite f64_m1_R; apply H).
  rewrite (flt_false f64_1 v eq_refl F) by (rewrite f64_1_R; apply H). reflexivity.
Qed.
Lemma full_scale_0 : full_scale f64_0.
Proof. split; [reflexivity|cbn; lra]. Qed.

Section S.
Variable fsin : f64 -> f64.
Variable fpow : f64 -> f64 -> f64.
Variables akima bezier bspline : list point -> outcome (list f64).
Local Notation EvaluateChannel := (EvaluateChannel fsin fpow akima bezier bspline).
Local Notation EvaluationBand := (EvaluationBand fsin fpow akima bezier bspline).
Local Notation channelEvaluate := (channelEvaluate fsin fpow).
Local Notation bandEvaluate := (bandEvaluate fsin fpow).

Lemma evaluate_bounds fuel c position timescale v : channelEvaluate fuel c position timescale = Ok v ->
  is_nan v = true \/ full_scale v.
Proof.
  intros H. unfold SynthModel.channelEvaluate in H. apply bind_inv in H as (r & _ & H).
  assert (E : v = limit r) by congruence. subst v. apply limit_bounds.
Qed.
Lemma add_band_bounds l : forall m, Forall (fun v => is_nan v = true \/ full_scale v) l ->
  Forall (fun v => is_nan v = true \/ full_scale v) (add_band l m).
Proof.
  induction l as [|x l IH]; intros [|y m] H; cbn [add_band]; try exact H; try constructor.
  - apply limit_bounds.
  - apply IH. inversion H; assumption.
Qed.
Lemma add_band_length l : forall m, length (add_band l m) = length l.
Proof. induction l as [|x l IH]; intros [|y m]; cbn; auto. Qed.
Lemma add_bands_bounds fuel bs sc fs pad ts : forall l l', add_bands fsin fpow akima bezier bspline fuel bs sc fs pad ts l = Ok l' ->
  length l' = length l /\ (Forall (fun v => is_nan v = true \/ full_scale v) l -> Forall (fun v => is_nan v = true \/ full_scale v) l').
Proof.
  induction bs as [|b bs IH]; intros l l' H; cbn [add_bands] in H.
  - injection H as <-. auto.
  - apply bind_inv in H as (m & _ & H). destruct (IH _ _ H) as [H1 H2]. rewrite add_band_length in H1. split; [exact H1|].
    intros Hl. apply H2, add_band_bounds, Hl.
Qed.
Lemma channel_bounds fuel c sc fs pad ts l : EvaluateChannel fuel c sc fs pad ts = Ok l ->
  length l = Z.to_nat sc /\ Forall (fun v => is_nan v = true \/ full_scale v) l.
Proof.
  intros H. unfold SynthModel.EvaluateChannel in H. destruct (add_bands_bounds _ _ _ _ _ _ _ _ H) as [H1 H2]. rewrite repeat_length in H1.
  split; [exact H1|]. apply H2. apply Forall_forall. intros v Hv. apply repeat_spec in Hv. subst v. right. apply full_scale_0.
Qed.

(** ** Transients *)
Lemma transient_stuck rel dur k (K : k_amp k = None) (T : transient_at rel dur k = true) :
  forall fuel l res r, Forall (fun k => transient_at rel dur k = true) l ->
  (forall o, transient_loop fsin fuel rel dur res (l ++ k :: r) = Ok o -> False) /\
  (Forall (fun k => k_pos k <> None) l -> transient_loop fsin fuel rel dur res (l ++ k :: r) = NoFuel).
Proof.
  induction fuel as [|fuel IH]; intros l res r H; [split; [discriminate|reflexivity]|].
  destruct l as [|k0 l]; cbn [app transient_loop].
  - rewrite T, K. apply (IH [] res r (Forall_nil _)).
  - inversion H as [|? ? H0 H1]; subst. rewrite H0. destruct (k_amp k0) as [a|].
    + unfold pos_value. unfold transient_at in H0. destruct (k_pos k0) as [t|] eqn:P; [|discriminate].
      destruct (IH l (add64 res (mul64 (fsin (div64 (mul64 (mul64 f64_4 M_PI) (sub64 rel (f64_of_Z t))) dur)) (f64_of_f32 a))) r H1) as [I1 I2].
      cbn [obind]. split; [exact I1|]. intros HP. inversion HP; subst. auto.
    + destruct (IH (k0 :: l) res r H) as [I1 I2]. cbn [app] in I1, I2. split; [exact I1|exact I2].
Qed.
Lemma from_first_skip {A} (f : A -> bool) l r : Forall (fun x => f x = false) l -> from_first f (l ++ r) = from_first f r.
Proof. induction 1 as [|x l Hx Hl IH]; cbn; [reflexivity|]. rewrite Hx. exact IH. Qed.
Lemma from_first_here {A} (f : A -> bool) x r : f x = true -> from_first f (x :: r) = x :: r.
Proof. intros H. cbn. rewrite H. reflexivity. Qed.
Lemma Forall_rev' {A} (P : A -> Prop) l : Forall P l -> Forall P (rev l).
Proof. rewrite !Forall_forall. intros H x Hx. apply H, in_rev, Hx. Qed.

Lemma transient_endless fuel e position dur :
  stuck_at (transient_at (sub64 position (f64_of_Z (e_pos e))) dur) (e_kfs e) ->
  EvaluateTransient fsin fuel e position dur = NoFuel.
Proof.
  intros (pre & k & mid & post & E & Hpost & Hmid & Hk). unfold EvaluateTransient. set (rel := sub64 position (f64_of_Z (e_pos e))) in *.
  rewrite E. rewrite rev_app_distr. cbn [rev]. rewrite rev_app_distr, <- !app_assoc.
  rewrite from_first_skip by (apply Forall_rev', Hpost).
  inversion Hmid as [|? ? Hk' Hmid']; subst.
  assert (F : from_first (transient_at rel dur) (rev mid ++ [k] ++ rev pre) = rev mid ++ k :: rev pre).
  { destruct (rev mid) as [|m r] eqn:Em; cbn [app].
    - apply from_first_here, Hk'.
    - apply from_first_here. pose proof (Forall_rev' _ _ Hmid') as H. rewrite Em in H. inversion H; assumption. }
  rewrite F. pose proof (Forall_rev' _ _ Hmid') as Hm.
  apply (transient_stuck rel dur k Hk Hk' fuel (rev mid) f64_0 (rev pre) Hm).
  eapply Forall_impl; [|exact Hm]. intros a Ha. unfold transient_at in Ha. destruct (k_pos a); [discriminate|discriminate Ha].
Qed.

(** The run of keyframes at the time, from the last one: either all have amplitudes, or it is stuck. *)
Lemma transient_run rel dur : forall l,
  (forall fuel res, (length l < fuel)%nat -> exists v, transient_loop fsin fuel rel dur res l = Ok v) \/
  (exists mid k r, l = mid ++ k :: r /\ Forall (fun k => transient_at rel dur k = true) (mid ++ [k]) /\ k_amp k = None).
Proof.
  induction l as [|k l IH].
  - left. intros [|fuel] res H; [cbn in H; lia|]. cbn. eauto.
  - destruct (transient_at rel dur k) eqn:T.
    + destruct (k_amp k) as [a|] eqn:K.
      * destruct IH as [IH|(mid & k' & r & -> & H & Hk)].
        -- left. intros [|fuel] res H; [cbn in H; lia|]. cbn [length] in H. cbn [transient_loop]. rewrite T, K.
           unfold pos_value. unfold transient_at in T. destruct (k_pos k); [|discriminate]. cbn [obind]. apply IH. lia.
        -- right. exists (k :: mid), k', r. repeat split; [|exact Hk]. cbn [app]. constructor; assumption.
      * right. exists [], k, l. repeat split; [|exact K]. cbn [app]. auto.
    + left. intros [|fuel] res H; [cbn in H; lia|]. cbn [transient_loop]. rewrite T. eauto.
Qed.
Lemma from_first_split {A} (f : A -> bool) l : exists pre, l = pre ++ from_first f l /\ Forall (fun x => f x = false) pre.
Proof.
  induction l as [|x l (pre & E & H)]; [exists []; auto|]. cbn. destruct (f x) eqn:F; [exists []; auto|].
  exists (x :: pre). split; [cbn; congruence|auto].
Qed.
Lemma transient_terminates fuel e position dur : (length (e_kfs e) < fuel)%nat ->
  ~ stuck_at (transient_at (sub64 position (f64_of_Z (e_pos e))) dur) (e_kfs e) ->
  exists v, EvaluateTransient fsin fuel e position dur = Ok v.
Proof.
  intros Hf Hs. unfold EvaluateTransient. set (rel := sub64 position (f64_of_Z (e_pos e))) in *.
  destruct (from_first_split (transient_at rel dur) (rev (e_kfs e))) as (pre & E & Hpre).
  destruct (transient_run rel dur (from_first (transient_at rel dur) (rev (e_kfs e)))) as [H|(mid & k & r & El & H & Hk)].
  - apply H. apply (f_equal (@length _)) in E. rewrite app_length, rev_length in E. lia.
  - exfalso. apply Hs. exists (rev r), k, (rev mid), (rev pre). rewrite El in E. split.
    + rewrite <- (rev_involutive (e_kfs e)), E. rewrite !rev_app_distr. cbn [rev]. rewrite <- !app_assoc. reflexivity.
    + split; [apply Forall_rev', Hpre|]. split; [|exact Hk]. apply Forall_app in H as [H1 H2].
      constructor; [inversion H2; assumption|apply Forall_rev', H1].
Qed.

(** ** Curves *)
Lemma curve_points_length fs ts : forall l first ps, curve_points fs ts first l = Ok ps -> length ps = length l.
Proof.
  induction l as [|k l IH]; intros first ps H; cbn [curve_points] in H; [injection H as <-; reflexivity|].
  apply bind_inv in H as (t & _ & H). apply bind_inv in H as (t1 & _ & H). apply bind_inv in H as (t2 & _ & H).
  apply bind_inv in H as (a & _ & H). apply bind_inv in H as (qs & Hq & H). injection H as <-. cbn. f_equal. eapply IH, Hq.
Qed.
Lemma two_keyframes sc fs pad ts ct e l l' : length (e_kfs e) = 2%nat ->
  add_curve_effect fpow akima bezier bspline sc fs pad ts ct e l = Ok l' -> l' = l.
Proof.
  intros H E. unfold add_curve_effect in E. apply bind_inv in E as (ps & Hp & E). apply curve_points_length in Hp. rewrite H in Hp.
  destruct ps as [|p0 [|p1 [|p2 ps]]]; try discriminate Hp. destruct (_ <? _); [discriminate|].
  cbn [length Nat.eqb] in E. apply bind_inv in E as (x & _ & E). congruence.
Qed.
Lemma two_keyframes_band fuel b sc fs pad ts l : b_type b = CurveB ->
  Forall (fun e => length (e_kfs e) = 2%nat) (b_effects b) ->
  EvaluationBand fuel b sc fs pad ts = Ok l -> l = repeat f64_0 (Z.to_nat sc).
Proof.
  intros T H E. unfold SynthModel.EvaluationBand in E. rewrite T in E. cbn [Z.eqb Pos.eqb CurveB] in E. change (1 =? 1) with true in E. cbv iota in E.
  revert E. generalize (repeat f64_0 (Z.to_nat sc)). induction H as [|e es He Hes IH]; intros l0 E; cbn [add_curve_effects] in E; [congruence|].
  apply bind_inv in E as (l1 & E1 & E2). apply (two_keyframes _ _ _ _ _ _ _ _ He) in E1. subst l1. apply IH, E2.
Qed.

Lemma cast_i32_eq z : cast i32 z = (z + 2147483648) mod 4294967296 - 2147483648.
Proof. reflexivity. Qed.
Lemma int_ok_inv z r : int_ok z = Ok r -> r = z /\ - 2 ^ 31 <= z < 2 ^ 31.
Proof.
  unfold int_ok. rewrite cast_i32_eq. destruct (Z.eqb_spec z ((z + 2147483648) mod 4294967296 - 2147483648)) as [E|_]; [|discriminate].
  intros [= <-]. split; [reflexivity|]. change (2 ^ 31) with 2147483648. lia.
Qed.
Lemma int_ok_fits z : - 2 ^ 31 <= z < 2 ^ 31 -> int_ok z = Ok z.
Proof.
  intros H. unfold int_ok. rewrite cast_i32_eq. change (2 ^ 31) with 2147483648 in H.
  destruct (Z.eqb_spec z ((z + 2147483648) mod 4294967296 - 2147483648)) as [_|E]; [reflexivity|lia].
Qed.
Lemma cast_u32 z : 0 <= z < 2 ^ 32 -> cast u32 z = z.
Proof. intros H. unfold cast, u32. cbn [ct_signed ct_width]. unfold to_unsigned. change (2 ^ Z.of_nat 32) with (2 ^ 32). apply Z.mod_small, H. Qed.
Lemma cast_i32 z : - 2 ^ 31 <= z < 2 ^ 31 -> cast i32 z = z.
Proof. intros H. apply int_ok_fits in H. unfold int_ok in H. destruct (z =? cast i32 z) eqn:E; [|discriminate]. lia. Qed.

(** The start of a curve effect in samples, as computed. *)
Lemma late_start sc fs pad ts ct e l l' start : 0 <= sc < 2 ^ 31 ->
  start = (e_pos e + pad) * fs * ts -> sc <= start < 2 ^ 31 ->
  add_curve_effect fpow akima bezier bspline sc fs pad ts ct e l = Ok l' -> l' = l.
Proof.
  intros Hs Es Hst E. unfold add_curve_effect in E. apply bind_inv in E as (ps & Hp & E).
  destruct ps as [|p0 ps]; [discriminate|]. destruct (_ <? _); [discriminate|].
  destruct (Nat.eqb _ _); [apply bind_inv in E as (x & _ & E); congruence|].
  apply bind_inv in E as (am & _ & E). apply bind_inv in E as (p1 & H1 & E). apply int_ok_inv in H1 as [-> _].
  apply bind_inv in E as (p2 & H2 & E). apply int_ok_inv in H2 as [-> _].
  rewrite <- Es in E. rewrite (cast_u32 start) in E by lia. rewrite (cast_i32 start) in E by lia.
  replace (start <? 0) with false in E by lia. cbn [obind] in E. rewrite (cast_i32 sc) in E by lia.
  replace (Z.to_nat _) with O in E by lia. cbn in E. congruence.
Qed.

Lemma one_keyframe sc fs pad ts ct e l k t a : e_kfs e = [k] -> k_pos k = Some t -> k_amp k = Some a ->
  (ct = UnknownC \/ ct = CubicC \/ ct = LinearC) -> - 2 ^ 31 <= t * fs < 2 ^ 31 -> ts <> 0 ->
  0 <= sc < 2 ^ 31 -> - 2 ^ 31 <= e_pos e + pad < 2 ^ 31 -> - 2 ^ 31 <= (e_pos e + pad) * fs < 2 ^ 31 -> 0 <= (e_pos e + pad) * fs * ts < sc ->
  add_curve_effect fpow akima bezier bspline sc fs pad ts ct e l = UB.
Proof.
  intros Ek Kp Ka Hct Ht Hts Hs H1 H2 H3. unfold add_curve_effect. rewrite Ek. cbn [curve_points]. unfold pos_value, amp_value, curve_time.
  rewrite Kp, Ka. cbn [obind]. rewrite (int_ok_fits _ Ht). cbn [obind]. destruct (Z.eqb_spec ts 0) as [|_]; [contradiction|]. cbn [obind].
  cbv beta iota zeta. cbn [snd last_time last fst length Nat.eqb].
  change (0 <? -1) with false. cbv iota.
  match goal with |- context [obind (if ct =? LinearC then ?x else ?y) _] =>
    assert (E : (if ct =? LinearC then x else y) = Ok []) by (destruct Hct as [->|[->| ->]]; reflexivity) end.
  rewrite E. cbn [obind]. rewrite (int_ok_fits _ H1). cbn [obind]. rewrite (int_ok_fits _ H2). cbn [obind].
  rewrite (cast_u32 ((e_pos e + pad) * fs * ts)) by lia. rewrite (cast_i32 ((e_pos e + pad) * fs * ts)) by lia.
  replace (_ <? 0) with false by lia. cbn [obind]. rewrite (cast_i32 sc) by lia.
  destruct (Z.to_nat _) as [|n] eqn:En; [cbn in En; lia|]. reflexivity.
Qed.

(** ** Bands without effects *)
Lemma no_effects fuel b sc fs pad ts : b_type b <> CurveB -> b_effects b = [] -> 0 < sc ->
  EvaluationBand fuel b sc fs pad ts = UB.
Proof.
  intros T E H. unfold SynthModel.EvaluationBand. destruct (Z.eqb_spec (b_type b) CurveB) as [|_]; [contradiction|].
  unfold times. destruct (Z.to_nat (sc - 1 + 1 - 0)) as [|n] eqn:En; [lia|]. cbn [seq map map_o]. unfold band_sample. rewrite E. reflexivity.
Qed.

(** ** Silence *)
Lemma find_last_none {A} (f : A -> bool) l : Forall (fun x => f x = false) l -> find_last f l = None.
Proof. intros H. unfold find_last. apply Forall_rev' in H. induction H as [|x r Hx Hr IH]; cbn; [reflexivity|]. rewrite Hx. exact IH. Qed.
Lemma before_effects fuel b position low high ts v : Forall (fun e => fle (f64_of_Z (e_pos e)) position = false) (b_effects b) ->
  bandEvaluate fuel b position low high ts = Ok v -> v = f64_0.
Proof.
  intros H E. unfold SynthModel.bandEvaluate in E. destruct (b_effects b) as [|e es] eqn:Eb; [congruence|].
  apply bind_inv in E as (out & _ & E). destruct out; [congruence|]. rewrite (find_last_none _ _ H) in E. congruence.
Qed.
Lemma after_effects fuel b position low high ts v len : b_type b <> WaveletB -> b_effects b <> [] ->
  getEffectTimeLength (last (b_effects b) effect0) (b_type b) TRANSIENT_DURATION_MS = Ok len ->
  flt (add64 (f64_of_Z (e_pos (last (b_effects b) effect0))) len) position = true ->
  bandEvaluate fuel b position low high ts = Ok v -> v = f64_0.
Proof.
  intros T H Hl Hf E. unfold SynthModel.bandEvaluate in E. destruct (b_effects b) as [|e es] eqn:Eb; [congruence|].
  destruct (Z.eqb_spec (b_type b) WaveletB) as [|_]; [contradiction|].
  rewrite Hl in E. cbn [obind] in E. rewrite Hf in E. cbn [orb] in E. congruence.
Qed.
End S.

(** ** Free bands *)
Lemma D22 : B2R TRANSIENT_DURATION_MS = 22%R.
Proof. unfold TRANSIENT_DURATION_MS, B2R, F2R. cbn -[bpow]. change (-48)%Z with (Z.opp 48). rewrite (bpow_inv 48) by lia. change (2 ^ 48)%Z with 281474976710656%Z. lra. Qed.
Lemma find_last_pos l : match find_last has_pos l with
  | Some k => exists t, k_pos k = Some t /\ last_position l t
  | None => Forall (fun k => k_pos k = None) l end.
Proof.
  unfold find_last. induction l as [|k l IH] using rev_ind; [constructor|]. rewrite rev_app_distr. cbn [rev app find].
  unfold has_pos at 1. destruct (k_pos k) as [t|] eqn:P.
  - exists t. split; [exact P|]. exists l, k, []. auto.
  - destruct (find has_pos (rev l)) as [k'|].
    + destruct IH as (t & H & pre & k0 & post & -> & H1 & H2). exists t. split; [exact H|].
      exists pre, k0, (post ++ [k]). rewrite <- app_assoc. repeat split; [exact H1|]. apply Forall_app. auto.
    + apply Forall_app. auto.
Qed.
Lemma time_length b e x : 0 <= b_type b <= 3 -> small_times e ->
  getEffectTimeLength e (b_type b) TRANSIENT_DURATION_MS = Ok x ->
  exists len, effect_length (b_type b) e len /\ B2R x = IZR len /\ is_finite x = true /\ - 2 ^ 31 <= len < 2 ^ 32.
Proof.
  intros Hb [_ Hk] H. unfold getEffectTimeLength in H. unfold effect_length. destruct (e_kfs e) as [|k l] eqn:E.
  - injection H as <-. exists 0. split; [left; auto|]. split; [reflexivity|]. split; [reflexivity|lia].
  - assert (Hne : e_kfs e <> []) by (rewrite E; discriminate). rewrite <- E in *.
    pose proof (find_last_pos (e_kfs e)) as F. destruct (Z.eqb_spec (b_type b) TransientB) as [T|T].
    + destruct (find_last has_pos (e_kfs e)) as [k'|]; [|discriminate]. destruct F as (t & Hp & Hl). unfold pos_or_0 in H. rewrite Hp in H.
      assert (Ht : - 2 ^ 31 <= t < 2 ^ 31).
      { destruct Hl as (pre & k0 & post & E0 & H1 & _). rewrite E0 in Hk. apply Forall_app in Hk as [_ Hk]. inversion Hk as [|? ? Hk0 _]; subst. rewrite H1 in Hk0. exact Hk0. }
      assert (Ex : x = add64 (f64_of_Z t) TRANSIENT_DURATION_MS) by congruence. subst x.
      destruct (f64_of_Z_ok t ltac:(lia)) as [E1 F1].
      destruct (add64_ok (f64_of_Z t) TRANSIENT_DURATION_MS F1 eq_refl) as [E2 F2].
      { rewrite E1, D22, <- plus_IZR, <- abs_IZR. apply Rle_trans with (bpow radix2 32); [|apply bpow_le; lia].
        rewrite bpow_IZR by lia. apply IZR_le. lia. }
      exists (t + 22). split; [right; right; exists t; auto|]. split; [|split; [exact F2|lia]].
      rewrite E2, E1, D22, <- plus_IZR. apply rnd64_id, fmt64_Z. lia.
    + destruct ((b_type b =? CurveB) || (b_type b =? VectorialB)) eqn:T2.
      * destruct (find_last has_pos (e_kfs e)) as [k'|]; [|discriminate]. destruct F as (t & Hp & Hl). unfold pos_or_0 in H. rewrite Hp in H.
        assert (Ht : - 2 ^ 31 <= t < 2 ^ 31).
        { destruct Hl as (pre & k0 & post & E0 & H1 & _). rewrite E0 in Hk. apply Forall_app in Hk as [_ Hk]. inversion Hk as [|? ? Hk0 _]; subst. rewrite H1 in Hk0. exact Hk0. }
        assert (Ex : x = f64_of_Z t) by congruence. subst x. destruct (f64_of_Z_ok t ltac:(lia)) as [E1 F1].
        exists t. split; [right; right; exists t; split; [exact Hl|right; split; [|reflexivity]]|].
        { apply orb_prop in T2 as [T2|T2]; apply Z.eqb_eq in T2; auto. }
        split; [exact E1|]. split; [exact F1|lia].
      * injection H as <-. exists 0. split; [right; left; repeat split; auto|split; [reflexivity|split; [reflexivity|lia]]].
        unfold TransientB, CurveB, VectorialB, WaveletB in *. lia.
Qed.
Lemma Rle_bool_IZR a b : Rle_bool (IZR a) (IZR b) = (a <=? b).
Proof.
  destruct (Z.leb_spec a b) as [H|H]; [apply Rle_bool_true, IZR_le, H|apply Rle_bool_false, IZR_lt, H].
Qed.
Lemma overlapping b e start stop o : 0 <= b_type b <= 3 -> small_times e -> - 2 ^ 31 <= start <= stop -> stop < 2 ^ 31 ->
  isOverlapping b e start stop = Ok o ->
  exists len, effect_length (b_type b) e len /\ (0 <= len -> (o = true <-> meets (e_pos e) len start (stop - start))).
Proof.
  intros Hb Hs H1 H2 H. unfold isOverlapping in H. apply bind_inv in H as (x & Hx & H).
  destruct (time_length b e x Hb Hs Hx) as (len & Hl & E & F & B). exists len. split; [exact Hl|]. intros Hp.
  destruct Hs as [Hs _]. destruct (f64_of_Z_ok (e_pos e) ltac:(lia)) as [E1 F1]. destruct (f64_of_Z_ok start ltac:(lia)) as [E2 F2]. destruct (f64_of_Z_ok stop ltac:(lia)) as [E3 F3].
  destruct (add64_ok (f64_of_Z (e_pos e)) x F1 F) as [E4 F4].
  { rewrite E1, E, <- plus_IZR, <- abs_IZR. apply Rle_trans with (bpow radix2 34); [|apply bpow_le; lia]. rewrite bpow_IZR by lia. apply IZR_le. lia. }
  rewrite E1, E, <- plus_IZR in E4. rewrite rnd64_id in E4 by (apply fmt64_Z; lia).
  cbv zeta in H. rewrite !fle_R in H by assumption. rewrite E2, E3, E4, !Rle_bool_IZR in H.
  assert (Eo : o = ((e_pos e <=? start) && (start <=? e_pos e + len)) || ((e_pos e <=? stop) && (stop <=? e_pos e + len)) ||
      ((start <=? e_pos e) && (e_pos e + len <=? stop)) || ((e_pos e <=? start) && (stop <=? e_pos e + len))) by congruence.
  unfold meets. subst o. rewrite !orb_true_iff, !andb_true_iff, !Z.leb_le. lia.
Qed.

Lemma last_position_unique l t1 t2 : last_position l t1 -> last_position l t2 -> t1 = t2.
Proof.
  intros H1 H2.
  assert (G : forall l t, last_position l t -> match find_last has_pos l with Some k => k_pos k = Some t | None => False end).
  { clear. intros l t (pre & k & post & -> & Hk & Hp). unfold find_last. rewrite rev_app_distr. cbn [rev]. rewrite <- app_assoc.
    apply Forall_rev' in Hp. induction Hp as [|x r Hx Hr IH]; cbn [app find].
    - unfold has_pos. rewrite Hk. exact Hk.
    - unfold has_pos at 1. rewrite Hx. exact IH. }
  apply G in H1, H2. destruct (find_last has_pos l); [congruence|contradiction].
Qed.
Lemma effect_length_unique bt e l1 l2 : effect_length bt e l1 -> effect_length bt e l2 -> l1 = l2.
Proof.
  assert (N : forall t, ~ last_position [] t) by (intros t (pre & k & post & E & _); destruct pre; discriminate).
  unfold effect_length, TransientB, CurveB, VectorialB, WaveletB.
  intros [[E1 H1]|[(E1 & T1 & H1)|(t1 & P1 & H1)]] [[E2 H2]|[(E2 & T2 & H2)|(t2 & P2 & H2)]]; try congruence.
  - rewrite E1 in P2. destruct (N _ P2).
  - intuition lia.
  - rewrite E2 in P1. destruct (N _ P1).
  - intuition lia.
  - pose proof (last_position_unique _ _ _ P1 P2). intuition lia.
Qed.
Lemma any_overlapping_spec b es position duration r : 0 <= b_type b <= 3 -> Forall (placed (b_type b)) es ->
  - 2 ^ 31 <= position -> 0 <= duration -> position + duration < 2 ^ 31 ->
  any_overlapping b es position (position + duration) = Ok r ->
  if (r : bool) then Exists (touches (b_type b) position duration) es else Forall (fun e => ~ touches (b_type b) position duration e) es.
Proof.
  intros Hb Hes Hp Hd Hpd. induction Hes as [|e es He Hes IH]; intros H; cbn [any_overlapping] in H.
  - injection H as <-. constructor.
  - apply bind_inv in H as (o & Ho & H). destruct He as (Hs & len0 & L0 & P0).
    destruct (overlapping b e position (position + duration) o Hb Hs ltac:(lia) ltac:(lia) Ho) as (len & L & Hm).
    pose proof (effect_length_unique _ _ _ _ L0 L) as ->. specialize (Hm P0). replace (position + duration - position) with duration in Hm by lia.
    destruct o.
    + injection H as <-. left. exists len. split; [exact L|]. apply Hm. reflexivity.
    + specialize (IH H). destruct r; [right; exact IH|]. constructor; [|exact IH]. intros (len' & L' & M').
      pose proof (effect_length_unique _ _ _ _ L L') as ->. apply Hm in M'. discriminate.
Qed.
Lemma find_band_spec position duration bt : 0 <= bt <= 3 -> - 2 ^ 31 <= position -> 0 <= duration ->
  forall bs i r, Forall (fun b => b_type b = bt -> Forall (placed bt) (b_effects b)) bs ->
  find_band i bs position duration bt = Ok r ->
  match r with
  | Some j => exists b, (i <= j)%nat /\ nth_error bs (j - i) = Some b /\ b_type b = bt /\ Forall (fun e => ~ touches bt position duration e) (b_effects b)
  | None => Forall (fun b => b_type b = bt -> Exists (touches bt position duration) (b_effects b)) bs
  end.
Proof.
  intros Hbt Hp Hd. induction bs as [|b bs IH]; intros i r Hbs H; cbn [find_band] in H.
  - injection H as <-. constructor.
  - inversion Hbs as [|? ? Hb Hbs']; subst.
    assert (Next : find_band (S i) bs position duration bt = Ok r -> (b_type b = bt -> Exists (touches bt position duration) (b_effects b)) ->
      match r with
      | Some j => exists b0, (i <= j)%nat /\ nth_error (b :: bs) (j - i) = Some b0 /\ b_type b0 = bt /\ Forall (fun e => ~ touches bt position duration e) (b_effects b0)
      | None => Forall (fun b => b_type b = bt -> Exists (touches bt position duration) (b_effects b)) (b :: bs)
      end).
    { intros Hn Hx. specialize (IH _ _ Hbs' Hn). destruct r as [j|]; [|constructor; assumption].
      destruct IH as (b0 & Hj & Hnth & Hr). exists b0. split; [lia|]. replace (j - i)%nat with (S (j - S i)) by lia. auto. }
    destruct (Z.eqb_spec (b_type b) bt) as [T|T]; cbn [negb] in H.
    + apply bind_inv in H as (busy & Hbusy & H).
      assert (Q : if busy then Exists (touches bt position duration) (b_effects b) else Forall (fun e => ~ touches bt position duration e) (b_effects b)).
      { destruct (b_effects b) as [|e es] eqn:Ee; [injection Hbusy as <-; constructor|].
        apply bind_inv in Hbusy as (stop & Hstop & Hbusy). apply int_ok_inv in Hstop as [-> Hstop]. rewrite <- T in *.
        eapply any_overlapping_spec; [exact Hbt|apply Hb; reflexivity|exact Hp|exact Hd|apply Hstop|exact Hbusy]. }
      destruct busy; [apply Next; auto|]. injection H as <-. exists b. split; [lia|]. rewrite Nat.sub_diag. auto.
    + apply Next; [exact H|contradiction].
Qed.
