(** Effects of Akima, Bezier and B-spline curve bands. *)
From Coq Require Import Reals Psatz.
From Flocq Require Import Core.Core.
From Verif Require Import Base FloatBase FloatModel FloatProof Float64Proof TypesModel ToolsModel SynthModel SynthSpec SynthProof SynthMore SynthCurve InterpModel InterpSpec InterpBase AkimaProof AkimaNan BezierProof BezierCurve AkimaCurve AkimaSlope BsplineProof.
Local Open Scope Z_scope.
Ltac Zify.zify_post_hook ::= Z.div_mod_to_equations.

Lemma curve_values fs ts kfs points : curve_of fs ts kfs points -> finite_amplitudes kfs -> Forall (fun p => bd 128 (snd p)) points.
Proof.
  intros (first & a0 & H & _) Hf. induction H as [|k p kfs ps (t & a & Hk & Ha & _ & _ & Hp) H IH]; [constructor|].
  inversion Hf as [|? ? (a' & Ha' & Fa) Hf']; subst. constructor; [|exact (IH Hf')]. cbn [snd]. apply bd_f32. congruence.
Qed.
Lemma curve_grid fs ts kfs points : curve_of fs ts kfs points -> finite_amplitudes kfs -> forall i, (i < length points)%nat -> grid (-149) (B2R (value_of points i)).
Proof.
  intros (first & a0 & H & _) Hf. assert (G : Forall (fun p => grid (-149) (B2R (snd p))) points).
  { clear a0. induction H as [|k p kfs ps (t & a & Hk & Ha & _ & _ & Hp) H IH]; [constructor|].
    inversion Hf as [|? ? (a' & Ha' & Fa) Hf']; subst. constructor; [|exact (IH Hf')]. cbn [snd]. apply grid_f32. congruence. }
  intros i Hi. unfold value_of. rewrite Forall_forall in G. apply G. apply nth_In. exact Hi.
Qed.
Lemma value_bd points : Forall (fun p => bd 128 (snd p)) points -> forall i, (i < length points)%nat -> bd 128 (value_of points i).
Proof. intros H i Hi. unfold value_of. rewrite Forall_forall in H. apply H. apply nth_In. exact Hi. Qed.
Lemma curve_first fs ts kfs points : curve_of fs ts kfs points -> time_of points 0 = 0 /\ points <> [].
Proof. intros (first & a0 & _ & H). destruct points as [|p ps]; [discriminate|]. injection H as ->. split; [reflexivity|discriminate]. Qed.
Lemma curve_times fs ts kfs points : 0 < ts -> 0 <= fs -> curve_of fs ts kfs points -> Forall (fun p => - 2 ^ 31 < fst p < 2 ^ 31) points.
Proof.
  intros Hts Hfs (first & a0 & H & Hd).
  assert (Q : forall t, 0 <= t -> t * fs < 2 ^ 31 -> 0 <= t * fs / ts < 2 ^ 31).
  { intros t Ht Hm. split; [apply Z.div_pos; nia|apply Z.le_lt_trans with (t * fs); [apply Z.div_le_upper_bound; nia|exact Hm]]. }
  assert (F : 0 <= first < 2 ^ 31).
  { destruct H as [|k p kfs ps (t & a & _ & _ & Ht & Hm & Hp) _]; [discriminate|]. injection Hd as Hd. rewrite Hp in Hd. injection Hd as Hd _. specialize (Q t Ht Hm). lia. }
  clear Hd. induction H as [|k p kfs ps (t & a & _ & _ & Ht & Hm & Hp) H IH]; [constructor|]. constructor; [|exact IH]. subst p. cbn [fst]. specialize (Q t Ht Hm). lia.
Qed.
Lemma last_range fs ts kfs points : 0 < ts -> 0 <= fs -> curve_of fs ts kfs points -> last_time points < 2 ^ 31.
Proof.
  intros Hts Hfs H. pose proof (curve_times _ _ _ _ Hts Hfs H) as F. rewrite Forall_forall in F. apply F. apply last_In. apply (curve_first _ _ _ _ H).
Qed.
Lemma ordered_first points : ordered points -> forall i, (i < length points)%nat -> time_of points 0 <= time_of points i <= last_time points.
Proof.
  intros Ho. assert (St : forall i, (i + 1 < length points)%nat -> time_of points i <= time_of points (i + 1)).
  { intros i H. destruct (nth_error points i) as [p|] eqn:E; [|apply nth_error_None in E; lia]. destruct (nth_error points (S i)) as [q|] eqn:F; [|apply nth_error_None in F; lia].
    replace (i + 1)%nat with (S i) by lia. rewrite (proj1 (time_nth _ _ _ E)), (proj1 (time_nth _ _ _ F)). exact (Ho i p q E F). }
  intros i H. split.
  - induction i as [|i IH]; [lia|]. specialize (IH ltac:(lia)). pose proof (St i ltac:(lia)). replace (i + 1)%nat with (S i) in * by lia. lia.
  - rewrite last_time_of. remember (length points - 1 - i)%nat as d eqn:Ed. revert i H Ed. induction d as [|d IH]; intros i H Ed; [replace (length points - 1)%nat with i by lia; lia|].
    specialize (IH (i + 1)%nat ltac:(lia) ltac:(lia)). pose proof (St i ltac:(lia)). lia.
Qed.
Lemma increasing_ordered points : increasing points -> ordered points.
Proof. intros H i p q Hp Hq. specialize (H i p q Hp Hq). lia. Qed.

Section E.
Variable fpow : f64 -> f64 -> f64.
Variables akima bezier bspline : list point -> outcome (list f64).
Variables (fs pad ts sc : Z) (e : effect) (start : Z) (points : list point) (bandAmp : list f64).
Hypothesis Hst : starts fs pad ts sc e start.
Hypothesis Hc : curve_of fs ts (e_kfs e) points.
Hypothesis Hn : (3 <= length points)%nat.
Hypothesis Hb : length bandAmp = Z.to_nat sc.

Lemma whole interp_ : forall ys, interp_ = Ok ys -> Z.of_nat (length ys) = last_time points + 1 ->
  exists out, obind interp_ (fun ea => add_curve (Z.to_nat (Z.min (sc - start) (last_time points + 1))) start 0 ea bandAmp) = Ok out /\ added start ys bandAmp out.
Proof.
  intros ys -> L. cbn [obind]. destruct Hst as (_ & _ & _ & _ & _ & S1 & S2).
  destruct (add_curve_whole ys start sc (last_time points) bandAmp ltac:(lia) ltac:(lia) Hb L) as (out & E & A). exists out. split; assumption.
Qed.

Lemma effect_akima : pow_faithful fpow -> finite_amplitudes (e_kfs e) -> increasing points -> last_time points < 2 ^ 31 - 1 ->
  exists ys out, add_curve_effect fpow (akimaInterpolation fpow) bezier bspline sc fs pad ts AkimaC e bandAmp = Ok out /\ added start ys bandAmp out /\
    Z.of_nat (length ys) = last_time points + 1 /\ numbers ys /\ Forall (goes_through ys) points.
Proof.
  intros Hp Hf Hi Hl. destruct (curve_first _ _ _ _ Hc) as (T0 & _). pose proof (ordered_first points (increasing_ordered _ Hi) 0 ltac:(lia)) as L0.
  destruct (akima_ok fpow Hp points Hn Hi T0 Hl 128 ltac:(lia) (value_bd _ (curve_values _ _ _ _ Hc Hf))) as (ys & E & L & N & G).
  rewrite (effect_curve _ _ _ _ fs ts sc pad AkimaC e points bandAmp start Hst Hc ltac:(lia) ltac:(lia) ltac:(auto)).
  destruct (whole _ ys E L) as (out & Eo & A). exists ys, out. unfold interp. cbn [AkimaC Z.eqb Pos.eqb]. auto.
Qed.
Lemma effect_akima_cubic K : pow_faithful fpow -> finite_amplitudes (e_kfs e) -> increasing points -> last_time points < 2 ^ 31 - 1 ->
  1 <= K <= 128 -> Forall (fun p => (Rabs (B2R (snd p)) <= bpow radix2 K)%R) points ->
  exists ys out slopes, add_curve_effect fpow (akimaInterpolation fpow) bezier bspline sc fs pad ts AkimaC e bandAmp = Ok out /\ added start ys bandAmp out /\
    length slopes = length points /\
    (forall i p q r s, nth_error points i = Some p -> nth_error points (S i) = Some q -> nth_error points (S (S i)) = Some r -> nth_error slopes (S i) = Some s ->
      (Rmin (chord p q) (chord q r) - bpow radix2 K / 281474976710656 <= s <= Rmax (chord p q) (chord q r) + bpow radix2 K / 281474976710656)%R) /\
    (forall i p0 p1 p2 p3 p4 s, nth_error points i = Some p0 -> nth_error points (i + 1) = Some p1 -> nth_error points (i + 2) = Some p2 ->
      nth_error points (i + 3) = Some p3 -> nth_error points (i + 4) = Some p4 -> nth_error slopes (i + 2) = Some s ->
      (B2R (fpow (f64_of_Z 10) (f64_of_Z (-8))) <= bpow radix2 (-26))%R -> (bpow radix2 K / 524288 <= bend p0 p1 p2 + bend p2 p3 p4)%R ->
      (Rabs (s - akima_slope p0 p1 p2 p3 p4) <= bpow radix2 K / 67108864)%R) /\
    forall i p q s s' x, nth_error points i = Some p -> nth_error points (S i) = Some q -> nth_error slopes i = Some s -> nth_error slopes (S i) = Some s' ->
      fst q - fst p <= 2 ^ 26 -> fst p <= x < fst q ->
      exists y, nth_error ys (Z.to_nat x) = Some y /\ (Rabs (B2R y - hermite p q s s' x) <= bpow radix2 K * IZR (fst q - fst p) / 4398046511104)%R.
Proof.
  intros Hp Hf Hi Hl HK Hamp. destruct (curve_first _ _ _ _ Hc) as (T0 & _). pose proof (ordered_first points (increasing_ordered _ Hi) 0 ltac:(lia)) as L0.
  pose proof (value_bd _ (curve_values _ _ _ _ Hc Hf)) as V.
  assert (VK : forall i, (i < length points)%nat -> bd K (value_of points i)).
  { intros i Li. split; [apply V; exact Li|]. destruct (nth_error points i) as [p|] eqn:Ep; [|apply nth_error_None in Ep; lia].
    destruct (time_nth _ _ _ Ep) as (_ & ->). rewrite Forall_forall in Hamp. apply Hamp. eapply nth_error_In. exact Ep. }
  destruct (akima_ok fpow Hp points Hn Hi T0 Hl K HK VK) as (ys & E & L & _). destruct (akima_cubic fpow points K Hp Hn Hi T0 Hl HK VK ys E) as (slopes & Es & Ls & C).
  rewrite (effect_curve _ _ _ _ fs ts sc pad AkimaC e points bandAmp start Hst Hc ltac:(lia) ltac:(lia) ltac:(auto)).
  destruct (whole _ ys E L) as (out & Eo & A). exists ys, out, slopes. unfold interp. cbn [AkimaC Z.eqb Pos.eqb].
  split; [exact Eo|]. split; [exact A|]. split; [exact Ls|].
  assert (Sl : forall j s, (j < length points)%nat -> nth_error slopes j = Some s -> s = B2R (akima_b fpow (akima_m1 (akima_m points)) (length points) j)).
  { intros j s Lj Hs. rewrite Es, !nth_error_map, (nth_error_nth' _ 0%nat), seq_nth in Hs by (try rewrite seq_length; lia). cbn [option_map] in Hs. injection Hs as <-. reflexivity. }
  split; [|split; [|exact C]].
  2:{ intros i p0 p1 p2 p3 p4 s E0 E1 E2 E3 E4 Hs Sp Hw. pose proof (proj1 (nth_error_Some points (i + 4)) ltac:(congruence)) as Li. apply Sl in Hs; [|lia]. subst s.
      exact (slope_formula fpow Hp points Hn Hi T0 Hl K HK VK (curve_grid _ _ _ _ Hc Hf) i p0 p1 p2 p3 p4 E0 E1 E2 E3 E4 Sp Hw). }
  intros i p q r s Ep Eq Er Hs. pose proof (proj1 (nth_error_Some points (S (S i))) ltac:(congruence)) as Li.
  apply Sl in Hs; [|lia]. subst s.
  exact (slope_between fpow Hp points Hn Hi T0 Hl K HK VK (curve_grid _ _ _ _ Hc Hf) i p q r Ep Eq Er).
Qed.
Lemma effect_akima_same i p q : pow_faithful fpow -> ordered points -> last_time points < 2 ^ 31 - 1 ->
  nth_error points i = Some p -> nth_error points (S i) = Some q -> fst p = fst q -> (forall r, nth_error points (S (S i)) = Some r -> fst q < fst r) -> start + fst q < sc ->
  exists out v, add_curve_effect fpow (akimaInterpolation fpow) bezier bspline sc fs pad ts AkimaC e bandAmp = Ok out /\
    nth_error out (Z.to_nat (start + fst q)) = Some v /\ is_nan v = true.
Proof.
  intros Hp Ho Hl Ep Eq Et Hr Hs. destruct (curve_first _ _ _ _ Hc) as (T0 & _). pose proof (ordered_first points Ho 0 ltac:(lia)) as L0.
  pose proof (proj1 (nth_error_Some points (S i)) ltac:(congruence)) as Li. destruct (time_nth _ _ _ Ep) as (Tp & _). destruct (time_nth _ _ _ Eq) as (Tq & _).
  replace (S i) with (i + 1)%nat in * by lia. pose proof (ordered_first points Ho (i + 1) Li) as L1.
  destruct (akima_same fpow Hp points Hn Ho T0 Hl i Li ltac:(lia)) as (ys & y & E & L & Ey & Ny).
  { destruct (nth_error points (S (i + 1))) as [r|] eqn:Er.
    - right. destruct (time_nth _ _ _ Er) as (Tr & _). replace (i + 2)%nat with (S (i + 1)) by lia. specialize (Hr r eq_refl). lia.
    - left. apply nth_error_None in Er. lia. }
  rewrite (effect_curve _ _ _ _ fs ts sc pad AkimaC e points bandAmp start Hst Hc ltac:(lia) ltac:(lia) ltac:(auto)).
  destruct (whole _ ys E L) as (out & Eo & (A1 & A2)). destruct Hst as (_ & _ & _ & _ & _ & S1 & S2).
  destruct (nth_error bandAmp (Z.to_nat (start + fst q))) as [x|] eqn:Ex; [|apply nth_error_None in Ex; lia].
  specialize (A2 _ _ Ex). replace (Z.of_nat (Z.to_nat (start + fst q)) <? start) with false in A2 by lia.
  replace (Z.to_nat (start + fst q) - Z.to_nat start)%nat with (Z.to_nat (fst q)) in A2 by lia. rewrite Tq in Ey. rewrite Ey in A2.
  eexists out, _. split; [exact Eo|]. split; [exact A2|]. destruct y; try discriminate. destruct x; reflexivity.
Qed.
Lemma effect_akima_order : ~ ordered points -> -1 <= last_time points ->
  add_curve_effect fpow (akimaInterpolation fpow) bezier bspline sc fs pad ts AkimaC e bandAmp = UB.
Proof.
  intros Ho Hl. destruct (curve_first _ _ _ _ Hc) as (T0 & _).
  rewrite (effect_curve _ _ _ _ fs ts sc pad AkimaC e points bandAmp start Hst Hc ltac:(lia) Hl ltac:(auto)).
  destruct Hst as (S1 & S2 & _). pose proof (last_range _ _ _ _ (proj1 S1) S2 Hc).
  unfold interp. cbn [AkimaC Z.eqb Pos.eqb]. rewrite (akima_order fpow points Hn T0); [reflexivity|lia|exact Ho].
Qed.

Lemma effect_bezier : pow_faithful fpow -> finite_amplitudes (e_kfs e) -> ordered points -> Nat.odd (length points) = true ->
  (forall i p r, nth_error points i = Some p -> nth_error points (i + 2) = Some r -> fst r - fst p <= 32767) ->
  exists ys out, add_curve_effect fpow akima (bezierInterpolation fpow) bspline sc fs pad ts BezierC e bandAmp = Ok out /\ added start ys bandAmp out /\
    Z.of_nat (length ys) = last_time points + 1 /\ numbers ys /\
    (increasing points -> forall i p, nth_error points i = Some p -> Nat.even i = true -> goes_through ys p).
Proof.
  intros Hp Hf Ho Hodd Hseg. destruct (curve_first _ _ _ _ Hc) as (T0 & _). pose proof (ordered_first points Ho 0 ltac:(lia)) as L0.
  pose proof Hst as (S1 & S2 & _). pose proof (last_range _ _ _ _ (proj1 S1) S2 Hc) as Hl.
  destruct (bezier_ok fpow Hp (length points) points 0 (le_n _) Hodd Ho T0 ltac:(lia) Hl Hseg (curve_values _ _ _ _ Hc Hf)) as (ys & E & L & N & G).
  rewrite (effect_curve _ _ _ _ fs ts sc pad BezierC e points bandAmp start Hst Hc ltac:(lia) ltac:(lia) ltac:(auto)).
  destruct (whole _ ys E ltac:(lia)) as (out & Eo & A). exists ys, out. split; [exact Eo|]. split; [exact A|]. split; [lia|]. split; [exact N|].
  intros Hi i p Ei Hev. destruct (G Hi i p Ei Hev) as (y & Ey & Vy). rewrite Z.sub_0_r in Ey. exists y. split; assumption.
Qed.
Lemma effect_bezier_curve A : pow_faithful fpow -> finite_amplitudes (e_kfs e) -> ordered points -> Nat.odd (length points) = true ->
  (forall i p r, nth_error points i = Some p -> nth_error points (i + 2) = Some r -> fst r - fst p <= 32767) ->
  (bpow radix2 (-90) <= A <= bpow radix2 128)%R -> Forall (fun p => (Rabs (B2R (snd p)) <= A)%R) points ->
  exists ys out, add_curve_effect fpow akima (bezierInterpolation fpow) bspline sc fs pad ts BezierC e bandAmp = Ok out /\ added start ys bandAmp out /\
    forall i p q r x, nth_error points (2 * i) = Some p -> nth_error points (2 * i + 1) = Some q -> nth_error points (2 * i + 2) = Some r -> fst p <= x < fst r ->
    exists y v, nth_error ys (Z.to_nat x) = Some y /\ on_bezier p q r x v /\ (Rabs (B2R y - v) <= A / 1073741824)%R.
Proof.
  intros Hp Hf Ho Hodd Hseg HA Hamp. destruct (curve_first _ _ _ _ Hc) as (T0 & _). pose proof (ordered_first points Ho 0 ltac:(lia)) as L0.
  pose proof Hst as (S1 & S2 & _). pose proof (last_range _ _ _ _ (proj1 S1) S2 Hc) as Hl.
  destruct (bezier_ok fpow Hp (length points) points 0 (le_n _) Hodd Ho T0 ltac:(lia) Hl Hseg (curve_values _ _ _ _ Hc Hf)) as (ys & E & L & _).
  rewrite (effect_curve _ _ _ _ fs ts sc pad BezierC e points bandAmp start Hst Hc ltac:(lia) ltac:(lia) ltac:(auto)).
  destruct (whole _ ys E ltac:(lia)) as (out & Eo & Ad). exists ys, out. split; [exact Eo|]. split; [exact Ad|].
  assert (Lv : Forall (fun p => level_ok A (snd p)) points).
  { pose proof (curve_values _ _ _ _ Hc Hf) as V. rewrite Forall_forall in *. intros q Iq. split; [apply V; exact Iq|apply Hamp; exact Iq]. }
  intros i p q r x Ep Eq Er Hx. destruct (bezier_curve fpow Hp A HA i points ys p q r x E Ho Lv Hseg Ep Eq Er Hx) as (y & t & v & Ey & (C1 & C2 & C3) & (_ & Y)).
  rewrite T0, Z.sub_0_r in Ey. exists y, v. split; [exact Ey|]. split; [|exact Y]. exists t. split; [exact C1|]. split; [|rewrite C3; ring].
  rewrite !minus_IZR in C2. nra.
Qed.
Lemma effect_bezier_even p : Nat.even (length points) = true -> ordered points -> nth_error points (length points - 2) = Some p -> fst p < last_time points -> start + fst p + 1 < sc ->
  add_curve_effect fpow akima (bezierInterpolation fpow) bspline sc fs pad ts BezierC e bandAmp = UB.
Proof.
  intros Hev Ho Ep Hlt Hs. destruct (curve_first _ _ _ _ Hc) as (T0 & Ne). pose proof (ordered_first points Ho 0 ltac:(lia)) as L0.
  pose proof (ordered_first points Ho (length points - 2) ltac:(lia)) as L1. destruct (time_nth _ _ _ Ep) as (Tp & _).
  rewrite (effect_curve _ _ _ _ fs ts sc pad BezierC e points bandAmp start Hst Hc ltac:(lia) ltac:(lia) ltac:(auto)).
  unfold interp. cbn [AkimaC BezierC Z.eqb Pos.eqb].
  destruct (bezier_length fpow (length points) points (le_n _) Ne Ho) as [-> |(ys & -> & L)]; [reflexivity|]. cbn [obind].
  rewrite (used_even (length points) points (le_n _) Ne) in L by (rewrite <- Nat.negb_even, Hev; reflexivity).
  destruct Hst as (_ & _ & _ & _ & _ & S1 & S2). apply add_curve_ub; lia.
Qed.
Lemma effect_bezier_long i p q r : ordered points -> nth_error points (2 * i) = Some p -> nth_error points (2 * i + 1) = Some q -> nth_error points (2 * i + 2) = Some r ->
  46341 <= fst r - fst p -> 2 * (fst q - fst p) <> fst r - fst p ->
  add_curve_effect fpow akima (bezierInterpolation fpow) bspline sc fs pad ts BezierC e bandAmp = UB.
Proof.
  intros Ho Ep Eq Er Hl Hm. destruct (curve_first _ _ _ _ Hc) as (T0 & Ne). pose proof (ordered_first points Ho 0 ltac:(lia)) as L0.
  rewrite (effect_curve _ _ _ _ fs ts sc pad BezierC e points bandAmp start Hst Hc ltac:(lia) ltac:(lia) ltac:(auto)).
  unfold interp. cbn [AkimaC BezierC Z.eqb Pos.eqb]. rewrite (bezier_long fpow i points p q r Ep Eq Er Hl Hm). reflexivity.
Qed.

Lemma effect_bspline fuel A : finite_amplitudes (e_kfs e) -> Z.of_nat (length points) <= 2 ^ 31 -> 0 <= last_time points < 2 ^ 31 - 1 -> 24 * last_time points < Z.of_nat fuel ->
  (bpow radix2 (-90) <= A <= bpow radix2 128)%R -> Forall (fun p => (Rabs (B2R (snd p)) <= A)%R) points ->
  add_curve_effect fpow akima bezier (bsplineInterpolation fuel) sc fs pad ts BsplineC e bandAmp = UB \/
  exists ys out, add_curve_effect fpow akima bezier (bsplineInterpolation fuel) sc fs pad ts BsplineC e bandAmp = Ok out /\ added start ys bandAmp out /\
    Z.of_nat (length ys) = last_time points + 1 /\ Forall (fun y => is_finite y = true /\ (Rabs (B2R y) <= A + A / 281474976710656)%R) ys /\
    (0 < last_time points -> hd_error ys = option_map snd (hd_error points)) /\ nth_error ys (Z.to_nat (last_time points)) = Some (snd (last points (0, f64_0))).
Proof.
  intros Hf Hn2 Hl Hfu HA Hamp.
  rewrite (effect_curve _ _ _ _ fs ts sc pad BsplineC e points bandAmp start Hst Hc ltac:(lia) ltac:(lia) ltac:(auto)).
  destruct (bspline_ok fuel points A Hn Hn2 Hl Hfu HA) as [E|(ys & E & L & W & H1 & H2)].
  - pose proof (curve_values _ _ _ _ Hc Hf) as V. rewrite Forall_forall in *. intros q Iq. split; [apply V; exact Iq|apply Hamp; exact Iq].
  - left. unfold interp. cbn [AkimaC BezierC BsplineC Z.eqb Pos.eqb]. rewrite E. reflexivity.
  - right. destruct (whole _ ys E L) as (out & Eo & Ad). exists ys, out. split; [exact Eo|]. auto.
Qed.
End E.
Lemma effect_bspline_ub fpow akima bezier fuel fs pad ts sc e start points bandAmp :
  bsplineInterpolation fuel points = UB -> starts fs pad ts sc e start -> curve_of fs ts (e_kfs e) points -> length points <> 2%nat -> -1 <= last_time points ->
  add_curve_effect fpow akima bezier (bsplineInterpolation fuel) sc fs pad ts BsplineC e bandAmp = UB.
Proof.
  intros E Hst Hc Hn Hl. rewrite (effect_curve _ _ _ _ fs ts sc pad BsplineC e points bandAmp start Hst Hc Hn Hl ltac:(auto)).
  unfold interp. cbn [AkimaC BezierC BsplineC Z.eqb Pos.eqb]. rewrite E. reflexivity.
Qed.
