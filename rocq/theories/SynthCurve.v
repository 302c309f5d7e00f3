(** Proofs about the interpolation along curves. *)
From Coq Require Import Reals Psatz.
From Verif Require Import Base FloatBase FloatModel TypesModel ToolsModel SynthModel SynthSpec SynthProof SynthMore.
Local Open Scope Z_scope.
Ltac Zify.zify_post_hook ::= Z.div_mod_to_equations.

Lemma in_order_cons x l : in_order (x :: l) -> in_order l /\ Forall (fun y => x <= y) l.
Proof.
  intros H. split.
  - intros i j a b Hij Ha Hb. apply (H (S i) (S j)); [lia|assumption..].
  - apply Forall_forall. intros y Hy. apply In_nth_error in Hy as (j & Hj). apply (H 0%nat (S j)); [lia|reflexivity|exact Hj].
Qed.
Lemma times_length t t1 : length (times t t1) = Z.to_nat (t1 + 1 - t).
Proof. unfold times. rewrite map_length, seq_length. reflexivity. Qed.

Lemma last_In {A} (l : list A) d : l <> [] -> In (last l d) l.
Proof. intros H. destruct (exists_last H) as (m & x & ->). rewrite last_last. apply in_or_app. right. left. reflexivity. Qed.

Section P.
Variable point_at : Z -> point -> point -> f64.
Lemma interpolate2_stop stop t p0 l : stop <= t -> interpolate2 point_at stop t p0 l = [].
Proof. intros H. destruct l as [|p1 l]; cbn [interpolate2]; [reflexivity|]. replace (t <? stop) with false by lia. reflexivity. Qed.
(** One sample is missing exactly if a point is one sample before the end. *)
Lemma interpolate2_length stop : forall l t p0, in_order (map fst l) -> last (map fst l) (stop - 2) = stop -> t < stop ->
  Forall (fun p => t <= fst p + 1) l ->
  Z.of_nat (length (interpolate2 point_at stop t p0 l)) = (if existsb (fun p => fst p =? stop - 1) l then stop else stop + 1) - t.
Proof.
  induction l as [|p1 l IH]; intros t p0 Ho Hl Ht Hf; cbn [map last] in Hl; [lia|].
  cbn [interpolate2 existsb]. replace (t <? stop) with true by lia. rewrite app_length, map_length, times_length.
  cbn [map] in Ho. apply in_order_cons in Ho as [Ho Hge].
  inversion Hf as [|? ? Hp Hf']; subst.
  destruct (Z.eqb_spec (fst p1) (stop - 1)) as [E|E]; cbn [orb].
  - rewrite interpolate2_stop by lia. cbn [length]. lia.
  - destruct l as [|p2 l].
    + cbn [map] in Hl. subst stop. cbn [interpolate2 existsb length]. lia.
    + change (last (map fst (p2 :: l)) (stop - 2) = stop) in Hl.
      assert (Hs : fst p1 <= stop).
      { rewrite Forall_forall in Hge. apply Hge. pose proof (last_In (map fst (p2 :: l)) (stop - 2) ltac:(discriminate)) as X. rewrite Hl in X. exact X. }
      destruct (Z.eq_dec (fst p1) stop) as [E2|E2].
      * rewrite interpolate2_stop by lia. replace (existsb _ (p2 :: l)) with false; [cbn [length]; lia|]. symmetry. apply Bool.not_true_is_false.
        intros X. apply existsb_exists in X as (p & Ip & Hpp). rewrite Forall_forall in Hge. specialize (Hge (fst p) (in_map fst _ _ Ip)). lia.
      * pose proof (IH (Z.max t (fst p1 + 1)) p1 Ho Hl ltac:(lia)) as Q. rewrite Nat2Z.inj_add, Q; [lia|].
        apply Forall_forall. intros p Ip. rewrite Forall_forall in Hge, Hf'. specialize (Hge (fst p) (in_map fst _ _ Ip)). specialize (Hf' p Ip). lia.
Qed.
End P.

Lemma add_at_ok : forall l i v, (i < length l)%nat -> exists l', add_at l i v = Ok l'.
Proof.
  induction l as [|x l IH]; intros [|i] v H; cbn in *; try lia; [eauto|]. destruct (IH i v ltac:(lia)) as (l' & ->). cbn. eauto.
Qed.
Lemma add_curve_ok : forall n i c ea l, 0 <= i -> 0 <= c -> c + Z.of_nat n <= Z.of_nat (length ea) -> i + Z.of_nat n <= Z.of_nat (length l) ->
  exists l', add_curve n i c ea l = Ok l'.
Proof.
  induction n as [|n IH]; intros i c ea l Hi Hc He Hl; cbn [add_curve]; [eauto|].
  destruct (nth_error ea (Z.to_nat c)) as [v|] eqn:E; [|apply nth_error_None in E; lia].
  destruct (add_at_ok l (Z.to_nat i) v ltac:(lia)) as (l1 & E1). rewrite E1. cbn [obind]. apply IH; try lia. rewrite (add_at_length _ _ _ _ E1). lia.
Qed.
Lemma add_curve_ub : forall n i c ea l, 0 <= i -> 0 <= c <= Z.of_nat (length ea) -> Z.of_nat (length ea) < c + Z.of_nat n -> add_curve n i c ea l = UB.
Proof.
  induction n as [|n IH]; intros i c ea l Hi Hc Hn; [lia|]. cbn [add_curve].
  destruct (nth_error ea (Z.to_nat c)) as [v|] eqn:E; [|reflexivity].
  assert (Hc2 : (Z.to_nat c < length ea)%nat) by (apply nth_error_Some; congruence).
  destruct (le_lt_dec (length l) (Z.to_nat i)) as [L|L].
  - assert (U : add_at l (Z.to_nat i) v = UB).
    { clear - L. revert L. generalize (Z.to_nat i). clear i. induction l as [|x l IHl]; intros i H; [reflexivity|]. destruct i as [|i]; cbn in *; [lia|]. rewrite IHl by lia. reflexivity. }
    rewrite U. reflexivity.
  - destruct (add_at_ok l (Z.to_nat i) v L) as (l1 & ->). cbn [obind]. apply IH; lia.
Qed.

Section S.
Variable fpow : f64 -> f64 -> f64.
Variables akima bezier bspline : list point -> outcome (list f64).

Lemma curve_points_times fs ts first kfs l : 0 < ts < 2 ^ 32 -> 0 <= fs -> samples_from fs ts first kfs l -> 0 <= first -> Forall (fun s => 0 <= s) l ->
  exists ps, curve_points fs ts (Some first) kfs = Ok ps /\ map fst ps = l.
Proof.
  intros Hts Hfs H Hf. induction H as [|k s kfs l (t & a & Hk & Ha & Ht & Hm & Hs) H IH]; intros Hl; cbn [curve_points]; [eexists; split; reflexivity|].
  inversion Hl as [|? ? Hs0 Hl']; subst. destruct (IH Hl') as (ps & Eps & Mps). unfold pos_value, amp_value, curve_time. rewrite Hk, Ha. cbn [obind].
  rewrite int_ok_fits by nia. cbn [obind]. replace (ts =? 0) with false by lia. rewrite cast_u32 by nia.
  assert (Hq : 0 <= t * fs / ts < 2 ^ 31) by (split; [apply Z.div_pos; nia|apply Z.le_lt_trans with (t * fs); [apply Z.div_le_upper_bound; nia|exact Hm]]).
  rewrite cast_i32 by lia. cbn [obind]. rewrite int_ok_fits by lia. cbn [obind]. rewrite Eps. cbn [obind]. eexists. split; [reflexivity|]. cbn [map fst]. congruence.
Qed.
Lemma curve_points_first fs ts k t a kfs l : 0 < ts < 2 ^ 32 -> 0 <= fs -> k_pos k = Some t -> k_amp k = Some a -> 0 <= t -> t * fs < 2 ^ 31 ->
  samples_from fs ts (t * fs / ts) kfs l -> Forall (fun s => 0 <= s) l ->
  exists p ps, curve_points fs ts None (k :: kfs) = Ok (p :: ps) /\ map fst ps = l.
Proof.
  intros Hts Hfs Hk Ha Ht Hm H Hl. cbn [curve_points]. unfold pos_value, amp_value, curve_time. rewrite Hk, Ha. cbn [obind].
  rewrite int_ok_fits by nia. cbn [obind]. replace (ts =? 0) with false by lia. rewrite cast_u32 by nia.
  assert (Hq : 0 <= t * fs / ts < 2 ^ 31) by (split; [apply Z.div_pos; nia|apply Z.le_lt_trans with (t * fs); [apply Z.div_le_upper_bound; nia|exact Hm]]).
  rewrite cast_i32 by lia. cbn [obind].
  destruct (curve_points_times fs ts _ kfs l Hts Hfs H (proj1 Hq) Hl) as (ps & -> & M). cbn [obind]. eauto.
Qed.
Lemma curve_effect fs ts sc pad curve e k t a kfs l bandAmp start :
  0 < ts < 2 ^ 32 -> 0 <= fs -> e_kfs e = k :: kfs -> k_pos k = Some t -> k_amp k = Some a -> 0 <= t -> t * fs < 2 ^ 31 ->
  samples_from fs ts (t * fs / ts) kfs l -> in_order (0 :: l) -> length kfs <> 1%nat ->
  (curve = UnknownC \/ curve = CubicC \/ curve = LinearC) ->
  start = (e_pos e + pad) * fs * ts -> 0 <= e_pos e + pad < 2 ^ 31 -> (e_pos e + pad) * fs < 2 ^ 31 -> 0 <= sc < 2 ^ 31 -> length bandAmp = Z.to_nat sc ->
  start + last l 0 < sc ->
  if (last l 0 =? 0) || existsb (fun s => s =? last l 0 - 1) l
  then add_curve_effect fpow akima bezier bspline sc fs pad ts curve e bandAmp = UB
  else exists out, add_curve_effect fpow akima bezier bspline sc fs pad ts curve e bandAmp = Ok out.
Proof.
  intros Hts Hfs Ek Hk Ha Ht Hm Hl Ho Hn Hc Es Hp Hpf Hsc Lb Hend.
  apply in_order_cons in Ho as [Ho Hpos].
  destruct (curve_points_first fs ts k t a kfs l Hts Hfs Hk Ha Ht Hm Hl Hpos) as (p & ps & Eps & M).
  unfold add_curve_effect. rewrite Ek, Eps. cbn [obind]. cbv zeta. set (p0 := (0, snd p) : point) in *.
  assert (Llen : length kfs = length l) by (clear - Hl; induction Hl; cbn; congruence).
  assert (Plen : length ps = length l) by (rewrite <- M, map_length; reflexivity).
  assert (Stop : last_time (p0 :: ps) = last l 0).
  { unfold last_time. rewrite <- M. clear. destruct ps as [|q ps]; [reflexivity|]. change (last (p0 :: q :: ps) (0, f64_0)) with (last (q :: ps) (0, f64_0)).
    revert q. induction ps as [|r ps IH]; intros q; [reflexivity|]. exact (IH r). }
  repeat match goal with |- context [@cons ?T p0 ps] => lazymatch T with point => fail | _ => change (@cons T p0 ps) with (@cons point p0 ps) end end.
  rewrite Stop. set (stop := last l 0) in *.
  assert (S0 : 0 <= stop).
  { unfold stop. destruct l as [|s l]; [cbn; lia|]. rewrite Forall_forall in Hpos. apply Hpos. apply last_In. discriminate. }
  replace (stop <? -1) with false by lia. cbn [length]. match goal with |- context [Nat.eqb ?x 2] => replace (Nat.eqb x 2) with false by (symmetry; apply Nat.eqb_neq; change x with (S (@length point ps)); lia) end. cbv iota.
  assert (Ea : exists pa, (if curve =? LinearC then linearInterpolation2 (p0 :: ps) else if curve =? CubicC then cubicInterpolation2 fpow (p0 :: ps)
     else if curve =? AkimaC then akima (p0 :: ps) else if curve =? BezierC then bezier (p0 :: ps) else if curve =? BsplineC then bspline (p0 :: ps) else cubicInterpolation2 fpow (p0 :: ps))
     = Ok (interpolate2 pa stop 0 p0 ps)).
  { unfold linearInterpolation2, cubicInterpolation2, interpolation2. rewrite Stop. destruct Hc as [-> |[-> | ->]]; cbn; eauto. }
  destruct Ea as (pa & ->). cbn [obind].
  rewrite (int_ok_fits (e_pos e + pad)) by lia. cbn [obind]. rewrite (int_ok_fits ((e_pos e + pad) * fs)) by nia. cbn [obind].
  assert (St : 0 <= start < 2 ^ 31) by (split; [subst start; apply Z.mul_nonneg_nonneg; [apply Z.mul_nonneg_nonneg|]; lia|lia]). rewrite <- Es. rewrite cast_u32 by lia. rewrite (cast_i32 start) by lia. rewrite (cast_i32 sc) by lia.
  replace (start <? 0) with false by lia. cbn [obind]. cbv beta iota.
  set (ea := interpolate2 pa stop 0 p0 ps).
  assert (Eex : existsb (fun q : point => fst q =? stop - 1) ps = existsb (fun s => s =? stop - 1) l).
  { rewrite <- M. clear. induction ps as [|q ps IH]; cbn; [reflexivity|]. rewrite IH. reflexivity. }
  replace (Z.min (sc - start) (stop + 1 - 0)) with (stop + 1) by lia.
  destruct (Z.eqb_spec stop 0) as [E0|E0]; cbn [orb].
  - cbv iota. apply add_curve_ub; [lia| |].
    + lia.
    + unfold ea. rewrite E0, interpolate2_stop by lia. cbn [length]. lia.
  - assert (Len : Z.of_nat (length ea) = (if existsb (fun s => s =? stop - 1) l then stop else stop + 1) - 0).
    { unfold ea. rewrite <- Eex. apply interpolate2_length; [rewrite M; exact Ho| |lia|].
      - rewrite M. unfold stop. destruct l as [|s l]; [cbn in E0; unfold stop in E0; cbn in E0; lia|]. clear. revert s. induction l as [|s' l IH]; intros s; [reflexivity|]. exact (IH s').
      - apply Forall_forall. intros q Iq. rewrite Forall_forall in Hpos. specialize (Hpos (fst q)). rewrite <- M in Hpos. specialize (Hpos (in_map fst _ _ Iq)). lia. }
    destruct (existsb (fun s => s =? stop - 1) l).
    + apply add_curve_ub; lia.
    + apply add_curve_ok; lia.
Qed.
End S.
