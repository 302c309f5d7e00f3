(** The quantisation of wavelet coefficients. *)
From Coq Require Import Reals Lra Lia Psatz.
From Flocq Require Import Core BinarySingleNaN.
Require Import Flocq.Prop.Mult_error.
From Verif Require Import Base FloatBase FloatModel FloatProof Float64Proof SpihtModel ToolsModel ToolsFloatProof SynthModel SynthIndex SpihtHeader WaveletModel WaveletSpec WaveletTransform WaveletFilter WaveletInverse.
From Verif Require AhapFloat.
Local Open Scope R_scope.

Lemma fmt_frac z e : (Z.abs z <= 2 ^ 53)%Z -> (0 <= e <= 1000)%Z -> fmt64 (IZR z / IZR (2 ^ e)).
Proof.
  intros Hz He. unfold Rdiv. rewrite <- bpow_inv by lia. apply fmt_Z; lia.
Qed.
Lemma pow_R b : (0 <= b <= 15)%Z -> 1 <= IZR (2 ^ b) <= 32768.
Proof.
  intros H. split; apply IZR_le; [pose proof (Z.pow_pos_nonneg 2 b); lia|]. change 32768%Z with (2 ^ 15)%Z. apply Z.pow_le_mono_r; lia.
Qed.
Lemma half_R : B2R f64_half = / 2.
Proof. unfold f64_half, B2R, F2R. cbn -[bpow]. change (-53)%Z with (Z.opp 53). rewrite (bpow_inv 53) by lia. cbn. lra. Qed.
Lemma one64 : B2R f64_1 = 1 /\ is_finite f64_1 = true.
Proof. split; [exact AhapFloat.one_R|reflexivity]. Qed.

(** The sign. *)
Lemma sgn_R (x : f64) : is_finite x = true -> is_finite (sgn x) = true /\
  ((0 < B2R x /\ B2R (sgn x) = 1) \/ (B2R x = 0 /\ B2R (sgn x) = 0) \/ (B2R x < 0 /\ B2R (sgn x) = -1)).
Proof.
  intros F. unfold sgn. rewrite !AhapFloat.flt_bool by (assumption || reflexivity). change (B2R f64_0) with 0.
  destruct one64 as [E1 F1].
  assert (G : forall a b : f64, is_finite a = true -> is_finite b = true -> (Rabs (B2R a - B2R b) <= 1)%R ->
    is_finite (sub64 a b) = true /\ B2R (sub64 a b) = rnd64 (B2R a - B2R b)).
  { intros a b Fa Fb H. destruct (sub64_ok a b Fa Fb) as [E G]; [|split; assumption]. apply Raux.Rabs_le_inv in H. apply bound1000; lra. }
  destruct (Rlt_bool_spec 0 (B2R x)), (Rlt_bool_spec (B2R x) 0); try lra.
  - destruct (G f64_1 f64_0 F1 eq_refl) as [A B]; [rewrite E1; change (B2R f64_0) with 0; apply Rabs_le; lra|].
    split; [exact A|]. left. split; [lra|]. rewrite B, E1. change (B2R f64_0) with 0. rewrite Rminus_0_r. apply AhapFloat.rnd64_1.
  - destruct (G f64_0 f64_1 eq_refl F1) as [A B]; [rewrite E1; change (B2R f64_0) with 0; apply Rabs_le; lra|].
    split; [exact A|]. right; right. split; [lra|]. rewrite B, E1. change (B2R f64_0) with 0. replace (0 - 1) with (IZR (-1)) by lra.
    apply rnd64_id, fmt64_Z. lia.
  - destruct (G f64_0 f64_0 eq_refl eq_refl) as [A B]; [change (B2R f64_0) with 0; apply Rabs_le; lra|].
    split; [exact A|]. right; left. split; [lra|]. rewrite B. change (B2R f64_0) with 0. rewrite Rminus_0_r. apply rnd64_0.
Qed.
Lemma abs_R (x : f64) : B2R (Babs x) = Rabs (B2R x).
Proof. apply B2R_Babs. Qed.
Lemma abs_F (x : f64) : is_finite (Babs x) = is_finite x.
Proof. apply is_finite_Babs. Qed.

Lemma sign_bound s u U : -1 <= s <= 1 -> 0 <= u <= U -> - U <= s * u <= U.
Proof. intros A B. split; nra. Qed.
Lemma prod_bound u v U V : 0 <= u <= U -> 0 <= v <= V -> 0 <= u * v <= U * V.
Proof. intros A B. split; [apply Rmult_le_pos; lra|apply Rmult_le_compat; lra]. Qed.
(** One coefficient. *)
Section One.
Variables (Q : f64) (m b : Z).
Hypothesis FQ : is_finite Q = true.
Hypothesis EQ : B2R Q = IZR m / 128.
Hypothesis Hm : (1 <= m <= 2160)%Z.
Hypothesis Hb : (0 <= b <= 15)%Z.
Let p := IZR (2 ^ b).
Let dl := B2R Q / p.
Let delta := div64 Q (f64_of_Z (2 ^ b)).
Let max_q := mul64 delta (f64_of_Z (2 ^ b - 1)).

Lemma p_bounds : 1 <= p <= 32768. Proof. apply pow_R, Hb. Qed.
Lemma m_bounds : 1 <= IZR m <= 2160. Proof. split; apply IZR_le; lia. Qed.
Lemma pow_bounds : (1 <= 2 ^ b <= 32768)%Z.
Proof. split; apply le_IZR; apply p_bounds. Qed.
Lemma dl_frac z : IZR z * dl = IZR (z * m) / IZR (2 ^ (7 + b)).
Proof.
  unfold dl, p. rewrite EQ, mult_IZR, Z.pow_add_r, mult_IZR by lia. change (2 ^ 7)%Z with 128%Z. pose proof p_bounds. unfold p in *. field. lra.
Qed.
Lemma dl_fmt z : (Z.abs z <= 2 ^ 40)%Z -> fmt64 (IZR z * dl).
Proof. intros H. rewrite dl_frac. apply fmt_frac; nia. Qed.
Lemma dl_bounds : / 4194304 <= dl <= 17.
Proof.
  pose proof p_bounds. pose proof m_bounds. unfold dl. rewrite EQ. assert (0 < / p <= 1) by (split; [apply Rinv_0_lt_compat; lra|rewrite <- Rinv_1; apply Rinv_le_contravar; lra]).
  assert (/ 32768 <= / p) by (apply Rinv_le_contravar; lra). unfold Rdiv. split; nra.
Qed.
Lemma delta_R : B2R delta = dl /\ is_finite delta = true.
Proof.
  pose proof p_bounds. pose proof dl_bounds. pose proof pow_bounds. destruct (f64_of_Z_ok (2 ^ b) ltac:(lia)) as [E F]. fold p in E.
  destruct (div64_ok Q (f64_of_Z (2 ^ b)) FQ) as [D G]; [rewrite E; lra|rewrite E; fold dl; apply bound1000; lra|].
  split; [|exact G]. unfold delta. rewrite D, E. fold dl. apply rnd64_id. replace dl with (1 * dl) by ring. apply (dl_fmt 1). lia.
Qed.
Lemma max_q_R : B2R max_q = (p - 1) * dl /\ is_finite max_q = true.
Proof.
  pose proof p_bounds. pose proof dl_bounds. pose proof pow_bounds. destruct delta_R as [E F].
  destruct (f64_of_Z_ok (2 ^ b - 1) ltac:(lia)) as [E1 F1]. rewrite minus_IZR in E1. fold p in E1.
  destruct (mul64_ok delta (f64_of_Z (2 ^ b - 1)) F F1) as [M G]; [rewrite E, E1; apply bound1000; nra|].
  split; [|exact G]. unfold max_q. rewrite M, E, E1. rewrite Rmult_comm. apply rnd64_id.
  replace (p - 1) with (IZR (2 ^ b - 1)) by (rewrite minus_IZR; reflexivity). apply dl_fmt. lia.
Qed.

Lemma quantise_ok (x : f64) : is_finite x = true -> Rabs (B2R x) <= 1073741824 ->
  exists z, is_finite (quantise Q delta max_q x) = true /\ B2R (quantise Q delta max_q x) = IZR z * step (B2R Q) b /\
    stands_for (B2R Q) b z (B2R x).
Proof.
  intros Fx Bx. unfold step. fold p. fold dl.
  pose proof p_bounds as Hp. pose proof dl_bounds as Hd. pose proof m_bounds as Hmr. pose proof pow_bounds as Hpz.
  destruct delta_R as [Ed Fd]. destruct max_q_R as [Em Fm].
  unfold quantise.
  assert (NZ : feq Q f64_0 = false).
  { unfold feq, Beqb. unfold SpecFloat.SFeqb. change (SpecFloat.SFcompare (B2SF Q) (B2SF f64_0)) with (Bcompare Q f64_0).
    rewrite Bcompare_correct by (assumption || reflexivity). change (B2R f64_0) with 0. rewrite Rcompare_Gt; [reflexivity|]. rewrite EQ. lra. }
  rewrite NZ. set (sg := B2R (sgn x)). destruct (sgn_R x Fx) as [Fs Hs]. fold sg in Hs.
  assert (Sg : Rabs sg <= 1 /\ sg * Rabs (B2R x) = B2R x /\ (sg = 0 \/ Rabs sg = 1) /\ exists sz, sg = IZR sz /\ (Z.abs sz <= 1)%Z).
  { destruct Hs as [[A ->]|[[A ->]|[A ->]]].
    - rewrite (Rabs_pos_eq (B2R x)), Rabs_R1 by lra. repeat split; try lra. exists 1%Z. split; [reflexivity|lia].
    - rewrite A, Rabs_R0. repeat split; try lra. exists 0%Z. split; [reflexivity|lia].
    - rewrite (Rabs_left (B2R x)) by lra. rewrite (Rabs_left (-1)) by lra. repeat split; try lra. exists (-1)%Z. split; [reflexivity|lia]. }
  destruct Sg as (Sg1 & Sgx & Sg2 & sz & Ez & Hsz).
  pose proof (Rabs_pos (B2R x)) as Px. set (ax := Rabs (B2R x)) in *.
  assert (Ir : 0 < / dl <= 4194304).
  { split; [apply Rinv_0_lt_compat; lra|]. rewrite <- (Rinv_inv 4194304). apply Rinv_le_contravar; lra. }
  set (r := ax / dl). assert (Er : r * dl = ax) by (unfold r; field; lra).
  assert (Hr : 0 <= r <= 4503599627370496) by (unfold r, Rdiv; nra).
  (* the quotient *)
  destruct (div64_ok (Babs x) delta) as [E1 F1]; [rewrite abs_F; exact Fx|rewrite Ed; lra|rewrite abs_R, Ed; fold ax; fold r; apply bound1000; lra|].
  rewrite abs_R, Ed in E1. fold ax in E1. fold r in E1. set (d1 := div64 (Babs x) delta) in *.
  pose proof (err64 r) as Q1. rewrite (Rabs_pos_eq r) in Q1 by lra. rewrite <- E1 in Q1. apply Raux.Rabs_le_inv in Q1.
  pose proof tiny_small as T1. pose proof tiny_pos as T2. set (t := bpow radix2 (-150)) in *.
  destruct (add64_ok d1 f64_half F1 eq_refl) as [E2 F2]; [rewrite half_R; apply bound1000; lra|].
  rewrite half_R in E2. set (d2 := add64 d1 f64_half) in *.
  pose proof (err64 (B2R d1 + / 2)) as Q2. rewrite <- E2 in Q2. fold t in Q2.
  assert (P1 : 0 <= B2R d1) by (rewrite E1, <- rnd64_0; apply rnd64_le; lra).
  rewrite (Rabs_pos_eq (B2R d1 + / 2)) in Q2 by lra. apply Raux.Rabs_le_inv in Q2.
  destruct (ffloor_R d2) as [E3 F3]. rewrite F2 in F3. set (n := Zfloor (B2R d2)) in *.
  assert (N1 : IZR n <= B2R d2 < IZR n + 1) by (unfold n; split; [apply Zfloor_lb|apply Zfloor_ub]).
  assert (N0 : (0 <= n)%Z) by (apply Zfloor_lub; lra).
  assert (N2 : IZR n <= 4503599627370500) by lra.
  assert (R0 : 0 <= IZR n) by (apply IZR_le; exact N0).
  (* the product *)
  destruct (mul64_ok (sgn x) delta Fs Fd) as [E4 F4]; [fold sg; rewrite Ed; apply bound1000; apply Raux.Rabs_le_inv in Sg1; pose proof (sign_bound sg dl 17 ltac:(lra) ltac:(lra)); lra|].
  fold sg in E4. rewrite Ed, rnd64_id in E4 by (rewrite Ez; apply dl_fmt; lia).
  destruct (mul64_ok (mul64 (sgn x) delta) (ffloor d2) F4 F3) as [E5 F5].
  { rewrite E4, E3. apply bound1000. apply Raux.Rabs_le_inv in Sg1. pose proof (prod_bound dl (IZR n) 17 4503599627370500 ltac:(lra) ltac:(lra)) as Pb. pose proof (sign_bound sg (dl * IZR n) _ ltac:(lra) Pb). rewrite Rmult_assoc. lra. }
  rewrite E4, E3 in E5. set (q := mul64 (mul64 (sgn x) delta) (ffloor d2)) in *.
  rewrite AhapFloat.flt_bool by (try rewrite abs_F; assumption). rewrite abs_R, Em.
  destruct (mul64_ok (sgn x) max_q Fs Fm) as [E6 F6]; [fold sg; rewrite Em; apply bound1000; apply Raux.Rabs_le_inv in Sg1; pose proof (prod_bound (p - 1) dl 32768 17 ltac:(lra) ltac:(lra)) as Pb; pose proof (sign_bound sg ((p - 1) * dl) _ ltac:(lra) Pb); lra|].
  fold sg in E6. rewrite Em in E6.
  replace (sg * ((p - 1) * dl)) with (IZR (sz * (2 ^ b - 1)) * dl) in E6 by (rewrite mult_IZR, minus_IZR, <- Ez; fold p; ring).
  rewrite rnd64_id in E6 by (apply dl_fmt; nia).
  assert (Ex0 : sg = 0 -> ax = 0). { intros Z0. rewrite Z0 in Sgx. unfold ax. rewrite <- Sgx, Rmult_0_l, Rabs_R0. reflexivity. }
  assert (key : Rlt_bool ((p - 1) * dl) (Rabs (B2R q)) = (negb (sz =? 0) && (2 ^ b - 1 <? n))%Z /\ ((n <= 2 ^ b - 1)%Z -> B2R q = IZR (sz * n) * dl)).
  { destruct (Rle_lt_dec r 131072) as [S|L].
    - assert (N3 : (n <= 131073)%Z) by (apply le_IZR; lra).
      replace (sg * dl * IZR n) with (IZR (sz * n) * dl) in E5 by (rewrite mult_IZR, <- Ez; ring).
      rewrite rnd64_id in E5 by (apply dl_fmt; nia). split; [|intros; exact E5].
      rewrite E5, mult_IZR, !Rabs_mult, (Rabs_pos_eq (IZR n)), (Rabs_pos_eq dl) by lra.
      destruct (Z.eqb_spec sz 0) as [->|NZs]; cbn [negb andb].
      + rewrite Rabs_R0. apply Rlt_bool_false. rewrite !Rmult_0_l. apply Rmult_le_pos; lra.
      + assert (Rabs (IZR sz) = 1) as -> by (rewrite <- abs_IZR; f_equal; lia).
        destruct (Z.ltb_spec (2 ^ b - 1) n) as [C|C]; [apply Rlt_bool_true|apply Rlt_bool_false].
        * apply IZR_lt in C. rewrite minus_IZR in C. fold p in C. rewrite Rmult_1_l. apply Rmult_lt_compat_r; lra.
        * apply IZR_le in C. rewrite minus_IZR in C. fold p in C. rewrite Rmult_1_l. apply Rmult_le_compat_r; lra.
    - assert (N3 : (131071 < n)%Z).
      { apply lt_IZR. lra. }
      assert (NZs : sz <> 0%Z). { intros ->. rewrite (Ex0 Ez) in Er. assert (0 < r * dl) by (apply Rmult_lt_0_compat; lra). lra. }
      split; [|lia].
      rewrite (proj2 (Z.eqb_neq sz 0) NZs). cbn [negb andb]. rewrite (proj2 (Z.ltb_lt (2 ^ b - 1) n)) by lia. apply Rlt_bool_true.
      assert (Hq : 131071 * dl <= Rabs (B2R q)).
      { assert (A1 : Rabs sg = 1) by (rewrite Ez, <- abs_IZR; f_equal; lia).
        apply IZR_lt in N3. rewrite E5. unfold rnd64.
        apply abs_round_ge_generic; [apply FLT_exp_valid; reflexivity|typeclasses eauto|apply (dl_fmt 131071); lia|].
        rewrite !Rabs_mult, A1, (Rabs_pos_eq dl), (Rabs_pos_eq (IZR n)) by lra. rewrite Rmult_1_l, Rmult_comm. apply Rmult_le_compat_l; lra. }
      eapply Rlt_le_trans; [|exact Hq]. apply Rmult_lt_compat_r; lra. }
  destruct key as [K1 K2]. rewrite K1.
  set (k := Z.min n (2 ^ b - 1)). exists (sz * k)%Z.
  assert (Res : B2R (if negb (sz =? 0) && (2 ^ b - 1 <? n) then mul64 (sgn x) max_q else q)%Z = IZR (sz * k) * dl).
  { unfold k. destruct (Z.eqb_spec sz 0) as [S0|NZs]; cbn [negb andb].
    - assert (r = 0) by (unfold r; rewrite (Ex0 ltac:(rewrite Ez, S0; reflexivity)); unfold Rdiv; ring).
      assert (n = 0)%Z.
      { assert (n < 1)%Z by (apply lt_IZR; lra). lia. }
      rewrite K2 by lia. rewrite S0. rewrite !Z.mul_0_l. reflexivity.
    - destruct (Z.ltb_spec (2 ^ b - 1) n).
      + rewrite E6. rewrite Z.min_r by lia. reflexivity.
      + rewrite K2 by lia. rewrite Z.min_l by lia. reflexivity. }
  split; [destruct (negb (sz =? 0) && (2 ^ b - 1 <? n))%Z; assumption|]. split; [exact Res|].
  (* the error *)
  assert (k0 : (0 <= k <= 2 ^ b - 1)%Z) by (unfold k; lia).
  assert (kr0 : 0 <= IZR k <= p - 1).
  { split; [apply IZR_le; lia|]. replace (p - 1) with (IZR (2 ^ b - 1)) by (rewrite minus_IZR; reflexivity). apply IZR_le; lia. }
  assert (Err : Rabs (IZR (sz * k) * dl - B2R x) <= dl * Rabs (IZR k - r)).
  { rewrite mult_IZR, <- Ez, <- Sgx. fold ax. rewrite <- Er. replace (sg * IZR k * dl - sg * (r * dl)) with (sg * (dl * (IZR k - r))) by ring.
    rewrite Rabs_mult, Rabs_mult, (Rabs_pos_eq dl) by lra. pose proof (Rabs_pos (IZR k - r)).
    rewrite <- (Rmult_1_l (dl * Rabs (IZR k - r))) at 2. apply Rmult_le_compat_r; [apply Rmult_le_pos; lra|exact Sg1]. }
  assert (Qp : B2R Q = p * dl) by (unfold dl; field; lra).
  unfold stands_for, step. fold p. fold dl.
  split; [rewrite Z.abs_mul, (Z.abs_eq k) by lia; clear -k0 Hsz; nia|]. split.
  { rewrite <- Sgx, mult_IZR, <- Ez. fold ax. replace (sg * IZR k * (sg * ax)) with (sg * sg * (IZR k * ax)) by ring.
    pose proof (Rle_0_sqr sg) as Hq. unfold Rsqr in Hq. apply Rmult_le_pos; [exact Hq|]. apply Rmult_le_pos; lra. }
  assert (near_k : r <= p -> (r <= p - / 2 -> Rabs (IZR k - r) <= / 2 + / 1073741824) /\ Rabs (IZR k - r) <= 1).
  { intros Hrp. assert (IZR n <= r + / 2 + / 8589934592 /\ r - / 2 - / 8589934592 < IZR n) by lra.
    destruct (Z.le_gt_cases n (2 ^ b - 1)) as [C|C].
    - replace (IZR k) with (IZR n) by (unfold k; rewrite Z.min_l by lia; reflexivity). split; [intros _|]; apply Rabs_le; lra.
    - assert (Ek : IZR k = p - 1) by (unfold k; rewrite Z.min_r by lia; rewrite minus_IZR; reflexivity).
      assert (p <= IZR n) by (apply IZR_le; lia). rewrite Ek. split; [intros Hrr|]; apply Rabs_le; lra. }
  split; [|split].
  - intros Ha. fold ax in Ha. rewrite Qp in Ha.
    assert (Hrp : r <= p - / 2) by (apply Rmult_le_reg_r with dl; [lra|]; rewrite Er; replace ((p - / 2) * dl) with (p * dl - dl / 2) by field; exact Ha).
    eapply Rle_trans; [exact Err|]. apply Rmult_le_compat_l; [lra|]. apply near_k; lra.
  - intros Ha. fold ax in Ha. rewrite Qp in Ha. assert (Hrp : r <= p) by (apply Rmult_le_reg_r with dl; [lra|]; rewrite Er; exact Ha).
    eapply Rle_trans; [exact Err|]. destruct (near_k Hrp) as [_ N]. rewrite <- (Rmult_1_r dl) at 2. apply Rmult_le_compat_l; lra.
  - intros Ha. fold ax in Ha. rewrite Qp in Ha. assert (Hrp : p < r) by (apply Rmult_lt_reg_r with dl; [lra|]; rewrite Er; exact Ha).
    assert (NZs : sz <> 0%Z). { intros ->. rewrite (Ex0 Ez) in Er. assert (0 < r * dl) by (apply Rmult_lt_0_compat; lra). lra. }
    assert (C : (2 ^ b - 1 < n)%Z).
    { apply lt_IZR. rewrite minus_IZR. fold p. destruct (Rle_lt_dec r 131072); lra. }
    unfold k. rewrite Z.min_r by lia. rewrite Z.abs_mul. rewrite (Z.abs_eq (2 ^ b - 1)) by lia. replace (Z.abs sz) with 1%Z by lia. lia.
Qed.
End One.

(** *** The scale factor of a block *)
Lemma findMax_ok (l : list f64) : l <> [] -> Forall (fun x => is_finite x = true) l ->
  is_finite (findMax l) = true /\ largest (map B2R l) (B2R (findMax l)).
Proof.
  intros NE F. destruct l as [|x l]; [congruence|]. clear NE. unfold findMax. inversion_clear F as [|? ? Fx Fl].
  assert (G : forall (l : list f64) (m : f64), Forall (fun x => is_finite x = true) l -> is_finite m = true ->
    let r := fold_left (fun m y => if flt m (Babs y) then Babs y else m) l m in
    is_finite r = true /\ B2R m <= B2R r /\ Forall (fun x => Rabs x <= B2R r) (map B2R l) /\
    (r = m \/ Exists (fun x => Rabs x = B2R r) (map B2R l))).
  { clear. induction l as [|y l IH]; intros m F Fm; cbn [fold_left map]; [repeat split; auto; lra|].
    inversion_clear F as [|? ? Fy Fl]. rewrite AhapFloat.flt_bool by (try rewrite abs_F; assumption). rewrite abs_R.
    destruct (Rlt_bool_spec (B2R m) (Rabs (B2R y))) as [L|L].
    - destruct (IH (Babs y) Fl) as (A & B & C & D); [rewrite abs_F; exact Fy|]. rewrite abs_R in B.
      split; [exact A|]. split; [lra|]. split; [constructor; [exact B|exact C]|]. right.
      destruct D as [->|D]; [left; symmetry; apply abs_R|right; exact D].
    - destruct (IH m Fl Fm) as (A & B & C & D).
      split; [exact A|]. split; [exact B|]. split; [constructor; [lra|exact C]|].
      destruct D as [D|D]; [left; exact D|right; right; exact D]. }
  destruct (G l (Babs x) Fl) as (A & B & C & D); [rewrite abs_F; exact Fx|]. rewrite abs_R in B.
  split; [exact A|]. split; [constructor; [exact B|exact C]|].
  destruct D as [->|D]; [left; symmetry; apply abs_R|right; exact D].
Qed.

Lemma fceil_R (x : f64) : B2R (fceil x) = IZR (Zceil (B2R x)) /\ is_finite (fceil x) = is_finite x.
Proof.
  unfold fceil. destruct (Bnearbyint_correct 53 1024 _ mode_UP x) as (H1 & H2 & _). split; [|exact H2].
  rewrite H1, round_FIX_IZR. reflexivity.
Qed.
Lemma factor_R : B2R MAXQUANTFACTOR = 8998192055486251 / 9007199254740992.
Proof. unfold MAXQUANTFACTOR, B2R, F2R. cbn -[bpow]. change (-53)%Z with (Z.opp 53). rewrite (bpow_inv 53) by lia. cbn. lra. Qed.
Lemma c127_128 : B2R f64_127_128 = 127 / 128.
Proof. unfold f64_127_128, B2R, F2R. cbn -[bpow]. change (-53)%Z with (Z.opp 53). rewrite (bpow_inv 53) by lia. cbn. lra. Qed.
Lemma c127_8 : B2R f64_127_8 = 127 / 8.
Proof. unfold f64_127_8, B2R, F2R. cbn -[bpow]. change (-49)%Z with (Z.opp 49). rewrite (bpow_inv 49) by lia. cbn. lra. Qed.

Lemma ceil_bounds r : IZR (Zceil r) - 1 < r <= IZR (Zceil r).
Proof. pose proof (Zceil_lb r). pose proof (Zceil_ub r). lra. Qed.
Lemma ceil_is r z : IZR z - 1 < r <= IZR z -> Zceil r = z.
Proof. intros H. apply Zceil_imp. rewrite minus_IZR. exact H. Qed.

(** [K] is 128 or 8. *)
Lemma maxQuant_ok (e : Z) (x mx d : f64) : (0 <= e <= 7)%Z -> is_finite x = true -> 0 <= B2R x -> is_finite mx = true -> B2R mx = 127 / IZR (2 ^ e) ->
  is_finite d = true -> B2R d = / IZR (2 ^ e) ->
  exists j, (0 <= j <= 127)%Z /\ is_finite (maxQuant x mx d) = true /\ B2R (maxQuant x mx d) = IZR j / IZR (2 ^ e) /\
    (127 / IZR (2 ^ e) <= B2R x -> j = 127%Z) /\ (B2R x <= 127 / IZR (2 ^ e) -> B2R x <= IZR j / IZR (2 ^ e) < B2R x + / IZR (2 ^ e)).
Proof.
  intros He Fx Px Fm Em Fd Ed. set (K := IZR (2 ^ e)) in *.
  assert (HK : 1 <= K <= 128).
  { split; apply IZR_le; [pose proof (Z.pow_pos_nonneg 2 e); lia|]. change 128%Z with (2 ^ 7)%Z. apply Z.pow_le_mono_r; lia. }
  assert (IK : 0 < / K <= 1) by (split; [apply Rinv_0_lt_compat; lra|rewrite <- Rinv_1; apply Rinv_le_contravar; lra]).
  assert (KK : K * / K = 1) by (field; lra).
  unfold maxQuant. rewrite fle_R by assumption.
  (* the value that is rounded up *)
  assert (Hq : exists q : f64, is_finite q = true /\ 0 <= B2R q < 127 * / K /\
    (127 / K <= B2R x -> 126 * / K < B2R q) /\ (B2R x < 127 / K -> q = x) /\
    (if Rle_bool (B2R mx) (B2R x) then mul64 (mul64 (sgn x) mx) MAXQUANTFACTOR else x) = q).
  { rewrite Em. destruct (Rle_bool_spec (127 / K) (B2R x)) as [G|L].
    - eexists. split; [|split; [|split; [|split; [|reflexivity]]]].
      all: destruct (sgn_R x Fx) as [Fs [[A B]|[[A B]|[A B]]]]; try (exfalso; unfold Rdiv in G; nra).
      all: destruct (mul64_ok (sgn x) mx Fs Fm) as [E1 F1]; [rewrite B, Em; unfold Rdiv; apply bound1000; nra|].
      all: rewrite B, Rmult_1_l, rnd64_id in E1 by apply fmt64_B2R.
      all: destruct (mul64_ok (mul64 (sgn x) mx) MAXQUANTFACTOR F1 eq_refl) as [E2 F2]; [rewrite E1, Em, factor_R; unfold Rdiv; apply bound1000; nra|].
      all: rewrite E1, Em, factor_R in E2.
      + exact F2.
      + rewrite E2. pose proof (err64 (127 / K * (8998192055486251 / 9007199254740992))) as Q. rewrite (Rabs_pos_eq (127 / K * (8998192055486251 / 9007199254740992))) in Q by (unfold Rdiv; nra).
        apply Raux.Rabs_le_inv in Q. pose proof tiny_small. pose proof tiny_pos.
        assert (/ 128 <= / K) by (apply Rinv_le_contravar; lra). unfold Rdiv in *. lra.
      + intros _. rewrite E2. pose proof (err64 (127 / K * (8998192055486251 / 9007199254740992))) as Q. rewrite (Rabs_pos_eq (127 / K * (8998192055486251 / 9007199254740992))) in Q by (unfold Rdiv; nra).
        apply Raux.Rabs_le_inv in Q. pose proof tiny_small. pose proof tiny_pos.
        assert (/ 128 <= / K) by (apply Rinv_le_contravar; lra). unfold Rdiv in *. lra.
      + lra.
    - exists x. split; [exact Fx|]. split; [unfold Rdiv in L; lra|]. split; [lra|]. split; [reflexivity|reflexivity]. }
  destruct Hq as (q & Fq & Bq & Hbig & Hsm & ->).
  destruct (div64_ok (Babs q) d) as [E1 F1]; [rewrite abs_F; exact Fq|rewrite Ed; lra| |].
  { rewrite abs_R, Ed, (Rabs_pos_eq (B2R q)) by lra. apply bound1000. unfold Rdiv. rewrite Rinv_inv. nra. }
  rewrite abs_R, Ed, (Rabs_pos_eq (B2R q)) in E1 by lra. unfold Rdiv in E1. rewrite Rinv_inv in E1.
  rewrite rnd64_id in E1. 2: { unfold K. rewrite <- bpow_IZR by lia. apply mult_bpow_pos_exact_FLT; [apply fmt64_B2R|lia]. }
  destruct (fceil_R (div64 (Babs q) d)) as [E2 F2]. rewrite F1 in F2. rewrite E1 in E2. set (j := Zceil (B2R q * K)) in *.
  assert (Hj : IZR j - 1 < B2R q * K <= IZR j) by apply ceil_bounds.
  assert (Bqk : 0 <= B2R q * K < 127).
  { split; [apply Rmult_le_pos; lra|]. apply Rlt_le_trans with (127 * / K * K); [apply Rmult_lt_compat_r; lra|]. rewrite Rmult_assoc, Rinv_l by lra. lra. }
  assert (J : (0 <= j <= 127)%Z).
  { split; [apply le_IZR; lra|]. assert (j < 128)%Z by (apply lt_IZR; lra). lia. }
  assert (JR : 0 <= IZR j <= 127) by (split; apply IZR_le; lia).
  destruct (mul64_ok (fceil (div64 (Babs q) d)) d F2 Fd) as [E3 F3]; [rewrite E2, Ed; apply bound1000; nra|].
  rewrite E2, Ed in E3. fold (Rdiv (IZR j) K) in E3. rewrite rnd64_id in E3 by (apply fmt_frac; lia).
  exists j. split; [exact J|]. split; [exact F3|]. split; [exact E3|]. split.
  - intros G. specialize (Hbig G). assert (126 < B2R q * K).
    { apply Rle_lt_trans with (126 * / K * K); [rewrite Rmult_assoc, Rinv_l by lra; lra|]. apply Rmult_lt_compat_r; lra. }
    assert (126 < j)%Z by (apply lt_IZR; lra). lia.
  - intros Hle. destruct (Rle_lt_or_eq_dec _ _ Hle) as [L|E].
    + rewrite (Hsm L) in *. unfold Rdiv. split.
      * apply Rmult_le_reg_r with K; [lra|]. rewrite Rmult_assoc, Rinv_l by lra. lra.
      * apply Rmult_lt_reg_r with K; [lra|]. rewrite Rmult_plus_distr_r, Rmult_assoc, Rinv_l by lra. lra.
    + assert (126 < B2R q * K).
      { specialize (Hbig ltac:(lra)). apply Rle_lt_trans with (126 * / K * K); [rewrite Rmult_assoc, Rinv_l by lra; lra|]. apply Rmult_lt_compat_r; lra. }
      assert (126 < j)%Z by (apply lt_IZR; lra). replace j with 127%Z by lia. unfold Rdiv in *. lra.
Qed.

Lemma largest_ok (c : list f64) : c <> [] -> all_bounded 1000000000 c ->
  exists Q W, largestCoefficient c = Ok Q /\ is_finite Q = true /\ largest (map B2R c) W /\ scale_for W (B2R Q).
Proof.
  intros NE B. destruct (findMax_ok c NE) as [Fw Lw]; [eapply Forall_impl; [|exact B]; intros v [H _]; exact H|].
  unfold largestCoefficient. set (w := findMax c) in *.
  assert (W0 : 0 <= B2R w <= 1000000000).
  { destruct Lw as [_ Ex]. apply Exists_exists in Ex. destruct Ex as (v & Hv & <-). split; [apply Rabs_pos|].
    apply in_map_iff in Hv. destruct Hv as (y & <- & Hy). unfold all_bounded in B. rewrite Forall_forall in B. apply (B y Hy). }
  rewrite AhapFloat.flt_bool by (assumption || reflexivity). rewrite one_R.
  destruct (Rlt_bool_spec (B2R w) 1) as [L|G].
  - destruct (sub64_ok w f64_0 Fw eq_refl) as [E1 F1]; [change (B2R f64_0) with 0; apply bound1000; lra|].
    change (B2R f64_0) with 0 in E1. rewrite Rminus_0_r, rnd64_id in E1 by apply fmt64_B2R.
    destruct (maxQuant_ok 7 (sub64 w f64_0) f64_127_128 f64_2m7) as (j & Hj & F2 & E2 & Hbig & Hsm); try (assumption || reflexivity || lia).
    { lra. } { rewrite c127_128. reflexivity. } { rewrite m7_R. reflexivity. }
    rewrite E1 in Hbig, Hsm. change (IZR (2 ^ 7)) with 128 in *. set (mq := maxQuant _ _ _) in *.
    assert (JR : 0 <= IZR j <= 127) by (split; apply IZR_le; lia).
    destruct (add64_ok mq f64_0 F2 eq_refl) as [E3 F3]; [rewrite E2; change (B2R f64_0) with 0; apply bound1000; lra|].
    change (B2R f64_0) with 0 in E3. rewrite Rplus_0_r, rnd64_id, E2 in E3 by apply fmt64_B2R. set (q := add64 mq f64_0) in *.
    destruct (sub64_ok q f64_0 F3 eq_refl) as [E4 F4]; [rewrite E3; change (B2R f64_0) with 0; apply bound1000; lra|].
    change (B2R f64_0) with 0 in E4. rewrite Rminus_0_r, rnd64_id, E3 in E4 by apply fmt64_B2R.
    destruct (mul64_ok (sub64 q f64_0) f64_128 F4 eq_refl) as [E5 F5]; [rewrite E4, c128_R; apply bound1000; lra|].
    rewrite E4, c128_R in E5. replace (IZR j / 128 * 128) with (IZR j) in E5 by lra. rewrite rnd64_id in E5 by (apply fmt64_Z; lia).
    destruct (int_of_nonneg _ F5) as [E6 _]; [rewrite E5; lra|]. rewrite E6. cbn [obind].
    exists q, (B2R w). split; [reflexivity|]. split; [exact F3|]. split; [exact Lw|]. unfold scale_for. rewrite E3.
    split; [exists j; split; [lia|left; reflexivity]|].
    split. { intros Z0. specialize (Hsm ltac:(lra)). assert (j = 0)%Z; [|subst j; lra]. assert (j < 1)%Z by (apply lt_IZR; lra). lia. }
    split; [intros H; apply Hsm; exact H|].
    split; [intros H; rewrite (Hbig ltac:(lra)); reflexivity|]. split; lra.
  - destruct one64 as [O1 O2].
    destruct (sub64_ok w f64_1 Fw O2) as [E1 F1]; [rewrite O1; apply bound1000; lra|].
    rewrite O1, rnd64_id in E1 by (apply minus_one; [apply fmt64_B2R|lra]).
    destruct (maxQuant_ok 3 (sub64 w f64_1) f64_127_8 f64_2m3) as (j & Hj & F2 & E2 & Hbig & Hsm); try (assumption || reflexivity || lia).
    { lra. } { rewrite c127_8. reflexivity. } { rewrite m3_R. reflexivity. }
    rewrite E1 in Hbig, Hsm. change (IZR (2 ^ 3)) with 8 in *. set (mq := maxQuant _ _ _) in *.
    assert (JR : 0 <= IZR j <= 127) by (split; apply IZR_le; lia).
    destruct (add64_ok mq f64_1 F2 O2) as [E3 F3]; [rewrite E2, O1; apply bound1000; lra|].
    assert (Ej : IZR j / 8 + 1 = IZR (j + 8) / IZR (2 ^ 3)) by (rewrite plus_IZR; change (IZR (2 ^ 3)) with 8; lra).
    rewrite E2, O1, Ej, rnd64_id in E3 by (apply fmt_frac; lia). rewrite <- Ej in E3. set (q := add64 mq f64_1) in *.
    destruct (sub64_ok q f64_1 F3 O2) as [E4 F4]; [rewrite E3, O1; apply bound1000; lra|].
    rewrite E3, O1 in E4. replace (IZR j / 8 + 1 - 1) with (IZR j / IZR (2 ^ 3)) in E4 by (change (IZR (2 ^ 3)) with 8; lra).
    rewrite rnd64_id in E4 by (apply fmt_frac; lia). change (IZR (2 ^ 3)) with 8 in E4.
    destruct (mul64_ok (sub64 q f64_1) f64_8 F4 eq_refl) as [E5 F5]; [rewrite E4, c8_R; apply bound1000; lra|].
    rewrite E4, c8_R in E5. replace (IZR j / 8 * 8) with (IZR j) in E5 by lra. rewrite rnd64_id in E5 by (apply fmt64_Z; lia).
    destruct (int_of_nonneg _ F5) as [E6 _]; [rewrite E5; lra|]. rewrite E6. cbn [obind].
    exists q, (B2R w). split; [reflexivity|]. split; [exact F3|]. split; [exact Lw|]. unfold scale_for. rewrite E3.
    split; [exists j; split; [lia|right; lra]|].
    split; [lra|]. split; [lra|]. split; [lra|].
    split; [intros H; specialize (Hsm ltac:(lra)); lra|]. intros H. rewrite (Hbig ltac:(lra)). lra.
Qed.
