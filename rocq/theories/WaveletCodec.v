(** A block through the quantiser, the entropy coder and back. *)
From Coq Require Import Reals Lra Lia ZArith List.
From Flocq Require Import Core BinarySingleNaN.
From Verif Require Import Base FloatBase FloatModel FloatProof Float64Proof ArithModel SpihtModel SpihtTree SpihtProof SpihtHeader ToolsModel ToolsFloatProof SynthModel TypesModel WaveletModel WaveletSpec WaveletTransform WaveletFilter WaveletInverse WaveletQuant WaveletAlloc WaveletBits.
From Verif Require SpihtSpec.
Import ListNotations.
Local Open Scope R_scope.
Ltac Zify.zify_post_hook ::= Z.div_mod_to_equations.

Lemma level_pow k : (2 <= k)%nat -> dwtlevel (2 ^ k) = (k - 2)%nat.
Proof.
  intros H. unfold dwtlevel. rewrite Nat2Z.inj_pow. change (Z.of_nat 2) with 2%Z. replace (Z.of_nat k) with (Z.of_nat (k - 2) + 2)%Z by lia.
  rewrite Z.pow_add_r by lia. change (2 ^ 2)%Z with 4%Z. rewrite Z.div_mul by lia. rewrite Z.log2_pow2 by lia. apply Nat2Z.id.
Qed.
Lemma pow_split k : (2 <= k)%nat -> (2 ^ k = 4 * 2 ^ (k - 2))%nat.
Proof. intros H. replace k with (2 + (k - 2))%nat at 1 by lia. rewrite Nat.pow_add_r. reflexivity. Qed.
Lemma first_band k : (2 <= k)%nat -> (2 ^ k / 2 ^ dwtlevel (2 ^ k) = 4)%nat.
Proof. intros H. rewrite level_pow by exact H. rewrite (pow_split k H), Nat.div_mul; [reflexivity|apply Nat.pow_nonzero; lia]. Qed.
Lemma start_pow k i : (2 <= k)%nat -> (i <= k - 2)%nat -> band_start (2 ^ k) (S i) = (4 * 2 ^ i)%nat.
Proof. intros H Hi. rewrite start_S by (rewrite level_pow by exact H; exact Hi). now rewrite first_band. Qed.
Lemma band_of bl i n : (i < band_start bl n)%nat -> exists b, (b < n)%nat /\ (band_start bl b <= i < band_start bl (S b))%nat.
Proof.
  induction n as [|n IH]; intros H; [cbn in H; lia|]. destruct (Nat.lt_ge_cases i (band_start bl n)) as [L|G].
  - destruct (IH L) as (b & Hb & E). exists b. split; [lia|exact E].
  - exists n. split; [lia|]. split; [exact G|exact H].
Qed.

Lemma findMaxInt_ok (l : list Z) : Forall (fun b => 0 <= b <= 15)%Z l -> l <> [] ->
  (0 <= findMaxInt l <= 15)%Z /\ Forall (fun b => b <= findMaxInt l)%Z l.
Proof.
  intros F NE. destruct l as [|x l]; [congruence|]. unfold findMaxInt. inversion_clear F as [|? ? Hx Fl].
  assert (G : forall l m, Forall (fun b => 0 <= b <= 15)%Z l -> (0 <= m <= 15)%Z ->
    let r := fold_left (fun m y => if (m <? Z.abs y)%Z then Z.abs y else m) l m in
    (0 <= r <= 15)%Z /\ (m <= r)%Z /\ Forall (fun b => b <= r)%Z l).
  { clear. induction l as [|y l IH]; intros m F Hm; cbn [fold_left]; [repeat split; auto; lia|]. inversion_clear F as [|? ? Hy Fl].
    destruct (Z.ltb_spec m (Z.abs y)) as [L|L].
    - destruct (IH (Z.abs y) Fl ltac:(lia)) as (A & B & C). repeat split; try lia. constructor; [lia|exact C].
    - destruct (IH m Fl Hm) as (A & B & C). repeat split; try lia. constructor; [lia|exact C]. }
  destruct (G l (Z.abs x) Fl ltac:(lia)) as (A & B & C). split; [exact A|]. constructor; [lia|exact C].
Qed.

Lemma int_exact (x : f64) v : is_finite x = true -> B2R x = IZR v -> (Z.abs v <= 2 ^ 30)%Z -> int_of_float i32 x = Ok v.
Proof.
  intros Fx E Hv. unfold int_of_float. rewrite Fx, (trunc_int x v E).
  replace (v =? cast i32 v)%Z with true; [reflexivity|]. symmetry. apply Z.eqb_eq. unfold cast, i32, ct_signed, ct_width, to_signed.
  change (2 ^ (Z.of_nat 32 - 1))%Z with 2147483648%Z. change (2 ^ Z.of_nat 32)%Z with 4294967296%Z. change (2 ^ 30)%Z with 1073741824%Z in Hv. lia.
Qed.

(** *** Integers *)
Lemma grid_m q : on_grid q -> q <> 0 -> exists m, q = (IZR m / 128)%R /\ (1 <= m <= 2160)%Z.
Proof.
  intros (j & Hj & [E|E]) NZ.
  - exists j. split; [exact E|]. assert (j <> 0)%Z by (intros ->; apply NZ; rewrite E; lra). lia.
  - exists (128 + 16 * j)%Z. split; [rewrite E, plus_IZR, mult_IZR; lra|lia].
Qed.
Section Integers.
Variables (Q : f64) (bm : Z).
Hypothesis FQ : is_finite Q = true.
Hypothesis GQ : on_grid (B2R Q).
Hypothesis NZ : B2R Q <> 0.
Hypothesis Hbm : (0 <= bm <= 15)%Z.

Lemma Q_bounds : / 128 <= B2R Q <= 17.
Proof.
  destruct (grid_m _ GQ NZ) as (m & E & Hm). rewrite E. assert (1 <= IZR m <= 2160) by (split; apply IZR_le; lia). lra.
Qed.
Lemma multiplicator_R : is_finite (div64 (f64_of_Z (2 ^ bm)) Q) = true /\
  Rabs (B2R (div64 (f64_of_Z (2 ^ bm)) Q) - IZR (2 ^ bm) / B2R Q) <= / 1073741824.
Proof.
  pose proof Q_bounds as HQ. pose proof (pow_R bm Hbm) as Hp. destruct (f64_of_Z_ok (2 ^ bm)) as [E F].
  { destruct Hp as [H1 H2]. apply le_IZR in H1, H2. lia. }
  assert (HI : 0 < / B2R Q <= 128).
  { split; [apply Rinv_0_lt_compat; lra|]. rewrite <- (Rinv_inv 128). apply Rinv_le_contravar; lra. }
  assert (Hv : 0 <= IZR (2 ^ bm) / B2R Q <= 4194304) by (unfold Rdiv; nra).
  destruct (div64_ok (f64_of_Z (2 ^ bm)) Q F) as [D G]; [lra|rewrite E; apply bound1000; lra|]. split; [exact G|].
  rewrite D, E. pose proof (err64 (IZR (2 ^ bm) / B2R Q)) as Er. rewrite (Rabs_pos_eq (IZR (2 ^ bm) / B2R Q)) in Er by lra.
  pose proof tiny_small. pose proof tiny_pos. lra.
Qed.
Lemma integer_ok b z (y : f64) : (0 <= b <= bm)%Z -> (Z.abs z <= 2 ^ b - 1)%Z -> is_finite y = true -> B2R y = IZR z * step (B2R Q) b ->
  int_of_float i32 (fround (mul64 y (div64 (f64_of_Z (2 ^ bm)) Q))) = Ok (z * 2 ^ (bm - b))%Z /\
  (Z.abs (z * 2 ^ (bm - b)) < 2 ^ bm)%Z.
Proof.
  intros Hb Hz Fy Ey. pose proof Q_bounds as HQ. destruct multiplicator_R as [Fm Em]. set (mu := div64 (f64_of_Z (2 ^ bm)) Q) in *.
  pose proof (pow_R b ltac:(lia)) as Hp. pose proof (pow_R bm Hbm) as Hpm.
  assert (Epow : (2 ^ bm = 2 ^ (bm - b) * 2 ^ b)%Z) by (rewrite <- Z.pow_add_r by lia; f_equal; lia).
  pose proof (Z.pow_pos_nonneg 2 (bm - b) ltac:(lia) ltac:(lia)) as Pp.
  set (v := (z * 2 ^ (bm - b))%Z).
  assert (Bv : (Z.abs v < 2 ^ bm)%Z). { unfold v. rewrite Z.abs_mul, (Z.abs_eq (2 ^ (bm - b))) by lia. rewrite Epow. nia. }
  assert (Bv2 : (Z.abs v < 32768)%Z). { destruct Hpm as [_ H]. apply le_IZR in H. lia. }
  split; [|exact Bv].
  assert (Ev : B2R y * (IZR (2 ^ bm) / B2R Q) = IZR v).
  { rewrite Ey. unfold v, step. rewrite Epow, !mult_IZR. field. split; [apply NZ|lra]. }
  assert (By : Rabs (B2R y) <= 17).
  { rewrite Ey, Rabs_mult. unfold step. rewrite (Rabs_pos_eq (B2R Q / IZR (2 ^ b))).
    2: { unfold Rdiv. apply Rmult_le_pos; [lra|]. apply Rlt_le, Rinv_0_lt_compat. lra. }
    assert (Hzr : Rabs (IZR z) <= IZR (2 ^ b)) by (rewrite <- abs_IZR; apply IZR_le; lia).
    apply Rle_trans with (IZR (2 ^ b) * (B2R Q / IZR (2 ^ b))); [apply Rmult_le_compat_r; [unfold Rdiv; apply Rmult_le_pos; [lra|]; apply Rlt_le, Rinv_0_lt_compat; lra|exact Hzr]|].
    replace (IZR (2 ^ b) * (B2R Q / IZR (2 ^ b))) with (B2R Q) by (field; lra). lra. }
  assert (Ep : Rabs (B2R y * B2R mu - IZR v) <= 17 / 1073741824).
  { rewrite <- Ev. replace (B2R y * B2R mu - B2R y * (IZR (2 ^ bm) / B2R Q)) with (B2R y * (B2R mu - IZR (2 ^ bm) / B2R Q)) by ring.
    rewrite Rabs_mult. unfold Rdiv at 2. apply Rmult_le_compat; try apply Rabs_pos; assumption. }
  assert (RV : -32768 <= IZR v <= 32768) by (split; apply IZR_le; lia).
  apply Raux.Rabs_le_inv in Ep.
  destruct (mul64_ok y mu Fy Fm) as [E1 F1]; [apply bound1000; lra|].
  pose proof (err64 (B2R y * B2R mu)) as Er. rewrite <- E1 in Er.
  assert (Ba : Rabs (B2R y * B2R mu) <= 32769) by (apply Rabs_le; lra).
  apply Raux.Rabs_le_inv in Er. pose proof tiny_small. pose proof tiny_pos.
  destruct (fround_R (mul64 y mu)) as [E2 F2]. rewrite F1 in F2.
  apply int_exact; [exact F2| |change (2 ^ 30)%Z with 1073741824%Z; lia].
  rewrite E2. f_equal. apply Znearest_imp. apply Rabs_lt. lra.
Qed.
End Integers.

Lemma scale_block_ok (mu : f64) (f : nat -> Z) : forall l, (forall i, (i < length l)%nat -> int_of_float i32 (fround (mul64 (nth i l f64_0) mu)) = Ok (f i)) ->
  scale_block mu l = Ok (map f (seq 0 (length l))).
Proof.
  intros l. revert f. induction l as [|x l IH]; intros f H; [reflexivity|]. cbn [scale_block length seq map].
  pose proof (H 0%nat ltac:(cbn; lia)) as H0. cbn [nth] in H0. rewrite H0. cbn [obind].
  rewrite (IH (fun i => f (S i))). 2: { intros i Hi. apply (H (S i)). cbn. lia. }
  cbn [obind]. rewrite <- seq_shift, map_map. reflexivity.
Qed.

Lemma integers_ok k Q (quant dwt : list f64) bits bm : (3 <= k)%nat -> length quant = (2 ^ k)%nat -> is_finite Q = true -> on_grid (B2R Q) ->
  length bits = (k - 1)%nat -> (0 <= bm <= 15)%Z -> Forall (fun b => 0 <= b <= bm)%Z bits ->
  (forall b i, (b <= k - 2)%nat -> (band_start (2 ^ k) b <= i < band_start (2 ^ k) (S b))%nat ->
    quantised (B2R Q) (nth b bits 0%Z) (nth i dwt f64_0) (nth i quant f64_0)) ->
  exists ints, integers quant Q bm = Ok ints /\ length ints = (2 ^ k)%nat /\
    forall i, (i < 2 ^ k)%nat -> is_finite (nth i quant f64_0) = true /\
      IZR (nth i ints 0%Z) * step (B2R Q) bm = B2R (nth i quant f64_0) /\ (Z.abs (nth i ints 0) < 2 ^ bm)%Z.
Proof.
  intros Hk Lq FQ GQ Lb Hbm Fb H. unfold integers, shift1. rewrite (proj2 (Z.leb_le 0 bm)), (proj2 (Z.ltb_lt bm 31)) by lia. cbn [andb obind].
  assert (Pb : (0 < 2 ^ bm)%Z) by (apply Z.pow_pos_nonneg; lia).
  assert (Each : forall i, (i < 2 ^ k)%nat -> exists b z, (0 <= b <= bm)%Z /\ (Z.abs z <= 2 ^ b - 1)%Z /\
    is_finite (nth i quant f64_0) = true /\ B2R (nth i quant f64_0) = IZR z * step (B2R Q) b).
  { intros i Hi. destruct (band_of (2 ^ k) i (S (k - 2))) as (b & Hb & Hbi).
    - rewrite start_pow by lia. rewrite <- pow_split by lia. exact Hi.
    - destruct (H b i ltac:(lia) Hbi) as (z & F & E & Hz & _). exists (nth b bits 0%Z), z. split; [apply (proj1 (Forall_forall _ _) Fb), nth_In; lia|]. auto. }
  destruct (Req_dec (B2R Q) 0) as [Z0|NZ].
  - assert (Eq : feq Q f64_0 = true).
    { unfold feq, Beqb, SpecFloat.SFeqb. change (SpecFloat.SFcompare (B2SF Q) (B2SF f64_0)) with (Bcompare Q f64_0).
      rewrite Bcompare_correct by (assumption || reflexivity). change (B2R f64_0) with 0%R. rewrite Rcompare_Eq by exact Z0. reflexivity. }
    rewrite Eq. eexists. split; [reflexivity|]. split; [rewrite repeat_length; exact Lq|]. intros i Hi.
    destruct (Each i Hi) as (b & z & Hb & Hz & F & E). split; [exact F|]. rewrite nth_repeat, E. unfold step. rewrite Z0.
    split; [unfold Rdiv; ring|]. cbn. exact Pb.
  - assert (Eq : feq Q f64_0 = false).
    { unfold feq, Beqb, SpecFloat.SFeqb. change (SpecFloat.SFcompare (B2SF Q) (B2SF f64_0)) with (Bcompare Q f64_0).
      rewrite Bcompare_correct by (assumption || reflexivity). change (B2R f64_0) with 0%R.
      destruct (Rcompare_spec (B2R Q) 0); [reflexivity|congruence|reflexivity]. }
    rewrite Eq. set (mu := div64 (f64_of_Z (2 ^ bm)) Q).
    set (f := fun i => match int_of_float i32 (fround (mul64 (nth i quant f64_0) mu)) with Ok v => v | _ => 0%Z end).
    assert (Ef : forall i, (i < 2 ^ k)%nat -> int_of_float i32 (fround (mul64 (nth i quant f64_0) mu)) = Ok (f i) /\
      IZR (f i) * step (B2R Q) bm = B2R (nth i quant f64_0) /\ (Z.abs (f i) < 2 ^ bm)%Z).
    { intros i Hi. destruct (Each i Hi) as (b & z & Hb & Hz & F & E).
      destruct (integer_ok Q bm GQ NZ Hbm b z _ Hb Hz F E) as [I1 I2]. fold mu in I1. unfold f. rewrite I1.
      split; [reflexivity|]. split; [|exact I2]. rewrite E. unfold step.
      assert (Epow : (2 ^ bm = 2 ^ (bm - b) * 2 ^ b)%Z) by (rewrite <- Z.pow_add_r by lia; f_equal; lia).
      rewrite Epow, !mult_IZR. field. split; apply IZR_neq.
      - pose proof (Z.pow_pos_nonneg 2 b). lia.
      - pose proof (Z.pow_pos_nonneg 2 (bm - b)). lia. }
    rewrite (scale_block_ok mu f) by (intros i Hi; apply Ef; lia).
    eexists. split; [reflexivity|]. split; [rewrite map_length, seq_length; exact Lq|]. intros i Hi.
    rewrite nth_map_seq by lia. destruct (Ef i Hi) as (_ & A & B). destruct (Each i Hi) as (b & z & _ & _ & F & _). auto.
Qed.

(** *** The entropy coder *)
Lemma header_grid Q : on_grid Q -> SpihtSpec.header_scale Q = Q /\ 0 <= Q < 17.
Proof.
  intros (j & Hj & [->| ->]); assert (0 <= IZR j <= 127) by (split; apply IZR_le; lia); split; try lra.
  - apply header_scale_exact, Hj.
  - apply header_scale_exact8, Hj.
Qed.
Lemma nothing_finite : is_finite (wavmax_of (repeat 0%Z 8)) = true.
Proof. reflexivity. Qed.
Lemma pow_2_R bm : (0 <= bm <= 15)%Z -> B2R (pow_2 bm) = IZR (2 ^ bm) /\ is_finite (pow_2 bm) = true.
Proof. intros H. unfold pow_2. apply f64_of_Z_ok. pose proof (pow_R bm H) as [A B]. apply le_IZR in A, B. lia. Qed.

Lemma codec_ok md0 md10 k Q bm (ints : list Z) : (3 <= k <= 22)%nat -> length ints = (2 ^ k)%nat -> is_finite Q = true -> on_grid (B2R Q) -> (0 <= bm <= 15)%Z ->
  (forall i, (i < 2 ^ k)%nat -> (Z.abs (nth i ints 0) < 2 ^ bm)%Z) ->
  exists bytes c', encodeEffect md0 md10 resetCounter ints (Z.to_nat bm) Q [] = Ok (bytes, resetCounter) /\
    decodeSamples bytes (2 ^ k) = inv_DWT c' (dwtlevel (2 ^ k)) /\ length c' = (2 ^ k)%nat /\
    forall i, (i < 2 ^ k)%nat -> is_finite (nth i c' f64_0) = true /\ B2R (nth i c' f64_0) = IZR (nth i ints 0%Z) * step (B2R Q) bm.
Proof.
  intros Hk Li FQ GQ Hbm Hi. unfold decodeSamples, decodeBlock.
  destruct (forallb (fun v => v =? 0)%Z ints) eqn:Ez.
  - assert (Fz : Forall (fun v => v = 0%Z) ints).
    { apply Forall_forall. intros v Hv. rewrite forallb_forall in Ez. specialize (Ez v Hv). lia. }
    destruct (zero_block md0 md10 ints k (Z.to_nat bm) Q Li ltac:(lia) Fz) as [E _].
    exists []. rewrite E. rewrite (nothing_round _ k ltac:(lia) eq_refl). cbn [obind].
    eexists. split; [reflexivity|]. split; [reflexivity|]. split; [rewrite map_length, repeat_length; reflexivity|].
    intros i Hik. set (g := fun d => mul64 (f64_of_Z d) (div64 (wavmax_of (repeat 0%Z 8)) (pow_2 0))).
    rewrite (nth_indep _ f64_0 (g 0%Z)) by (rewrite map_length, repeat_length; exact Hik). rewrite map_nth, nth_repeat.
    assert (nth i ints 0%Z = 0%Z) as -> by (rewrite Forall_forall in Fz; apply Fz, nth_In; lia).
    rewrite Rmult_0_l. unfold g.
    destruct (pow_2_R 0 ltac:(lia)) as [Ep Fp]. change (IZR (2 ^ 0)) with 1 in Ep.
    destruct (div64_ok (wavmax_of (repeat 0%Z 8)) (pow_2 0) nothing_finite) as [E1 F1]; [rewrite Ep; lra|rewrite nothing_scale; unfold Rdiv; rewrite Rmult_0_l; apply bound1000; lra|].
    rewrite nothing_scale in E1. unfold Rdiv in E1. rewrite Rmult_0_l, rnd64_0 in E1.
    destruct (f64_of_Z_ok 0 ltac:(lia)) as [E0 F0].
    destruct (mul64_ok (f64_of_Z 0) _ F0 F1) as [E2 F2]; [rewrite E1, Rmult_0_r; apply bound1000; lra|].
    split; [exact F2|]. rewrite E2, E1, Rmult_0_r. apply rnd64_0.
  - assert (Nz : Exists (fun v => v <> 0%Z) ints).
    { apply Exists_exists. assert (X : exists v, In v ints /\ (v =? 0)%Z = false).
      { clear -Ez. induction ints as [|v l IH]; cbn in Ez; [discriminate|]. destruct (v =? 0)%Z eqn:E; [destruct (IH Ez) as (w & A & B); exists w; split; [right; exact A|exact B]|exists v; split; [left; reflexivity|exact E]]. }
      destruct X as (v & Hv & E). exists v. split; [exact Hv|lia]. }
    assert (Hb1 : (1 <= bm)%Z).
    { destruct (Z.eq_dec bm 0) as [->|N]; [|lia]. exfalso. apply Exists_exists in Nz. destruct Nz as (v & Hv & N).
      destruct (In_nth _ _ 0%Z Hv) as (i & Hl & E). specialize (Hi i ltac:(lia)). rewrite E in Hi. change (2 ^ 0)%Z with 1%Z in Hi. lia. }
    destruct (header_grid _ GQ) as [Hs Hq].
    destruct (scale_round Q FQ Hq) as (bw & Ew & Fw & Lw & Es & Fs).
    destruct (effect_round md0 md10 ints k (Z.to_nat bm) Q bw [] Li Hk ltac:(lia)) as (bytes & E1 & _ & E2); try assumption.
    { apply Forall_forall. intros v Hv. destruct (In_nth _ _ 0%Z Hv) as (i & Hl & E). specialize (Hi i ltac:(lia)). rewrite E in Hi.
      rewrite Z2Nat.id by lia. rewrite Z.pow_add_r by lia. lia. }
    exists bytes. rewrite E1. rewrite Li in E2. rewrite E2, Z2Nat.id by lia. cbn [obind].
    eexists. split; [reflexivity|]. split; [reflexivity|]. split; [rewrite map_length; exact Li|]. intros i Hik.
    set (g := fun d => mul64 (f64_of_Z d) (div64 (wavmax_of bw) (pow_2 bm))).
    rewrite (nth_indep _ f64_0 (g 0%Z)) by (rewrite map_length; lia). rewrite map_nth. unfold g. set (d := nth i ints 0%Z).
    specialize (Hi i Hik). fold d in Hi. rewrite Hs in Es.
    destruct (pow_2_R bm Hbm) as [Ep Fp]. pose proof (pow_R bm Hbm) as Hp.
    assert (Bd : (Z.abs d <= 32768)%Z). { destruct Hp as [_ H]. apply le_IZR in H. lia. }
    assert (GQ' : exists m, B2R Q = IZR m / 128 /\ (0 <= m <= 2160)%Z).
    { destruct GQ as (j & Hj & [E|E]); [exists j; split; [exact E|lia]|]. exists (128 + 16 * j)%Z. split; [rewrite E, plus_IZR, mult_IZR; lra|lia]. }
    destruct GQ' as (m & Em & Hm).
    assert (Est : step (B2R Q) bm = IZR m / IZR (2 ^ (7 + bm))).
    { unfold step. rewrite Em, Z.pow_add_r, mult_IZR by lia. change (2 ^ 7)%Z with 128%Z. field. lra. }
    assert (Bst : 0 <= step (B2R Q) bm <= 17).
    { unfold step, Rdiv. assert (0 < / IZR (2 ^ bm) <= 1) by (split; [apply Rinv_0_lt_compat; lra|rewrite <- Rinv_1; apply Rinv_le_contravar; lra]). nra. }
    destruct (div64_ok (wavmax_of bw) (pow_2 bm) Fs) as [E3 F3]; [rewrite Ep; lra|rewrite Es, Ep; fold (step (B2R Q) bm); apply bound1000; lra|].
    rewrite Es, Ep in E3. fold (step (B2R Q) bm) in E3. rewrite rnd64_id in E3 by (rewrite Est; apply fmt_frac; lia).
    destruct (f64_of_Z_ok d ltac:(lia)) as [E4 F4]. assert (Rd : -32768 <= IZR d <= 32768) by (split; apply IZR_le; lia).
    destruct (mul64_ok (f64_of_Z d) _ F4 F3) as [E5 F5]; [rewrite E4, E3; apply bound1000; split; nra|].
    split; [exact F5|]. rewrite E5, E4, E3. apply rnd64_id. rewrite Est.
    replace (IZR d * (IZR m / IZR (2 ^ (7 + bm)))) with (IZR (d * m) / IZR (2 ^ (7 + bm))) by (rewrite mult_IZR; unfold Rdiv; ring).
    apply fmt_frac; nia.
Qed.

(** *** Coefficients close to each other, band by band *)
Lemma near_bands n D : forall c c', length c = (4 * 2 ^ n)%nat -> length c' = length c ->
  (forall i, (i < 4)%nat -> close (D 0%nat) (nth i c f64_0) (nth i c' f64_0)) ->
  (forall b i, (b < n)%nat -> (4 * 2 ^ b <= i < 4 * 2 ^ S b)%nat -> close (D (S b)) (nth i c f64_0) (nth i c' f64_0)) ->
  near n D c c'.
Proof.
  induction n as [|n IH]; intros c c' L L' H0 Hb.
  - cbn [near]. apply (Forall2_of_nth _ f64_0 f64_0); [lia|]. intros i Hi. apply H0. cbn in L. lia.
  - cbn [near]. rewrite Nat.pow_succ_r' in L. set (h := (4 * 2 ^ n)%nat) in *.
    exists (firstn h c), (firstn h c'), (skipn h c), (skipn h c'). rewrite !firstn_skipn, !firstn_length, !skipn_length.
    split; [reflexivity|]. split; [reflexivity|]. split; [lia|]. split; [lia|]. split.
    + pose proof (Nat.pow_nonzero 2 n ltac:(lia)). apply IH; rewrite ?firstn_length; try lia.
      * intros i Hi. rewrite !nth_firstn_lt by lia. apply H0, Hi.
      * intros b i Hbn Hi. assert (4 * 2 ^ S b <= h)%nat by (unfold h; apply Nat.mul_le_mono_l, Nat.pow_le_mono_r; lia).
        rewrite !nth_firstn_lt by lia. apply Hb; lia.
    + apply (Forall2_of_nth _ f64_0 f64_0); rewrite ?skipn_length; [lia|]. intros i Hi. rewrite !nth_skipn_add. apply Hb; [lia|].
      rewrite Nat.pow_succ_r'. unfold h in *. lia.
Qed.

Lemma clip_error Q W b z x : 0 <= Q -> (0 <= b <= 15)%Z -> Rabs x <= W -> stands_for Q b z x -> Rabs (IZR z * step Q b - x) <= step Q b + Rmax 0 (W - Q).
Proof.
  intros HQ Hb Hx (Hz & Sg & _ & In1 & Out1). pose proof (Rmax_l 0 (W - Q)) as R1. pose proof (Rmax_r 0 (W - Q)) as R2.
  destruct (Rle_lt_dec (Rabs x) Q) as [L|G]; [specialize (In1 L); lra|]. specialize (Out1 G).
  pose proof (pow_R b Hb) as Hp.
  assert (Hst : 0 <= step Q b) by (unfold step, Rdiv; apply Rmult_le_pos; [exact HQ|]; apply Rlt_le, Rinv_0_lt_compat; lra).
  assert (Eq : Q = IZR (2 ^ b) * step Q b) by (unfold step; field; lra).
  assert (Ez : Rabs (IZR z) = IZR (2 ^ b) - 1) by (rewrite <- abs_IZR, Out1, minus_IZR; reflexivity).
  set (s := step Q b) in *. assert (Hps : (IZR (2 ^ b) - 1) * s = Q - s) by lra.
  assert (P1 : 0 <= (IZR (2 ^ b) - 1) * s) by (apply Rmult_le_pos; lra).
  unfold Rabs in Ez, G, Hx. destruct (Rcase_abs x) as [Nx|Px]; destruct (Rcase_abs (IZR z)) as [Nz|Pz].
  - replace (IZR z) with (- (IZR (2 ^ b) - 1)) by lra. replace (- (IZR (2 ^ b) - 1) * s) with (- ((IZR (2 ^ b) - 1) * s)) by ring. apply Rabs_le. lra.
  - assert (IZR z = 0) by nra. rewrite H, Rmult_0_l. replace ((IZR (2 ^ b) - 1)) with 0 in Hps by lra. apply Rabs_le. lra.
  - assert (x = 0 \/ 0 < x) as [->|Hx0] by lra; [lra|]. exfalso. nra.
  - replace (IZR z) with (IZR (2 ^ b) - 1) by lra. apply Rabs_le. lra.
Qed.

Lemma total_steps Q o (bits : list Z) : 0 <= o -> (forall b, 0 <= step Q b) -> forall n, (n < length bits)%nat ->
  total n (fun b => step Q (nth b bits 0%Z) + o) <= 116 / 100 * (steps Q (firstn (S n) bits) + INR (S n) * o).
Proof.
  intros Ho Hs. induction n as [|n IH]; intros Hn.
  - destruct bits as [|b l]; [cbn in Hn; lia|]. cbn. pose proof (Hs b). lra.
  - cbn [total]. specialize (IH ltac:(lia)).
    assert (E : steps Q (firstn (S (S n)) bits) = steps Q (firstn (S n) bits) + step Q (nth (S n) bits 0%Z)).
    { clear -Hn. revert n Hn. induction bits as [|b l IHb]; intros n Hn; [cbn in Hn; lia|]. cbn [length] in Hn.
      change (firstn (S (S n)) (b :: l)) with (b :: firstn (S n) l). change (firstn (S n) (b :: l)) with (b :: firstn n l). cbn [steps nth].
      destruct n as [|n]; [destruct l as [|c l']; [cbn in Hn; lia|]; cbn; ring|]. rewrite (IHb n) by lia. ring. }
    rewrite E, (S_INR (S n)). set (a := steps Q (firstn (S n) bits)) in *. set (r := INR (S n)) in *. lra.
Qed.
