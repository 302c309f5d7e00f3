(** Blocks: their way through the codec, the lengths that work, the blocks of a signal. *)
From Coq Require Import Reals Lra Lia ZArith List.
From Flocq Require Import Core BinarySingleNaN.
From Verif Require Import Base FloatBase FloatModel FloatProof Float64Proof ArithModel SpihtModel SpihtTree SpihtProof SpihtHeader ToolsModel ToolsFloatProof SynthModel TypesModel WaveletModel WaveletSpec WaveletTransform WaveletFilter WaveletInverse WaveletQuant WaveletAlloc WaveletBits WaveletCodec.
From Verif Require MergeProof AhapMore.
Import ListNotations.
Local Open Scope R_scope.
Ltac Zify.zify_post_hook ::= Z.div_mod_to_equations.

Lemma halves_pow k : (3 <= k)%nat -> halves (dwtlevel (2 ^ k)) (2 ^ k).
Proof. intros H. rewrite level_pow by lia. exists 4%nat. split; [lia|]. apply pow_split. lia. Qed.
Lemma level_S k : (3 <= k)%nat -> exists n, dwtlevel (2 ^ k) = S n /\ k = (n + 3)%nat.
Proof. intros H. rewrite level_pow by lia. exists (k - 3)%nat. lia. Qed.
Lemma big700 : 1000000000000 <= bpow radix2 700.
Proof. apply Rle_trans with (bpow radix2 40); [cbn; lra|apply bpow_le; lia]. Qed.

Lemma transform_ok k block M : (3 <= k <= 22)%nat -> length block = (2 ^ k)%nat -> 1 <= M <= 512 -> samples_within M block ->
  exists c Q W, DWT block (dwtlevel (2 ^ k)) = Ok c /\ length c = (2 ^ k)%nat /\ all_bounded 1000000000 c /\
    largestCoefficient c = Ok Q /\ is_finite Q = true /\ largest (map B2R c) W /\ scale_for W (B2R Q) /\
    M * 2 ^ (dwtlevel (2 ^ k)) <= bpow radix2 700.
Proof.
  intros Hk L HM B. destruct (level_S k ltac:(lia)) as (n & En & Ek). rewrite En, DWT_tr.
  assert (P : 1 <= 2 ^ S n <= 1048576).
  { split; [apply pow_R1_Rle; lra|]. replace 1048576 with (2 ^ 20) by (cbn; lra). apply Rle_pow; [lra|lia]. }
  assert (Pm : M * 2 ^ S n <= 1000000000) by nra. pose proof big700.
  destruct (tr_ok (S n) block M) as (c & E & Lc & Bc); try (assumption || lra).
  { rewrite L, <- En. apply halves_pow. lia. }
  assert (Bc' : all_bounded 1000000000 c) by (eapply Forall_impl; [|exact Bc]; intros v [F Bv]; split; [exact F|lra]).
  destruct (largest_ok c) as (Q & W & E1 & F1 & Lg & Sc); [intros ->; rewrite L in Lc; cbn [length] in Lc; pose proof (Nat.pow_nonzero 2 k); lia|exact Bc'|].
  exists c, Q, W. split; [exact E|]. split; [lia|]. split; [exact Bc'|]. split; [exact E1|]. split; [exact F1|]. split; [exact Lg|]. split; [exact Sc|lra].
Qed.

Lemma steps_firstn Q bits n : length bits = n -> steps Q (firstn n bits) = steps Q bits.
Proof. intros <-. now rewrite firstn_all. Qed.

Lemma scale_nonneg W Q : scale_for W Q -> 0 <= Q.
Proof. intros [(j & Hj & [->| ->]) _]; assert (0 <= IZR j) by (apply IZR_le; lia); lra. Qed.
Lemma scale_zero (c : list f64) W Q : largest (map B2R c) W -> scale_for W Q -> Q = 0 -> Forall (fun x => B2R x = 0) c.
Proof.
  intros [Lg Ex] (Gr & _ & A & B & C & D) Z0.
  assert (W = 0).
  { assert (0 <= W). { apply Exists_exists in Ex. destruct Ex as (v & _ & <-). apply Rabs_pos. }
    destruct (Rle_lt_dec W (127 / 128)) as [L1|G1]; [specialize (A L1); lra|].
    destruct (Rlt_le_dec W 1) as [L2|G2]; [specialize (B ltac:(lra)); lra|].
    destruct (Rle_lt_dec W (135 / 8)) as [L3|G3]; [specialize (C ltac:(lra)); lra|specialize (D G3); lra]. }
  subst W. apply Forall_forall. intros x Hx. rewrite Forall_forall in Lg. specialize (Lg (B2R x) (in_map _ _ _ Hx)). 
  pose proof (Rabs_pos (B2R x)). destruct (Req_dec (B2R x) 0) as [E|N]; [exact E|]. pose proof (Rabs_pos_lt _ N). lra.
Qed.

Theorem block_round log10 pow2 getSMR md0 md10 k block M budget : (3 <= k <= 22)%nat -> length block = (2 ^ k)%nat -> 1 <= M <= 512 -> samples_within M block ->
  block_usable log10 pow2 getSMR (2 ^ k) block budget ->
  exists c Q W st bytes y,
    DWT block (dwtlevel (2 ^ k)) = Ok c /\ largestCoefficient c = Ok Q /\ largest (map B2R c) W /\ scale_for W (B2R Q) /\
    allocate log10 pow2 (2 ^ k) (getSMR block) c Q budget = Ok st /\ Forall (fun b => 0 <= b <= 15)%Z (bitalloc st) /\
    encodeBlock log10 pow2 getSMR md0 md10 resetCounter (2 ^ k) block budget = Ok (bytes, resetCounter) /\
    decodeSamples bytes (2 ^ k) = Ok y /\
    Forall2 (within (block_error (B2R Q) W M (2 ^ k) (bitalloc st))) block y.
Proof.
  intros Hk L HM B Us. destruct (transform_ok k block M Hk L HM B) as (c & Q & W & Ec & Lc & Bc & EQ & FQ & Lg & Sc & BM).
  specialize (Us c Q Ec EQ). pose proof (scale_nonneg _ _ Sc) as PQ. pose proof Sc as (GQ & _).
  destruct (allocate_fine log10 pow2 (2 ^ k) (getSMR block) c Q budget) as (st & Ea & Rg & Ql); try assumption.
  { eapply Forall_impl; [|exact Bc]. intros v [F Bv]. split; [exact F|lra]. }
  { apply (scale_zero c W); assumption. }
  destruct (proj2 (allocate_sum log10 pow2 (2 ^ k) (getSMR block) c Q budget) st Ea) as (Lb & Lq & _ & _).
  rewrite level_pow in Lb by lia.
  destruct (findMaxInt_ok (bitalloc st) Rg) as [Hbm Fbm]; [intros E; rewrite E in Lb; cbn in Lb; lia|].
  set (bm := findMaxInt (bitalloc st)) in *.
  destruct (integers_ok k Q (dwt_quant st) c (bitalloc st) bm) as (ints & Ei & Li & Hi); try (assumption || lia).
  { apply Forall_forall. intros b Hb. rewrite Forall_forall in Rg, Fbm. specialize (Rg b Hb). specialize (Fbm b Hb). cbv beta in *. lia. }
  { intros b i Hb Hbi. apply Ql; [rewrite level_pow by lia; exact Hb|exact Hbi]. }
  destruct (codec_ok md0 md10 k Q bm ints Hk Li FQ GQ Hbm) as (bytes & c' & Ee & Ed & Lc' & Hc').
  { intros i Hik. apply Hi, Hik. }
  set (o := Rmax 0 (W - B2R Q)). set (D := fun b => step (B2R Q) (nth b (bitalloc st) 0%Z) + o).
  assert (Ho : 0 <= o) by apply Rmax_l.
  assert (Hst : forall b, 0 <= step (B2R Q) b).
  { intros b. unfold step, Rdiv. apply Rmult_le_pos; [exact PQ|]. destruct (Z_lt_ge_dec b 0) as [N|G].
    - rewrite Z.pow_neg_r by exact N. rewrite Rinv_0. lra.
    - apply Rlt_le, Rinv_0_lt_compat, IZR_lt. apply Z.pow_pos_nonneg; lia. }
  assert (HD : forall b, 0 <= D b) by (intros b; unfold D; pose proof (Hst (nth b (bitalloc st) 0%Z)); lra).
  assert (Cl : forall b i, (b <= k - 2)%nat -> (band_start (2 ^ k) b <= i < band_start (2 ^ k) (S b))%nat -> (i < 2 ^ k)%nat -> close (D b) (nth i c f64_0) (nth i c' f64_0)).
  { intros b i Hb Hbi Hik. destruct (Hc' i Hik) as [F1 E1]. destruct (Hi i Hik) as (_ & E2 & _). split; [exact F1|]. rewrite E1, E2.
    destruct (Ql b i ltac:(rewrite level_pow by lia; exact Hb) Hbi) as (z & _ & E3 & Sf). rewrite E3. unfold D, o. apply clip_error; [exact PQ| | |exact Sf].
    - rewrite Forall_forall in Rg. apply Rg, nth_In. lia.
    - destruct Lg as [Lg _]. rewrite Forall_forall in Lg. apply Lg, in_map, nth_In. lia. }
  assert (Nr : near (dwtlevel (2 ^ k)) D c c').
  { rewrite level_pow by lia. apply near_bands.
    - rewrite Lc. apply pow_split. lia.
    - lia.
    - intros i H4. apply (Cl 0%nat i); [lia| |].
      + rewrite start_0, start_pow by lia. cbn [Nat.pow]. lia.
      + assert (2 ^ 3 <= 2 ^ k)%nat by (apply Nat.pow_le_mono_r; lia). change (2 ^ 3)%nat with 8%nat in *. lia.
    - intros b i Hb Hbi. apply (Cl (S b) i); [lia| |].
      + rewrite !start_pow by lia. exact Hbi.
      + assert (4 * 2 ^ S b <= 4 * 2 ^ (k - 2))%nat by (apply Nat.mul_le_mono_l, Nat.pow_le_mono_r; lia). rewrite (pow_split k) by lia. lia. }
  pose proof (total_steps (B2R Q) o (bitalloc st) Ho Hst (dwtlevel (2 ^ k)) ltac:(rewrite level_pow by lia; lia)) as Tt.
  fold D in Tt. rewrite level_pow in Tt by lia. rewrite (steps_firstn (B2R Q) (bitalloc st) (S (k - 2)) Lb) in Tt.
  destruct (level_S k ltac:(lia)) as (n & En & Ek).
  rewrite En, DWT_tr in Ec. rewrite <- En in Ec.
  destruct (inverse_near (dwtlevel (2 ^ k)) block M D c c') as (y & Ey & Ly & Hy); try assumption; try lra.
  { rewrite L. apply halves_pow. lia. }
  { rewrite level_pow by lia. eapply Rle_trans; [exact Tt|]. eapply Rle_trans; [|exact big700].
    assert (S1 : steps (B2R Q) (bitalloc st) <= 17 * INR (S (k - 2))).
    { rewrite <- Lb. clear -Rg GQ PQ. destruct (header_grid _ GQ) as [_ Hq]. induction Rg as [|b l Hb Rg IH]; [cbn; lra|]. cbn [steps length]. rewrite S_INR.
      pose proof (pow_R b Hb) as Hp. assert (step (B2R Q) b <= 17).
      { unfold step, Rdiv. assert (0 < / IZR (2 ^ b) <= 1) by (split; [apply Rinv_0_lt_compat; lra|rewrite <- Rinv_1; apply Rinv_le_contravar; lra]). nra. }
      lra. }
    assert (o <= 1000000000).
    { unfold o. apply Rmax_lub; [lra|]. destruct Lg as [_ Ex]. apply Exists_exists in Ex. destruct Ex as (v & Hv & <-). apply in_map_iff in Hv. destruct Hv as (x & <- & Hx).
      unfold all_bounded in Bc. rewrite Forall_forall in Bc. destruct (Bc x Hx) as [_ Bx]. lra. }
    assert (INR (S (k - 2)) <= 21) by (replace 21 with (INR 21) by (cbn; lra); apply le_INR; lia).
    assert (0 <= INR (S (k - 2))) by apply pos_INR. nra. }
  exists c, Q, W, st, bytes, y. rewrite En, DWT_tr, <- En. split; [exact Ec|]. split; [exact EQ|]. split; [exact Lg|]. split; [exact Sc|]. split; [exact Ea|]. split; [exact Rg|].
  split.
  { unfold encodeBlock, quantiseBlock. rewrite En, DWT_tr, <- En, Ec. cbn [obind]. rewrite EQ. cbn [obind]. rewrite Ea. cbn [obind]. fold bm. rewrite Ei. cbn [obind]. exact Ee. }
  split; [rewrite Ed; unfold inv_DWT; rewrite Lc'; rewrite L in Ey; exact Ey|].
  eapply AhapMore.Forall2_weaken; [|exact Hy]. intros a b [F1 E1]. split; [exact F1|]. eapply Rle_trans; [exact E1|].
  unfold block_error. rewrite Lb. fold o. rewrite level_pow by lia.
  assert (Ip : INR (2 ^ k) = 4 * 2 ^ (k - 2)).
  { rewrite (pow_split k) by lia. rewrite mult_INR, pow_INR. cbn [INR]. replace (1 + 1) with 2 by ring. ring. }
  rewrite Ip. replace (S (k - 2)) with (S (k - 2)) in Tt by reflexivity. unfold eps.
  assert (1 <= 2 ^ (k - 2)) by (apply pow_R1_Rle; lra). set (p := 2 ^ (k - 2)) in *. nra.
Qed.

(** *** Lengths *)
Lemma symconv_result x h : symconv x h = UB \/ exists y, symconv x h = Ok y.
Proof. unfold symconv. destruct (_ <? _)%nat; [left; reflexivity|right; eexists; reflexivity]. Qed.
Lemma symconv_some x h e : length h = (2 * e + 1)%nat -> (e + 1 <= length x)%nat -> exists y, symconv x h = Ok y.
Proof.
  intros Lh Lx. unfold symconv. assert (length h / 2 = e)%nat as -> by lia. rewrite (proj2 (Nat.ltb_ge _ _)) by lia. eexists. reflexivity.
Qed.
Lemma inv_level_result len out : inv_level len out = UB \/ exists y, inv_level len out = Ok y.
Proof.
  unfold inv_level. destruct (Nat.odd len); [left; reflexivity|].
  destruct (symconv_result (interleave (repeat f64_0 (len / 2)) (firstn (len / 2) (skipn (len / 2) out))) hpr) as [->|[y1 ->]]; [left; reflexivity|]. cbn [obind].
  destruct (symconv_result (interleave (firstn (len / 2) out) (repeat f64_0 (len / 2))) lpr) as [->|[y2 ->]]; [left; reflexivity|]. cbn [obind].
  right. eexists. reflexivity.
Qed.
Lemma inv_undefined n j size : (j < n)%nat -> Nat.odd (size / 2 ^ j) = true -> forall out, inv_levels n size out = UB.
Proof.
  induction n as [|n IH]; intros Hj Od out; [lia|]. cbn [inv_levels]. destruct (Nat.eq_dec j n) as [->|N].
  - unfold inv_level. rewrite Od. reflexivity.
  - destruct (inv_level_result (size / 2 ^ n) out) as [->|[y ->]]; [reflexivity|]. cbn [obind]. apply IH; [lia|exact Od].
Qed.
Lemma inv_defined n : forall len out, halves n len -> length out = len -> exists y, inv_levels n len out = Ok y /\ length y = len.
Proof.
  induction n as [|n IH]; intros len out H L; [exists out; split; [reflexivity|exact L]|].
  destruct (halves_S n len H) as (Ev & L6 & H').
  rewrite inv_levels_last. rewrite <- (firstn_skipn (len / 2) out).
  assert (Lf : length (firstn (len / 2) out) = (len / 2)%nat) by (rewrite firstn_length; lia).
  destruct (inv_levels_apart n (len / 2) (firstn (len / 2) out) (skipn (len / 2) out) Lf H') as [E _]. rewrite E.
  destruct (IH (len / 2)%nat (firstn (len / 2) out) H' Lf) as (y1 & E1 & L1). rewrite E1. cbn [obind].
  assert (L2 : length (y1 ++ skipn (len / 2) out) = len) by (rewrite app_length, skipn_length, L1; lia).
  assert (X : exists y, inv_level len (y1 ++ skipn (len / 2) out) = Ok y).
  { unfold inv_level. rewrite <- Nat.negb_even, Ev. cbn [negb].
    set (o := y1 ++ skipn (len / 2) out) in *. pose proof (half_even _ Ev) as He.
    assert (La : length (firstn (len / 2) (skipn (len / 2) o)) = (len / 2)%nat) by (rewrite firstn_length, skipn_length; lia).
    assert (Lb : length (firstn (len / 2) o) = (len / 2)%nat) by (rewrite firstn_length; lia).
    destruct (symconv_some (interleave (repeat f64_0 (len / 2)) (firstn (len / 2) (skipn (len / 2) o))) hpr 4 eq_refl) as [h ->].
    { rewrite interleave_length by (rewrite repeat_length; lia). rewrite repeat_length. lia. }
    cbn [obind].
    destruct (symconv_some (interleave (firstn (len / 2) o) (repeat f64_0 (len / 2))) lpr 3 eq_refl) as [l ->].
    { rewrite interleave_length by (rewrite repeat_length; lia). lia. }
    cbn [obind]. eexists. reflexivity. }
  destruct X as [y Ey]. exists y. split; [exact Ey|]. apply (inv_level_length len _ y L2 L6 Ey).
Qed.

Lemma dwt_level_result x : dwt_level x = UB \/ exists p, dwt_level x = Ok p.
Proof.
  unfold dwt_level. destruct (symconv_result x hp) as [->|[y1 ->]]; [left; reflexivity|]. cbn [obind].
  destruct (symconv_result x lp) as [->|[y2 ->]]; [left; reflexivity|]. cbn [obind]. destruct (Nat.odd _); [left; reflexivity|right; eexists; reflexivity].
Qed.
Lemma dwt_undefined n : forall j x out, (j < n)%nat -> Nat.odd (length x / 2 ^ j) = true -> dwt_levels n x out = UB.
Proof.
  induction n as [|n IH]; intros j x out Hj Od; [lia|]. cbn [dwt_levels].
  destruct (dwt_level_result x) as [->|[[low high] E]]; [reflexivity|]. rewrite E. cbn [obind].
  destruct (dwt_level_length _ _ _ E) as (Ll & _ & Ev). destruct j as [|j].
  - cbn [Nat.pow] in Od. rewrite Nat.div_1_r, <- Nat.negb_even, Ev in Od. discriminate.
  - apply (IH j); [lia|]. rewrite Ll, Nat.div_div by (try apply Nat.pow_nonzero; lia). rewrite <- Nat.pow_succ_r'. exact Od.
Qed.
Lemma dwt_defined n : forall x, halves n (length x) -> exists c, tr n x = Ok c /\ length c = length x.
Proof.
  induction n as [|n IH]; intros x H; [exists x; split; reflexivity|]. destruct (halves_S n _ H) as (Ev & L6 & H'). cbn [tr].
  assert (X : exists p, dwt_level x = Ok p).
  { unfold dwt_level. destruct (symconv_some x hp 3 eq_refl) as [h ->]; [lia|]. cbn [obind]. destruct (symconv_some x lp 4 eq_refl) as [l ->]; [lia|]. cbn [obind].
    rewrite <- Nat.negb_even, Ev. eexists. reflexivity. }
  destruct X as [[low high] E]. rewrite E. cbn [obind]. destruct (dwt_level_length _ _ _ E) as (Ll & Lh & _).
  destruct (IH low) as (c & Ec & Lc); [rewrite Ll; exact H'|]. rewrite Ec. cbn [obind]. exists (c ++ high). split; [reflexivity|].
  rewrite app_length, Lc, Ll, Lh. pose proof (half_even _ Ev). lia.
Qed.

(** The first level with an odd length. *)
Lemma odd_level n : forall size, (size mod 2 ^ n <> 0)%nat -> exists j, (j < n)%nat /\ Nat.odd (size / 2 ^ j) = true.
Proof.
  induction n as [|n IH]; intros size H; [cbn [Nat.pow] in H; rewrite Nat.mod_1_r in H; lia|].
  destruct (Nat.odd size) eqn:O; [exists 0%nat; split; [lia|]; cbn [Nat.pow]; rewrite Nat.div_1_r; exact O|].
  assert (Ev : Nat.even size = true) by (rewrite <- Nat.negb_odd, O; reflexivity). pose proof (half_even _ Ev) as He.
  destruct (IH (size / 2)%nat) as (j & Hj & Oj).
  - intros E. apply H. rewrite <- He, Nat.pow_succ_r', Nat.mul_mod_distr_l by (try apply Nat.pow_nonzero; lia). lia.
  - exists (S j). split; [lia|]. rewrite Nat.pow_succ_r', <- Nat.div_div by (try apply Nat.pow_nonzero; lia). exact Oj.
Qed.
Lemma level_spec bl : (4 <= bl)%nat -> (4 * 2 ^ dwtlevel bl <= bl < 8 * 2 ^ dwtlevel bl)%nat.
Proof.
  intros H. unfold dwtlevel. set (q := (Z.of_nat bl / 4)%Z). assert (Hq : (1 <= q)%Z) by (unfold q; lia).
  pose proof (Z.log2_spec q ltac:(lia)) as [A B]. pose proof (Z.log2_nonneg q) as C. set (l := Z.log2 q) in *.
  assert (E : Z.of_nat (2 ^ Z.to_nat l) = (2 ^ l)%Z) by (rewrite Nat2Z.inj_pow, Z2Nat.id by lia; reflexivity).
  rewrite Z.pow_succ_r in B by lia. set (p := (2 ^ Z.to_nat l)%nat) in *. unfold q in *. lia.
Qed.
Lemma level_halves bl : (8 <= bl)%nat -> (bl mod 2 ^ dwtlevel bl = 0)%nat -> halves (dwtlevel bl) bl.
Proof.
  intros H Hd. pose proof (level_spec bl ltac:(lia)) as Hs. apply Nat.mod_divides in Hd; [|apply Nat.pow_nonzero; lia].
  destruct Hd as [m Em]. exists m. split; [|lia]. set (p := (2 ^ dwtlevel bl)%nat) in *. nia.
Qed.
Lemma level_pos bl : (8 <= bl)%nat -> exists n, dwtlevel bl = S n.
Proof.
  intros H. pose proof (level_spec bl ltac:(lia)) as Hs. destruct (dwtlevel bl) as [|n]; [cbn in Hs; lia|exists n; reflexivity].
Qed.
(** Both transforms are defined for exactly the lengths that are a multiple of [2 ^ levels]. *)
Lemma inverse_lengths (c : list f64) : (8 <= length c)%nat ->
  (length c mod 2 ^ dwtlevel (length c) = 0 -> exists y, inv_DWT c (dwtlevel (length c)) = Ok y /\ length y = length c)%nat /\
  (length c mod 2 ^ dwtlevel (length c) <> 0 -> inv_DWT c (dwtlevel (length c)) = UB)%nat.
Proof.
  intros H. unfold inv_DWT. split; intros Hd.
  - apply inv_defined; [apply level_halves; assumption|reflexivity].
  - destruct (odd_level _ _ Hd) as (j & Hj & Oj). apply (inv_undefined _ j); assumption.
Qed.
Lemma forward_lengths (x : list f64) : (8 <= length x)%nat ->
  (length x mod 2 ^ dwtlevel (length x) = 0 -> exists c, DWT x (dwtlevel (length x)) = Ok c /\ length c = length x)%nat /\
  (length x mod 2 ^ dwtlevel (length x) <> 0 -> DWT x (dwtlevel (length x)) = UB)%nat.
Proof.
  intros H. split; intros Hd.
  - pose proof (level_halves _ H Hd) as Hh. destruct (level_pos _ H) as [n En]. rewrite En in *. rewrite DWT_tr. apply dwt_defined, Hh.
  - destruct (odd_level _ _ Hd) as (j & Hj & Oj). apply (dwt_undefined _ j); assumption.
Qed.

(** *** The blocks of a signal *)
Lemma block_start bl (sig : list f64) : block_at bl sig 0 = firstn bl sig ++ repeat f64_0 (bl - length sig).
Proof.
  unfold block_at. apply nth_ext with (d := f64_0) (d' := f64_0).
  - rewrite map_length, seq_length, app_length, firstn_length, repeat_length. lia.
  - intros i Hi. rewrite map_length, seq_length in Hi. rewrite nth_map_seq by exact Hi. cbn [Nat.mul Nat.add].
    destruct (Nat.lt_ge_cases i (length sig)) as [Lt|Ge].
    + rewrite app_nth1 by (rewrite firstn_length; lia). rewrite nth_firstn_lt by exact Hi. reflexivity.
    + rewrite app_nth2 by (rewrite firstn_length; lia). rewrite nth_repeat, nth_overflow by lia. reflexivity.
Qed.
Lemma block_shift bl (sig : list f64) i : block_at bl (skipn bl sig) i = block_at bl sig (S i).
Proof. unfold block_at. apply map_ext. intros j. rewrite nth_skipn_add. f_equal. lia. Qed.

Definition wavelet_effect (pos : Z) (bytes : list Z) : effect := Effect (-1) pos None None [] None BasisE [] [] bytes.
Section Signal.
Variables log10 pow2 : f64 -> f64.
Variable getSMR : list f64 -> nat -> f64 * f64.
Variable mds : nat -> list Z * list Z.
Variable bl : nat.
Variables bitbudget L : Z.
Hypothesis HL : (0 <= L)%Z.
Notation enc := (encode_blocks log10 pow2 getSMR mds bl bitbudget L).
Notation encb := (encodeBlock log10 pow2 getSMR).

Lemma blocks_of n : forall b cs pos sig out r, Forall (fun e => e_pos e <= pos)%Z (b_effects out) -> enc n b cs pos sig out = Ok r ->
  exists es, r = set_effects (b_effects out ++ es) out /\ length es = n /\
    forall i, (i < n)%nat -> exists bytes cs1 cs2, nth_error es i = Some (wavelet_effect (pos + Z.of_nat i * L) bytes) /\
      encb (fst (mds (b + i)%nat)) (snd (mds (b + i)%nat)) cs1 bl (block_at bl sig i) bitbudget = Ok (bytes, cs2).
Proof.
  induction n as [|n IH]; intros b cs pos sig out r F H.
  - cbn [encode_blocks] in H. injection H as <-. exists []. rewrite app_nil_r. split; [destruct out; reflexivity|]. split; [reflexivity|]. intros i Hi. lia.
  - cbn [encode_blocks] in H. rewrite <- block_start in H.
    destruct (encb (fst (mds b)) (snd (mds b)) cs bl (block_at bl sig 0) bitbudget) as [[bytes cs']| | |] eqn:E; try discriminate H. cbn [obind] in H.
    destruct (int_ok (pos + L)) as [pos'| | |] eqn:Ep; try discriminate H. cbn [obind] in H.
    assert (pos' = pos + L)%Z as -> by (unfold int_ok in Ep; destruct (_ =? _)%Z in Ep; [now injection Ep|discriminate]).
    assert (Ein : b_effects (addEffect (wavelet_effect pos bytes) out) = b_effects out ++ [wavelet_effect pos bytes]).
    { unfold addEffect. cbn [b_effects set_effects]. apply MergeProof.insert_end. exact F. }
    assert (F' : Forall (fun e => e_pos e <= pos + L)%Z (b_effects (addEffect (wavelet_effect pos bytes) out))).
    { rewrite Ein. apply Forall_app. split; [eapply Forall_impl; [|exact F]; cbv beta; intros ? ?; lia|constructor; [unfold wavelet_effect; cbn [e_pos]; lia|constructor]]. }
    destruct (IH _ _ _ _ _ _ F' H) as (es & Er & Ln & Hes).
    fold (wavelet_effect pos bytes) in Er. rewrite Ein in Er.
    exists (wavelet_effect pos bytes :: es). split.
    { rewrite Er. unfold addEffect, set_effects. cbn. rewrite <- app_assoc. reflexivity. }
    split; [cbn; lia|]. intros [|i] Hi.
    + exists bytes, cs, cs'. cbn [nth_error]. rewrite Nat.add_0_r, Z.mul_0_l, Z.add_0_r. split; [reflexivity|exact E].
    + destruct (Hes i ltac:(lia)) as (by' & c1 & c2 & N & E2). exists by', c1, c2. cbn [nth_error]. rewrite N. split; [do 2 f_equal; lia|].
      rewrite <- block_shift. replace (b + S i)%nat with (S b + i)%nat by lia. exact E2.
Qed.
(** The same when the entropy coder is left as it was found. *)
Lemma blocks_reset n : forall b pos sig out r, Forall (fun e => e_pos e <= pos)%Z (b_effects out) ->
  (forall i, (i < n)%nat -> exists bytes, encb (fst (mds (b + i)%nat)) (snd (mds (b + i)%nat)) resetCounter bl (block_at bl sig i) bitbudget = Ok (bytes, resetCounter)) ->
  enc n b resetCounter pos sig out = Ok r ->
  exists es, r = set_effects (b_effects out ++ es) out /\ length es = n /\
    forall i, (i < n)%nat -> exists bytes, nth_error es i = Some (wavelet_effect (pos + Z.of_nat i * L) bytes) /\
      encb (fst (mds (b + i)%nat)) (snd (mds (b + i)%nat)) resetCounter bl (block_at bl sig i) bitbudget = Ok (bytes, resetCounter).
Proof.
  induction n as [|n IH]; intros b pos sig out r F G H.
  - cbn [encode_blocks] in H. injection H as <-. exists []. rewrite app_nil_r. split; [destruct out; reflexivity|]. split; [reflexivity|]. intros i Hi. lia.
  - cbn [encode_blocks] in H. rewrite <- block_start in H.
    destruct (G 0%nat ltac:(lia)) as (bytes & E). rewrite Nat.add_0_r in E. rewrite E in H. cbn [obind] in H.
    destruct (int_ok (pos + L)) as [pos'| | |] eqn:Ep; try discriminate H. cbn [obind] in H.
    assert (pos' = pos + L)%Z as -> by (unfold int_ok in Ep; destruct (_ =? _)%Z in Ep; [now injection Ep|discriminate]).
    assert (Ein : b_effects (addEffect (wavelet_effect pos bytes) out) = b_effects out ++ [wavelet_effect pos bytes]).
    { unfold addEffect. cbn [b_effects set_effects]. apply MergeProof.insert_end. exact F. }
    assert (F' : Forall (fun e => e_pos e <= pos + L)%Z (b_effects (addEffect (wavelet_effect pos bytes) out))).
    { rewrite Ein. apply Forall_app. split; [eapply Forall_impl; [|exact F]; cbv beta; intros ? ?; lia|constructor; [unfold wavelet_effect; cbn [e_pos]; lia|constructor]]. }
    destruct (fun G' => IH _ _ _ _ _ F' G' H) as (es & Er & Ln & Hes).
    { intros i Hi. destruct (G (S i) ltac:(lia)) as [by' E']. exists by'. rewrite block_shift. replace (S b + i)%nat with (b + S i)%nat by lia. exact E'. }
    fold (wavelet_effect pos bytes) in Er. rewrite Ein in Er.
    exists (wavelet_effect pos bytes :: es). split.
    { rewrite Er. unfold addEffect, set_effects. cbn. rewrite <- app_assoc. reflexivity. }
    split; [cbn; lia|]. intros [|i] Hi.
    + exists bytes. cbn [nth_error]. rewrite Nat.add_0_r, Z.mul_0_l, Z.add_0_r. split; [reflexivity|exact E].
    + destruct (Hes i ltac:(lia)) as (by' & N & E2). exists by'. cbn [nth_error]. rewrite N. split; [do 2 f_equal; lia|].
      rewrite <- block_shift. replace (b + S i)%nat with (S b + i)%nat by lia. exact E2.
Qed.
(** The loop succeeds when the blocks do. *)
Lemma blocks_ok n : forall b pos sig out, (forall i, (i < n)%nat -> exists bytes,
    encb (fst (mds (b + i)%nat)) (snd (mds (b + i)%nat)) resetCounter bl (block_at bl sig i) bitbudget = Ok (bytes, resetCounter)) ->
  (0 <= pos)%Z -> (pos + Z.of_nat n * L < 2 ^ 31)%Z -> exists r, enc n b resetCounter pos sig out = Ok r.
Proof.
  induction n as [|n IH]; intros b pos sig out H Hp Hm; [exists out; reflexivity|]. cbn [encode_blocks]. rewrite <- block_start.
  destruct (H 0%nat ltac:(lia)) as [bytes E]. rewrite Nat.add_0_r in E. rewrite E. cbn [obind].
  assert (Ei : int_ok (pos + L) = Ok (pos + L)%Z).
  { unfold int_ok. replace (pos + L =? cast i32 (pos + L))%Z with true; [reflexivity|]. symmetry. apply Z.eqb_eq.
    unfold cast, i32, ct_signed, ct_width, to_signed. change (2 ^ (Z.of_nat 32 - 1))%Z with 2147483648%Z. change (2 ^ Z.of_nat 32)%Z with 4294967296%Z. change (2 ^ 31)%Z with 2147483648%Z in Hm. nia. }
  rewrite Ei. cbn [obind]. apply IH; [|lia|lia]. intros i Hi. destruct (H (S i) ltac:(lia)) as [by' E'].
  exists by'. rewrite block_shift. replace (S b + i)%nat with (b + S i)%nat by lia. exact E'.
Qed.
End Signal.
