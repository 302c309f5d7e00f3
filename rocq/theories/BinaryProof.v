(** Reading back the bodies of the bands and whole binary files; what cannot be written or read back. *)
From Coq Require Import Reals.
From Verif Require Import Base BitsModel BitsSpec BitsProof FloatBase FloatModel FloatSpec FloatProof FloatFields
  TypesModel MetaModel BandModel MetaSpec VecReads MetaProof BinaryModel BinarySpec BinaryReads.
Local Open Scope Z_scope.
Ltac Zify.zify_post_hook ::= Z.div_mod_to_equations.

(** *** Keyframes *)

Lemma ramplitude o : opt_all finite o ->
  exists b w, writeAmplitude (value_or o f32_0) = Ok b /\ reads binReadAmplitude b w /\ near_amplitude (value_or o f32_0) w.
Proof.
  intros H. apply (rfloat u8 8 _ _ _ ct8 range_amp). destruct o as [v|]; cbn [value_or]; [apply H; reflexivity|reflexivity].
Qed.
Lemma val16 o : opt_all (nbits 16) o -> nbits (Z.of_nat 16) (value_or o 0).
Proof. intros H. destruct o as [x|]; cbn [value_or]; [exact (H x eq_refl)|unfold nbits; cbn; lia]. Qed.

Lemma rtransient k : kf_storable TransientB k ->
  exists b k', writeTransientKeyframe k = Ok b /\ reads readTransientKeyframe b k' /\ kf_stored TransientB k k'.
Proof.
  intros [(Hp & Ha & Hf) _]. unfold writeTransientKeyframe.
  destruct (ramplitude _ Ha) as (b & w & -> & Hr & Hn). cbn [obind]. eexists.
  exists (Keyframe (Some (value_or (k_pos k) 0)) (Some w) (Some (value_or (k_freq k) 0))). split; [reflexivity|]. split.
  - intros st rest Hok Hs. unfold readTransientKeyframe. rstep Hr. rstep (rn u16 16 _ eq_refl (val16 _ Hp)).
    rstep (rn u16 16 _ eq_refl (val16 _ Hf)). rdone.
  - unfold kf_stored. cbn. repeat split. exists w. auto.
Qed.
Lemma rcurve k : kf_storable CurveB k ->
  exists b k', writeCurveKeyframe k = Ok b /\ reads readCurveKeyframe b k' /\ kf_stored CurveB k k'.
Proof.
  intros [(Hp & Ha & Hf) _]. unfold writeCurveKeyframe.
  destruct (ramplitude _ Ha) as (b & w & -> & Hr & Hn). cbn [obind]. eexists.
  exists (Keyframe (Some (value_or (k_pos k) 0)) (Some w) None). split; [reflexivity|]. split.
  - intros st rest Hok Hs. unfold readCurveKeyframe. rstep Hr. rstep (rn u16 16 _ eq_refl (val16 _ Hp)). rdone.
  - unfold kf_stored. cbn. repeat split. exists w. auto.
Qed.
Lemma rvectorial k : kf_storable VectorialB k ->
  exists b k', writeVectorialKeyframe k = Ok b /\ reads readVectorialKeyframe b k' /\ kf_stored VectorialB k k'.
Proof.
  destruct k as [p a f]. unfold kf_storable, kf_ok. cbn [k_pos k_amp k_freq]. intros [(Hp & Ha & Hf) Hpos].
  specialize (Hpos eq_refl). destruct p as [p|]; [|congruence]. unfold writeVectorialKeyframe. cbn [k_pos k_amp k_freq].
  destruct (ramp a Ha) as (b & a' & Hb & Hr & Hn). change (match a with Some a => writeAmplitude a | None => Ok [] end = Ok b) in Hb.
  rewrite Hb. cbn [obind]. eexists. exists (Keyframe (Some p) a' f). split; [reflexivity|]. split.
  - intros st rest Hok Hs. unfold readVectorialKeyframe.
    set (mask := (if has a then 1 else 0) + (if has f then 2 else 0)) in *.
    assert (Hmask : nbits (Z.of_nat 3) mask) by (unfold nbits, mask; change (2 ^ Z.of_nat 3) with 8; destruct (has a), (has f); lia).
    assert (T0 : Z.testbit mask 0 = has a) by (unfold mask; destruct (has a), (has f); reflexivity).
    assert (T1 : Z.testbit mask 1 = has f) by (unfold mask; destruct (has a), (has f); reflexivity).
    rstep (rn u8 3 mask eq_refl Hmask). rewrite T0, T1. clearbody mask.
    fold binReadAmplitude in Hr. rstep Hr.
    rstep (rn u16 16 p eq_refl (Hp p eq_refl)). rstep (ropt16 f Hf). rdone.
  - unfold kf_stored. cbn. auto.
Qed.

(** *** Effects of a band *)

(** A freshly read effect: only its type is set. *)
Definition fresh_effect (t : Z) : effect := set_type t effect0.

Lemma rkeyframes T w r l : Forall (kf_storable T) l -> vec_size l < 65536 ->
  (forall k, kf_storable T k -> exists b k', w k = Ok b /\ reads r b k' /\ kf_stored T k k') ->
  exists b l', writeCounted w l = Ok b /\
    (forall e, e_kfs e = [] -> reads (readKeyframes r e) b (set_kfs l' e)) /\ Forall2 (kf_stored T) l l'.
Proof.
  intros H Hl Hk. destruct (rtimes w r (kf_stored T) l) as (b & l' & Hw & Hr & HR).
  { eapply Forall_impl; [|exact H]. exact Hk. }
  eexists. exists l'. split; [apply (writeCounted_all _ _ _ Hl Hw)|]. split; [|exact HR].
  intros e He st rest Hok Hs. unfold readKeyframes. rewrite He.
  rstep (rn u16 16 (vec_size l) eq_refl (size16 l Hl)). rewrite vec_size_nat. rstep Hr. rdone.
Qed.

(** What the switch on the band type reads back of a basis effect. *)
Definition basis_read (T : Z) (e e' : effect) : Prop :=
  e_type e' = BasisE /\ e_semantic e' = None /\ e_timeline e' = [] /\ e_samples e' = [] /\ e_id e' = -1 /\
  if T =? WaveletB then e_wavelet e' = e_wavelet e /\ e_kfs e' = [] /\ no_phase e'
  else e_wavelet e' = [] /\ Forall2 (kf_stored T) (e_kfs e) (e_kfs e') /\
       (if T =? VectorialB then phase_stored e e' else no_phase e').

Lemma rbasis T e : 0 <= T <= 3 -> e_type e = BasisE -> effect_storable T e ->
  exists b e' r, writeBasisEffect T e = Some (Ok b) /\ readBasisEffect T = Some r /\
    reads (r (fresh_effect BasisE)) b e' /\ basis_read T e e'.
Proof.
  intros HT Ht (_ & He). rewrite Ht in He.
  destruct He as [[He _]|[[He _]|[_ He]]]; [discriminate|discriminate|].
  assert (HT' : T = TransientB \/ T = CurveB \/ T = VectorialB \/ T = WaveletB) by (unfold TransientB, CurveB, VectorialB, WaveletB; lia).
  unfold basis_read. destruct HT' as [ET|[ET|[ET|ET]]]; subst T; cbn [Z.eqb WaveletB TransientB CurveB VectorialB] in *.
  - destruct He as (Hk & Hl & _).
    destruct (rkeyframes _ _ _ _ Hk Hl rtransient) as (b & l & Hw & Hr & HR).
    exists b, (set_kfs l (fresh_effect BasisE)), (readKeyframes readTransientKeyframe).
    split; [change (Some (writeCounted writeTransientKeyframe (e_kfs e)) = Some (Ok b)); rewrite Hw; reflexivity|].
    split; [reflexivity|]. split; [apply Hr; reflexivity|]. cbn. repeat split. exact HR.
  - destruct He as (Hk & Hl & _).
    destruct (rkeyframes _ _ _ _ Hk Hl rcurve) as (b & l & Hw & Hr & HR).
    exists b, (set_kfs l (fresh_effect BasisE)), (readKeyframes readCurveKeyframe).
    split; [change (Some (writeCounted writeCurveKeyframe (e_kfs e)) = Some (Ok b)); rewrite Hw; reflexivity|].
    split; [reflexivity|]. split; [apply Hr; reflexivity|]. cbn. repeat split. exact HR.
  - destruct He as (Hk & Hl & Hph). destruct (Hph eq_refl) as [Hphase Hbase].
    destruct (rkeyframes _ _ _ _ Hk Hl rvectorial) as (b & l & Hw & Hr & HR).
    destruct (rphase _ Hphase) as (pb & ph & Wp & Rp & Np).
    eexists. exists (set_kfs l (set_phase_base ph (value_or (e_base e) 0) (fresh_effect BasisE))), readVectorialEffect.
    split; [change (writeBasisEffect VectorialB e) with (Some (writeVectorialEffect e)); unfold writeVectorialEffect;
            rewrite Wp, Hw; cbn [obind]; reflexivity|].
    split; [reflexivity|]. split.
    + intros st rest Hok Hs. unfold readVectorialEffect. rstep Rp. rstep (rn u8 4 _ eq_refl (base4 _ Hbase)).
      rstep (Hr (set_phase_base ph (value_or (e_base e) 0) (fresh_effect BasisE)) eq_refl). rdone.
    + cbn. repeat split; [exact HR|]. exists ph. auto.
  - destruct He as (Hb & Hl).
    eexists. exists (set_wavelet (e_wavelet e) (fresh_effect BasisE)), binReadWaveletEffect.
    split; [reflexivity|]. split; [reflexivity|]. split; [|cbn; repeat split].
    intros st rest Hok Hs. unfold binReadWaveletEffect.
    assert (Hr : reads (readTimes (readNBits u8 8) (length (e_wavelet e))) (flat_map byte_bits (e_wavelet e)) (e_wavelet e)).
    { apply rtimes_map. eapply Forall_impl; [|exact Hb]. intros v Hv. rewrite byte_bits_write. apply rn; [reflexivity|exact Hv]. }
    unfold writeWaveletEffect in Hs.
    rstep (rn u16 16 (vec_size (e_wavelet e)) eq_refl (size16 _ Hl)). rewrite vec_size_nat. rstep Hr. rdone.
Qed.

(** The band while its effects are read: the type, the block length and the upper frequency are those of [b]. *)
Definition band_read (b b' : band) : Prop :=
  b_type b' = b_type b /\ b_up b' = b_up b /\ (b_type b = WaveletB -> b_block b' = b_block b).

Lemma pos25 p : nbits 25 p -> to_signed 32 p = p.
Proof. unfold nbits. intros H. apply to_signed_id; [lia|]. change (Z.of_nat 32 - 1) with 31. cbn in *. lia. Qed.

Lemma rbandeffect fuel wfuel b b' e index : band_storable 1000 b -> band_read b b' -> effect_storable (b_type b) e ->
  0 <= index < vec_size (b_effects b) ->
  exists bs e', writeBandEffect (S wfuel) b e = Ok (bs, true) /\
    oreads (readBandEffect (S fuel) 1000 b' index effect0) bs (Some e') /\ effect_stored b index e e'.
Proof.
  intros Hb (B1 & B2 & B3) He Hidx.
  destruct Hb as (Ht & _ & _ & _ & Hblock & _ & _).
  pose proof He as (Hpos & Hcases).
  destruct Hcases as [[E Hid]|[[E Htl]|[E _]]].
  - unfold writeBandEffect. rewrite E. cbn [Z.eqb ReferenceE BasisE negb orb].
    eexists. exists (set_pos (e_pos e) (set_id (e_id e) (fresh_effect ReferenceE))). split; [reflexivity|]. split.
    + intros st rest Hok Hs. unfold readBandEffect.
      rstep (rn u8 2 1 eq_refl ltac:(unfold nbits; cbn; lia)). cbn [Z.eqb andb BasisE].
      rstep (rn u32 25 (e_pos e) eq_refl Hpos). rewrite (pos25 _ Hpos). cbn [Z.eqb ReferenceE].
      unfold readReferenceEffect, writeReferenceEffect in *. rstep (rn u16 16 (e_id e) eq_refl Hid). rdone.
    + unfold effect_stored. rewrite E. cbn. repeat split.
  - unfold writeBandEffect. rewrite E. cbn [Z.eqb ReferenceE CompositeE BasisE negb orb writeTimelineEffect].
    rewrite Htl. cbn [vec_size length]. 
    change (Z.to_nat (to_unsigned 16 (vec_size (@nil effect)))) with 0%nat. cbn [firstn writeMany obind].
    eexists. exists (set_pos (e_pos e) (fresh_effect CompositeE)). split; [reflexivity|]. split.
    + intros st rest Hok Hs. unfold readBandEffect.
      rstep (rn u8 2 2 eq_refl ltac:(unfold nbits; cbn; lia)). cbn [Z.eqb andb BasisE].
      rstep (rn u32 25 (e_pos e) eq_refl Hpos). rewrite (pos25 _ Hpos). cbn [Z.eqb ReferenceE CompositeE readTimelineEffect].
      rstep (rn u16 16 0 eq_refl ltac:(unfold nbits; cbn; lia)). change (Z.to_nat 0) with 0%nat. cbn [obind app] in *. rdone.
    + unfold effect_stored. rewrite E. cbn. repeat split.
  - destruct (rbasis _ _ Ht E He) as (bb & e' & r & Hw & Hr & Hrd & HR).
    unfold writeBandEffect. rewrite E. cbn [Z.eqb ReferenceE CompositeE BasisE negb orb].
    rewrite Hw. cbn [obind].
    destruct (b_type b =? WaveletB) eqn:EW; cbn [negb].
    + assert (EW' : b_type b = WaveletB) by lia. specialize (B3 EW').
      destruct (Hblock EW') as (_ & Hup & block & k & Hbl & Hint & Hk & Hexact & Hbound).
      assert (0 < block).
      { assert (0 < 2 ^ k) by (apply Z.pow_pos_nonneg; lia). nia. }
      assert (HB : 0 <= index * block /\ index * block * 1000 < 2 ^ 31) by (change (2 ^ 31) with 2147483648 in *; nia).
      eexists. exists (set_pos (index * block * 1000 / b_up b) e'). split; [reflexivity|]. split.
      * intros st rest Hok Hs. unfold readBandEffect. rewrite app_nil_r in Hs.
        rstep (rn u8 2 0 eq_refl ltac:(unfold nbits; cbn; lia)). rewrite B1, EW. cbn [Z.eqb andb BasisE].
        rewrite B3, B2, Hbl. cbn [value_or].
        unfold int_mul. change (2 ^ 31) with 2147483648 in *.
        replace ((- (2147483648) <=? index * block) && (index * block <? 2147483648)) with true by (symmetry; lia).
        cbn [obind]. change (to_signed 32 1000) with 1000.
        replace ((- (2147483648) <=? index * block * 1000) && (index * block * 1000 <? 2147483648)) with true by (symmetry; lia).
        cbn [obind]. unfold int_div. change (2 ^ 31) with 2147483648.
        replace (b_up b =? 0) with false by (symmetry; lia).
        replace ((index * block * 1000 =? - (2147483648)) && (b_up b =? -1)) with false by (symmetry; lia).
        cbn [obind]. rewrite (Z.quot_div_nonneg) by lia. cbn [Z.eqb ReferenceE CompositeE].
        rewrite Hr. change (set_type 0 effect0) with (fresh_effect BasisE). rstep Hrd. rdone.
      * unfold effect_stored. destruct HR as (R1 & R2 & R3 & R4 & R5 & R6). rewrite E, EW in *. rewrite Hbl.
        cbn [Z.eqb BasisE ReferenceE andb value_or set_pos e_type e_semantic e_timeline e_samples e_id e_pos e_wavelet e_kfs e_phase e_base no_phase].
        repeat (split; [first [reflexivity|assumption]|]). exact R6.
    + eexists. exists (set_pos (e_pos e) e'). split; [reflexivity|]. split.
      * intros st rest Hok Hs. unfold readBandEffect. cbn [orb] in Hs.
        rstep (rn u8 2 0 eq_refl ltac:(unfold nbits; cbn; lia)). rewrite B1, EW. cbn [Z.eqb andb BasisE].
        rstep (rn u32 25 (e_pos e) eq_refl Hpos). rewrite (pos25 _ Hpos). cbn [Z.eqb ReferenceE CompositeE].
        rewrite Hr. change (set_type 0 effect0) with (fresh_effect BasisE). rstep Hrd. rdone.
      * unfold effect_stored. destruct HR as (R1 & R2 & R3 & R4 & R5 & R6). rewrite E, EW in *.
        cbn [Z.eqb BasisE ReferenceE andb value_or set_pos e_type e_semantic e_timeline e_samples e_id e_pos e_wavelet e_kfs].
        repeat (split; [first [reflexivity|assumption]|]). exact R6.
Qed.

(** *** The block length of a wavelet band *)

Fixpoint zrange (n : nat) (from : Z) : list Z :=
  match n with O => [] | S m => from :: zrange m (from + 1) end.
Lemma in_zrange n : forall from x, from <= x < from + Z.of_nat n -> In x (zrange n from).
Proof.
  induction n as [|n IH]; intros from x H; [lia|]. cbn [zrange].
  destruct (Z.eq_dec from x) as [->|Hne]; [now left|right]. apply IH. lia.
Qed.
(** Every upper frequency dividing 1000 * 2^k: the length in samples is computed exactly. *)
Definition exact_samples (k up : Z) : bool :=
  if (1000 * 2 ^ k) mod up =? 0 then
    match blockLengthSamples (1000 * 2 ^ k / up) 1000 up with Ok n => n =? 2 ^ k | _ => false end
  else true.
Lemma divides_samples n : forall x y, 0 < x -> 0 < y -> x * y = 125 * 2 ^ Z.of_nat n -> exists a d, x = 2 ^ Z.of_nat a * d /\ In d [1; 5; 25; 125].
Proof.
  induction n as [|n IH]; intros x y Hx Hy H.
  - change (2 ^ Z.of_nat 0) with 1 in H. exists 0%nat, x. split; [change (2 ^ Z.of_nat 0) with 1; lia|].
    assert (Hd : 125 mod x = 0) by (replace 125 with (y * x) by lia; apply Z.mod_mul; lia).
    assert (Hb : x <= 125) by nia.
    assert (C : forallb (fun x => negb (125 mod x =? 0) || existsb (Z.eqb x) [1; 5; 25; 125]) (zrange 125 1) = true) by (vm_compute; reflexivity).
    rewrite forallb_forall in C. specialize (C x (in_zrange 125 1 x ltac:(lia))). rewrite Hd in C. cbn [Z.eqb negb orb] in C.
    apply existsb_exists in C. destruct C as (d & Hin & E). apply Z.eqb_eq in E. now subst.
  - replace (Z.of_nat (S n)) with (Z.of_nat n + 1) in H by lia. rewrite Z.pow_add_r in H by lia. change (2 ^ 1) with 2 in H.
    destruct (Z.Even_or_Odd x) as [[x' E]|[x' E]].
    + destruct (IH x' y ltac:(lia) Hy ltac:(nia)) as (a & d & Ea & Hd). exists (S a), d. split; [|exact Hd].
      replace (Z.of_nat (S a)) with (Z.of_nat a + 1) by lia. rewrite Z.pow_add_r by lia. change (2 ^ 1) with 2. nia.
    + destruct (Z.Even_or_Odd y) as [[y' E']|[y' E']]; [|exfalso; subst; clear - H; pose proof (f_equal Z.odd H) as C; rewrite Z.odd_mul, !Z.odd_mul, !Z.odd_add, !Z.odd_mul in C; cbn in C; rewrite ?andb_false_r in C; discriminate C].
      apply (IH x y' Hx ltac:(lia)). nia.
Qed.
Lemma exact_samples_all :
  forallb (fun k => forallb (fun a => forallb (fun d => exact_samples k (2 ^ a * d)) [1; 5; 25; 125]) (zrange 16 0)) (zrange 19 4) = true.
Proof. vm_compute. reflexivity. Qed.

Lemma samples_exact block up k : 0 < up < 65536 -> 4 <= k <= 22 -> block * up = 1000 * 2 ^ k ->
  blockLengthSamples block 1000 up = Ok (2 ^ k).
Proof.
  intros Hup Hk Hexact. pose proof exact_samples_all as H. rewrite forallb_forall in H.
  specialize (H k (in_zrange 19 4 k ltac:(cbn; lia))). rewrite forallb_forall in H.
  assert (Hp : 0 < 2 ^ k) by (apply Z.pow_pos_nonneg; lia).
  assert (Hb : 0 < block) by (destruct (Z.lt_ge_cases 0 block) as [C|C]; [exact C|]; assert (block * up <= 0) by (apply Z.mul_nonpos_nonneg; lia); lia).
  destruct (divides_samples (Z.to_nat (k + 3)) up block ltac:(lia) Hb) as (a & d & Eu & Hd).
  { rewrite Z2Nat.id, Z.pow_add_r by lia. change (2 ^ 3) with 8. lia. }
  assert (Hd1 : 1 <= d) by (destruct Hd as [<-|[<-|[<-|[<-|[]]]]]; lia).
  assert (Ha : (a < 16)%nat).
  { destruct (Nat.lt_ge_cases a 16) as [C|C]; [exact C|]. assert (2 ^ 16 <= 2 ^ Z.of_nat a) by (apply Z.pow_le_mono_r; lia). change (2 ^ 16) with 65536 in *. nia. }
  specialize (H (Z.of_nat a) (in_zrange 16 0 (Z.of_nat a) ltac:(lia))). rewrite forallb_forall in H. specialize (H d Hd). rewrite <- Eu in H. unfold exact_samples in H.
  rewrite <- Hexact, Z.mod_mul, Z.div_mul in H by lia. cbn [Z.eqb] in H.
  destruct (blockLengthSamples block 1000 up) as [n| | |]; try discriminate. f_equal. lia.
Qed.
Lemma block_code block up k : 0 < up < 65536 -> 4 <= k <= 22 -> block * up = 1000 * 2 ^ k ->
  blockLengthCode block 1000 up = Ok (k - 4).
Proof.
  intros Hup Hk Hexact. unfold blockLengthCode. rewrite (samples_exact _ _ _ Hup Hk Hexact). cbn [obind].
  assert (0 < 2 ^ k) by (apply Z.pow_pos_nonneg; lia). destruct (Z.ltb_spec 0 (2 ^ k)); [|lia].
  rewrite Z.log2_pow2 by lia. reflexivity.
Qed.
Lemma block_ticks block up k : block < 2 ^ 31 -> 0 < up < 65536 -> 4 <= k <= 22 -> block * up = 1000 * 2 ^ k ->
  blockLengthTicks (k - 4) 1000 up = Ok block.
Proof.
  intros Hint Hup Hk Hexact. unfold blockLengthTicks. replace (k - 4 + 4) with k by lia.
  assert (2 ^ k <= 2 ^ 22) by (apply Z.pow_le_mono_r; lia). assert (0 < 2 ^ k) by (apply Z.pow_pos_nonneg; lia).
  change (2 ^ 22) with 4194304 in *. change (2 ^ 31) with 2147483648 in *.
  destruct (Z.ltb_spec (2 ^ k) 2147483648); [|lia]. destruct (Z.eqb_spec up 0); [lia|]. f_equal.
  unfold to_unsigned. change (2 ^ Z.of_nat 32) with 4294967296. rewrite Z.mod_small by lia.
  replace (2 ^ k * 1000) with (block * up) by lia. rewrite Z.div_mul by lia.
  apply to_signed_id; [lia|]. change (Z.of_nat 32 - 1) with 31. change (2 ^ 31) with 2147483648. nia.
Qed.

(** *** Bands *)

Lemma insert_last l : Forall (fun e => e_pos e = 0) l -> insert_effect effect0 l = l ++ [effect0].
Proof.
  induction 1 as [|e l He _ IH]; [reflexivity|]. cbn [insert_effect app]. rewrite He, IH. reflexivity.
Qed.
Lemma default_effects n t c bl lo up prio : forall l, Forall (fun e => e_pos e = 0) l ->
  fold_left (fun b _ => addEffect effect0 b) (repeat tt n) (Band t c bl lo up l prio) =
  Band t c bl lo up (l ++ repeat effect0 n) prio.
Proof.
  induction n as [|n IH]; intros l Hl; cbn [repeat fold_left]; [rewrite app_nil_r; reflexivity|].
  unfold addEffect at 2, set_effects. cbn [b_type b_curve b_block b_low b_up b_effects b_prio].
  rewrite (insert_last _ Hl), IH; [rewrite <- app_assoc; reflexivity|].
  apply Forall_app. split; [exact Hl|]. constructor; [reflexivity|constructor].
Qed.

(** The effects of a band, one after the other. *)
Lemma rbandeffects fuel wfuel b b' : band_storable 1000 b -> band_read b b' ->
  forall l index, Forall (effect_storable (b_type b)) l -> 0 <= index -> index + vec_size l <= vec_size (b_effects b) ->
  exists bs l', writeBandEffects (S wfuel) b l = Ok bs /\
    oreads (readBandEffects (S fuel) 1000 b' index (repeat effect0 (length l))) bs (Some l') /\
    length l' = length l /\
    forall i e e', nth_error l i = Some e -> nth_error l' i = Some e' -> effect_stored b (index + Z.of_nat i) e e'.
Proof.
  intros Hb Hr l. induction l as [|e l IH]; intros index Hl Hi Hn.
  - exists [], []. split; [reflexivity|]. split; [|split; [reflexivity|intros [|i] x x' H; discriminate]].
    intros st rest Hok Hs. exists st. auto.
  - inversion Hl as [|? ? He Hl']; subst. unfold vec_size in Hn. cbn [length] in Hn. fold (vec_size (b_effects b)) in Hn.
    destruct (rbandeffect fuel wfuel b b' e index Hb Hr He ltac:(lia)) as (x & e' & Hw & Hrd & HR).
    destruct (IH (index + 1) Hl' ltac:(lia)) as (y & l' & Hw' & Hrd' & Hlen & HR').
    { unfold vec_size at 1. lia. }
    exists (x ++ y), (e' :: l'). cbn [writeBandEffects]. rewrite Hw. cbn [obind]. rewrite Hw'. cbn [obind].
    split; [reflexivity|]. split; [|split; [cbn [length]; lia|]].
    + intros st rest Hok Hs. cbn [length repeat readBandEffects]. rstep Hrd. rstep Hrd'. rdone.
    + intros [|i] u u' Hu Hu'; cbn [nth_error] in Hu, Hu'.
      * injection Hu as <-. injection Hu' as <-. rewrite Z.add_0_r. exact HR.
      * replace (index + Z.of_nat (S i)) with (index + 1 + Z.of_nat i) by lia. apply HR'; assumption.
Qed.

(** The timescale only matters for wavelet bands. *)
Lemma storable_1000 ts b : band_storable ts b -> band_storable 1000 b.
Proof.
  intros (Ht & Hl & Hu & Hc & Hb & He & Hn). repeat (split; [assumption|]). split; [|split; assumption].
  intros E. destruct (Hb E) as (_ & Hrest). split; [reflexivity|exact Hrest].
Qed.
Lemma header_1000 ts b : band_storable ts b -> writeBandHeader ts b = writeBandHeader 1000 b.
Proof.
  intros (_ & _ & _ & _ & Hb & _). unfold writeBandHeader. destruct (b_type b =? WaveletB) eqn:E; [|reflexivity].
  destruct (Hb ltac:(lia)) as (-> & _). reflexivity.
Qed.

Lemma rband fuel wfuel ts b : band_storable ts b ->
  exists bs b', writeFileBand (S wfuel) ts b = Ok bs /\ oreads (readFileBand (S fuel) 1000 band0) bs (Some b') /\ band_stored b b'.
Proof.
  intros Hts. pose proof (storable_1000 _ _ Hts) as Hb. pose proof Hb as (Ht & Hlow & Hup & Hcurve & Hblock & Heff & Hn).
  set (hb := Band (b_type b) (if b_type b =? CurveB then Some (value_or (b_curve b) UnknownC) else None)
               (if b_type b =? WaveletB then b_block b else Some 0) (b_low b) (b_up b) (repeat effect0 (length (b_effects b))) None).
  assert (Hhead : exists hs, writeBandHeader 1000 b = Ok hs /\ oreads (readBandHeader 1000 band0) hs hb).
  { unfold writeBandHeader, hb.
    assert (HT : nbits (Z.of_nat 3) (b_type b)) by (unfold nbits; cbn; lia).
    destruct (b_type b =? CurveB) eqn:EC.
    - assert (EW : (b_type b =? WaveletB) = false) by (unfold CurveB, WaveletB in *; lia). rewrite EW.
      cbn [obind]. eexists. split; [reflexivity|]. intros st rest Hok Hs. unfold readBandHeader.
      rstep (rn u8 3 _ eq_refl HT). rewrite EC, EW.
      assert (Hc : nbits (Z.of_nat 4) (value_or (b_curve b) UnknownC)).
      { destruct (b_curve b) as [c|] eqn:Ec; cbn [value_or]; [exact (Hcurve ltac:(lia) c eq_refl)|unfold nbits, UnknownC; cbn; lia]. }
      rstep (rif _ _ _ (rn u8 4 _ eq_refl Hc)). unfold readIf. cbv beta iota.
      rstep (rn u16 16 _ eq_refl Hlow). rstep (rn u16 16 _ eq_refl Hup).
      rstep (rn u16 16 _ eq_refl (size16 _ Hn)). rewrite vec_size_nat. cbn [b_effects b_prio b_block band0].
      rewrite default_effects by constructor. rdone.
    - destruct (b_type b =? WaveletB) eqn:EW.
      + destruct (Hblock ltac:(lia)) as (_ & Hup0 & block & k & Hbl & Hint & Hk & Hexact & Hbound). rewrite Hbl.
        assert (Hup1 : 0 < b_up b < 65536) by (unfold nbits in Hup; change (2 ^ 16) with 65536 in Hup; lia).
        rewrite (block_code _ _ _ Hup1 Hk Hexact). cbn [obind]. eexists. split; [reflexivity|].
        intros st rest Hok Hs. unfold readBandHeader.
        rstep (rn u8 3 _ eq_refl HT). rewrite EC, EW. unfold readIf at 1. cbv beta iota.
        rstep (rif _ _ _ (rn u8 8 (k - 4) eq_refl ltac:(unfold nbits; cbn; lia))).
        rstep (rn u16 16 _ eq_refl Hlow). rstep (rn u16 16 _ eq_refl Hup).
        rewrite (block_ticks _ _ _ Hint Hup1 Hk Hexact). cbn [obind].
        rstep (rn u16 16 _ eq_refl (size16 _ Hn)). rewrite vec_size_nat. cbn [b_effects b_prio b_block b_curve band0].
        rewrite default_effects by constructor. rdone.
      + cbn [obind]. eexists. split; [reflexivity|]. intros st rest Hok Hs. unfold readBandHeader. cbn [app] in Hs.
        rstep (rn u8 3 _ eq_refl HT). rewrite EC, EW. unfold readIf. cbv beta iota.
        rstep (rn u16 16 _ eq_refl Hlow). rstep (rn u16 16 _ eq_refl Hup).
        rstep (rn u16 16 _ eq_refl (size16 _ Hn)). rewrite vec_size_nat. cbn [b_effects b_prio b_block b_curve band0].
        rewrite default_effects by constructor. rdone. }
  destruct Hhead as (hs & Hw & Hrd).
  assert (Hbr : band_read b hb).
  { unfold hb. split; [reflexivity|]. split; [reflexivity|]. intros ->. reflexivity. }
  destruct (rbandeffects fuel wfuel b hb Hb Hbr (b_effects b) 0 Heff ltac:(lia) ltac:(lia)) as (bs & l' & Hwe & Hrde & Hlen & HR).
  exists (hs ++ bs), (set_effects l' hb). unfold writeFileBand, writeBandBody. rewrite (header_1000 _ _ Hts), Hw, Hwe. cbn [obind]. split; [reflexivity|]. split.
  - intros st rest Hok Hs. unfold readFileBand, readBandBody. rstep Hrd.
    change (b_effects hb) with (repeat effect0 (length (b_effects b))). rstep Hrde. rdone.
  - unfold band_stored. cbn [set_effects hb b_type b_curve b_block b_low b_up b_effects b_prio].
    repeat (split; [first [reflexivity|assumption]|]). intros i e e' H1 H2. exact (HR i e e' H1 H2).
Qed.

(** *** The body *)

Lemma rall {A} (P : A -> A -> Prop) (w : A -> outcome bits) (r : A -> rstate -> outcome (option A * rstate)) (R : A -> A -> Prop) l hs :
  Forall2 P l hs -> (forall x h, In x l -> P x h -> exists b y, w x = Ok b /\ oreads (r h) b (Some y) /\ R x y) ->
  exists b ys, writeMany w l = Ok b /\ oreads (readAll r hs) b (Some ys) /\ Forall2 R l ys.
Proof.
  induction 1 as [|x h l hs Hx Hl IH]; intros H.
  - exists [], []. split; [reflexivity|]. split; [|constructor]. intros st rest Hok Hs. exists st. auto.
  - destruct (H x h (or_introl eq_refl) Hx) as (b & y & Hw & Hr & HR).
    destruct IH as (bs & ys & IH1 & IH2 & IH3). { intros x' h' Hin Hp. apply (H x' h'); [now right|exact Hp]. }
    exists (b ++ bs), (y :: ys). split; [cbn [writeMany]; rewrite Hw, IH1; reflexivity|].
    split; [|constructor; assumption].
    intros st rest Hok Hs. cbn [readAll]. rstep Hr. rstep IH2. rdone.
Qed.
Lemma short_loop_all {A} (w : A -> outcome bits) l : vec_size l < 65536 -> short_loop w l = writeMany w l.
Proof. intros H. unfold short_loop. rewrite count16_all by exact H. reflexivity. Qed.

Lemma Forall2_repeat {A B} (l : list A) (x : B) : Forall2 (fun _ y => y = x) l (repeat x (length l)).
Proof. induction l; cbn; constructor; auto. Qed.

Lemma rfilechannel fuel wfuel ts c h : channel_storable ts c -> channel_header c h ->
  exists b c', short_loop (writeFileBand (S wfuel) ts) (c_bands c) = Ok b /\
    oreads (readFileChannel (S fuel) 1000 h) b (Some c') /\ channel_stored c c'.
Proof.
  intros Hc [Hh Hbands].
  destruct Hc as (_ & Hb & Hbl).
  replace (Z.to_nat (vec_size (c_bands c) mod 256)) with (length (c_bands c)) in Hbands.
  2:{ unfold vec_size. rewrite Z.mod_small by lia. rewrite Nat2Z.id. reflexivity. }
  destruct (rall (fun _ y => y = band0) (writeFileBand (S wfuel) ts) (readFileBand (S fuel) 1000) band_stored
              (c_bands c) (repeat band0 (length (c_bands c))) (Forall2_repeat _ _)) as (b & bands & Hw & Hr & HR).
  { intros x h' Hin ->. apply rband. rewrite Forall_forall in Hb. apply Hb. exact Hin. }
  exists b, (set_bands bands h). split; [rewrite short_loop_all by (apply small_length; exact Hbl); exact Hw|]. split.
  - intros st rest Hok Hs. unfold readFileChannel. rewrite Hbands. rstep Hr. rdone.
  - unfold channel_stored, set_bands in *.
    cbn [c_id c_desc c_gain c_mix c_mask c_vertices c_bands c_prio c_device c_freq c_count c_dir c_res c_body c_target] in *. intuition.
Qed.
Lemma rfileperception fuel wfuel ts p h : perception_storable ts p -> perception_header p h ->
  exists b p', short_loop (fun c => short_loop (writeFileBand (S wfuel) ts) (c_bands c)) (p_channels p) = Ok b /\
    oreads (readFilePerception (S fuel) 1000 h) b (Some p') /\ perception_stored p p'.
Proof.
  intros Hp [Hh Hch]. destruct Hp as (_ & _ & _ & Hc & Hcl).
  destruct (rall channel_header (fun c => short_loop (writeFileBand (S wfuel) ts) (c_bands c)) (readFileChannel (S fuel) 1000)
    channel_stored _ _ Hch) as (b & chs & Hw & Hr & HR).
  { intros x h' Hin Hx. apply rfilechannel with (ts := ts); [|exact Hx]. rewrite Forall_forall in Hc. apply Hc. exact Hin. }
  exists b, (set_channels chs h). split; [rewrite short_loop_all by exact Hcl; exact Hw|]. split.
  - intros st rest Hok Hs. unfold readFilePerception. rstep Hr. rdone.
  - unfold perception_stored, set_channels in *.
    cbn [p_id p_avatar p_desc p_prio p_scheme p_modality p_channels p_devices p_uexp p_puexp p_library] in *. intuition.
Qed.
Lemma rfileperceptions fuel wfuel ts l hs : Forall (perception_storable ts) l -> Forall2 perception_header l hs ->
  exists b l', writeMany (fun p => short_loop (fun c => short_loop (writeFileBand (S wfuel) ts) (c_bands c)) (p_channels p)) l = Ok b /\
    (forall st rest, rs_ok st -> stream st = b ++ rest -> readFilePerceptions (S fuel) 1000 hs st = Ok l') /\
    Forall2 perception_stored l l'.
Proof.
  intros Hl H. induction H as [|p h l hs Hp H IH].
  - exists [], []. split; [reflexivity|]. split; [|constructor]. intros st rest Hok Hs. reflexivity.
  - inversion Hl as [|? ? Hp' Hl']; subst.
    destruct (rfileperception fuel wfuel ts p h Hp' Hp) as (b & p' & Hw & Hr & HR).
    destruct (IH Hl') as (bs & l' & Hw' & Hr' & HR').
    exists (b ++ bs), (p' :: l'). split; [cbn [writeMany]; rewrite Hw, Hw'; reflexivity|]. split; [|constructor; assumption].
    intros st rest Hok Hs. cbn [readFilePerceptions]. rstep Hr. rewrite (Hr' _ _ ltac:(eassumption) ltac:(eassumption)). reflexivity.
Qed.

(** *** The whole file *)

Lemma storable_fields h : experience_storable h -> experience_fields h.
Proof.
  intros (Hh & Ha & Hal & Hp & Hpl). repeat (split; [assumption|]). split; [|exact Hpl].
  eapply Forall_impl; [|exact Hp]. intros p (Hf & Hd & Hdl & Hc & Hcl). repeat (split; [assumption|]). split; [|exact Hcl].
  eapply Forall_impl; [|exact Hc]. intros c (Hcf & _). exact Hcf.
Qed.
Lemma rheader fuel wfuel h : experience_fields h ->
  exists b ps avs, writeFileHeader (S wfuel) h = Ok b /\
    oreads (readFileHeader (S fuel) haptics0) b
      (Haptics (h_version h) (h_profile h) (h_level h) (h_date h) (h_desc h) ps avs (Some 1000) []) /\
    Forall2 avatar_stored (h_avatars h) avs /\ Forall2 perception_header (h_perceptions h) ps.
Proof.
  intros ((Hv & Hp & Hl & Hd & Hde) & Ha & Hal & Hps & Hpl).
  destruct (ravatars _ Ha Hal) as (ab & avs & Wa & Ra & Na).
  destruct (rtimesO (binWritePerception (S wfuel)) (binReadPerception (S fuel)) perception_header (h_perceptions h)) as (pb & ps & Wp & Rp & Np).
  { eapply Forall_impl; [|exact Hps]. intros p (H1 & H2 & H3 & H4 & H5). apply rperception; assumption. }
  eexists. exists ps, avs. split.
  { unfold writeFileHeader, binWritePerceptions. rewrite Wa, (writeCountedN_all 8 _ _ _ (small_length _ Hpl) Wp). cbn [obind]. reflexivity. }
  split; [|split; assumption].
  intros st rest Hok Hs. unfold readFileHeader.
  rstep (rtext _ Hv). rstep (rtext _ Hp). rstep (rn u8 8 _ eq_refl Hl). rstep (rtext _ Hd). rstep (rtext _ Hde). rstep Ra.
  unfold binReadPerceptions. rstep (rn u16 8 _ eq_refl (size8 _ Hpl)). rewrite vec_size_nat. rstep Rp. rdone.
Qed.

Lemma rfile fuel wfuel h : experience_storable h ->
  exists bytes h', writeFile (S wfuel) h = Ok bytes /\ loadFile (S fuel) bytes haptics0 = Ok (true, h') /\ experience_stored h h'.
Proof.
  intros H. destruct (rheader fuel wfuel h (storable_fields h H)) as (hb & ps & avs & Hw & Hr & Ha & Hp).
  destruct H as (_ & _ & _ & Hps & Hpl).
  destruct (rfileperceptions fuel wfuel _ _ _ Hps Hp) as (bb & ps' & Hw' & Hr' & Hp').
  set (bs := hb ++ bb). exists (writeBitset (fillBitset bs)).
  exists (Haptics (h_version h) (h_profile h) (h_level h) (h_date h) (h_desc h) ps' avs (Some 1000) []).
  split.
  { unfold writeFile, writeFileBody. rewrite Hw. cbn [obind]. rewrite short_loop_all by (apply small_length; exact Hpl).
    change (timescaleOrDefault h) with (value_or (h_timescale h) 1000). rewrite Hw'. reflexivity. }
  split; [|unfold experience_stored; cbn; repeat split; assumption].
  assert (Hs : stream (RS (writeBitset (fillBitset bs)) []) = hb ++ (bb ++ repeat false ((8 - length bs mod 8) mod 8))).
  { rewrite stream_file, writeBitset_fillBitset. unfold fillBitset, bs. rewrite <- app_assoc. reflexivity. }
  unfold loadFile. destruct (writeBitset (fillBitset bs)) as [|b0 bl] eqn:E.
  - exfalso. apply (f_equal (@length bool)) in Hs. cbn [stream rs_unused rs_file flat_map app length] in Hs. rewrite !app_length in Hs.
    assert (0 < length hb)%nat; [|lia].
    unfold writeFileHeader in Hw. destruct (binWriteAvatars (h_avatars h)); try discriminate. cbn [obind] in Hw.
    destruct (binWritePerceptions (S wfuel) (h_perceptions h)); try discriminate. cbn [obind] in Hw.
    assert (EE : forall x : bits, Ok x = Ok hb -> (0 < length x)%nat -> (0 < length hb)%nat) by (intros x Hx; congruence).
    apply (EE _ Hw). unfold writeString. repeat rewrite app_length. rewrite writeNBits_length. lia.
  - rewrite <- E in *. assert (Hok : rs_ok (RS (writeBitset (fillBitset bs)) [])) by (unfold rs_ok; cbn; lia).
    rewrite E in Hok, Hs |- *. rstep Hr. unfold readFileBody, timescaleOrDefault. cbn [h_perceptions h_timescale value_or].
    rewrite (Hr' _ _ ltac:(eassumption) ltac:(eassumption)). reflexivity.
Qed.
