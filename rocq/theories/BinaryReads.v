(** Reading back the parts of a binary file: avatars, devices, library, channels, perceptions. *)
From Coq Require Import Reals.
From Verif Require Import Base BitsModel BitsSpec BitsProof FloatBase FloatModel FloatSpec FloatProof FloatFields
  TypesModel MetaModel BandModel MetaSpec VecReads MetaProof BinaryModel BinarySpec.
Local Open Scope Z_scope.
Ltac Zify.zify_post_hook ::= Z.div_mod_to_equations.

(** [reads] for readers that return an outcome. *)
Definition oreads {A} (r : rstate -> outcome (A * rstate)) (b : bits) (x : A) : Prop :=
  forall st rest, rs_ok st -> stream st = b ++ rest ->
  exists st', r st = Ok (x, st') /\ rs_ok st' /\ stream st' = rest.

(** One step: the reader described by [L] is the next one called. *)
Ltac rstep L :=
  match goal with
  | Hok : rs_ok ?st, Hs : stream ?st = _ |- _ =>
      rewrite <- ?app_assoc in Hs;
      let st' := fresh "st" in let E := fresh "E" in let Hok' := fresh "Hok" in let Hs' := fresh "Hs" in
      destruct (L st _ Hok Hs) as (st' & E & Hok' & Hs');
      rewrite E; clear E Hok Hs; cbv beta iota; cbn [obind]
  end.
Ltac rdone :=
  match goal with
  | Hok : rs_ok ?st, Hs : stream ?st = _ |- exists st', _ = (_, st') /\ _ => exists st; split; [reflexivity|split; [exact Hok|exact Hs]]
  | Hok : rs_ok ?st, Hs : stream ?st = _ |- exists st', _ = Ok (_, st') /\ _ => exists st; split; [reflexivity|split; [exact Hok|exact Hs]]
  end.

Lemma rn T n v : (1 <=? n)%nat && (n <=? ct_width T - (if ct_signed T then 1 else 0))%nat = true ->
  nbits (Z.of_nat n) v -> reads (readNBits T n) (writeNBits n v) v.
Proof.
  intros H Hv. apply reads_field. unfold field_ok. unfold nbits in Hv. destruct (ct_signed T); [split; [lia|right; split; [lia|exact Hv]]|split; [lia|exact Hv]].
Qed.
Lemma ri T v : ct_signed T = true -> (1 <= ct_width T)%nat ->
  - 2 ^ (Z.of_nat (ct_width T) - 1) <= v < 2 ^ (Z.of_nat (ct_width T) - 1) ->
  reads (readNBits T (ct_width T)) (writeNBits (ct_width T) v) v.
Proof. intros H Hw Hv. apply reads_field. unfold field_ok. rewrite H. split; [lia|left; split; [reflexivity|exact Hv]]. Qed.
Lemma rtext s : text s -> reads readString (writeString s) s.
Proof. intros [H1 H2]. apply reads_string; assumption. Qed.
Lemma rvec v : vec8 v -> reads readVector (writeVector v) v.
Proof. exact (reads_vector v). Qed.
Lemma rif {A} (r : rstate -> A * rstate) b x : reads r b x -> reads (readIf true r) b (Some x).
Proof. intros H st rest Hok Hs. unfold readIf. rstep H. rdone. Qed.
Lemma rif_no {A} (r : rstate -> A * rstate) : reads (readIf false r) [] None.
Proof. intros st rest Hok Hs. unfold readIf. exists st. auto. Qed.

Lemma rfloat T n mn mx v : code_type T n -> range_ok mn mx -> is_finite v = true ->
  exists b w, writeFloatNBits T n v mn mx = Ok b /\ reads (readFloatNBits T n mn mx) b w /\ near n mn mx v w.
Proof.
  intros HT Hr Hv. destruct (float_round_trip T n mn mx v HT Hr Hv) as (b & w & Hb & Hl & Hread & _ & Hf & Hw & He).
  exists b, w. split; [exact Hb|]. split; [exact Hread|]. split; [exact Hf|]. split; [exact Hw|exact He].
Qed.
Lemma roptfloat mn mx o : range_ok mn mx -> opt_all finite o ->
  exists b o', writeOptFloat o mn mx = Ok b /\ reads (readIf (has o) (readFloatNBits u32 32 mn mx)) b o' /\
    opt_rel (near 32 mn mx) o o'.
Proof.
  intros Hr Ho. destruct o as [v|].
  - destruct (rfloat u32 32 mn mx v ct32 Hr (Ho v eq_refl)) as (b & w & Hb & Hrd & Hn).
    exists b, (Some w). split; [exact Hb|]. split; [apply rif; exact Hrd|constructor; exact Hn].
  - exists [], None. split; [reflexivity|]. split; [apply rif_no|constructor].
Qed.

(** *** Loops *)

Lemma rtimes {A B} (w : A -> outcome bits) (r : rstate -> B * rstate) (R : A -> B -> Prop) l :
  Forall (fun x => exists b y, w x = Ok b /\ reads r b y /\ R x y) l ->
  exists b ys, writeMany w l = Ok b /\ reads (readTimes r (length l)) b ys /\ Forall2 R l ys.
Proof.
  induction 1 as [|x l (b & y & Hw & Hr & HR) _ (bs & ys & IH1 & IH2 & IH3)].
  - exists [], []. split; [reflexivity|]. split; [|constructor]. apply reads_ret.
  - exists (b ++ bs), (y :: ys). split; [cbn [writeMany]; rewrite Hw, IH1; reflexivity|].
    split; [|constructor; assumption].
    intros st rest Hok Hs. cbn [readTimes length]. rstep Hr. rstep IH2. rdone.
Qed.
Lemma rtimesO {A B} (w : A -> outcome bits) (r : rstate -> outcome (B * rstate)) (R : A -> B -> Prop) l :
  Forall (fun x => exists b y, w x = Ok b /\ oreads r b y /\ R x y) l ->
  exists b ys, writeMany w l = Ok b /\ oreads (readTimesO r (length l)) b ys /\ Forall2 R l ys.
Proof.
  induction 1 as [|x l (b & y & Hw & Hr & HR) _ (bs & ys & IH1 & IH2 & IH3)].
  - exists [], []. split; [reflexivity|]. split; [|constructor]. intros st rest Hok Hs. exists st. auto.
  - exists (b ++ bs), (y :: ys). split; [cbn [writeMany]; rewrite Hw, IH1; reflexivity|].
    split; [|constructor; assumption].
    intros st rest Hok Hs. cbn [readTimesO length]. rstep Hr. rstep IH2. rdone.
Qed.
Lemma rtimes_map {A} (w : A -> bits) (r : rstate -> A * rstate) l :
  Forall (fun x => reads r (w x) x) l -> reads (readTimes r (length l)) (flat_map w l) l.
Proof.
  induction 1 as [|x l Hx _ IH]; [apply reads_ret|].
  intros st rest Hok Hs. cbn [readTimes length flat_map] in *. rstep Hx. rstep IH. rdone.
Qed.

Lemma count16 {A} (l : list A) : vec_size l < 65536 -> to_unsigned 16 (vec_size l) = vec_size l.
Proof. intros H. unfold to_unsigned, vec_size in *. change (2 ^ Z.of_nat 16) with 65536. lia. Qed.
Lemma count16_all {A} (l : list A) : vec_size l < 65536 -> firstn (Z.to_nat (to_unsigned 16 (vec_size l))) l = l.
Proof. intros H. rewrite count16 by exact H. rewrite vec_size_nat. apply firstn_all. Qed.
Lemma small_length {A} (l : list A) : (length l <= 255)%nat -> vec_size l < 65536.
Proof. unfold vec_size. lia. Qed.
Lemma writeCounted_all {A} (w : A -> outcome bits) l b : vec_size l < 65536 -> writeMany w l = Ok b ->
  writeCounted w l = Ok (writeNBits 16 (vec_size l) ++ b).
Proof. intros H E. unfold writeCounted. rewrite count16_all, E, count16 by exact H. reflexivity. Qed.
Lemma writeCountedN_all {A} n (w : A -> outcome bits) l b : vec_size l < 65536 -> writeMany w l = Ok b ->
  writeCountedN n w l = Ok (writeNBits n (vec_size l) ++ b).
Proof. intros H E. unfold writeCountedN. rewrite count16_all, E, count16 by exact H. reflexivity. Qed.
Lemma size8 {A} (l : list A) : (length l <= 255)%nat -> nbits (Z.of_nat 8) (vec_size l).
Proof. exact (nbits8_size l). Qed.
Lemma size16 {A} (l : list A) : vec_size l < 65536 -> nbits (Z.of_nat 16) (vec_size l).
Proof. exact (nbits16_size l). Qed.
Lemma rcounted8 {A} (w : A -> bits) (r : rstate -> A * rstate) l : (length l <= 255)%nat ->
  Forall (fun x => reads r (w x) x) l -> reads (readCounted8 r) (writeCounted8 w l) l.
Proof.
  intros Hl H st rest Hok Hs. unfold readCounted8, writeCounted8 in *.
  assert (E : to_unsigned 8 (vec_size l) = vec_size l).
  { unfold to_unsigned, vec_size. change (2 ^ Z.of_nat 8) with 256. lia. }
  rewrite E, vec_size_nat, firstn_all in Hs.
  rstep (rn u8 8 (vec_size l) eq_refl (size8 l Hl)). rewrite vec_size_nat. rstep (rtimes_map w r l H). rdone.
Qed.

(** *** Avatars *)

Lemma ravatar a : avatar_storable a -> exists b a', binWriteAvatar a = Ok b /\ reads binReadAvatar b a' /\ avatar_stored a a'.
Proof.
  intros (Hi & Hl & Ht & Hm). unfold binWriteAvatar. eexists.
  exists (Avatar (a_id a) (a_lod a) (a_type a) (if a_type a =? 0 then Some (value_or (a_mesh a) []) else None)).
  split; [reflexivity|]. split; [|repeat split].
  intros st rest Hok Hs. unfold binReadAvatar.
  rstep (rn i16 8 (a_id a) eq_refl Hi). rstep (rn u8 8 (a_lod a) eq_refl Hl). rstep (rn u8 8 (a_type a) eq_refl Ht).
  destruct (a_type a =? 0).
  - assert (Htx : text (value_or (a_mesh a) [])).
    { destruct (a_mesh a) as [m|]; cbn [value_or]; [apply Hm; reflexivity|]. split; [constructor|cbn; lia]. }
    rstep (rif _ _ _ (rtext _ Htx)). rdone.
  - rstep (rif_no readString). rdone.
Qed.
Lemma ravatars l : Forall avatar_storable l -> (length l <= 255)%nat ->
  exists b l', binWriteAvatars l = Ok b /\ reads binReadAvatars b l' /\ Forall2 avatar_stored l l'.
Proof.
  intros H Hl. destruct (rtimes binWriteAvatar binReadAvatar avatar_stored l) as (b & l' & Hw & Hr & HR).
  { eapply Forall_impl; [|exact H]. apply ravatar. }
  eexists. exists l'. split; [apply (writeCountedN_all 8 _ _ _ (small_length l Hl) Hw)|]. split; [|exact HR].
  intros st rest Hok Hs. unfold binReadAvatars.
  rstep (rn u16 8 (vec_size l) eq_refl (size8 l Hl)). rewrite vec_size_nat. rstep Hr. rdone.
Qed.

(** *** Keyframes of the library *)

Lemma ropt {A} (o : option A) (r : rstate -> A * rstate) (w : A -> bits) :
  opt_all (fun x => reads r (w x) x) o ->
  reads (readIf (has o) r) (match o with Some x => w x | None => [] end) o.
Proof. intros H. destruct o as [x|]; cbn [has]; [apply rif, H; reflexivity|apply rif_no]. Qed.
Lemma ropt16 o : opt_all (nbits 16) o ->
  reads (readIf (has o) (readNBits u16 16)) (match o with Some x => writeNBits 16 x | None => [] end) o.
Proof. intros H. apply ropt. intros x Hx. apply rn; [reflexivity|]. exact (H x Hx). Qed.
Lemma ramp a : opt_all finite a ->
  exists b a', match a with Some a => writeFloatNBits u8 8 a (Bopp MAX_AMPLITUDE) MAX_AMPLITUDE | None => Ok [] end = Ok b /\
    reads (readIf (has a) (readFloatNBits u8 8 (Bopp MAX_AMPLITUDE) MAX_AMPLITUDE)) b a' /\ opt_rel near_amplitude a a'.
Proof.
  intros H. destruct a as [v|].
  - destruct (rfloat u8 8 _ _ v ct8 range_amp (H v eq_refl)) as (b & w & Hb & Hr & Hn).
    exists b, (Some w). split; [exact Hb|]. split; [apply rif; exact Hr|constructor; exact Hn].
  - exists [], None. split; [reflexivity|]. split; [apply rif_no|constructor].
Qed.

Lemma rlibkf k : kf_ok k -> exists b k', writeLibraryKeyframe k = Ok b /\ reads binReadLibraryKeyframe b k' /\ kf_sent k k'.
Proof.
  destruct k as [p a f]. unfold kf_ok, kf_sent. cbn [k_pos k_amp k_freq]. intros (Hp & Ha & Hf).
  unfold writeLibraryKeyframe. cbn [k_pos k_amp k_freq].
  destruct (ramp a Ha) as (ab & a' & -> & Hra & Hrel).
  eexists. exists (Keyframe p a' f). split; [cbn [obind]; reflexivity|]. split; [|cbn; auto].
  intros st rest Hok Hs. unfold binReadLibraryKeyframe.
  set (mask := (if has p then 1 else 0) + (if has a then 2 else 0) + (if has f then 4 else 0)) in *.
  assert (Hmask : nbits (Z.of_nat 3) mask) by (unfold nbits, mask; change (2 ^ Z.of_nat 3) with 8; destruct (has p), (has a), (has f); lia).
  assert (T0 : Z.testbit mask 0 = has p) by (unfold mask; destruct (has p), (has a), (has f); reflexivity).
  assert (T1 : Z.testbit mask 1 = has a) by (unfold mask; destruct (has p), (has a), (has f); reflexivity).
  assert (T2 : Z.testbit mask 2 = has f) by (unfold mask; destruct (has p), (has a), (has f); reflexivity).
  rstep (rn u8 3 mask eq_refl Hmask). rewrite T0, T1, T2. clearbody mask.
  rstep (ropt16 p Hp). rstep Hra. rstep (ropt16 f Hf). rdone.
Qed.

(** *** Library *)

Lemma rphase o : opt_all finite o ->
  exists b w, writeFloatNBits u16 16 (value_or o f32_0) f32_0 MAX_PHASE = Ok b /\
    reads (readFloatNBits u16 16 f32_0 MAX_PHASE) b w /\ near_phase (value_or o f32_0) w.
Proof.
  intros H. apply (rfloat u16 16 f32_0 MAX_PHASE _ ct16 range_phase).
  destruct o as [v|]; cbn [value_or]; [apply H; reflexivity|reflexivity].
Qed.
Lemma base4 o : opt_all (nbits 4) o -> nbits (Z.of_nat 4) (value_or o 0).
Proof. intros H. destruct o as [x|]; cbn [value_or]; [exact (H x eq_refl)|unfold nbits; cbn; lia]. Qed.

Lemma rlibeffect e fuel wfuel : library_effect_storable e ->
  exists b e', binWriteLibraryEffect (S wfuel) e = Ok b /\ oreads (binReadLibraryEffect (S fuel)) b e' /\ library_effect_stored e e'.
Proof.
  intros (Hi & Hp & Ht & Hph & Hb & Hk & Hkl & Htl).
  destruct (rtimes writeLibraryKeyframe binReadLibraryKeyframe kf_sent (e_kfs e)) as (kb & ks & Hkw & Hkr & HkR).
  { eapply Forall_impl; [|exact Hk]. apply rlibkf. }
  assert (Hbasis : exists bb ph' base',
     (if e_type e =? BasisE
      then do ph <- writeFloatNBits u16 16 (value_or (e_phase e) f32_0) f32_0 MAX_PHASE;
           Ok (ph ++ writeNBits 4 (value_or (e_base e) 0))
      else Ok []) = Ok bb /\
     (forall st rest, rs_ok st -> stream st = bb ++ rest ->
        exists st1 st2, readIf (e_type e =? 0) (readFloatNBits u16 16 f32_0 MAX_PHASE) st = (ph', st1) /\
          readIf (e_type e =? 0) (readNBits u8 4) st1 = (base', st2) /\ rs_ok st2 /\ stream st2 = rest) /\
     (if e_type e =? BasisE then (exists w, ph' = Some w /\ near_phase (value_or (e_phase e) f32_0) w) /\
        base' = Some (value_or (e_base e) 0) else ph' = None /\ base' = None)).
  { unfold BasisE. destruct (e_type e =? 0).
    - destruct (rphase (e_phase e) Hph) as (b & w & Hw & Hr & Hn). rewrite Hw. cbn [obind].
      eexists. exists (Some w), (Some (value_or (e_base e) 0)). split; [reflexivity|]. split; [|split; [exists w; auto|reflexivity]].
      intros st rest Hok Hs. rewrite <- app_assoc in Hs.
      destruct (rif _ _ _ Hr st _ Hok Hs) as (st1 & E1 & Hok1 & Hs1).
      destruct (rif _ _ _ (rn u8 4 _ eq_refl (base4 _ Hb)) st1 _ Hok1 Hs1) as (st2 & E2 & Hok2 & Hs2).
      exists st1, st2. auto.
    - exists [], None, None. split; [reflexivity|]. split; [|auto]. intros st rest Hok Hs. exists st, st. auto. }
  destruct Hbasis as (bb & ph' & base' & Hbw & Hbr & HbR).
  eexists. exists (Effect (e_id e) (e_pos e) ph' None ks base' (e_type e) [] [] []).
  split.
  { cbn [binWriteLibraryEffect]. rewrite Hbw. cbn [obind]. rewrite (writeCounted_all _ _ _ Hkl Hkw). cbn [obind].
    rewrite Htl. change (writeCounted (fun _ : effect => binWriteLibraryEffect wfuel e) []) with (@Ok bits (writeNBits 16 0 ++ [])).
    cbn [obind]. reflexivity. }
  split.
  - intros st rest Hok Hs. cbn [binReadLibraryEffect].
    rstep (rn i32 16 (e_id e) eq_refl Hi). rstep (rn i32 25 (e_pos e) eq_refl Hp). rstep (rn u8 2 (e_type e) eq_refl Ht).
    match goal with Hok : rs_ok ?s, Hs : stream ?s = _ |- _ =>
      rewrite <- ?app_assoc in Hs; destruct (Hbr _ _ Hok Hs) as (st3 & st4 & E3 & E4 & Hok4 & Hs4); rewrite E3, E4; clear E3 E4 Hok Hs end.
    rstep (rn u32 16 (vec_size (e_kfs e)) eq_refl (size16 _ Hkl)). rewrite vec_size_nat. rstep Hkr.
    rstep (rn u16 16 0 eq_refl ltac:(unfold nbits; cbn; lia)).
    cbn [app] in *. change (Z.to_nat 0) with 0%nat. cbn [readTimesO obind]. rdone.
  - unfold library_effect_stored, phase_stored, no_phase. cbn [e_id e_pos e_type e_phase e_base e_kfs e_semantic e_timeline e_samples e_wavelet].
    repeat (split; [reflexivity|]). split; [exact HbR|]. split; [exact HkR|]. repeat split.
Qed.
Lemma rlibrary l fuel wfuel : Forall library_effect_storable l -> vec_size l < 65536 ->
  exists b l', binWriteLibrary (S wfuel) l = Ok b /\ oreads (binReadLibrary (S fuel)) b l' /\ Forall2 library_effect_stored l l'.
Proof.
  intros H Hl.
  destruct (rtimesO (binWriteLibraryEffect (S wfuel)) (binReadLibraryEffect (S fuel)) library_effect_stored l) as (b & l' & Hw & Hr & HR).
  { eapply Forall_impl; [|exact H]. intros e He. apply rlibeffect. exact He. }
  eexists. exists l'. split; [apply (writeCounted_all _ _ _ Hl Hw)|]. split; [|exact HR].
  intros st rest Hok Hs. unfold binReadLibrary.
  rstep (rn u16 16 (vec_size l) eq_refl (size16 l Hl)). rewrite vec_size_nat. rstep Hr. rdone.
Qed.

(** *** Devices *)

Lemma mask_bits a b c d e f g h i j k l :
  let z (x : bool) n := if x then n else 0 in
  let m := z a 1 + z b 2 + z c 4 + z d 8 + z e 16 + z f 32 + z g 64 + z h 128 + z i 256 + z j 512 + z k 1024 + z l 2048 in
  nbits (Z.of_nat 12) m /\
  (Z.testbit m 0 = a /\ Z.testbit m 1 = b /\ Z.testbit m 2 = c /\ Z.testbit m 3 = d /\ Z.testbit m 4 = e /\ Z.testbit m 5 = f /\ Z.testbit m 6 = g /\ Z.testbit m 7 = h /\ Z.testbit m 8 = i /\ Z.testbit m 9 = j /\ Z.testbit m 10 = k /\ Z.testbit m 11 = l).
Proof.
  cbv zeta. split.
  - unfold nbits. change (2 ^ Z.of_nat 12) with 4096. destruct a, b, c, d, e, f, g, h, i, j, k, l; cbv; split; congruence.
  - destruct a, b, c, d, e, f, g, h, i, j, k, l; repeat split; reflexivity.
Qed.

Lemma rdevice d : device_storable d -> exists b d', binWriteDevice d = Ok b /\ reads binReadDevice b d' /\ device_stored d d'.
Proof.
  destruct d as [id name mask x1 x2 x3 x4 x5 x6 x7 x8 x9 x10 x11 ty].
  unfold device_storable. cbn [d_id d_name d_mask d_maxf d_minf d_resf d_maxa d_imp d_maxv d_maxc d_maxd d_weight d_size d_custom d_type].
  intros (Hi & Hn & Hm & H1 & H2 & H3 & H4 & H5 & H6 & H7 & H8 & H9 & H10 & H11 & Ht).
  destruct (roptfloat f32_0 MAX_FLOAT x1 range_float H1) as (b1 & y1 & W1 & R1 & N1).
  destruct (roptfloat f32_0 MAX_FLOAT x2 range_float H2) as (b2 & y2 & W2 & R2 & N2).
  destruct (roptfloat f32_0 MAX_FLOAT x3 range_float H3) as (b3 & y3 & W3 & R3 & N3).
  destruct (roptfloat f32_0 MAX_FLOAT x4 range_float H4) as (b4 & y4 & W4 & R4 & N4).
  destruct (roptfloat f32_0 MAX_FLOAT x5 range_float H5) as (b5 & y5 & W5 & R5 & N5).
  destruct (roptfloat f32_0 MAX_FLOAT x6 range_float H6) as (b6 & y6 & W6 & R6 & N6).
  destruct (roptfloat f32_0 MAX_FLOAT x7 range_float H7) as (b7 & y7 & W7 & R7 & N7).
  destruct (roptfloat f32_0 MAX_FLOAT x8 range_float H8) as (b8 & y8 & W8 & R8 & N8).
  destruct (roptfloat f32_0 MAX_FLOAT x9 range_float H9) as (b9 & y9 & W9 & R9 & N9).
  destruct (roptfloat f32_0 MAX_FLOAT x10 range_float H10) as (b10 & y10 & W10 & R10 & N10).
  destruct (roptfloat (Bopp MAX_FLOAT) MAX_FLOAT x11 range_sfloat H11) as (b11 & y11 & W11 & R11 & N11).
  assert (Hty : reads (readIf (has ty) (readNBits u8 4)) (match ty with Some t => writeNBits 4 t | None => [] end) ty).
  { apply ropt. intros t E. apply rn; [reflexivity|]. exact (Ht t E). }
  assert (Hmask : nbits (Z.of_nat 32) (value_or mask 0)).
  { destruct mask as [m|]; cbn [value_or]; [exact (Hm m eq_refl)|unfold nbits; cbn; lia]. }
  eexists. exists (Device id name (Some (value_or mask 0)) y1 y2 y3 y4 y5 y6 y7 y8 y9 y10 y11 ty). split.
  { unfold binWriteDevice.
    cbn [d_id d_name d_mask d_maxf d_minf d_resf d_maxa d_imp d_maxv d_maxc d_maxd d_weight d_size d_custom d_type].
    rewrite W1, W2, W3, W4, W5, W6, W7, W8, W9, W10, W11. cbn [obind]. reflexivity. }
  split.
  - intros st rest Hok Hs. unfold binReadDevice, device_mask_value in *.
    cbn [d_maxf d_minf d_resf d_maxa d_imp d_maxv d_maxc d_maxd d_weight d_size d_custom d_type] in Hs.
    destruct (mask_bits (has x1) (has x2) (has x3) (has x4) (has x5) (has x6) (has x7) (has x8) (has x9) (has x10) (has x11) (has ty)) as [Hr Hbits].
    cbv beta zeta in Hr, Hbits.
    match type of Hr with nbits _ ?m => set (dm := m) in * end. clearbody dm.
    destruct Hbits as (B0 & B1 & B2 & B3 & B4 & B5 & B6 & B7 & B8 & B9 & B10 & B11).
    rstep (rn i16 8 id eq_refl Hi). rstep (rtext name Hn). rstep (rn u32 32 _ eq_refl Hmask). rstep (rn u16 12 dm eq_refl Hr).
    cbv zeta. rewrite B0, B1, B2, B3, B4, B5, B6, B7, B8, B9, B10, B11.
    rstep R1. rstep R2. rstep R3. rstep R4. rstep R5. rstep R6. rstep R7. rstep R8. rstep R9. rstep R10. rstep R11.
    rstep Hty. rdone.
  - unfold device_stored. cbn. repeat (split; [first [reflexivity|assumption]|]). assumption.
Qed.
Lemma rdevices l : Forall device_storable l -> (length l <= 255)%nat ->
  exists b l', binWriteDevices l = Ok b /\ reads binReadDevices b l' /\ Forall2 device_stored l l'.
Proof.
  intros H Hl. destruct (rtimes binWriteDevice binReadDevice device_stored l) as (b & l' & Hw & Hr & HR).
  { eapply Forall_impl; [|exact H]. apply rdevice. }
  eexists. exists l'. split; [apply (writeCountedN_all 8 _ _ _ (small_length l Hl) Hw)|]. split; [|exact HR].
  intros st rest Hok Hs. unfold binReadDevices.
  rstep (rn u16 8 (vec_size l) eq_refl (size8 l Hl)). rewrite vec_size_nat. rstep Hr. rdone.
Qed.

(** *** Channels: the header leaves default bands to be filled by the body. *)

Definition channel_header (c c' : channel) : Prop :=
  channel_stored (set_bands [] c) (set_bands [] c') /\ c_bands c' = repeat band0 (Z.to_nat (vec_size (c_bands c) mod 256)).

Lemma rcount8 {A} (l : list A) : reads (readNBits u16 8) (writeNBits 8 (vec_size l)) (vec_size l mod 256).
Proof. rewrite <- writeNBits_mod. change (2 ^ Z.of_nat 8) with 256. apply rn; [reflexivity|]. unfold nbits. change (2 ^ Z.of_nat 8) with 256. lia. Qed.
Lemma rchannel c : channel_fields c ->
  exists b c', binWriteChannel c = Ok b /\ reads binReadChannel b c' /\ channel_header c c'.
Proof.
  destruct c as [id desc gain mix mask verts bands prio dev freq count dir res body target].
  unfold channel_fields. cbn [c_id c_desc c_gain c_mix c_mask c_vertices c_bands c_prio c_device c_freq c_count c_dir c_res c_body c_target].
  intros (Hi & Hd & Hg & Hmx & Hdev & Hmask & Hres & Hbody & Htarget & Hfreq & Hcount & Hdir & Hv & Hvl).
  destruct (rfloat u32 32 _ _ gain ct32 range_sfloat Hg) as (gb & g' & Wg & Rg & Ng).
  destruct (rfloat u32 32 _ _ mix ct32 range_float Hmx) as (mb & m' & Wm & Rm & Nm).
  set (f := value_or freq 0).
  assert (Hf : nbits (Z.of_nat 32) f).
  { unfold f. destruct freq as [x|]; cbn [value_or]; [exact (Hfreq x eq_refl)|unfold nbits; cbn; lia]. }
  assert (Hcnt : nbits (Z.of_nat 32) (value_or count 0)).
  { destruct count as [x|]; cbn [value_or]; [exact (Hcount x eq_refl)|unfold nbits; cbn; lia]. }
  assert (Hverts : reads (readTimes (readNBits i32 32) (length verts)) (flat_map (writeNBits 32) verts) verts).
  { apply rtimes_map. eapply Forall_impl; [|exact Hv]. intros v Hv'. cbv beta in Hv'. apply (ri i32 v eq_refl); [cbn; lia|exact Hv']. }
  assert (Hdirr : reads (readIf (has dir) readVector) (match dir with Some d => writeVector d | None => [] end) dir).
  { apply ropt. intros v E. apply rvec. exact (Hdir v E). }
  assert (Hcr : reads (readIf (negb (f =? 0)) (readNBits u32 32)) (if f =? 0 then [] else writeNBits 32 (value_or count 0))
                  (if negb (f =? 0) then Some (value_or count 0) else None)).
  { destruct (f =? 0); cbn [negb]; [apply rif_no|apply rif, rn; [reflexivity|exact Hcnt]]. }
  assert (Hid : reads (readNBits i16 16) (writeNBits 16 id) id) by (apply (ri i16 id eq_refl); [cbn; lia|exact Hi]).
  assert (Hdevr : reads (readNBits i16 8) (writeNBits 8 (value_or dev (-1))) (value_or dev 255)).
  { destruct dev as [x|]; cbn [value_or]; [apply rn; [reflexivity|exact (Hdev x eq_refl)]|].
    change (writeNBits 8 (-1)) with (writeNBits 8 255). apply rn; [reflexivity|unfold nbits; cbn; lia]. }
  set (fr := if f =? 0 then None else Some f).
  eexists. exists (Channel id desc g' m' (match res with Some _ => 0 | None => mask end) verts (repeat band0 (Z.to_nat (vec_size bands mod 256))) None
    (Some (value_or dev 255)) fr (if negb (f =? 0) then Some (value_or count 0) else None) dir res
    (match res with Some _ => Some (value_or body []) | None => None end)
    (match res with Some _ => Some (value_or target []) | None => None end)).
  split; [unfold binWriteChannel; cbn [c_id c_desc c_gain c_mix c_mask c_vertices c_bands c_prio c_device c_freq c_count c_dir c_res c_body c_target];
          rewrite Wg, Wm; cbn [obind]; reflexivity|].
  split.
  - intros st rest Hok Hs. unfold binReadChannel. cbv zeta in *. fold f in Hs.
    rstep Hid. rstep (rtext desc Hd). rstep Hdevr. rstep Rg. rstep Rm.
    destruct res as [r|]; cbn [has] in *.
    + set (m := 2 + (if has dir then 4 else 0)) in *.
      assert (Hm : nbits (Z.of_nat 8) m) by (unfold nbits, m; change (2 ^ Z.of_nat 8) with 256; destruct (has dir); lia).
      assert (T0 : Z.testbit m 0 = false) by (unfold m; destruct (has dir); reflexivity).
      assert (T1 : Z.testbit m 1 = true) by (unfold m; destruct (has dir); reflexivity).
      assert (T2 : Z.testbit m 2 = has dir) by (unfold m; destruct (has dir); reflexivity).
      rstep (rn u8 8 m eq_refl Hm). rewrite T0, T1, T2. cbn [negb andb]. clearbody m.
      assert (Hbr : reads (readCounted8 (readNBits u8 8)) (writeCounted8 (writeNBits 8) (value_or body [])) (value_or body [])).
      { destruct body as [l|]; cbn [value_or].
        - destruct (Hbody l eq_refl) as [Hb1 Hb2]. apply rcounted8; [exact Hb2|].
          eapply Forall_impl; [|exact Hb1]. intros v Hv'. apply rn; [reflexivity|exact Hv'].
        - apply rcounted8; [cbn; lia|constructor]. }
      assert (Htr : reads (readCounted8 readVector) (writeCounted8 writeVector (value_or target [])) (value_or target [])).
      { destruct target as [l|]; cbn [value_or].
        - destruct (Htarget l eq_refl) as [Hb1 Hb2]. apply rcounted8; [exact Hb2|].
          eapply Forall_impl; [|exact Hb1]. intros v Hv'. apply rvec. exact Hv'.
        - apply rcounted8; [cbn; lia|constructor]. }
      unfold readIf at 1. cbv beta iota.
      rstep (rif _ _ _ (rvec r (Hres r eq_refl))). rstep (rif _ _ _ Hbr). rstep (rif _ _ _ Htr).
      rstep (rn u32 32 f eq_refl Hf). rstep Hcr. rstep Hdirr.
      rstep (rn i32 16 (vec_size verts) eq_refl (size16 _ Hvl)). rewrite vec_size_nat. rstep Hverts.
      rstep (rcount8 bands). rdone.
    + set (m := 1 + (if has dir then 4 else 0)) in *.
      assert (Hm : nbits (Z.of_nat 8) m) by (unfold nbits, m; change (2 ^ Z.of_nat 8) with 256; destruct (has dir); lia).
      assert (T0 : Z.testbit m 0 = true) by (unfold m; destruct (has dir); reflexivity).
      assert (T2 : Z.testbit m 2 = has dir) by (unfold m; destruct (has dir); reflexivity).
      rstep (rn u8 8 m eq_refl Hm). rewrite T0, T2. cbn [negb andb]. clearbody m.
      rstep (rif _ _ _ (rn u32 32 mask eq_refl Hmask)).
      unfold readIf at 1 2 3. cbv beta iota.
      rstep (rn u32 32 f eq_refl Hf). rstep Hcr. rstep Hdirr.
      rstep (rn i32 16 (vec_size verts) eq_refl (size16 _ Hvl)). rewrite vec_size_nat. rstep Hverts.
      rstep (rcount8 bands). rdone.
  - split; [|reflexivity].
    unfold channel_stored, set_bands. cbn [c_id c_desc c_gain c_mix c_mask c_vertices c_bands c_prio c_device c_freq c_count c_dir c_res c_body c_target].
    repeat (split; [first [reflexivity|assumption]|]).
    split; [destruct res; repeat split|]. split; [|repeat split; constructor].
    cbv zeta. fold f. split; [|reflexivity]. unfold fr. destruct (f =? 0) eqn:E; cbn [negb]; [reflexivity|].
    unfold f in *. destruct freq; [reflexivity|discriminate].
Qed.
Lemma rchannels l : Forall channel_fields l -> vec_size l < 65536 ->
  exists b l', binWriteChannels l = Ok b /\ reads binReadChannels b l' /\ Forall2 channel_header l l'.
Proof.
  intros H Hl. destruct (rtimes binWriteChannel binReadChannel channel_header l) as (b & l' & Hw & Hr & HR).
  { eapply Forall_impl; [|exact H]. apply rchannel. }
  eexists. exists l'. split; [apply (writeCounted_all _ _ _ Hl Hw)|]. split; [|exact HR].
  intros st rest Hok Hs. unfold binReadChannels.
  rstep (rn u16 16 (vec_size l) eq_refl (size16 l Hl)). rewrite vec_size_nat. rstep Hr. rdone.
Qed.

(** *** Perceptions *)

Definition perception_header (p p' : perception) : Prop :=
  perception_stored (set_channels [] p) (set_channels [] p') /\ Forall2 channel_header (p_channels p) (p_channels p').

Lemma rint8 v : int8 v -> reads (readNBits i8 8) (writeNBits 8 v) v.
Proof. intros H. apply (ri i8 v eq_refl); [cbn; lia|exact H]. Qed.

Lemma rperception p fuel wfuel : perception_fields p ->
  Forall device_storable (p_devices p) -> (length (p_devices p) <= 255)%nat ->
  Forall channel_fields (p_channels p) -> vec_size (p_channels p) < 65536 ->
  exists b p', binWritePerception (S wfuel) p = Ok b /\ oreads (binReadPerception (S fuel)) b p' /\ perception_header p p'.
Proof.
  intros (Hi & Ha & Hd & Hm & Hu & Hpu & Hlib & Hll) Hdev Hdl Hch Hcl.
  destruct (rlibrary _ fuel wfuel Hlib Hll) as (lb & lib & Wl & Rl & Nl).
  destruct (rdevices _ Hdev Hdl) as (db & devs & Wd & Rd & Nd).
  destruct (rchannels _ Hch Hcl) as (cb & chs & Wc & Rc & Nc).
  eexists. exists (Perception (p_id p) (p_avatar p) (p_desc p) None None (p_modality p) chs devs
    (Some (value_or (p_uexp p) (-3))) (Some (value_or (p_puexp p) 0)) lib).
  split; [unfold binWritePerception; rewrite Wl, Wd, Wc; cbn [obind]; reflexivity|]. split.
  - intros st rest Hok Hs. unfold binReadPerception.
    assert (U1 : int8 (value_or (p_uexp p) (-3))).
    { destruct (p_uexp p); cbn [value_or]; [apply Hu; reflexivity|unfold int8; lia]. }
    assert (U2 : int8 (value_or (p_puexp p) 0)).
    { destruct (p_puexp p); cbn [value_or]; [apply Hpu; reflexivity|unfold int8; lia]. }
    rstep (rn i16 8 (p_id p) eq_refl Hi). rstep (rn u16 8 (p_modality p) eq_refl Hm). rstep (rtext _ Hd).
    rstep (rn i32 8 (p_avatar p) eq_refl Ha). rstep (rint8 _ U1). rstep (rint8 _ U2). rstep Rl. rstep Rd. rstep Rc. rdone.
  - split; [|exact Nc]. unfold perception_stored, set_channels.
    cbn [p_id p_avatar p_desc p_prio p_scheme p_modality p_channels p_devices p_uexp p_puexp p_library].
    repeat (split; [first [reflexivity|assumption]|]). constructor.
Qed.
