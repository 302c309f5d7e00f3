(** Proofs about the metadata packets. *)
From Coq Require Import Reals.
From Verif Require Import Base BitsModel BitsSpec BitsProof BitsVecProof FloatBase FloatModel FloatSpec FloatProof
  FloatFields TypesModel SemanticModel MetaModel BandModel DataModel CrcModel StreamModel VecReads MetaSpec.
Local Open Scope Z_scope.
Ltac Zify.zify_post_hook ::= Z.div_mod_to_equations.

(** *** Numbers *)

Lemma vreads_float T n mn mx v : code_type T n -> range_ok mn mx -> is_finite v = true ->
  exists b w, writeFloatNBits T n v mn mx = Ok b /\ length b = n /\
    vreads (fun bs i => readFloatBits bs i n mn mx) b w /\ near n mn mx v w.
Proof.
  intros HT Hr Hv. destruct (float_round_trip T n mn mx v HT Hr Hv) as (b & w & Hb & Hl & _ & Hread & Hf & Hw & He).
  exists b, w. repeat (split; [assumption|]). split.
  - intros bs i (pre & post & -> & ->). rewrite Hread, Hl. reflexivity.
  - repeat (split; [assumption|]). exact He.
Qed.
Lemma range_amp : range_ok (Bopp MAX_AMPLITUDE) MAX_AMPLITUDE. Proof. apply format_ranges. Qed.
Lemma range_phase : range_ok f32_0 MAX_PHASE. Proof. apply format_ranges. Qed.
Lemma range_float : range_ok f32_0 MAX_FLOAT. Proof. apply format_ranges. Qed.
Lemma range_sfloat : range_ok (Bopp MAX_FLOAT) MAX_FLOAT. Proof. apply format_ranges. Qed.
Lemma ct8 : code_type u8 8. Proof. unfold code_type; cbn; repeat split; lia. Qed.
Lemma ct16 : code_type u16 16. Proof. unfold code_type; cbn; repeat split; lia. Qed.
Lemma ct3216 : code_type u32 16. Proof. unfold code_type; cbn; repeat split; lia. Qed.
Lemma ct32 : code_type u32 32. Proof. unfold code_type; cbn; repeat split; lia. Qed.

(** An optional number with its presence bit known to the reader. *)
Lemma vreads_optfloat mn mx o : range_ok mn mx -> opt_all finite o ->
  exists b o', writeOptFloat o mn mx = Ok b /\ vreads (readOptFloat (has o) mn mx) b o' /\ opt_rel (near 32 mn mx) o o'.
Proof.
  intros Hr Ho. destruct o as [v|].
  - destruct (vreads_float u32 32 mn mx v ct32 Hr (Ho v eq_refl)) as (b & w & Hb & _ & Hrd & Hn).
    exists b, (Some w). split; [exact Hb|]. split; [|constructor; exact Hn].
    intros bs i H. cbn [has readOptFloat]. unfold readOptFloat. rewrite (Hrd _ _ H). reflexivity.
  - exists [], None. split; [reflexivity|]. split; [|constructor].
    intros bs i H. cbn [has]. unfold readOptFloat. f_equal. f_equal. cbn. lia.
Qed.

Lemma vreads_u8 v : nbits 8 v -> vreads (fun bs i => readUInt bs i 8) (writeNBits 8 v) v.
Proof. intros H. apply vreads_field; [lia|exact H]. Qed.
Lemma vreads_u16 v : nbits 16 v -> vreads (fun bs i => readUInt bs i 16) (writeNBits 16 v) v.
Proof. intros H. apply vreads_field; [lia|exact H]. Qed.
Lemma vreads_u25 v : nbits 25 v -> vreads (fun bs i => readUInt bs i 25) (writeNBits 25 v) v.
Proof. intros H. apply vreads_field; [lia|exact H]. Qed.
Lemma vreads_u4 v : nbits 4 v -> vreads (fun bs i => readUInt bs i 4) (writeNBits 4 v) v.
Proof. intros H. apply vreads_field; [lia|exact H]. Qed.
Lemma vreads_u3 v : nbits 3 v -> vreads (fun bs i => readUInt bs i 3) (writeNBits 3 v) v.
Proof. intros H. apply vreads_field; [lia|exact H]. Qed.
Lemma vreads_u2 v : nbits 2 v -> vreads (fun bs i => readUInt bs i 2) (writeNBits 2 v) v.
Proof. intros H. apply vreads_field; [lia|exact H]. Qed.
Lemma vreads_u1 v : nbits 1 v -> vreads (fun bs i => readUInt bs i 1) (writeNBits 1 v) v.
Proof. intros H. apply vreads_field; [lia|exact H]. Qed.
Lemma vreads_m8 v : vreads (fun bs i => readUInt bs i 8) (writeNBits 8 v) (v mod 256).
Proof. exact (vreads_field_mod 8 v ltac:(lia)). Qed.
Lemma vreads_m16 v : vreads (fun bs i => readUInt bs i 16) (writeNBits 16 v) (v mod 65536).
Proof. exact (vreads_field_mod 16 v ltac:(lia)). Qed.

Lemma nbits8_size {A} (l : list A) : (length l <= 255)%nat -> nbits 8 (vec_size l).
Proof. unfold nbits, vec_size. change (2 ^ 8) with 256. lia. Qed.
Lemma nbits16_size {A} (l : list A) : vec_size l < 65536 -> nbits 16 (vec_size l).
Proof. unfold nbits, vec_size. change (2 ^ 16) with 65536. lia. Qed.
Lemma vec_size_nat {A} (l : list A) : Z.to_nat (vec_size l) = length l.
Proof. unfold vec_size. apply Nat2Z.id. Qed.

Lemma vreads_text s : text s -> vreads readSized (writeSized s) s.
Proof. exact (vreads_sized s). Qed.

(** *** Semantic keywords *)

Definition known_semantic (s : str) : Prop := exists n c, In (n, c) semantic_names /\ s = bytes_of n.

Lemma semantic_sweep : forallb (fun p => match semantic_code (fst p) with
    | Ok c => (c =? snd p) && (0 <=? c) && (c <? 4096) &&
              match semantic_name c with Ok n => str_eqb n (fst p) | _ => false end
    | _ => false end) semantic_table = true.
Proof. vm_compute. reflexivity. Qed.
Lemma str_eqb_eq a : forall b, str_eqb a b = true <-> a = b.
Proof.
  induction a as [|x a IH]; intros [|y b]; cbn [str_eqb]; try (split; congruence).
  rewrite andb_true_iff, IH. split; [intros [H ->]; f_equal; lia|]. intros E. injection E as -> ->. split; [lia|reflexivity].
Qed.
Lemma semantic_known s : known_semantic s ->
  exists c, semantic_code s = Ok c /\ nbits 12 c /\ semantic_name c = Ok s.
Proof.
  intros (n & c & Hin & ->). pose proof semantic_sweep as S. rewrite forallb_forall in S.
  specialize (S (bytes_of n, c)). cbn [fst snd] in S. 
  assert (Hin' : In (bytes_of n, c) semantic_table).
  { unfold semantic_table. apply (in_map (fun p => (bytes_of (fst p), snd p)) _ _ Hin). }
  specialize (S Hin'). destruct (semantic_code (bytes_of n)) as [c'| | |]; try discriminate S.
  exists c'. split; [reflexivity|]. apply andb_true_iff in S. destruct S as [S1 S2].
  apply andb_true_iff in S1. destruct S1 as [S1 S3]. apply andb_true_iff in S1. destruct S1 as [S0 S1].
  split; [unfold nbits; change (2 ^ 12) with 4096; lia|].
  destruct (semantic_name c') as [n'| | |]; try discriminate S2. apply str_eqb_eq in S2. now subst.
Qed.
Lemma semantic_in_table s c : semantic_code s = Ok c -> In (s, c) semantic_table.
Proof.
  unfold semantic_code. destruct (find _ semantic_table) as [[s' c']|] eqn:E; [|discriminate].
  intros H. injection H as <-. apply find_some in E. destruct E as [E1 E2]. cbn [fst snd] in *.
  apply str_eqb_eq in E2. now subst.
Qed.
Lemma name_in_table s c : semantic_name c = Ok s -> In (s, c) semantic_table.
Proof.
  unfold semantic_name. destruct (find _ semantic_table) as [[s' c']|] eqn:E; [|discriminate].
  intros H. injection H as <-. apply find_some in E. destruct E as [E1 E2]. cbn [fst snd] in *.
  apply Z.eqb_eq in E2. now subst.
Qed.
Lemma table_both s c : In (s, c) semantic_table -> semantic_code s = Ok c /\ semantic_name c = Ok s.
Proof.
  intros Hin. pose proof semantic_sweep as S. rewrite forallb_forall in S. specialize (S _ Hin). cbn [fst snd] in S.
  destruct (semantic_code s) as [c'| | |]; try discriminate S.
  apply andb_true_iff in S. destruct S as [S1 S2].
  apply andb_true_iff in S1. destruct S1 as [S1 S3]. apply andb_true_iff in S1. destruct S1 as [S0 S1].
  assert (c' = c) by lia. subst.
  destruct (semantic_name c) as [n'| | |]; try discriminate S2. apply str_eqb_eq in S2. now subst.
Qed.
Lemma semantic_maps s c : semantic_code s = Ok c <-> semantic_name c = Ok s.
Proof. split; intros H; [apply semantic_in_table in H|apply name_in_table in H]; apply table_both in H; tauto. Qed.

Lemma vreads_semantic o : opt_all known_semantic o ->
  exists b, writeSemantic o = Ok b /\ vreads readSemantic b o.
Proof.
  intros Ho. destruct o as [s|].
  - destruct (semantic_known s (Ho s eq_refl)) as (c & H1 & H2 & H3).
    exists (writeNBits 1 1 ++ writeNBits 12 c). split; [cbn [writeSemantic]; rewrite H1; reflexivity|].
    intros bs i H. unfold readSemantic. vstep H (vreads_u1 1 ltac:(unfold nbits; cbn; lia)).
    change (1 =? 1) with true. cbn match.
    vlast H (vreads_field 12 c ltac:(lia) H2). rewrite H3. cbn [obind]. vdone.
  - exists (writeNBits 1 0). split; [reflexivity|]. intros bs i H. unfold readSemantic.
    vlast H (vreads_u1 0 ltac:(unfold nbits; cbn; lia)). change (0 =? 1) with false. cbn match. reflexivity.
Qed.

(** *** Avatars and the experience *)

Lemma vreads_avatar a : avatar_ok a -> exists b, writeAvatar a = Ok b /\ vreads readAvatar b a.
Proof.
  destruct a as [id lod type mesh]. unfold avatar_ok. cbn [a_id a_lod a_type a_mesh].
  intros (Hi & Hl & Ht & Hm & Hc). unfold writeAvatar. cbn [a_id a_lod a_type a_mesh].
  destruct (Z.eqb_spec type 0) as [E|E].
  - destruct mesh as [m|]; [|exfalso; apply Hc; auto].
    eexists. split; [reflexivity|]. intros bs i H. unfold readAvatar. rewrite <- !app_assoc in H.
    vstep H (vreads_u8 id Hi). vstep H (vreads_u8 lod Hl). vstep H (vreads_u8 type Ht).
    destruct (Z.eqb_spec type 0); [|lia].
    vlast H (vreads_text m (Hm m eq_refl)). vdone.
  - destruct mesh as [m|]; [exfalso; apply E, Hc; discriminate|].
    eexists. split; [reflexivity|]. intros bs i H. unfold readAvatar.
    vstep H (vreads_u8 id Hi). vstep H (vreads_u8 lod Hl). vlast H (vreads_u8 type Ht).
    destruct (Z.eqb_spec type 0); [lia|]. vdone.
Qed.

Lemma Forall2_eq {A} (l m : list A) : Forall2 eq l m -> l = m.
Proof. induction 1; congruence. Qed.

Lemma metadata_haptics (h : haptics) :
  text (h_version h) -> text (h_profile h) -> nbits 8 (h_level h) -> text (h_date h) -> text (h_desc h) ->
  Forall avatar_ok (h_avatars h) -> (length (h_avatars h) <= 255)%nat ->
  exists b, writeMetadataHaptics h = Ok b /\ forall h0 rest,
    readMetadataHaptics h0 (b ++ rest)
    = Ok (Haptics (h_version h) (h_profile h) (h_level h) (h_date h) (h_desc h) (h_perceptions h0)
            (h_avatars h0 ++ h_avatars h) (h_timescale h0) (h_syncs h0)).
Proof.
  intros Hv Hp Hl Hd Hde Ha Hn.
  destruct (vreads_many writeAvatar readAvatar eq (h_avatars h)) as (ab & ys & Hw & Hr & HR).
  { eapply Forall_impl; [|exact Ha]. intros a Hok. destruct (vreads_avatar a Hok) as (b & ? & ?). eauto. }
  apply Forall2_eq in HR. subst ys.
  eexists. split; [unfold writeMetadataHaptics; rewrite Hw; reflexivity|]. intros h0 rest.
  unfold readMetadataHaptics. match goal with |- context [(?b ++ rest)%list] => pose proof (at_0 b rest) as H end.
  revert H. match goal with |- context [(?b ++ rest)%list] => generalize (b ++ rest)%list end. intros bs H.
  vstep H (vreads_text _ Hv). vstep H (vreads_text _ Hp). vstep H (vreads_u8 _ Hl).
  vstep H (vreads_text _ Hd). vstep H (vreads_text _ Hde). vstep H (vreads_m8 (vec_size (h_perceptions h))).
  vstep H (vreads_u8 _ (nbits8_size _ Hn)). rewrite vec_size_nat. vlast H Hr.
  f_equal. f_equal. unfold to_unsigned. apply Z.mod_small. exact Hl.
Qed.

(** *** Devices and perceptions *)

Lemma vreads_device d : device_ok d ->
  exists b d', writeReferenceDevice d = Ok b /\ vreads readReferenceDevice b d' /\ device_sent d d'.
Proof.
  destruct d as [id name mask x1 x2 x3 x4 x5 x6 x7 x8 x9 x10 x11 ty].
  unfold device_ok. cbn [d_id d_name d_mask d_maxf d_minf d_resf d_maxa d_imp d_maxv d_maxc d_maxd d_weight d_size d_custom d_type].
  intros (Hi & Hn & (m & -> & Hm) & H1 & H2 & H3 & H4 & H5 & H6 & H7 & H8 & H9 & H10 & H11 & Ht).
  destruct (vreads_optfloat f32_0 MAX_FLOAT x1 range_float H1) as (b1 & y1 & W1 & R1 & N1).
  destruct (vreads_optfloat f32_0 MAX_FLOAT x2 range_float H2) as (b2 & y2 & W2 & R2 & N2).
  destruct (vreads_optfloat f32_0 MAX_FLOAT x3 range_float H3) as (b3 & y3 & W3 & R3 & N3).
  destruct (vreads_optfloat f32_0 MAX_FLOAT x4 range_float H4) as (b4 & y4 & W4 & R4 & N4).
  destruct (vreads_optfloat f32_0 MAX_FLOAT x5 range_float H5) as (b5 & y5 & W5 & R5 & N5).
  destruct (vreads_optfloat f32_0 MAX_FLOAT x6 range_float H6) as (b6 & y6 & W6 & R6 & N6).
  destruct (vreads_optfloat f32_0 MAX_FLOAT x7 range_float H7) as (b7 & y7 & W7 & R7 & N7).
  destruct (vreads_optfloat f32_0 MAX_FLOAT x8 range_float H8) as (b8 & y8 & W8 & R8 & N8).
  destruct (vreads_optfloat f32_0 MAX_FLOAT x9 range_float H9) as (b9 & y9 & W9 & R9 & N9).
  destruct (vreads_optfloat f32_0 MAX_FLOAT x10 range_float H10) as (b10 & y10 & W10 & R10 & N10).
  destruct (vreads_optfloat (Bopp MAX_FLOAT) MAX_FLOAT x11 range_sfloat H11) as (b11 & y11 & W11 & R11 & N11).
  eexists. exists (Device id name (Some m) y1 y2 y3 y4 y5 y6 y7 y8 y9 y10 y11 ty). split.
  { unfold writeReferenceDevice.
    cbn [d_id d_name d_mask d_maxf d_minf d_resf d_maxa d_imp d_maxv d_maxc d_maxd d_weight d_size d_custom d_type value_or].
    rewrite W1, W2, W3, W4, W5, W6, W7, W8, W9, W10, W11. cbn [obind]. reflexivity. }
  split.
  - intros bs i H. unfold readReferenceDevice.
    vstep H (vreads_u8 id Hi). vstep H (vreads_text name Hn). vstep H (vreads_field32 m).
    apply at_app in H. destruct H as [Hmask H].
    rewrite (slice_at _ _ _ 12%nat Hmask) by reflexivity.
    cbn [obind device_mask d_maxf d_minf d_resf d_maxa d_imp d_maxv d_maxc d_maxd d_weight d_size d_custom d_type].
    change (length (device_mask (Device id name (Some m) x1 x2 x3 x4 x5 x6 x7 x8 x9 x10 x11 ty))) with 12%nat in H.
    vstep H R1. vstep H R2. vstep H R3. vstep H R4. vstep H R5. vstep H R6. vstep H R7. vstep H R8. vstep H R9.
    vstep H R10. vstep H R11.
    destruct ty as [t|]; cbn [has].
    + vlast H (vreads_u4 t (Ht t eq_refl)).
      replace (to_unsigned 32 (to_signed 32 m)) with m.
      2:{ unfold to_unsigned, to_signed, nbits in *. change (2 ^ Z.of_nat 32) with 4294967296.
          change (2 ^ (Z.of_nat 32 - 1)) with 2147483648. change (2 ^ 32) with 4294967296 in Hm. lia. }
      f_equal. f_equal. rewrite !app_length. cbn [device_mask length]. lia.
    + cbn [obind]. replace (to_unsigned 32 (to_signed 32 m)) with m.
      2:{ unfold to_unsigned, to_signed, nbits in *. change (2 ^ Z.of_nat 32) with 4294967296.
          change (2 ^ (Z.of_nat 32 - 1)) with 2147483648. change (2 ^ 32) with 4294967296 in Hm. lia. }
      f_equal. f_equal. rewrite !app_length. cbn [device_mask length]. lia.
  - unfold device_sent. cbn. repeat (split; [first [reflexivity|assumption]|]). assumption.
Qed.

Lemma int8_exp z : int8 z -> to_signed 8 (z mod 256) = z.
Proof.
  unfold int8, to_signed. change (2 ^ Z.of_nat 8) with 256. change (2 ^ (Z.of_nat 8 - 1)) with 128. lia.
Qed.

Lemma prio_back o : opt_all (fun x => 1 <= x < 256) o ->
  (if value_or o 0 mod 256 =? 0 then None else Some (value_or o 0 mod 256)) = o.
Proof.
  intros H. destruct o as [x|]; cbn [value_or].
  - specialize (H x eq_refl). cbn beta in H. destruct (Z.eqb_spec (x mod 256) 0); [lia|]. f_equal. lia.
  - reflexivity.
Qed.

Lemma metadata_perception p : perception_ok p ->
  exists b devices, writeMetadataPerception p = Ok b /\ Forall2 device_sent (p_devices p) devices /\
    forall rest, readMetadataPerception (b ++ rest)
      = Ok (Perception (p_id p) (p_avatar p) (p_desc p) (p_prio p) (p_scheme p) (p_modality p) [] devices
              (Some (value_or (p_uexp p) (-3))) (Some (value_or (p_puexp p) 0)) []).
Proof.
  intros (Hi & Ha & Hd & Hpr & Hs & Hm & Hu & Hpu & Hdev & Hn).
  destruct (vreads_many writeReferenceDevice readReferenceDevice device_sent (p_devices p)) as (db & ys & Hw & Hr & HR).
  { eapply Forall_impl; [|exact Hdev]. apply vreads_device. }
  eexists. exists ys. split; [unfold writeMetadataPerception; rewrite Hw; reflexivity|]. split; [exact HR|].
  intros rest. unfold readMetadataPerception.
  match goal with |- context [(?b ++ rest)%list] => pose proof (at_0 b rest) as H end.
  revert H. match goal with |- context [(?b ++ rest)%list] => generalize (b ++ rest)%list end. intros bs H.
  vstep H (vreads_u8 _ Hi). vstep H (vreads_m8 (value_or (p_prio p) 0)). vstep H (vreads_text _ Hd).
  vstep H (vreads_u8 _ Hm). vstep H (vreads_u8 _ Ha). vstep H (vreads_m16 (vec_size (p_library p))).
  match type of H with at_ _ ?k _ => set (i0 := k) in * end. clearbody i0.
  rewrite prio_back by exact Hpr.
  assert (E3 : value_or (p_uexp p) (-3) = to_signed 8 (value_or (p_uexp p) DEFAULT_UNIT_EXPONENT mod 256)).
  { symmetry. apply int8_exp. destruct (p_uexp p) as [x|]; cbn; [apply Hu; reflexivity|]. unfold int8. lia. }
  assert (E4 : value_or (p_puexp p) 0 = to_signed 8 (value_or (p_puexp p) DEFAULT_PERCEPTION_UNIT_EXPONENT mod 256)).
  { symmetry. apply int8_exp. destruct (p_puexp p) as [x|]; cbn; [apply Hpu; reflexivity|]. unfold int8. lia. }
  rewrite E3, E4.
  destruct (p_scheme p) as [s|].
  - rewrite <- app_assoc in H. vstep H (vreads_u1 1 ltac:(unfold nbits; cbn; lia)). change (1 =? 1) with true. cbn match.
    vstep H (vreads_text s (Hs s eq_refl)).
    vstep H (vreads_m8 (value_or (p_uexp p) DEFAULT_UNIT_EXPONENT)).
    vstep H (vreads_m8 (value_or (p_puexp p) DEFAULT_PERCEPTION_UNIT_EXPONENT)).
    vstep H (vreads_u8 _ (nbits8_size _ Hn)). rewrite vec_size_nat. vstep H Hr.
    vlast H (vreads_m16 (vec_size (p_channels p))). reflexivity.
  - vstep H (vreads_u1 0 ltac:(unfold nbits; cbn; lia)). change (0 =? 1) with false. cbn match.
    cbn [obind].
    vstep H (vreads_m8 (value_or (p_uexp p) DEFAULT_UNIT_EXPONENT)).
    vstep H (vreads_m8 (value_or (p_puexp p) DEFAULT_PERCEPTION_UNIT_EXPONENT)).
    vstep H (vreads_u8 _ (nbits8_size _ Hn)). rewrite vec_size_nat. vstep H Hr.
    vlast H (vreads_m16 (vec_size (p_channels p))). reflexivity.
Qed.

(** *** Library effects *)

Lemma vreads_lib_kf k : kf_ok k -> exists b k', writeLibraryKeyframe k = Ok b /\ vreads readLibraryKeyframe b k' /\ kf_sent k k'.
Proof.
  destruct k as [p a f]. unfold kf_ok, kf_sent. cbn [k_pos k_amp k_freq]. intros (Hp & Ha & Hf).
  unfold writeLibraryKeyframe. cbn [k_pos k_amp k_freq].
  assert (Hamp : exists ab a', match a with Some a => writeFloatNBits u8 8 a (Bopp MAX_AMPLITUDE) MAX_AMPLITUDE | None => Ok [] end = Ok ab /\
     opt_rel (near 8 (Bopp MAX_AMPLITUDE) MAX_AMPLITUDE) a a' /\
     vreads (fun bs i => if has a then do '(v, i) <- readFloatBits bs i 8 (Bopp MAX_AMPLITUDE) MAX_AMPLITUDE; Ok (Some v, i) else Ok (None, i)) ab a').
  { destruct a as [v|].
    - destruct (vreads_float u8 8 _ _ v ct8 range_amp (Ha v eq_refl)) as (b & w & Hb & _ & Hr & Hn).
      exists b, (Some w). split; [exact Hb|]. split; [constructor; exact Hn|]. intros bs i H. cbn [has]. rewrite (Hr _ _ H). reflexivity.
    - exists [], None. split; [reflexivity|]. split; [constructor|]. intros bs i H. cbn [has]. f_equal. f_equal. cbn. lia. }
  destruct Hamp as (ab & a' & -> & Hrel & Hra).
  eexists. exists (Keyframe p a' f). split; [cbn [obind]; reflexivity|]. split; [|cbn; auto].
  intros bs i H. unfold readLibraryKeyframe.
  set (mask := (if has p then 1 else 0) + (if has a then 2 else 0) + (if has f then 4 else 0)) in *.
  assert (Hmask : nbits 3 mask) by (unfold nbits, mask; change (2 ^ 3) with 8; destruct (has p), (has a), (has f); lia).
  assert (T0 : Z.testbit mask 0 = has p) by (unfold mask; destruct (has p), (has a), (has f); reflexivity).
  assert (T1 : Z.testbit mask 1 = has a) by (unfold mask; destruct (has p), (has a), (has f); reflexivity).
  assert (T2 : Z.testbit mask 2 = has f) by (unfold mask; destruct (has p), (has a), (has f); reflexivity).
  vstep H (vreads_u3 mask Hmask). rewrite T0, T1, T2. clearbody mask.
  destruct p as [p|]; cbn [has].
  - vstep H (vreads_u16 p (Hp p eq_refl)). vstep H Hra.
    destruct f as [f|]; cbn [has].
    + vlast H (vreads_u16 f (Hf f eq_refl)). vdone.
    + cbn [obind]. vdone.
  - cbn [obind]. cbn [app] in H. vstep H Hra.
    destruct f as [f|]; cbn [has].
    + vlast H (vreads_u16 f (Hf f eq_refl)). vdone.
    + cbn [obind]. vdone.
Qed.

(** An induction principle for effects with timelines. *)
Lemma effect_induction (P : effect -> Prop) :
  (forall e, Forall P (e_timeline e) -> P e) -> forall e, P e.
Proof.
  intros H. fix IH 1. intros [id pos ph sem kfs base ty tl sa wa]. apply H. cbn [e_timeline].
  induction tl as [|x tl IHl]; constructor; [apply IH|exact IHl].
Qed.

Definition write_timeline := fix go (n : nat) (l : list effect) {struct l} : outcome bits :=
  match l, n with
  | x :: r, S n' => do a <- writeLibraryEffect x; do b <- go n' r; Ok (a ++ b)
  | _, _ => Ok []
  end.
Lemma write_timeline_all l : write_timeline (length l) l = writeMany writeLibraryEffect l.
Proof. induction l as [|x l IH]; cbn [length write_timeline writeMany]; [reflexivity|]. now rewrite IH. Qed.
Lemma writeLibraryEffect_eq e : writeLibraryEffect e =
  do sem <- writeSemantic (e_semantic e);
  do basis <- (if e_type e =? BasisE
               then do ph <- writeFloatNBits u32 16 (value_or (e_phase e) f32_0) f32_0 MAX_PHASE;
                    Ok (ph ++ writeNBits 4 (value_or (e_base e) 0))
               else Ok []);
  do keyframes <- writeMany writeLibraryKeyframe (e_kfs e);
  let count := to_unsigned 16 (vec_size (e_timeline e)) in
  do tl <- write_timeline (Z.to_nat count) (e_timeline e);
  Ok (writeNBits 16 (e_id e) ++ writeNBits 2 (e_type e) ++ sem ++ writeNBits 25 (e_pos e) ++ basis
      ++ writeNBits 16 (vec_size (e_kfs e)) ++ keyframes ++ writeNBits 16 count ++ tl).
Proof. destruct e. reflexivity. Qed.

Lemma depth_eq e : depth e = S (fold_right Nat.max 0%nat (map depth (e_timeline e))).
Proof. destruct e. reflexivity. Qed.
Lemma fold_max_le l f : (fold_right Nat.max 0 l <= f)%nat -> Forall (fun d => d <= f)%nat l.
Proof. induction l as [|x l IH]; cbn [fold_right]; intros H; constructor; [lia|apply IH; lia]. Qed.

Lemma vreads_lib_effect e : effect_ok known_semantic e -> forall fuel, (depth e <= fuel)%nat ->
  exists b e', writeLibraryEffect e = Ok b /\ vreads (readLibraryEffect fuel) b e' /\ effect_sent e e'.
Proof.
  induction e as [e IH] using effect_induction. intros [Hi Hp Ht Hph Hb Hs Hk Hkl Htl Htll] fuel Hf.
  rewrite depth_eq in Hf. destruct fuel as [|fuel]; [lia|].
  destruct (vreads_semantic (e_semantic e) Hs) as (sb & Hsw & Hsr).
  destruct (vreads_many writeLibraryKeyframe readLibraryKeyframe kf_sent (e_kfs e)) as (kb & ks & Hkw & Hkr & HkR).
  { eapply Forall_impl; [|exact Hk]. apply vreads_lib_kf. }
  destruct (vreads_many writeLibraryEffect (readLibraryEffect fuel) effect_sent (e_timeline e)) as (tb & ts & Htw & Htr & HtR).
  { assert (Hd : Forall (fun x => depth x <= fuel)%nat (e_timeline e)).
    { apply (proj1 (Forall_map depth (fun d => (d <= fuel)%nat) _)), fold_max_le. lia. }
    clear - IH Htl Hd. revert IH Htl Hd. generalize (e_timeline e). intros l.
    induction l as [|x l IHl]; intros H1 H2 H3; constructor.
    - inversion H1; inversion H2; inversion H3; subst. auto.
    - inversion H1; inversion H2; inversion H3; subst. auto. }
  assert (Hbasis : exists bb ph' base',
     (if e_type e =? BasisE
      then do ph <- writeFloatNBits u32 16 (value_or (e_phase e) f32_0) f32_0 MAX_PHASE;
           Ok (ph ++ writeNBits 4 (value_or (e_base e) 0))
      else Ok []) = Ok bb /\
     vreads (fun bs i => if e_type e =? 0
           then do '(ph, i) <- readFloatBits bs i 16 f32_0 MAX_PHASE;
                do '(b, i) <- readUInt bs i 4;
                Ok ((Some ph, Some b), i)
           else Ok ((None, None), i)) bb (ph', base') /\
     (if e_type e =? BasisE
     then (exists w, ph' = Some w /\ near 16 f32_0 MAX_PHASE (value_or (e_phase e) f32_0) w) /\
          base' = Some (value_or (e_base e) 0)
     else ph' = None /\ base' = None)).
  { unfold BasisE. destruct (e_type e =? 0).
    - assert (Hfin : is_finite (value_or (e_phase e) f32_0) = true)
        by (destruct (e_phase e) as [v|]; [exact (Hph v eq_refl)|reflexivity]).
      destruct (vreads_float u32 16 f32_0 MAX_PHASE _ ct3216 range_phase Hfin) as (b & w & Hw & _ & Hr & Hn).
      assert (Hbs : nbits 4 (value_or (e_base e) 0))
        by (destruct (e_base e) as [v|]; [exact (Hb v eq_refl)|unfold nbits; cbn; lia]).
      exists (b ++ writeNBits 4 (value_or (e_base e) 0)), (Some w), (Some (value_or (e_base e) 0)).
      rewrite Hw. split; [reflexivity|]. split; [|eauto].
      intros bs i H. vstep H Hr. vlast H (vreads_u4 _ Hbs). vdone.
    - exists [], None, None. split; [reflexivity|]. split; [|auto]. intros bs i H. f_equal. f_equal. cbn. lia. }
  destruct Hbasis as (bb & ph' & base' & Hbw & Hbr & HbR).
  eexists. exists (Effect (e_id e) (e_pos e) ph' (e_semantic e) ks base' (e_type e) ts [] []). split.
  { rewrite writeLibraryEffect_eq, Hsw. cbn [obind]. rewrite Hbw. cbn [obind]. rewrite Hkw. cbn [obind].
    cbv zeta. assert (E : to_unsigned 16 (vec_size (e_timeline e)) = vec_size (e_timeline e)).
    { unfold to_unsigned. apply Z.mod_small. exact (nbits16_size _ Htll). }
    rewrite E, vec_size_nat, write_timeline_all, Htw. cbn [obind]. reflexivity. }
  split.
  - intros bs i H. cbn [readLibraryEffect].
    vstep H (vreads_u16 _ Hi). vstep H (vreads_u2 _ Ht). vstep H Hsr. vstep H (vreads_u25 _ Hp). vstep H Hbr.
    vstep H (vreads_u16 _ (nbits16_size _ Hkl)). rewrite vec_size_nat. vstep H Hkr.
    vstep H (vreads_u16 _ (nbits16_size _ Htll)). rewrite vec_size_nat. vlast H Htr. vdone.
  - constructor; cbn; auto.
Qed.

(** *** Channels *)

Lemma vreads_vec v : vec8 v -> vreads readVectorBits (writeVector v) v.
Proof.
  destruct v as [x y z]. unfold vec8. cbn [vx vy vz]. intros (Hx & Hy & Hz) bs i H. unfold readVectorBits, writeVector in *.
  cbn [vx vy vz] in H. vstep H (vreads_m8 x). vstep H (vreads_m8 y). vlast H (vreads_m8 z).
  rewrite !int8_exp by assumption. f_equal. f_equal. unfold writeVector. cbn [vx vy vz]. rewrite !app_length. lia.
Qed.

Lemma map_id_Forall {A} (f : A -> A) l : Forall (fun x => f x = x) l -> map f l = l.
Proof. induction 1 as [|x l Hx _ IH]; cbn [map]; congruence. Qed.

Lemma vreads_bytes l : Forall (nbits 8) l ->
  vreads (readMany (fun bs i => readUInt bs i 8) (length l)) (flat_map (writeNBits 8) l) l.
Proof.
  intros Hl. rewrite <- (map_id l) at 3. apply vreads_many_map with (g := fun x => x).
  eapply Forall_impl; [|exact Hl]. intros v Hv. exact (vreads_u8 v Hv).
Qed.
Lemma vreads_vecs l : Forall vec8 l -> vreads (readMany readVectorBits (length l)) (flat_map writeVector l) l.
Proof.
  intros Hl. rewrite <- (map_id l) at 3. apply vreads_many_map with (g := fun x => x).
  eapply Forall_impl; [|exact Hl]. exact vreads_vec.
Qed.
Lemma to_signed_32 v : - 2 ^ 31 <= v < 2 ^ 31 -> to_signed 32 v = v.
Proof. intros H. apply to_signed_id; [lia|exact H]. Qed.
Lemma vreads_ints l : Forall (fun v => - 2 ^ 31 <= v < 2 ^ 31) l ->
  vreads (readMany (fun bs i => readUInt bs i 32) (length l)) (flat_map (writeNBits 32) l) l.
Proof.
  intros Hl. rewrite <- (map_id l) at 3. apply vreads_many_map with (g := fun x => x).
  eapply Forall_impl; [|exact Hl]. cbn beta. intros v Hv. rewrite <- (to_signed_32 v) at 2 by exact Hv.
  exact (vreads_field32 v).
Qed.
Lemma unsigned_signed v : nbits 32 v -> to_unsigned 32 (to_signed 32 v) = v.
Proof.
  unfold to_unsigned, to_signed, nbits. change (2 ^ Z.of_nat 32) with 4294967296.
  change (2 ^ (Z.of_nat 32 - 1)) with 2147483648. change (2 ^ 32) with 4294967296. lia.
Qed.

Lemma firstn_size {A} (l : list A) : (length l <= 255)%nat ->
  firstn (Z.to_nat (to_unsigned 8 (vec_size l))) l = l /\ to_unsigned 8 (vec_size l) = vec_size l.
Proof.
  intros H. assert (E : to_unsigned 8 (vec_size l) = vec_size l)
    by (unfold to_unsigned; apply Z.mod_small; exact (nbits8_size l H)).
  rewrite E, vec_size_nat, firstn_all. auto.
Qed.

(** The perception found by its id. *)
Lemma index_of_nth {A} (f : A -> bool) l : forall k x n, nth_error l n = Some x -> f x = true ->
  (forall m y, (m < n)%nat -> nth_error l m = Some y -> f y = false) ->
  index_of f l k = k + Z.of_nat n.
Proof.
  induction l as [|y l IH]; intros k x n Hn Hx Hb; [destruct n; discriminate Hn|].
  cbn [index_of]. destruct n as [|n].
  - injection Hn as ->. rewrite Hx. lia.
  - rewrite (Hb 0%nat y) by (auto; lia). rewrite (IH (k + 1) x n Hn Hx); [lia|].
    intros m z Hm Hz. apply (Hb (S m) z); [lia|exact Hz].
Qed.
Lemma index_of_none {A} (f : A -> bool) l k : Forall (fun x => f x = false) l -> index_of f l k = -1.
Proof. intros H. revert k. induction H as [|x l Hx _ IH]; intros k; cbn [index_of]; [reflexivity|]. rewrite Hx. apply IH. Qed.
Lemma vec_at_nth {A} (l : list A) n x : nth_error l n = Some x -> vec_at l (Z.of_nat n) = Ok x.
Proof. intros H. unfold vec_at. destruct (Z.ltb_spec (Z.of_nat n) 0); [lia|]. now rewrite Nat2Z.id, H. Qed.

Lemma channel_freq c : (c_freq c = None /\ c_count c = None \/
   exists f n, c_freq c = Some f /\ 1 <= f < 2 ^ 31 /\ c_count c = Some n /\ nbits 32 n) ->
  vreads (fun bs i => do '(freq0, i) <- readUInt bs i 32;
     if to_unsigned 32 freq0 >? 0 then do '(n, i) <- readUInt bs i 32; Ok ((Some (to_unsigned 32 freq0), Some (to_unsigned 32 n)), i)
       else Ok ((None, None), i))
    (writeNBits 32 (to_signed 32 (value_or (c_freq c) 0)) ++
       (if to_signed 32 (value_or (c_freq c) 0) >? 0 then writeNBits 32 (value_or (c_count c) 0) else []))
    (c_freq c, c_count c).
Proof.
  intros [[-> ->]|(f & n & -> & Hf & -> & Hn)] bs i H; cbn [value_or] in *.
  - change (to_signed 32 0) with 0 in *. change (0 >? 0) with false in *. cbn match in *.
    rewrite app_nil_r in *. vlast H (vreads_field32 0). reflexivity.
  - rewrite (to_signed_32 f) in * by lia. replace (f >? 0) with true in * by lia. cbn match in *.
    vstep H (vreads_field32 f). rewrite (unsigned_signed f) by (unfold nbits; change (2 ^ 32) with 4294967296; change (2 ^ 31) with 2147483648 in Hf; lia).
    replace (f >? 0) with true by lia.
    vlast H (vreads_field32 n). rewrite (unsigned_signed n Hn). vdone.
Qed.

Lemma channel_location c : location_ok c ->
  let mask := (if has (c_res c) then 2 else 1) + (if has (c_dir c) then 4 else 0) in
  vreads (fun bs i => if Z.testbit mask 0 then
         do '(m, i) <- readUInt bs i 32;
         Ok (((to_unsigned 32 m, None), (None, None)), i)
       else if Z.testbit mask 1 then
         do '(r, i) <- readVectorBits bs i;
         do '(n, i) <- readUInt bs i 8;
         do '(parts, i) <- readMany (fun bs i => readUInt bs i 8) (Z.to_nat n) bs i;
         do '(k, i) <- readUInt bs i 8;
         do '(targets, i) <- readMany readVectorBits (Z.to_nat k) bs i;
         Ok (((0, Some r), (Some parts, Some targets)), i)
       else Ok (((0, None), (None, None)), i))
   (match c_res c with
    | None => writeNBits 32 (c_mask c)
    | Some res =>
        let parts := value_or (c_body c) [] in
        let nparts := to_unsigned 8 (vec_size parts) in
        let targets := value_or (c_target c) [] in
        let ntargets := to_unsigned 8 (vec_size targets) in
        writeVector res ++ writeNBits 8 nparts ++ flat_map (writeNBits 8) (firstn (Z.to_nat nparts) parts)
        ++ writeNBits 8 ntargets ++ flat_map writeVector (firstn (Z.to_nat ntargets) targets)
    end) ((c_mask c, c_res c), (c_body c, c_target c)).
Proof.
  unfold location_ok. destruct (c_res c) as [r|]; cbn [has].
  - intros (Hr & -> & (pl & -> & Hp & Hpl) & (tl & -> & Ht & Htl)). cbv zeta. cbn [value_or].
    destruct (firstn_size pl Hpl) as [-> ->]. destruct (firstn_size tl Htl) as [-> ->].
    replace (Z.testbit (2 + (if has (c_dir c) then 4 else 0)) 0) with false by (destruct (has (c_dir c)); reflexivity).
    replace (Z.testbit (2 + (if has (c_dir c) then 4 else 0)) 1) with true by (destruct (has (c_dir c)); reflexivity).
    intros bs i H. vstep H (vreads_vec r Hr). vstep H (vreads_u8 _ (nbits8_size _ Hpl)). rewrite vec_size_nat.
    vstep H (vreads_bytes pl Hp). vstep H (vreads_u8 _ (nbits8_size _ Htl)). rewrite vec_size_nat.
    vlast H (vreads_vecs tl Ht). vdone.
  - intros (Hm & -> & ->). cbv zeta.
    replace (Z.testbit (1 + (if has (c_dir c) then 4 else 0)) 0) with true by (destruct (has (c_dir c)); reflexivity).
    intros bs i H. vlast H (vreads_field32 (c_mask c)). rewrite (unsigned_signed _ Hm). reflexivity.
Qed.

Lemma freq_step {C} bs i0 (r : (option Z * option Z) * nat) (K : option Z -> option Z -> nat -> outcome C) :
  (do '(freq0, i) <- readUInt bs i0 32;
     if to_unsigned 32 freq0 >? 0 then do '(n, i) <- readUInt bs i 32; Ok ((Some (to_unsigned 32 freq0), Some (to_unsigned 32 n)), i)
       else Ok ((None, None), i)) = Ok r ->
  (do '(freq0, i) <- readUInt bs i0 32;
   let freq := to_unsigned 32 freq0 in
   do '((freqs, count), i) <-
      (if freq >? 0 then do '(n, i) <- readUInt bs i 32; Ok ((Some freq, Some (to_unsigned 32 n)), i)
       else Ok ((None, None), i));
   K freqs count i) = K (fst (fst r)) (snd (fst r)) (snd r).
Proof.
  destruct (readUInt bs i0 32) as [[f j]| | |]; try discriminate. cbn [obind]. intros ->. destruct r as [[x y] k]. reflexivity.
Qed.

Lemma metadata_channel (c : channel) (pid : Z) :
  channel_ok c -> nbits 8 pid ->
  exists b gain mix, writeMetadataChannel pid c = Ok b /\
    near 32 (Bopp MAX_FLOAT) MAX_FLOAT (c_gain c) gain /\ near 32 f32_0 MAX_FLOAT (c_mix c) mix /\
    forall h rest,
      (forall n p, nth_error (h_perceptions h) n = Some p -> p_id p = pid ->
        (forall m q, (m < n)%nat -> nth_error (h_perceptions h) m = Some q -> p_id q <> pid) ->
        readMetadataChannel h (b ++ rest)
        = Ok (Some (p, Channel (c_id c) (c_desc c) gain mix (c_mask c) (c_vertices c) [] (c_prio c) (c_device c)
                         (c_freq c) (c_count c) (c_dir c) (c_res c) (c_body c) (c_target c)))) /\
      (Forall (fun p => p_id p <> pid) (h_perceptions h) -> readMetadataChannel h (b ++ rest) = Ok None).
Proof.
  intros (Hi & Hd & Hg & Hm & Hpr & Hdev & Hloc & Hfr & Hdir & Hvx & Hvl) Hpid.
  destruct (vreads_float u32 32 _ _ _ ct32 range_sfloat Hg) as (gb & gain & Hgw & _ & Hgr & Hgn).
  destruct (vreads_float u32 32 _ _ _ ct32 range_float Hm) as (mb & mix & Hmw & _ & Hmr & Hmn).
  eexists. exists gain, mix. split; [unfold writeMetadataChannel; rewrite Hgw; cbn [obind]; rewrite Hmw; cbn [obind]; reflexivity|].
  split; [exact Hgn|]. split; [exact Hmn|]. intros h rest.
  match goal with |- context [(?b ++ rest)%list] => pose proof (at_0 b rest) as H end.
  revert H. match goal with |- context [(?b ++ rest)%list] => generalize (b ++ rest)%list end. intros bs H.
  unfold readMetadataChannel.
  vstep H (vreads_u16 _ Hi). vstep H (vreads_u8 _ Hpid).
  split.
  - intros n p Hn Hp Hbef.
    assert (Esearch : searchPerceptionInHaptic h pid = Z.of_nat n).
    { unfold searchPerceptionInHaptic. rewrite (index_of_nth _ _ 0 p n Hn); [lia|lia|].
      intros m q Hmn' Hq. specialize (Hbef m q Hmn' Hq). lia. }
    rewrite Esearch. destruct (Z.eqb_spec (Z.of_nat n) (-1)); [lia|].
    rewrite (vec_at_nth _ _ _ Hn). cbn [obind].
    vstep H (vreads_m8 (value_or (c_prio c) 0)). vstep H (vreads_text _ Hd).
    vstep H (vreads_m8 (value_or (c_device c) (-1))). vstep H Hgr. vstep H Hmr.
    set (mask := (if has (c_res c) then 2 else 1) + (if has (c_dir c) then 4 else 0)) in *.
    assert (Hmask : nbits 8 mask) by (unfold nbits, mask; change (2 ^ 8) with 256; destruct (has (c_res c)), (has (c_dir c)); lia).
    assert (T2 : Z.testbit mask 2 = has (c_dir c)) by (unfold mask; destruct (has (c_res c)), (has (c_dir c)); reflexivity).
    vstep H (vreads_u8 _ Hmask).
    pose proof (channel_location c Hloc) as HL. cbv zeta in HL. fold mask in HL.
    vstep H HL. clear HL.
    pose proof (channel_freq c Hfr) as HF.
    match type of H with at_ _ ?k _ => set (i0 := k) in * end.
    match goal with |- obind (readUInt bs ?j 32) _ = _ => change j with i0 end. clearbody i0.
    rewrite app_assoc in H.
    apply at_app in H. destruct H as [Hfreq H].
    etransitivity; [refine (freq_step _ _ _ (fun freqs count i => _) (HF _ _ Hfreq))|].
    cbn beta. clear HF Hfreq. cbn [fst snd]. rewrite prio_back by exact Hpr.
    assert (Edev : (if value_or (c_device c) (-1) mod 256 <? 255 then Some (value_or (c_device c) (-1) mod 256) else None) = c_device c).
    { destruct (c_device c) as [x|]; cbn [value_or]; [|reflexivity]. specialize (Hdev x eq_refl). cbn beta in Hdev.
      rewrite Z.mod_small by lia. destruct (Z.ltb_spec x 255); [reflexivity|lia]. }
    rewrite Edev, T2. clear Edev.
    destruct (c_dir c) as [d|]; cbn [has].
    + vstep H (vreads_vec d (Hdir d eq_refl)). vstep H (vreads_u16 _ (nbits16_size _ Hvl)). rewrite vec_size_nat.
      vstep H (vreads_ints _ Hvx). vlast H (vreads_m8 (vec_size (c_bands c))). reflexivity.
    + cbn [obind app] in *. vstep H (vreads_u16 _ (nbits16_size _ Hvl)). rewrite vec_size_nat.
      vstep H (vreads_ints _ Hvx). vlast H (vreads_m8 (vec_size (c_bands c))). reflexivity.
  - intros Hnone. assert (Esearch : searchPerceptionInHaptic h pid = -1).
    { apply index_of_none. eapply Forall_impl; [|exact Hnone]. cbn. intros p Hp. lia. }
    rewrite Esearch. reflexivity.
Qed.

(** *** Bands *)

Lemma metadata_band (b : band) (pid cid bid : Z) h rest n p c :
  band_ok b -> nbits 8 pid -> nbits 16 cid -> nbits 8 bid ->
  nth_error (h_perceptions h) n = Some p -> p_id p = pid ->
  (forall m q, (m < n)%nat -> nth_error (h_perceptions h) m = Some q -> p_id q <> pid) ->
  (exists k, searchChannelInHaptic h cid = Z.of_nat k /\ nth_error (p_channels p) k = Some c) ->
  readMetadataBand h (writeMetadataBand pid cid bid b ++ rest)
  = Ok (Some (p, c, BandStream bid (Band (b_type b) (b_curve b) (b_block b) (b_low b) (b_up b) [] (b_prio b)) (-1))).
Proof.
  intros (Ht & Hlo & Hup & Hpr & Hcu & Hbl) Hpid Hcid Hbid Hn Hp Hbef (k & Hk & Hc).
  pose proof (at_0 (writeMetadataBand pid cid bid b) rest) as H. revert H.
  generalize (writeMetadataBand pid cid bid b ++ rest)%list. intros bs H.
  unfold readMetadataBand. unfold writeMetadataBand in H.
  vstep H (vreads_u8 _ Hbid). vstep H (vreads_u8 _ Hpid).
  assert (Esearch : searchPerceptionInHaptic h pid = Z.of_nat n).
  { unfold searchPerceptionInHaptic. rewrite (index_of_nth _ _ 0 p n Hn); [lia|lia|].
    intros m q Hmn' Hq. specialize (Hbef m q Hmn' Hq). lia. }
  rewrite Esearch. destruct (Z.eqb_spec (Z.of_nat n) (-1)); [lia|].
  rewrite (vec_at_nth _ _ _ Hn). cbn [obind].
  vstep H (vreads_u16 _ Hcid). rewrite Hk. destruct (Z.eqb_spec (Z.of_nat k) (-1)); [lia|].
  rewrite (vec_at_nth _ _ _ Hc). cbn [obind].
  vstep H (vreads_m8 (value_or (b_prio b) 0)). vstep H (vreads_u3 _ Ht). rewrite prio_back by exact Hpr.
  destruct (b_type b =? CurveB) eqn:E1.
  - destruct Hcu as (x & Ex & Hx). rewrite Ex in *. cbn [value_or] in H. vstep H (vreads_u4 _ Hx).
    vstep H (vreads_u16 _ Hlo). vstep H (vreads_u16 _ Hup). vlast H (vreads_m16 (vec_size (b_effects b))).
    destruct (b_type b =? WaveletB) eqn:E2; [exfalso; unfold CurveB, WaveletB in *; lia|]. now rewrite Hbl.
  - rewrite Hcu. destruct (b_type b =? WaveletB) eqn:E2.
    + destruct Hbl as (x & Ex & Hx). rewrite Ex in *. cbn [value_or] in H.
      vstep H (vreads_m8 (to_unsigned 8 x)).
      vstep H (vreads_u16 _ Hlo). vstep H (vreads_u16 _ Hup). vlast H (vreads_m16 (vec_size (b_effects b))).
      unfold to_unsigned. change (2 ^ Z.of_nat 8) with 256. rewrite Z.mod_mod by lia.
      unfold nbits in Hx. change (2 ^ 8) with 256 in Hx. rewrite Z.mod_small by lia. reflexivity.
    + cbn [obind app] in *. rewrite Hbl.
      vstep H (vreads_u16 _ Hlo). vstep H (vreads_u16 _ Hup). vlast H (vreads_m16 (vec_size (b_effects b))).
      reflexivity.
Qed.

(** *** The library packet *)

Lemma vec_set_map_nth {A} (f : A -> A) l : forall n x, nth_error l n = Some x -> vec_set l n (f x) = map_nth f n l.
Proof.
  induction l as [|y l IH]; intros [|n] x H; cbn in *; try discriminate; [congruence|]. now rewrite (IH n x H).
Qed.
Lemma search_first h pid n p : first_at (fun p => p_id p = pid) (h_perceptions h) n p ->
  searchPerceptionInHaptic h pid = Z.of_nat n.
Proof.
  intros (Hn & Hp & Hb). unfold searchPerceptionInHaptic. rewrite (index_of_nth _ _ 0 p n Hn); [lia|lia|].
  intros m q Hm Hq. specialize (Hb m q Hm Hq). cbn in Hb. lia.
Qed.

Lemma library_packet p : nbits 8 (p_id p) -> Forall (effect_ok known_semantic) (p_library p) ->
  vec_size (p_library p) < 65536 ->
  exists b, writeLibrary p = Ok b /\ forall fuel, (library_depth (p_library p) <= fuel)%nat ->
    exists lib, Forall2 effect_sent (p_library p) lib /\ forall h n q rest,
      first_at (fun q => p_id q = p_id p) (h_perceptions h) n q ->
      readLibrary fuel h (b ++ rest)
      = Ok (Some (set_perceptions (map_nth (fun q => set_library (p_library q ++ lib) q) n (h_perceptions h)) h)).
Proof.
  intros Hi Hok Hn.
  assert (HM : forall fuel, (library_depth (p_library p) <= fuel)%nat -> exists b ys,
     writeMany writeLibraryEffect (p_library p) = Ok b /\
     vreads (readMany (readLibraryEffect fuel) (length (p_library p))) b ys /\ Forall2 effect_sent (p_library p) ys).
  { intros fuel Hf. apply vreads_many.
    assert (Hd : Forall (fun x => depth x <= fuel)%nat (p_library p)).
    { apply (proj1 (Forall_map depth (fun d => (d <= fuel)%nat) _)), fold_max_le. exact Hf. }
    clear - Hok Hd. induction (p_library p) as [|x l IHl]; constructor; inversion Hok; inversion Hd; subst; auto.
    apply vreads_lib_effect; assumption. }
  destruct (HM _ (le_n _)) as (b & _ & Hw & _).
  eexists. split; [unfold writeLibrary; rewrite Hw; reflexivity|].
  intros fuel Hf. destruct (HM fuel Hf) as (b' & lib & Hw' & Hr & HR). rewrite Hw in Hw'. injection Hw' as <-.
  exists lib. split; [exact HR|]. intros h n q rest Hq.
  match goal with |- context [(?b ++ rest)%list] => pose proof (at_0 b rest) as H end.
  revert H. match goal with |- context [(?b ++ rest)%list] => generalize (b ++ rest)%list end. intros bs H.
  unfold readLibrary. vstep H (vreads_u8 _ Hi). rewrite (search_first h _ n q Hq).
  destruct (Z.eqb_spec (Z.of_nat n) (-1)); [lia|]. destruct Hq as (Hnth & _ & _).
  rewrite (vec_at_nth _ _ _ Hnth). cbn [obind].
  vstep H (vreads_u16 _ (nbits16_size _ Hn)). rewrite vec_size_nat. vlast H Hr.
  unfold replacePerceptionAt.
  assert (Hlen : (n < length (h_perceptions h))%nat) by (apply nth_error_Some; congruence).
  replace ((Z.of_nat n <? 0) || (Z.of_nat n >=? vec_size (h_perceptions h))) with false by (unfold vec_size; lia).
  cbn [snd]. rewrite Nat2Z.id.
  now rewrite (vec_set_map_nth (fun q => set_library (p_library q ++ lib) q) _ n q Hnth).
Qed.

(** *** Bands, by the ids of perception and channel *)

Lemma search_channel_first h cid n p k c : nth_error (h_perceptions h) n = Some p ->
  first_at (fun c => c_id c = cid) (p_channels p) k c ->
  (forall m q, (m < n)%nat -> nth_error (h_perceptions h) m = Some q -> Forall (fun c => c_id c <> cid) (p_channels q)) ->
  searchChannelInHaptic h cid = Z.of_nat k.
Proof.
  unfold searchChannelInHaptic. intros Hn (Hk & Hc & Hb). revert n Hn.
  induction (h_perceptions h) as [|q l IH]; intros [|n] Hn Hbef; cbn [nth_error] in Hn; try discriminate.
  - injection Hn as ->. cbn [searchChannel].
    rewrite (index_of_nth _ _ 0 c k Hk) by (try lia; intros m y Hm Hy; specialize (Hb m y Hm Hy); cbn in Hb; lia).
    destruct (Z.eqb_spec (0 + Z.of_nat k) (-1)); lia.
  - cbn [searchChannel]. rewrite index_of_none.
    2:{ eapply Forall_impl; [|exact (Hbef 0%nat q ltac:(lia) eq_refl)]. cbn. intros x Hx. lia. }
    change (-1 =? -1) with true. cbn match. apply (IH n Hn). intros m x Hm Hx. apply (Hbef (S m) x); [lia|exact Hx].
Qed.

Lemma metadata_band_ids (b : band) (pid cid bid : Z) h rest n p k c :
  band_ok b -> nbits 8 pid -> nbits 16 cid -> nbits 8 bid ->
  first_at (fun p => p_id p = pid) (h_perceptions h) n p ->
  first_at (fun c => c_id c = cid) (p_channels p) k c ->
  (forall m q, (m < n)%nat -> nth_error (h_perceptions h) m = Some q -> Forall (fun c => c_id c <> cid) (p_channels q)) ->
  readMetadataBand h (writeMetadataBand pid cid bid b ++ rest)
  = Ok (Some (p, c, BandStream bid (Band (b_type b) (b_curve b) (b_block b) (b_low b) (b_up b) [] (b_prio b)) (-1))).
Proof.
  intros H1 H2 H3 H4 (Hn & Hp & Hb) Hc Hbef. apply (metadata_band b pid cid bid h rest n p c H1 H2 H3 H4 Hn Hp Hb).
  exists k. split; [eapply search_channel_first; eassumption|apply Hc].
Qed.

Lemma unknown_semantic s : ~ known_semantic s -> writeSemantic (Some s) = Throw.
Proof.
  intros H. cbn [writeSemantic]. destruct (semantic_code s) as [c| | |] eqn:E; try reflexivity.
  - exfalso. apply H. apply semantic_in_table in E. unfold semantic_table in E. apply in_map_iff in E.
    destruct E as ([n c'] & E & Hin). injection E as <- <-. exists n, c'. auto.
  - exfalso. revert E. unfold semantic_code. destruct (find _ _); discriminate.
  - exfalso. revert E. unfold semantic_code. destruct (find _ _); discriminate.
Qed.
