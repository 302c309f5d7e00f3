(** Proofs about reading arbitrary stream files: termination, and files that cannot be read safely. *)
From Coq Require Import Sorting.Sorted Sorting.Permutation.
From Verif Require Import Base BitsModel BitsProof FloatBase FloatModel TypesModel TypesSpec SemanticModel MetaModel BandModel DataModel CrcModel
  CrcProof StreamModel MetaSpec MetaProof DataSpec DataProof UnitSpec UnitProof.
Local Open Scope Z_scope.
Local Open Scope list_scope.
Ltac Zify.zify_post_hook ::= Z.div_mod_to_equations.

(** The outcome is not [NoFuel]. *)
Definition ends {A} (o : outcome A) : Prop := o <> NoFuel.
Lemma ends_bind {A B} (m : outcome A) (f : A -> outcome B) : ends m -> (forall a, m = Ok a -> ends (f a)) -> ends (obind m f).
Proof. destruct m; cbn; intros H K; try discriminate; [now apply K|now elim H]. Qed.
(** ... and a result is at an index that is not smaller. *)
Definition adv {A} (i : nat) (o : outcome (A * nat)) : Prop :=
  match o with Ok (_, j) => (i <= j)%nat | NoFuel => False | _ => True end.
Lemma adv_ends {A} i (o : outcome (A * nat)) : adv i o -> ends o.
Proof. destruct o; cbn; intros H; try discriminate; contradiction. Qed.
Lemma adv_le {A} i j (o : outcome (A * nat)) : (i <= j)%nat -> adv j o -> adv i o.
Proof. destruct o as [[a k]| | |]; cbn; intros; lia || auto. Qed.
Lemma adv_bind {A B} i (m : outcome (A * nat)) (f : A * nat -> outcome (B * nat)) :
  adv i m -> (forall a j, m = Ok (a, j) -> (i <= j)%nat -> adv j (f (a, j))) -> adv i (obind m f).
Proof.
  destruct m as [[a j]| | |]; cbn [adv obind]; intros H K; auto. apply (adv_le _ j); [exact H|]. now apply K.
Qed.
Lemma adv_bind0 {A B} i (m : outcome A) (f : A -> outcome (B * nat)) : ends m -> (forall a, m = Ok a -> adv i (f a)) -> adv i (obind m f).
Proof. destruct m; cbn [adv obind]; intros H K; auto. Qed.
Lemma adv_ok {A} i (a : A) j : (i <= j)%nat -> adv i (Ok (a, j)).
Proof. auto. Qed.

Lemma slice_ends bs i n : ends (slice bs i n).
Proof. unfold slice. now destruct (_ <=? _)%nat. Qed.
Lemma uint_step bs i n v j : readUInt bs i n = Ok (v, j) -> j = (i + n)%nat /\ (i + n <= length bs)%nat /\ (0 < n)%nat.
Proof.
  unfold readUInt, slice. destruct (Nat.leb_spec (i + n) (length bs)); cbn [obind]; [|discriminate].
  destruct (Nat.eqb_spec n 0); [discriminate|]. destruct (_ <=? _); [discriminate|]. intros E. injection E as _ <-. lia.
Qed.
Lemma uint_adv bs i n : adv i (readUInt bs i n).
Proof.
  unfold readUInt, slice. destruct (_ <=? _)%nat; cbn [obind]; [|exact I].
  destruct (_ =? _)%nat; [exact I|]. destruct (_ <=? _); cbn; auto. lia.
Qed.
Lemma int_adv bs i n : adv i (readInt bs i n).
Proof.
  unfold readInt. destruct bs as [|b bs]; [cbn; lia|].
  destruct (nth_error (b :: bs) i) as [[|]|]; cbn [adv]; auto.
  - apply adv_bind; [apply uint_adv|]. intros v j _ Hj. destruct (_ =? _); cbn; auto.
  - apply uint_adv.
Qed.
Lemma float_adv bs i n a b : adv i (readFloatBits bs i n a b).
Proof. unfold readFloatBits, slice. destruct (_ <=? _)%nat; cbn; auto. lia. Qed.
Lemma optfloat_adv p a b bs i : adv i (readOptFloat p a b bs i).
Proof. unfold readOptFloat. destruct p; [|cbn; lia]. apply adv_bind; [apply float_adv|]. intros; cbn; lia. Qed.
Lemma many_adv {A} (r : bits -> nat -> outcome (A * nat)) bs : forall n i, (forall j, (i <= j)%nat -> adv j (r bs j)) -> adv i (readMany r n bs i).
Proof.
  induction n; intros i H; cbn [readMany]; [cbn; lia|].
  apply adv_bind; [now apply H|]. intros x j _ Hj. apply adv_bind; [apply IHn; intros; apply H; lia|]. intros; cbn; lia.
Qed.
Lemma string_adv bs : forall n i, adv i (readStringBits bs i n).
Proof.
  induction n; intros i; cbn [readStringBits]; [cbn; lia|].
  repeat first [ progress cbn [obind] | apply uint_adv | apply adv_bind; [apply uint_adv|intros ? ? _ ?] | apply adv_bind0; [apply slice_ends|intros ? _]
    | apply adv_bind; [apply (adv_le _ (i + 8)); [lia|apply IHn]|intros ? ? _ ?] | cbn; lia
    | apply adv_bind; [apply IHn|intros ? ? _ ?] ].
Qed.
Lemma semantic_ends c : ends (semantic_name c).
Proof. unfold semantic_name. now destruct (find _ _). Qed.
Ltac adv_step :=
  match goal with
  | |- adv _ (obind (readUInt _ _ _) _) => apply adv_bind; [apply uint_adv|intros ? ? _ ?]
  | |- adv _ (obind (readInt _ _ _) _) => apply adv_bind; [apply int_adv|intros ? ? _ ?]
  | |- adv _ (obind (readFloatBits _ _ _ _ _) _) => apply adv_bind; [apply float_adv|intros ? ? _ ?]
  | |- adv _ (obind (readOptFloat _ _ _ _ _) _) => apply adv_bind; [apply optfloat_adv|intros ? ? _ ?]
  | |- adv _ (obind (slice _ _ _) _) => apply adv_bind0; [apply slice_ends|intros ? _]
  | |- adv _ (obind (semantic_name _) _) => apply adv_bind0; [apply semantic_ends|intros ? _]
  | |- adv _ (obind (if ?b then _ else _) _) => apply adv_bind; [destruct b|intros [] ? _ ?]
  | |- adv _ (obind (readMany _ _ _ _) _) => apply adv_bind; [apply many_adv; intros|intros ? ? _ ?]
  | |- adv _ (if ?b then _ else _) => destruct b
  | |- adv _ (let '(_, _) := ?p in _) => destruct p
  | |- adv _ (match ?p with _ => _ end) => destruct p
  | |- adv _ (readUInt _ _ _) => apply uint_adv
  | |- adv _ (Ok (_, _)) => apply adv_ok; lia
  | |- adv _ UB => exact I
  | |- adv _ Throw => exact I
  end.
Ltac adv_all := repeat adv_step.

Lemma sized_adv bs i : adv i (readSized bs i).
Proof. unfold readSized. apply adv_bind; [apply uint_adv|intros]. apply string_adv. Qed.
Ltac adv_step2 := first [ adv_step | match goal with |- adv _ (obind (readSized _ _) _) => apply adv_bind; [apply sized_adv|intros ? ? _ ?] end ].
Lemma avatar_adv bs i : adv i (readAvatar bs i).
Proof. unfold readAvatar. repeat adv_step2. Qed.
Lemma device_adv bs i : adv i (readReferenceDevice bs i).
Proof.
  unfold readReferenceDevice. do 3 adv_step2. adv_step.
  do 13 (match goal with |- adv _ (match ?l with _ => _ end) => destruct l end; try exact I).
  apply (adv_le _ (j1 + 12)); [lia|]. repeat (adv_step || (apply adv_bind; [match goal with |- adv _ (if ?b then _ else _) => destruct b end; adv_all|intros ? ? _ ?])).
Qed.
Lemma semantic_adv bs i : adv i (readSemantic bs i).
Proof. unfold readSemantic. adv_all. Qed.
Lemma lib_kf_adv bs i : adv i (readLibraryKeyframe bs i).
Proof.
  unfold readLibraryKeyframe. adv_step.
  do 3 (apply adv_bind; [match goal with |- adv _ (if ?b then _ else _) => destruct b end; adv_all|intros ? ? _ ?]). adv_all.
Qed.
Lemma lib_adv bs : forall fuel i, (0 < fuel)%nat -> (length bs < fuel + i)%nat -> adv i (readLibraryEffect fuel bs i).
Proof.
  induction fuel; intros i H0 H; [lia|]. cbn [readLibraryEffect].
  apply adv_bind; [apply uint_adv|]. intros id j Hid Hj. destruct (uint_step _ _ _ _ _ Hid) as [-> [Hlen _]].
  adv_step. apply adv_bind; [apply semantic_adv|intros ? ? _ ?]. adv_step.
  apply adv_bind; [match goal with |- adv _ (if ?b then _ else _) => destruct b end; adv_all|].
  intros [ph b] ? _ ?. adv_step. apply adv_bind; [apply many_adv; intros; apply lib_kf_adv|intros ? ? _ ?]. adv_step.
  apply adv_bind; [apply many_adv; intros; apply IHfuel; lia|intros ? ? _ ?]. adv_all.
Qed.
Lemma vec_at_ends {A} (l : list A) i : ends (vec_at l i).
Proof. unfold vec_at. destruct (_ <? _); [discriminate|]. now destruct (nth_error _ _). Qed.
Lemma update_at_ends {A} (l : list A) i f : (forall x, ends (f x)) -> ends (update_at l i f).
Proof. intros H. unfold update_at. apply ends_bind; [apply vec_at_ends|intros x _]. apply ends_bind; [apply H|]. discriminate. Qed.
Lemma upd_perc_ends h i f : (forall x, ends (f x)) -> ends (update_perception h i f).
Proof. intros H. unfold update_perception. apply ends_bind; [now apply update_at_ends|]. discriminate. Qed.
Lemma upd_chan_ends h i j f : (forall x, ends (f x)) -> ends (update_channel h i j f).
Proof. intros H. apply upd_perc_ends. intros x. apply ends_bind; [now apply update_at_ends|]. discriminate. Qed.
Lemma upd_band_ends h i j k f : (forall x, ends (f x)) -> ends (update_band h i j k f).
Proof. intros H. apply upd_chan_ends. intros x. apply ends_bind; [now apply update_at_ends|]. discriminate. Qed.
Lemma uint_ends bs i n : ends (readUInt bs i n).
Proof. exact (adv_ends _ _ (uint_adv bs i n)). Qed.
Ltac rd := match goal with
  | |- ends (obind (readUInt _ _ _) _) => apply ends_bind; [apply uint_ends|intros [? ?] _]
  | |- ends (obind (readSized _ _) _) => apply ends_bind; [apply (adv_ends _ _ (sized_adv _ _))|intros [? ?] _]
  | |- ends (obind (readFloatBits _ _ _ _ _) _) => apply ends_bind; [apply (adv_ends _ _ (float_adv _ _ _ _ _))|intros [? ?] _]
  | |- ends (obind (vec_at _ _) _) => apply ends_bind; [apply vec_at_ends|intros ? _]
  | |- ends (if ?b then _ else _) => destruct b
  | |- ends (Ok _) => discriminate
  | |- ends UB => discriminate
  | |- ends Throw => discriminate
  end.
Lemma vector_adv bs i : adv i (readVectorBits bs i).
Proof. unfold readVectorBits. adv_all. Qed.
Lemma haptics_ends h bs : ends (readMetadataHaptics h bs).
Proof. unfold readMetadataHaptics. repeat rd. apply ends_bind; [apply (adv_ends n5), many_adv; intros; apply avatar_adv|]. intros [? ?] _. discriminate. Qed.
Lemma perception_ends bs : ends (readMetadataPerception bs).
Proof.
  unfold readMetadataPerception. repeat rd.
  apply ends_bind.
  - destruct (_ =? _); [|discriminate]. repeat rd.
  - intros [? ?] _. repeat rd. apply ends_bind; [eapply adv_ends, many_adv; intros; apply device_adv|]. intros [? ?] _. repeat rd.
Qed.
Lemma channel_ends h bs : ends (readMetadataChannel h bs).
Proof.
  unfold readMetadataChannel. repeat rd. apply ends_bind.
  - destruct (Z.testbit _ _); [|destruct (Z.testbit _ _)].
    + repeat rd.
    + apply ends_bind; [eapply adv_ends, vector_adv|intros [? ?] _]. repeat rd.
      apply ends_bind; [eapply adv_ends, many_adv; intros; apply uint_adv|intros [? ?] _]. repeat rd.
      apply ends_bind; [eapply adv_ends, many_adv; intros; apply vector_adv|intros [? ?] _]. repeat rd.
    + discriminate.
  - intros [[[? ?] [? ?]] ?] _. repeat rd. apply ends_bind.
    + repeat rd.
    + intros [[? ?] ?] _. apply ends_bind; [destruct (Z.testbit _ _); [|discriminate]; apply ends_bind; [eapply adv_ends, vector_adv|intros [? ?] _; discriminate]|].
      intros [? ?] _. repeat rd. apply ends_bind; [eapply adv_ends, many_adv; intros; apply uint_adv|intros [? ?] _]. repeat rd.
Qed.
Lemma band_ends h bs : ends (readMetadataBand h bs).
Proof.
  unfold readMetadataBand. repeat rd. apply ends_bind.
  - repeat rd.
  - intros [[? ?] ?] _. repeat rd.
Qed.
Lemma amp_adv bs i : adv i (readAmplitude bs i).
Proof. apply float_adv. Qed.
Lemma keyframe_adv t r bs i : readKeyframe t = Some r -> adv i (r bs i).
Proof.
  unfold readKeyframe. repeat (destruct (_ =? _)); intros E; try discriminate; injection E as <-.
  - unfold readTransient. apply adv_bind; [apply amp_adv|intros ? ? _ ?]. adv_all.
  - unfold readCurve. apply adv_bind; [apply amp_adv|intros ? ? _ ?]. adv_all.
  - unfold readVectorial. adv_step. apply adv_bind; [destruct (Z.testbit _ _); [apply adv_bind; [apply amp_adv|intros; cbn; lia]|adv_all]|intros ? ? _ ?].
    adv_step. apply adv_bind; [destruct (Z.testbit _ _); adv_all|intros ? ? _ ?]. adv_all.
Qed.
Lemma effect_ends t bs i : ends (readEffect t bs i).
Proof.
  unfold readEffect. repeat rd. apply ends_bind; [eapply adv_ends, int_adv|intros [? ?] _]. rd; [|discriminate].
  unfold readEffectBasis. apply ends_bind; [eapply adv_ends, semantic_adv|intros [? ?] _]. repeat rd.
  apply ends_bind; [repeat rd|]. intros [[? ?] ?] _. destruct (readKeyframe t) eqn:E; [|repeat rd].
  apply ends_bind; [eapply adv_ends, many_adv; intros; now apply (keyframe_adv t)|intros [? ?] _]. discriminate.
Qed.
Lemma effects_ends t bs : forall n i, ends (readEffects t n bs i).
Proof.
  induction n; intros i; cbn [readEffects]; [discriminate|].
  apply ends_bind; [apply effect_ends|]. intros [[e|] j] _; [|discriminate]. apply ends_bind; [apply IHn|]. intros [? ?] _. discriminate.
Qed.
Lemma wavelet_ends ts b bs i : ends (readWaveletEffect ts b bs i).
Proof.
  unfold readWaveletEffect. repeat rd. apply ends_bind; [eapply adv_ends, semantic_adv|intros [? ?] _].
  destruct (b_block b); [|discriminate]. repeat rd. apply ends_bind; [eapply adv_ends, many_adv; intros; apply uint_adv|intros [? ?] _]. discriminate.
Qed.
Lemma data_ends r bs : ends (readData r bs).
Proof.
  unfold readData. repeat rd. apply ends_bind.
  - rd; [apply ends_bind; [apply effects_ends|intros [? ?] _; discriminate]|apply ends_bind; [apply wavelet_ends|intros [? ?] _; discriminate]].
  - intros [[l|] ?] _; [|discriminate]. apply ends_bind; [apply upd_band_ends; discriminate|]. discriminate.
Qed.
Lemma readcrc_ends p t : ends (readCRC p t).
Proof. unfold readCRC. destruct t; repeat rd. Qed.
Lemma packet_ends fuel bs r crc : (length bs < fuel)%nat -> ends (readMIHSPacket fuel bs r crc).
Proof.
  intros Hf. unfold readMIHSPacket. do 2 rd. destruct (_ <? _)%nat; [discriminate|].
  rd. { unfold readTiming. apply ends_bind; [repeat rd|]. discriminate. }
  rd. { apply ends_bind; [apply haptics_ends|]. discriminate. }
  rd. { apply ends_bind; [apply perception_ends|]. discriminate. }
  rd. { apply ends_bind; [|intros [?|] _; discriminate]. unfold readLibrary. repeat rd. apply ends_bind; [|intros [? ?] _; discriminate].
        eapply adv_ends, many_adv. intros. apply lib_adv; [lia|]. rewrite skipn_length. lia. }
  rd. { apply ends_bind; [apply channel_ends|]. intros [[? ?]|] _; [|discriminate]. apply ends_bind; [|discriminate].
        apply upd_perc_ends. discriminate. }
  rd. { apply ends_bind; [apply band_ends|]. intros [[[? ?] ?]|] _; [|discriminate]. apply ends_bind; [|discriminate].
        unfold receiveBand. repeat rd; (apply ends_bind; [apply upd_chan_ends; discriminate|discriminate]). }
  rd. { apply ends_bind; [apply data_ends|]. intros [? ?] _. discriminate. }
  do 4 (rd; [apply ends_bind; [apply readcrc_ends|discriminate]|]).
  rd; [|discriminate]. unfold readInitializationTiming. apply ends_bind; [repeat rd|]. discriminate.
Qed.
(** The stated length of a packet. *)
Lemma packet_len fuel bs r crc ok r' crc' len : readMIHSPacket fuel bs r crc = Ok (ok, r', crc', len) -> (24 <= length bs)%nat /\ len = 8 * field 6 17 bs.
Proof.
  intros H. unfold readMIHSPacket in H.
  destruct (readUInt bs 0 6) as [[type ?]| | |]; try discriminate. cbn [obind] in H.
  destruct (readUInt bs 6 17) as [[l k]| | |] eqn:E; try discriminate. cbn [obind] in H.
  destruct (uint_step _ _ _ _ _ E) as (-> & Hl & _). rewrite field_read in E by lia. injection E as <-.
  destruct (Nat.ltb_spec (length bs) 24); [discriminate|]. split; [lia|].
  repeat match type of H with
  | (if ?b then _ else _) = _ => destruct b
  | (obind ?o _) = _ => destruct o; try discriminate; cbn [obind] in H
  | (let '(_, _) := ?p in _) = _ => destruct p
  | (match ?p with _ => _ end) = _ => destruct p
  end; try discriminate; injection H as _ _ _ <-; lia.
Qed.
Lemma packets_end fuel unit L : (length unit < fuel)%nat -> forall n index r crc, 0 <= index <= vec_size unit -> vec_size unit < Z.of_nat n + index ->
  ends (readPackets n fuel unit index L r crc).
Proof.
  intros Hf. induction n; intros index r crc Hi Hn; cbn [readPackets]; [lia|].
  destruct (index <? L); [|discriminate].
  apply ends_bind; [apply packet_ends; rewrite skipn_length; lia|]. intros [[[ok r'] crc'] len] E.
  destruct (packet_len _ _ _ _ _ _ _ _ E) as [_ ->]. pose proof (field_nonneg 6 17 (skipn (Z.to_nat index) unit)).
  destruct ok; [|discriminate]. destruct (Z.ltb_spec (vec_size unit) (index + 8 * field 6 17 (skipn (Z.to_nat index) unit) + 24)); [discriminate|].
  apply IHn; lia.
Qed.
Lemma unit_ends fuel unit r crc : (length unit < fuel)%nat -> ends (readMIHSUnit fuel unit r crc).
Proof.
  intros Hf. unfold readMIHSUnit. do 5 rd.
  match goal with |- ends (if ?b then _ else _) => destruct b eqn:E end; [discriminate|].
  apply ends_bind; [|intros [[[] ?] ?] _; discriminate]. apply packets_end; [exact Hf| |]; unfold vec_size; lia.
Qed.
Lemma check_ends l crc : ends (checkCRC l crc).
Proof.
  unfold checkCRC. destruct (_ <? _); [discriminate|]. destruct (_ <? _); [|destruct (_ <? _); [|discriminate]];
  rewrite computeCRC_ok by (cbn; lia); cbn [obind]; (apply ends_bind; [apply uint_ends|intros [? ?] _]); discriminate.
Qed.
Lemma units_end fuel all : forall us r crc, Forall (fun u => (length u < fuel)%nat) us -> ends (readUnits fuel all us r crc).
Proof.
  induction us as [|u us IH]; intros r crc H; cbn [readUnits]; [discriminate|]. inversion H as [|? ? Hu Hus]; subst.
  apply ends_bind; [now apply unit_ends|]. intros [[? ?] ?] _. destruct (negb _); [|now apply IH].
  apply ends_bind; [apply check_ends|]. intros [? ?] _. now apply IH.
Qed.
Lemma to_signed_ge0 v : 0 <= v -> forall x, to_signed 32 v = x -> x < 2 ^ 31.
Proof. intros _ x <-. unfold to_signed. cbn. lia. Qed.
Lemma load_ends L : L < 2 ^ 31 - 9 -> forall fuel file count, 0 <= count -> L < Z.of_nat fuel + count -> (0 < fuel)%nat -> ends (loadUnits fuel file count L).
Proof.
  intros HL. induction fuel; intros file count Hc H Hf; [lia|]. cbn [loadUnits].
  destruct (Z.ltb_spec count L); [|discriminate]. destruct (readNBytes file 9) as [hd f1].
  apply ends_bind; [apply uint_ends|]. intros [n i] E.
  assert (Hn : n < 2 ^ 31).
  { unfold readUInt in E. destruct (slice _ _ _); try discriminate. cbn [obind] in E. cbn [Nat.eqb] in E. destruct (_ <=? _); [discriminate|]. injection E as <- _. unfold to_signed. cbn. lia. }
  destruct (Z.ltb_spec n 0); [discriminate|]. destruct (readNBytes f1 (Z.to_nat n)) as [pay f2].
  apply ends_bind; [|discriminate].
  assert (Ew : to_unsigned 32 (count + 9 + n) = count + 9 + n) by (unfold to_unsigned; apply Z.mod_small; cbn; lia). rewrite Ew.
  destruct fuel; [|apply IHfuel; lia]. 
  lia.
Qed.
Lemma stream_ends file : Z.of_nat (length file) < 2 ^ 31 - 9 -> exists n, forall fuel, (n <= fuel)%nat -> readStream fuel file <> NoFuel.
Proof.
  intros H. destruct (loadFile file) as [us| | |] eqn:E.
  - exists (S (list_max (map (@length bool) us))). intros fuel Hf. unfold readStream. rewrite E. cbn [obind].
    apply ends_bind; [|discriminate]. apply units_end. apply Forall_forall. intros u Hu.
    pose proof (list_max_le (map (@length bool) us) (list_max (map (@length bool) us))) as [M _].
    specialize (M (le_n _)). rewrite Forall_forall in M. specialize (M _ (in_map _ _ _ Hu)). lia.
  - exists O. intros. unfold readStream. rewrite E. discriminate.
  - exists O. intros. unfold readStream. rewrite E. discriminate.
  - exfalso. unfold loadFile in E. revert E. apply load_ends; lia.
Qed.

(** *** Files that cannot be read safely *)
Lemma skipn_skipn {A} (l : list A) : forall k i, skipn i (skipn k l) = skipn (i + k) l.
Proof. induction l; intros k i; [now rewrite !skipn_nil|]. destruct k; [now rewrite Nat.add_0_r|]. rewrite Nat.add_succ_r. cbn [skipn]. apply IHl. Qed.
Lemma field_skipn k i n b : field i n (skipn k b) = field (k + i) n b.
Proof. unfold field. rewrite skipn_skipn. now rewrite (Nat.add_comm i k). Qed.
Lemma field_bound i n b : field i n b < 2 ^ Z.of_nat n.
Proof.
  unfold field. pose proof (bits_val_bound (firstn n (skipn i b))) as H.
  pose proof (firstn_le_length n (skipn i b)). eapply Z.lt_le_trans; [apply H|]. apply Z.pow_le_mono_r; lia.
Qed.
Lemma field_32 i b : (i + 32 <= length b)%nat -> readUInt b i 32 = Ok (to_signed 32 (field i 32 b), (i + 32)%nat).
Proof.
  intros H. unfold readUInt, slice. destruct (Nat.leb_spec (i + 32) (length b)); [|lia]. cbn [obind Nat.eqb].
  fold (field i 32 b). pose proof (field_bound i 32 b). destruct (Z.leb_spec (2 ^ 64) (field i 32 b)); [|reflexivity].
  change (Z.of_nat 32) with 32 in *. assert (2 ^ 32 < 2 ^ 64) by reflexivity. lia.
Qed.
Lemma timing_ok r bs : (32 <= length bs)%nat -> sr_timescale r <> 0 -> exists r', readTiming r bs = Ok r'.
Proof.
  intros H H0. unfold readTiming. rewrite field_32 by lia. cbn [obind]. destruct (Z.eqb_spec (sr_timescale r) 0); [contradiction|]. eauto.
Qed.
Lemma timing_packet fuel bs r crc : (56 <= length bs)%nat -> sr_timescale r <> 0 -> field 0 6 bs = TimingP ->
  exists r', readMIHSPacket fuel bs r crc = Ok (true, r', crc, 8 * field 6 17 bs).
Proof.
  intros Hl H0 Ht. destruct (timing_ok r (skipn 24 bs)) as [r' E]; [rewrite skipn_length; lia|exact H0|].
  exists r'. unfold readMIHSPacket. rewrite !field_read by lia. cbn [obind]. rewrite Ht.
  destruct (Nat.ltb_spec (length bs) 24); [lia|]. cbn [Z.eqb TimingP]. rewrite E. cbn [obind]. now rewrite Z.mul_comm.
Qed.
Lemma unit_open fuel u r crc : framed_unit u ->
  readMIHSUnit fuel u r crc =
    do '(ok, r, crc) <- readPackets (S (length u)) fuel u 72 (8 * field 36 32 u) (enter u r) crc;
    if ok then
      Ok (true, SReader (sr_haptic r) (sr_bands r) (to_unsigned 32 (sr_time r + sr_duration r)) (sr_timescale r)
                  (sr_duration r) (sr_wait r), crc)
    else Ok (false, r, crc).
Proof.
  intros [Hu Hb]. pose proof (field_nonneg 36 32 u).
  unfold readMIHSUnit. rewrite !field_read by lia. cbn [obind Nat.add].
  rewrite (field_read 6 2) by lia. cbn [obind Nat.add]. rewrite (field_read 8 4) by lia. cbn [obind Nat.add].
  rewrite (field_read 12 24) by lia. cbn [obind Nat.add].
  rewrite field_read32 by lia. cbn [obind].
  match goal with |- (if ?b then _ else _) = _ => destruct b eqn:E end; [lia|].
  rewrite (Z.mul_comm (field 36 32 u) 8). unfold enter.
  replace (if sr_wait r && (field 6 2 u =? 0) then false else sr_wait r) with (sr_wait r && negb (field 6 2 u =? 0)); [reflexivity|].
  destruct (sr_wait r), (field 6 2 u =? 0); reflexivity.
Qed.
Lemma stream_open fuel u us : Forall framed_unit (u :: us) -> vec_size (concat (u :: us)) < 2 ^ 35 ->
  readMIHSUnit fuel u initializeStream (Crc 0 0 0) = UB -> readStream fuel (writeBitset (concat (u :: us))) = UB.
Proof. intros H Hs E. unfold readStream. rewrite (load_file _ H Hs). cbn [obind readUnits]. now rewrite E. Qed.
Lemma overlong fuel u us : Forall framed_unit (u :: us) -> vec_size (concat (u :: us)) < 2 ^ 35 ->
  9 < field 36 32 u -> field 72 6 u = TimingP -> field 36 32 u < 3 + field 78 17 u -> readStream fuel (writeBitset (concat (u :: us))) = UB.
Proof.
  intros H Hs H9 Ht Hl. apply stream_open; auto. inversion H as [|? ? Hu _]; subst. rewrite unit_open by exact Hu.
  cbn [readPackets]. destruct (Z.ltb_spec 72 (8 * field 36 32 u)); [|lia]. destruct Hu as [Hu _].
  destruct (timing_packet fuel (skipn 72 u) (enter u initializeStream) (Crc 0 0 0)) as [r' E];
    [rewrite skipn_length; lia|discriminate|rewrite field_skipn; exact Ht|].
  change (Z.to_nat 72) with 72%nat. rewrite E. cbn [obind]. rewrite field_skipn. change (72 + 6)%nat with 78%nat.
  destruct (Z.ltb_spec (vec_size u) (72 + 8 * field 78 17 u + 24)); [reflexivity|]. unfold vec_size in *. lia.
Qed.
Lemma zero_timescale fuel u us : Forall framed_unit (u :: us) -> vec_size (concat (u :: us)) < 2 ^ 35 ->
  field 72 6 u = InitializationTimingP -> field 78 17 u = 15 -> field 128 32 u = 0 ->
  field 216 6 u = TimingP -> 27 < field 36 32 u -> readStream fuel (writeBitset (concat (u :: us))) = UB.
Proof.
  intros H Hs H72 H78 H128 H216 Hl. apply stream_open; auto. inversion H as [|? ? Hu _]; subst. rewrite unit_open by exact Hu.
  destruct Hu as [Hu _]. cbn [readPackets]. destruct (Z.ltb_spec 72 (8 * field 36 32 u)); [|lia].
  change (Z.to_nat 72) with 72%nat.
  assert (Hlen : length (skipn 72 u) = (length u - 72)%nat) by apply skipn_length.
  assert (E : exists r', readMIHSPacket fuel (skipn 72 u) (enter u initializeStream) (Crc 0 0 0) = Ok (true, r', Crc 0 0 0, 120) /\ sr_timescale r' = 0).
  { unfold readMIHSPacket. rewrite !field_read by lia. cbn [obind]. rewrite !field_skipn. change (72 + 0)%nat with 72%nat. change (72 + 6)%nat with 78%nat.
    rewrite H72, H78. destruct (Nat.ltb_spec (length (skipn 72 u)) 24); [lia|].
    cbn [Z.eqb TimingP MetadataHapticsP MetadataPerceptionP EffectLibraryP MetadataChannelP MetadataBandP DataP CRC16P CRC32P GlobalCRC16P GlobalCRC32P InitializationTimingP Pos.eqb].
    rewrite skipn_skipn. change (24 + 72)%nat with 96%nat.
    assert (Hl96 : length (skipn 96 u) = (length u - 96)%nat) by apply skipn_length.
    unfold readInitializationTiming. rewrite field_32 by lia. cbn [obind Nat.add]. rewrite field_32 by lia. cbn [obind Nat.add].
    rewrite !field_read by lia. cbn [obind Nat.add]. rewrite field_read by lia. cbn [obind Nat.add]. rewrite field_read by lia. cbn [obind Nat.add].
    eexists. split; [reflexivity|]. cbn [sr_timescale]. rewrite field_skipn. change (96 + 32)%nat with 128%nat. rewrite H128. reflexivity. }
  destruct E as (r' & E & Er'). rewrite E. cbn [obind].
  destruct (Z.ltb_spec (vec_size u) (72 + 120 + 24)); [reflexivity|].
  change (72 + 120 + 24) with 216. destruct (length u) as [|n] eqn:El; [unfold vec_size in *; lia|]. cbn [readPackets].
  destruct (Z.ltb_spec 216 (8 * field 36 32 u)); [|lia].
  assert (E2 : readMIHSPacket fuel (skipn (Z.to_nat 216) u) r' (Crc 0 0 0) = UB).
  { change (Z.to_nat 216) with 216%nat. assert (Hl216 : length (skipn 216 u) = (S n - 216)%nat) by (rewrite skipn_length; lia).
    unfold readMIHSPacket. rewrite !field_read by lia. cbn [obind]. rewrite !field_skipn. change (216 + 0)%nat with 216%nat. rewrite H216.
    destruct (Nat.ltb_spec (length (skipn 216 u)) 24); [lia|]. cbn [Z.eqb TimingP].
    unfold readTiming. rewrite field_32 by (rewrite skipn_length; lia). cbn [obind]. rewrite Er'. reflexivity. }
  rewrite E2. reflexivity.
Qed.
