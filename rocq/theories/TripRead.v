(** Reading the data units. *)
From Coq Require Import Sorting.Sorted Sorting.Permutation Reals.
From Verif Require Import Base BitsModel BitsProof FloatBase FloatModel TypesModel TypesSpec TypesProof MetaModel BandModel DataModel CrcModel StreamModel
  MetaSpec VecReads MetaProof DataSpec DataProof MergeProof DataTop UnitSpec UnitProof StreamSpec StreamProof TripSpec TripInit TripData.
Local Open Scope Z_scope.
Local Open Scope list_scope.

(** *** The bands that are not changed *)
Lemma ids_map_nth f ci l : map c_id (map_nth (fun c => set_bands (f c) c) ci l) = map c_id l.
Proof. revert ci. induction l as [|c l IH]; intros [|ci]; cbn [map_nth map]; [reflexivity..| |]; [now rewrite id_bands|now rewrite IH]. Qed.
Lemma not_ids ad l m : map c_id m = map c_id l -> Forall (fun c => c_id c <> ad) l -> Forall (fun c => c_id c <> ad) m.
Proof.
  intros E H. apply Forall_forall. intros c Hc Hid. apply (in_map c_id) in Hc. rewrite E in Hc. apply in_map_iff in Hc. destruct Hc as (c' & E' & Hc').
  rewrite Forall_forall in H. apply (H c' Hc'). congruence.
Qed.
Lemma found_other r ad pi ci bi b f pi' ci' bi' : found r ad pi ci bi b -> (pi, ci, bi) <> (pi', ci', bi') ->
  found (set_haptic (change_band f pi' ci' bi' (sr_haptic r)) r) ad pi ci bi b.
Proof.
  intros (p & c & k & Hp & Hc & Hbef & Hsb & Hb) Hne.
  set (F := fun c => set_bands (map_nth f bi' (c_bands c)) c). set (G := fun p => set_channels (map_nth F ci' (p_channels p)) p).
  exists (if (pi' =? pi)%nat then G p else p), (if (pi' =? pi)%nat then if (ci' =? ci)%nat then F c else c else c), k. cbv zeta.
  change (sr_bands (set_haptic (change_band f pi' ci' bi' (sr_haptic r)) r)) with (sr_bands r).
  change (h_perceptions (sr_haptic (set_haptic (change_band f pi' ci' bi' (sr_haptic r)) r))) with (map_nth G pi' (h_perceptions (sr_haptic r))).
  split; [|split; [|split; [|split; [exact Hsb|]]]].
  - exact (first_map_nth (fun p => p_id p = ad_perception ad) G _ _ _ pi' ltac:(intros []; reflexivity) Hp).
  - destruct (Nat.eqb_spec pi' pi); [|exact Hc]. unfold G. rewrite channels_set.
    exact (first_map_nth (fun c => c_id c = ad_channel ad) F _ _ _ ci' ltac:(intros []; reflexivity) Hc).
  - intros m q Hm Hq. destruct (Nat.eq_dec pi' m) as [->|Hn]; [|rewrite map_nth_other in Hq by exact Hn; exact (Hbef m q Hm Hq)].
    destruct (nth_error (h_perceptions (sr_haptic r)) m) as [q0|] eqn:E.
    + rewrite (map_nth_nth G _ _ _ E) in Hq. assert (Eq : q = G q0) by congruence. rewrite Eq. unfold G. rewrite channels_set.
      apply (not_ids _ (p_channels q0)); [apply ids_map_nth|exact (Hbef m q0 Hm E)].
    + exfalso. assert (Hl : (m < length (h_perceptions (sr_haptic r)))%nat) by (apply Nat.lt_trans with pi; [exact Hm|apply nth_error_Some; destruct Hp; congruence]).
      apply nth_error_Some in Hl. congruence.
  - destruct (Nat.eqb_spec pi' pi) as [->|Hn1]; [|exact Hb]. destruct (Nat.eqb_spec ci' ci) as [->|Hn2]; [|exact Hb]. unfold F. rewrite bands_set.
    rewrite map_nth_other; [exact Hb|]. intros E. apply Hne. congruence.
Qed.

(** *** Where the effects are taken out *)
Definition bare_c (c : channel) : channel := set_bands (map bare (c_bands c)) c.
Definition bare_p (p : perception) : perception := set_channels (map bare_c (p_channels p)) p.
Definition bare_h (h : haptics) : haptics := set_perceptions (map bare_p (h_perceptions h)) h.
Lemma map_map_nth {A B} (g : A -> B) (f : A -> A) l : forall n, (forall x, g (f x) = g x) -> map g (map_nth f n l) = map g l.
Proof. induction l as [|x l IH]; intros [|n] H; cbn [map_nth map]; [reflexivity..| |]; [now rewrite H|now rewrite IH]. Qed.
Lemma bare_change f pi ci bi h : (forall b, bare (f b) = bare b) -> bare_h (change_band f pi ci bi h) = bare_h h.
Proof.
  intros Hf. unfold bare_h, change_band. rewrite set_perceptions_twice, perceptions_set. f_equal. apply map_map_nth. intros p.
  unfold bare_p. rewrite set_channels_twice, channels_set. f_equal. apply map_map_nth. intros c.
  unfold bare_c. rewrite set_bands_twice, bands_set. f_equal. apply map_map_nth. exact Hf.
Qed.
Lemma bare_set l b : bare (set_effects l b) = bare b. Proof. destruct b; reflexivity. Qed.
Lemma bare_add es : forall b, bare (addEffectsToBand es b) = bare b.
Proof.
  unfold addEffectsToBand. induction es as [|e es IH]; intros b; [reflexivity|]. cbn [fold_left]. rewrite IH. unfold addEffectToBand, addEffect.
  destruct (_ && _) || idtac; repeat match goal with |- context [match ?x with Some _ => _ | None => _ end] => destruct x end; try apply bare_set;
   repeat match goal with |- context [if ?x then _ else _] => destruct x end; try apply bare_set; try reflexivity.
Qed.

(** *** One packet *)
Lemma next_packet bt pd ad L : 0 < pd -> in_sequence L -> forall n i p ps, Forall2 (packet_bits bt ad) (windows_from pd L i n) (p :: ps) ->
  exists j n', (j + S n' = i + n)%nat /\ (i <= j)%nat /\ let t := Z.of_nat j * pd in
    packet_bits bt ad (t, window t (t + pd) L) p /\ Forall2 (packet_bits bt ad) (windows_from pd L (S j) n') ps /\
    window 0 t L = window 0 (Z.of_nat i * pd) L.
Proof.
  intros Hpd Hseq. induction n as [|n IH]; intros i p ps H; [inversion H|]. unfold windows_from in H. cbn [seq map filter snd] in H. fold (windows_from pd L (S i) n) in H.
  destruct (window (Z.of_nat i * pd) (Z.of_nat i * pd + pd) L) as [|x xs] eqn:E.
  - destruct (IH (S i) p ps H) as (j & n' & E1 & E2 & H1 & H2 & H3). exists j, n'. split; [lia|]. split; [lia|]. cbv zeta in *. split; [exact H1|]. split; [exact H2|].
    rewrite H3. replace (Z.of_nat (S i) * pd) with (Z.of_nat i * pd + pd) by nia. apply window_skip; [exact Hseq|nia|exact E].
  - inversion H as [|? ? ? ? Hp Hps]; subst. exists i, n. split; [lia|]. split; [lia|]. cbv zeta. rewrite E. split; [exact Hp|]. split; [exact Hps|reflexivity].
Qed.

Definition lane_at (pd : Z) (m : nat) (r : sreader) (ds : list bits) (ln : lane) : Prop :=
  let '(pi, ci, bi) := la_place ln in let bt := b_type (la_band ln) in
  exists i n b, (i + n)%nat = m /\ found r (la_ad ln) pi ci bi b /\ bare b = bare (la_band ln) /\
    Forall2 (packet_bits bt (la_ad ln)) (windows_from pd (la_effects ln) i n) (filter (on (la_ad ln)) ds) /\
    Forall2 (data_sent bt) (window 0 (Z.of_nat i * pd) (la_effects ln)) (b_effects b).
Lemma bare_type b b' : bare b = bare b' -> b_type b = b_type b'.
Proof. intros H. apply (f_equal b_type) in H. destruct b, b'; exact H. Qed.

(** What stays the same while data is read. *)
Definition same_frame (r r' : sreader) : Prop :=
  bare_h (sr_haptic r') = bare_h (sr_haptic r) /\ sr_bands r' = sr_bands r /\ sr_time r' = sr_time r /\ sr_timescale r' = sr_timescale r /\
  sr_duration r' = sr_duration r /\ sr_wait r' = sr_wait r.
Lemma frame_refl r : same_frame r r. Proof. repeat split. Qed.
Lemma frame_trans a b c : same_frame a b -> same_frame b c -> same_frame a c.
Proof. unfold same_frame. intuition congruence. Qed.

Lemma data_accept fuel q r r' : field 0 6 q = DataP -> (24 <= length q)%nat ->
  (forall rest, readData r (skipn 24 q ++ rest) = Ok (true, r')) -> accepts fuel q r r'.
Proof.
  intros Ht Hl H rest crc. unfold readMIHSPacket. rewrite (field_read 0 6), (field_read 6 17) by (rewrite ?app_length; lia). cbn [obind].
  rewrite (field_app 0 6) by lia. rewrite Ht. match goal with |- context [(?a <? 24)%nat] => destruct (Nat.ltb_spec a 24) as [K|_]; [exfalso; rewrite app_length in K; lia|] end.
  cbv zeta. cbn [Z.eqb TimingP MetadataHapticsP MetadataPerceptionP EffectLibraryP MetadataChannelP MetadataBandP InitializationTimingP DataP CRC16P CRC32P GlobalCRC16P GlobalCRC32P Pos.eqb].
  rewrite skipn_app. replace (24 - length q)%nat with 0%nat by lia. change (skipn 0 rest) with rest. rewrite H. cbn [obind]. eexists. reflexivity.
Qed.

Lemma packet_step fuel pd m lanes p q ds r : 0 < pd -> Z.of_nat m * pd <= 2 ^ 31 -> Forall lane_ok lanes -> Forall (fun ln => address_ok (la_ad ln)) lanes ->
  NoDup (map key lanes) -> NoDup (map la_place lanes) -> Forall (lane_at pd m r (p :: ds)) lanes -> Exists (fun ln => on (la_ad ln) p = true) lanes ->
  sr_wait r = false -> sr_time r = stamp p -> data_packet p q ->
  exists r', accepts fuel q r r' /\ Forall (lane_at pd m r' ds) lanes /\ same_frame r r'.
Proof.
  intros Hpd Hm Hok Had Hkeys Hpl Hat Hex Hw Ht (Hq1 & Hq2 & pad & Hq3 & _). apply Exists_exists in Hex. destruct Hex as (ln & Hln & Hon).
  pose proof Hok as Hok0. pose proof Hat as Hat0. rewrite Forall_forall in Hok, Hat, Had. destruct (Hok ln Hln) as (Hdb & Ho & Hids & Hpos & Hseq & Hsz & Hdata).
  specialize (Hat ln Hln). specialize (Had ln Hln). unfold lane_at in Hat. destruct (la_place ln) as [[pi ci] bi] eqn:Epl.
  destruct Hat as (i & n & b & Ein & Hf & Hb & Hps & He). cbn [filter] in Hps. rewrite Hon in Hps.
  destruct (next_packet _ pd _ _ Hpd Hseq n i p _ Hps) as (j & n' & E1 & E2 & Hp & Hps' & Ew). cbv zeta in Hp. set (t := Z.of_nat j * pd) in *.
  assert (Hty : b_type b = b_type (la_band ln)) by (apply bare_type; exact Hb).
  assert (Htb : 0 <= t < 2 ^ 31) by (unfold t; nia).
  destruct (stamp_packet _ _ _ _ Hp ltac:(cbn [fst]; lia)) as [_ Est]. cbn [fst] in Est.
  destruct Hp as (au & body & es & Hau & Ep & Hv & HR & Hne & _). cbn [fst snd] in *.
  set (W := window t (t + pd) (la_effects ln)) in *.
  assert (HW : vec_size W < 65536) by (pose proof (window_length t (t + pd) (la_effects ln)); unfold W, vec_size in *; lia).
  destruct (merge_next (b_type (la_band ln)) (la_effects ln) Hids Hpos Hseq t (t + pd) (addTimestampEffect t es) b ltac:(lia) HR ltac:(rewrite Ew; exact He)) as (l & El & Hl).
  set (f := addEffectsToBand (addTimestampEffect t es)). set (r' := set_haptic (change_band f pi ci bi (sr_haptic r)) r).
  exists r'. split; [|split].
  - apply data_accept; [exact Hq2|pose proof (framed_long q Hq1); lia|]. intros rest. rewrite Hq3, Ep, skip_packet, <- (app_assoc _ pad rest).
    rewrite (read_data_ok (b_type (la_band ln)) r (la_ad ln) pi ci bi b t W au body es (pad ++ rest) Hf Hty Hdb Hw Htb ltac:(congruence) Had Hne HW Hau Hv). reflexivity.
  - apply Forall_forall. intros ln' Hln'. destruct (Z.eq_dec (key ln') (key ln)) as [Ek|Nk].
    + assert (ln' = ln).
      { clear - Hkeys Hln Hln' Ek. revert Hkeys Hln Hln' Ek. induction lanes as [|x l IH]; intros Hnd H1 H2 E; [destruct H1|]. cbn [map] in Hnd. inversion Hnd as [|? ? Hn Hnd']; subst.
        destruct H1 as [->|H1], H2 as [->|H2]; auto; exfalso; apply Hn; [rewrite <- E|rewrite E]; now apply in_map. }
      subst ln'. unfold lane_at. rewrite Epl. exists (S j), n', (f b). split; [lia|]. split; [apply found_change; exact Hf|]. split; [unfold f; rewrite bare_add; exact Hb|].
      split; [exact Hps'|]. unfold f. rewrite El. replace (Z.of_nat (S j) * pd) with (t + pd) by (unfold t; nia). destruct b; exact Hl.
    + rewrite Forall_forall in Hat0. specialize (Hat0 ln' Hln'). unfold lane_at in *. destruct (la_place ln') as [[pi' ci'] bi'] eqn:Epl'.
      destruct Hat0 as (i' & n0 & b' & F1 & F2 & F3 & F4 & F5). exists i', n0, b'. split; [exact F1|]. split.
      { apply found_other; [exact F2|]. intros E. apply Nk. f_equal. clear - Hpl Hln Hln' Epl Epl' E. rewrite <- Epl, <- Epl' in E. clear Epl Epl'. revert Hpl Hln Hln' E.
        induction lanes as [|x l IH]; intros Hnd H1 H2 E; [destruct H1|]. cbn [map] in Hnd. inversion Hnd as [|? ? Hn Hnd']; subst.
        destruct H1 as [->|H1], H2 as [->|H2]; auto; exfalso; apply Hn; [rewrite <- E|rewrite E]; now apply in_map. }
      split; [exact F3|]. split; [|exact F5]. cbn [filter] in F4. replace (on (la_ad ln') p) with false in F4; [exact F4|]. symmetry. unfold on in *. unfold key in Nk. lia.
  - split; [apply bare_change; intros x; apply bare_add|]. repeat split.
Qed.

Lemma packets_run fuel pd m lanes : 0 < pd -> Z.of_nat m * pd <= 2 ^ 31 -> Forall lane_ok lanes -> Forall (fun ln => address_ok (la_ad ln)) lanes ->
  NoDup (map key lanes) -> NoDup (map la_place lanes) -> forall group qs, Forall2 data_packet group qs -> forall ds r t,
  Forall (lane_at pd m r (group ++ ds)) lanes -> Forall (fun p => Exists (fun ln => on (la_ad ln) p = true) lanes) group ->
  sr_wait r = false -> sr_time r = t -> Forall (fun p => stamp p = t) group ->
  exists r', run fuel qs r r' /\ Forall (lane_at pd m r' ds) lanes /\ same_frame r r'.
Proof.
  intros Hpd Hm Hok Had Hkeys Hpl. induction 1 as [|p q group qs Hpq _ IH]; intros ds r t Hat Hex Hw Ht Hst.
  - exists r. split; [apply Run0|]. split; [exact Hat|apply frame_refl].
  - inversion Hex as [|? ? Hex1 Hex']; subst. inversion Hst as [|? ? Hst1 Hst']; subst.
    destruct (packet_step fuel pd m lanes p q (group ++ ds) r Hpd Hm Hok Had Hkeys Hpl Hat Hex1 Hw (eq_sym Hst1) Hpq) as (r1 & Ha & Hat1 & Hfr).
    destruct Hfr as (G1 & G2 & G3 & G4 & G5 & G6). destruct (IH ds r1 (sr_time r) Hat1 Hex' ltac:(congruence) G3 Hst') as (r2 & Hrun & Hat2 & Hfr2).
    exists r2. split; [eapply Run1; eassumption|]. split; [exact Hat2|]. eapply frame_trans; [|exact Hfr2]. repeat split; assumption.
Qed.

(** *** All units *)
Definition same_but_clock (r r' : sreader) : Prop :=
  bare_h (sr_haptic r') = bare_h (sr_haptic r) /\ sr_bands r' = sr_bands r /\ sr_timescale r' = sr_timescale r.
Lemma lane_at_same pd m r r' ds ln : sr_haptic r' = sr_haptic r -> sr_bands r' = sr_bands r -> lane_at pd m r ds ln -> lane_at pd m r' ds ln.
Proof.
  intros E1 E2. unfold lane_at. destruct (la_place ln) as [[pi ci] bi]. intros (i & n & b & H1 & H2 & H3). exists i, n, b. split; [exact H1|]. split; [|exact H3].
  unfold found in *. rewrite E1, E2. exact H2.
Qed.
Lemma last_data group qs : Forall2 data_packet group qs -> Forall (fun p : bits => (81 < length p)%nat) group -> group <> [] -> (72 < length (last qs []))%nat.
Proof.
  intros H Hl Hne. assert (Ha : Forall (fun q : bits => (72 < length q)%nat) qs).
  { clear Hne. induction H as [|p q group qs (_ & _ & pad & E & _) _ IH]; [constructor|]. inversion Hl; subst. constructor; [|apply IH; assumption].
    apply (f_equal (@length bool)) in E. rewrite app_length, !skipn_length in E. unfold bits in *. lia. }
  rewrite Forall_forall in Ha. apply Ha. apply last_in. destruct H; [congruence|discriminate].
Qed.
Lemma units_read fuel pd m lanes all init : 0 < pd < 2 ^ 24 -> Z.of_nat m * pd <= 2 ^ 31 -> Forall lane_ok lanes -> Forall (fun ln => address_ok (la_ad ln)) lanes ->
  NoDup (map key lanes) -> NoDup (map la_place lanes) -> forall t ds us, timeline pd init t ds us -> Forall (fun u => field 0 6 u <> InitializationU) us ->
  forall r, sr_time r = t -> 0 <= t -> sr_wait r = false -> Forall (lane_at pd m r ds) lanes ->
  Forall (fun p => data_ready pd p /\ Exists (fun ln => on (la_ad ln) p = true) lanes) ds ->
  exists r', readUnits fuel all us r (Crc 0 0 0) = Ok r' /\ Forall (lane_at pd m r' []) lanes /\ same_but_clock r r'.
Proof.
  intros Hpd Hm Hok Had Hkeys Hpl. induction 1 as [t|t u p ps us F1 F2 F3 F4 F5 HT IH|t u hd q ps us E Hl H1 H2 H3 HT IH|t u hd group qs ps us Hne Hst HF E Hl Hf H1 H2 HT IH];
    intros Hni r Ht H0 Hw Hat Hds.
  - exists r. split; [reflexivity|]. split; [exact Hat|repeat split].
  - inversion Hni as [|? ? _ Hni']; subst. inversion Hds as [|? ? ((Hs & _) & _) _]; subst.
    pose proof (read_unit fuel u [] r (Crc 0 0 0) F2) as HR. cbn [concat] in HR. rewrite app_nil_r in HR. specialize (HR F3 ltac:(constructor)).
    cbn [reached firstn hand_over obind] in HR. cbn [readUnits]. rewrite HR. cbn [obind]. change (negb (nbPackets (Crc 0 0 0) =? 0)) with false. cbv iota.
    assert (Ec : clock (sr_time r) u = sr_time r + field 12 24 u) by (unfold clock; rewrite F1; reflexivity).
    destruct (IH Hni' (tick (enter u r))) as (r' & R1 & R2 & R3).
    + unfold tick, enter. cbn [at_time sr_time sr_duration]. rewrite <- Ec, F5. apply Z.mod_small. change (2 ^ 24) with 16777216 in Hs. change (2 ^ 32) with 4294967296. lia.
    + rewrite F5. lia.
    + unfold tick, enter. cbn [at_time sr_wait]. rewrite Hw. reflexivity.
    + eapply Forall_impl; [|exact Hat]. intros ln. apply lane_at_same; reflexivity.
    + exact Hds.
    + exists r'. split; [exact R1|]. split; [exact R2|]. exact R3.
  - inversion Hni; congruence.
  - inversion Hni as [|? ? _ Hni']. clear Hni. apply Forall_app in Hds. destruct Hds as [Hdg Hdp].
    destruct (packets_run fuel pd m lanes ltac:(lia) Hm Hok Had Hkeys Hpl group qs HF ps (enter u r) t) as (r1 & Hrun & Hat1 & G1 & G2 & G3 & G4 & G5 & G6).
    { eapply Forall_impl; [|exact Hat]. intros ln. apply lane_at_same; reflexivity. }
    { eapply Forall_impl; [|exact Hdg]. intros p [_ X]. exact X. }
    { cbn [enter sr_wait]. rewrite Hw. reflexivity. } { exact Ht. } { exact Hst. }
    assert (Hqs : Forall framed_packet qs) by (clear - HF; induction HF as [|p q g qs (X & _) _ IH]; constructor; auto).
    pose proof (read_unit_all fuel hd qs r (Crc 0 0 0) Hl ltac:(rewrite <- E; exact Hf) Hqs ltac:(destruct HF; [congruence|discriminate])) as HR.
    rewrite <- E in HR. specialize (HR ltac:(eapply last_data; [exact HF|eapply Forall_impl; [|exact Hdg]; intros p ((_ & _ & X) & _); exact X|exact Hne])).
    cbn [readUnits]. rewrite HR, (run_hand_over _ _ _ _ Hrun [] (Crc 0 0 0)). cbn [obind]. change (negb (nbPackets (Crc 0 0 0) =? 0)) with false. cbv iota.
    assert (Ec : clock t u = t + pd) by (unfold clock; rewrite H1, H2; reflexivity).
    assert (Htb : t < 2 ^ 24).
    { destruct group as [|p g]; [congruence|]. inversion Hst as [|? ? Es _]. inversion Hdg as [|? ? ((Hs & _) & _) _]; subst. lia. }
    destruct (IH Hni' (tick r1)) as (r' & R1 & R2 & R3).
    + unfold tick. cbn [at_time sr_time]. rewrite G3, G5. cbn [enter sr_time sr_duration]. rewrite H2, Ht, Ec. apply Z.mod_small. change (2 ^ 24) with 16777216 in *. change (2 ^ 32) with 4294967296. lia.
    + rewrite Ec. lia.
    + unfold tick. cbn [at_time sr_wait]. rewrite G6. cbn [enter sr_wait]. rewrite Hw. reflexivity.
    + eapply Forall_impl; [|exact Hat1]. intros ln. apply lane_at_same; reflexivity.
    + exact Hdp.
    + exists r'. split; [exact R1|]. split; [exact R2|]. destruct R3 as (A1 & A2 & A3). unfold same_but_clock. cbn [tick at_time enter sr_haptic sr_bands sr_timescale] in *.
      split; [congruence|split; congruence].
Qed.

(** *** No other initialization unit *)
Lemma header_type ty sy d n : 0 <= ty < 64 -> forall x, field 0 6 (unit_header ty sy d n ++ x) = ty.
Proof. intros H x. unfold unit_header. rewrite <- app_assoc, field_write. apply Z.mod_small. exact H. Qed.
Definition plain (u : bits) : Prop := field 0 6 u <> InitializationU.
Lemma temporal_plain pd packets w u w' : writeUnitTemporal pd packets w = Ok (u, w') -> plain u.
Proof.
  unfold writeUnitTemporal. destruct (temporal_payload _ _ _) as [[[pl s] t]| | |]; try discriminate. cbn [obind]. intros H. apply ok_pair in H. destruct H as [<- _].
  unfold plain. rewrite header_type by (vm_compute; split; [discriminate|reflexivity]). discriminate.
Qed.
Lemma silent_plain d : plain (unit_header SilentU 0 d 0).
Proof. unfold plain. rewrite <- (app_nil_r (unit_header SilentU 0 d 0)), header_type by (vm_compute; split; [discriminate|reflexivity]). discriminate. Qed.
Lemma no_sync syncs init st : us_idx st = -1 -> sync_unit syncs init st = ([], st).
Proof. intros H. unfold sync_unit. rewrite H. reflexivity. Qed.
Lemma units_plain pd syncs init : forall packets buf st us, units_loop pd syncs init packets buf st = Ok us -> us_idx st = -1 ->
  Forall plain us /\ (length us <= 2 * length packets + 1)%nat.
Proof.
  induction packets as [|p packets IH]; intros buf st us H Hi; cbn [units_loop] in H.
  - destruct (writeUnitTemporal _ _ _) as [[u w]| | |] eqn:E; try discriminate H. cbn [obind] in H. rewrite no_sync in H by exact Hi. assert (Eu : us = [u]) by congruence. rewrite Eu.
    split; [constructor; [eapply temporal_plain; exact E|constructor]|cbn; lia].
  - destruct (packetTS (last buf [])) as [tl| | |]; try discriminate H. cbn [obind] in H. destruct (packetTS p) as [ts| | |]; try discriminate H. cbn [obind] in H.
    destruct (tl =? ts).
    + destruct (IH _ _ _ H Hi) as [A B]. split; [exact A|]. cbn [length]. lia.
    + unfold flush_unit in H. destruct (writeUnitTemporal _ _ _) as [[u w]| | |] eqn:E; try discriminate H. cbn [obind] in H. rewrite no_sync in H by exact Hi. 
      pose proof (temporal_plain _ _ _ _ _ E) as Hu. cbn [us_writer us_sync us_idx] in H.
      destruct (sw_time w =? ts).
      * cbn [obind] in H. destruct (units_loop _ _ _ _ _ _) as [rest| | |] eqn:Er; try discriminate H. cbn [obind app] in H. assert (Eu : us = u :: rest) by congruence. rewrite Eu.
        destruct (IH _ _ _ Er Hi) as [A B]. split; [constructor; assumption|cbn [length]; lia].
      * destruct (writeUnitSilent _ _ _) as [[v w2]| | |] eqn:Ev; try discriminate H. cbn [obind] in H. rewrite no_sync in H by exact Hi. cbn [obind] in H.
        destruct (units_loop _ _ _ _ _ _) as [rest| | |] eqn:Er; try discriminate H. cbn [obind app] in H. assert (Eu : us = u :: v :: rest) by congruence. rewrite Eu.
        destruct (IH _ _ _ Er Hi) as [A B]. split; [|cbn [length]; lia]. constructor; [exact Hu|]. constructor; [|exact A].
        unfold writeUnitSilent in Ev. destruct (packetTS p) as [te| | |]; try discriminate Ev. cbn [obind] in Ev. destruct (round_duration _ _) as [d| | |]; try discriminate Ev. cbn [obind] in Ev.
        apply ok_pair in Ev. destruct Ev as [<- _]. apply silent_plain.
Qed.
Lemma flags_plain us : forall us', silentUnitSyncFlag us = Ok us' -> Forall plain us -> Forall plain us' /\ length us' = length us.
Proof.
  induction us as [|u us IH]; intros us' H Hp; cbn [silentUnitSyncFlag] in H.
  - injection H as <-. split; [constructor|reflexivity].
  - inversion Hp as [|? ? Hu Hus]; subst. destruct (unit_type u) as [ty| | |] eqn:Et; try discriminate H. cbn [obind] in H.
    assert (G : forall u' r, Ok (u' :: r) = Ok us' -> us' = u' :: r) by (intros; congruence).
    destruct (ty =? SilentU).
    + destruct (next_sync_bits us) as [o| | |]; try discriminate H. cbn [obind] in H. destruct o as [s|].
      * destruct (Nat.leb_spec 8 (length u)) as [L|L]; try discriminate H. cbn [obind] in H. destruct (silentUnitSyncFlag us) as [r| | |]; try discriminate H. cbn [obind] in H.
        rewrite (G _ _ H). destruct (IH r eq_refl Hus) as [A B]. split; [|cbn [length]; lia]. constructor; [|exact A]. unfold plain in *.
        assert (L6 : length (firstn 6 u) = 6%nat) by (rewrite firstn_length_le; lia). rewrite (field_app 0 6) by lia. 
        rewrite <- (firstn_skipn 6 u) in Hu. rewrite (field_app 0 6) in Hu by lia. exact Hu.
      * cbn [obind] in H. destruct (silentUnitSyncFlag us) as [r| | |]; try discriminate H. cbn [obind] in H. rewrite (G _ _ H). destruct (IH r eq_refl Hus) as [A B].
        split; [constructor; assumption|cbn [length]; lia].
    + cbn [obind] in H. destruct (silentUnitSyncFlag us) as [r| | |]; try discriminate H. cbn [obind] in H. rewrite (G _ _ H). destruct (IH r eq_refl Hus) as [A B].
      split; [constructor; assumption|cbn [length]; lia].
Qed.
Lemma flags_cons u us v vs : silentUnitSyncFlag (u :: us) = Ok (v :: vs) -> silentUnitSyncFlag us = Ok vs.
Proof.
  cbn [silentUnitSyncFlag]. intros H. destruct (unit_type u) as [ty| | |]; try discriminate H. cbn [obind] in H.
  match type of H with obind ?x _ = _ => destruct x; try discriminate H end. cbn [obind] in H. destruct (silentUnitSyncFlag us); try discriminate H. cbn [obind] in H. congruence.
Qed.
Lemma only_start fuel pd h v us ds : (length (h_syncs h) <= 1)%nat -> writeUnits fuel pd h = Ok (v :: us) ->
  (forall init w, writeInitPackets (start_writer h) = Ok (init, w) -> writeData fuel pd (checkHapticComponent (checkHapticComponent (sw_haptic w))) = Ok ds) ->
  Forall plain us /\ (length us <= 2 * length ds)%nat.
Proof.
  intros Hs H Hd. unfold writeUnits in H. fold (start_writer h) in H. destruct (writeInitPackets (start_writer h)) as [[init w]| | |]; try discriminate H. cbn [obind] in H.
  specialize (Hd init w eq_refl). destruct (writeUnitInitialization init w) as [iu w1] eqn:Ei.
  assert (Ew1 : sw_haptic w1 = checkHapticComponent (sw_haptic w)).
  { unfold writeUnitInitialization in Ei. cbv zeta in Ei. apply pair_equal_spec in Ei. destruct Ei as [_ <-]. reflexivity. }
  unfold getNextSync in H. replace (0 >=? vec_size (h_syncs h) - 1) with true in H by (unfold vec_size; lia). cbv zeta in H.
  unfold packets_data in H. cbn [check_writer sw_haptic] in H. rewrite Ew1, Hd in H. cbn [obind] in H. destruct ds as [|p ds]; cbn [map] in H.
  - apply flags_cons in H. injection H as <-. split; [constructor|cbn; lia].
  - destruct (writeUnitSilentFirst _ _ _) as [[o w2]| | |] eqn:Eo; try discriminate H. cbn [obind] in H.
    destruct (units_loop _ _ _ _ _ _) as [us0| | |] eqn:Eu; try discriminate H. cbn [obind] in H. apply flags_cons in H.
    destruct (units_plain _ _ _ _ _ _ _ Eu eq_refl) as [A B]. rewrite map_length in B.
    destruct (flags_plain _ _ H) as [C D].
    + apply Forall_app. split; [|exact A]. unfold writeUnitSilentFirst in Eo. destruct (packetTS _) as [t| | |]; try discriminate Eo. cbn [obind] in Eo.
      destruct (t >=? pd); [|apply ok_pair in Eo; destruct Eo as [<- _]; constructor]. destruct (round_duration _ _) as [d| | |]; try discriminate Eo. cbn [obind] in Eo.
      apply ok_pair in Eo. destruct Eo as [<- _]. constructor; [apply silent_plain|constructor].
    + split; [exact C|]. rewrite D, app_length. cbn [length]. destruct o; cbn [length]; lia.
Qed.
Lemma units_framed pd init t ds us : timeline pd init t ds us -> Forall plain us -> Forall (fun p : bits => (32 <= length p)%nat) ds ->
  Forall framed_unit us /\ vec_size (concat us) <= 72 * vec_size us + vec_size (concat ds) + 32 * vec_size ds.
Proof.
  induction 1 as [t|t u p ps us F1 F2 F3 F4 F5 HT IH|t u hd q ps us E Hl H1 H2 H3 HT IH|t u hd group qs ps us Hne Hst HF E Hl Hf H1 H2 HT IH]; intros Hni Hds.
  - split; [constructor|reflexivity].
  - inversion Hni as [|? ? _ Hni']; subst. destruct (IH Hni' Hds) as [A B]. split; [constructor; assumption|]. unfold vec_size in *. cbn [concat length] in *. rewrite !app_length in *. rewrite F2. lia.
  - inversion Hni; congruence.
  - inversion Hni as [|? ? _ Hni']. clear Hni. apply Forall_app in Hds. destruct Hds as [D1 D2]. destruct (IH Hni' D2) as [A B]. split; [constructor; assumption|].
    destruct (payload_length group qs D1 HF) as [L _]. cbn [concat]. rewrite E. rewrite concat_app. unfold vec_size in *. rewrite !app_length, Hl. cbn [length]. unfold bits in *. lia.
Qed.
