(** Reading the initialization unit. *)
From Coq Require Import Sorting.Permutation Reals.
From Verif Require Import Base BitsModel BitsProof FloatBase FloatModel TypesModel TypesSpec MetaModel BandModel DataModel CrcModel StreamModel
  MetaSpec VecReads MetaProof DataSpec DataProof MergeProof DataTop UnitSpec UnitProof StreamSpec StreamProof TripSpec.
Local Open Scope Z_scope.
Local Open Scope list_scope.

(** *** Packets accepted one after the other *)
Definition accepts (fuel : nat) (p : bits) (r r' : sreader) : Prop :=
  forall rest crc, exists len, readMIHSPacket fuel (p ++ rest) r crc = Ok (true, r', crc, len).
Inductive run (fuel : nat) : list bits -> sreader -> sreader -> Prop :=
| Run0 r : run fuel [] r r
| Run1 p ps r r1 r2 : accepts fuel p r r1 -> run fuel ps r1 r2 -> run fuel (p :: ps) r r2.
Lemma run_app fuel a : forall b r r1 r2, run fuel a r r1 -> run fuel b r1 r2 -> run fuel (a ++ b) r r2.
Proof.
  induction a as [|p a IH]; intros b r r1 r2 H1 H2; inversion H1; subst; [exact H2|]. cbn [app]. eapply Run1; eauto.
Qed.
Lemma run_one fuel p r r' : accepts fuel p r r' -> run fuel [p] r r'.
Proof. intros H. eapply Run1; [exact H|apply Run0]. Qed.
Lemma run_hand_over fuel ps : forall r r', run fuel ps r r' -> forall tail crc, hand_over fuel ps tail r crc = Ok (true, r', crc).
Proof.
  induction ps as [|p ps IH]; intros r r' H tail crc; inversion H as [|? ? ? r1 ? Ha Hr]; subst; [reflexivity|]. cbn [hand_over].
  destruct (Ha (concat ps ++ tail) crc) as (len & ->). cbn [obind]. apply IH. assumption.
Qed.

(** A packet of another type than data, with its payload. *)
Lemma packet_open ty payload : 0 <= ty < 64 -> ty <> DataP -> exists hd pad, packet ty payload = hd ++ payload ++ pad /\ length hd = 24%nat /\
  forall x, readUInt (hd ++ x) 0 6 = Ok (ty, 6%nat) /\ exists len, readUInt (hd ++ x) 6 17 = Ok (len, 23%nat).
Proof.
  intros Ht Hd. unfold packet, padToByteBoundary. destruct (fillBitset_app (writeMIHSPacketHeader ty (vec_size payload) ++ payload)) as (pad & ->).
  rewrite <- app_assoc. exists (writeMIHSPacketHeader ty (vec_size payload)), pad. split; [reflexivity|].
  assert (L : length (writeMIHSPacketHeader ty (vec_size payload)) = 24%nat).
  { unfold writeMIHSPacketHeader. rewrite !app_length, !writeNBits_length. reflexivity. }
  split; [exact L|]. intros x. split; [|eexists].
  - rewrite (field_read 0 6) by (rewrite ?app_length, ?L; lia). unfold writeMIHSPacketHeader. rewrite <- app_assoc, field_write, Z.mod_small by (cbn; lia).
    reflexivity.
  - rewrite (field_read 6 17) by (rewrite ?app_length, ?L; lia). reflexivity.
Qed.
Ltac opened ty payload :=
  let hd := fresh "hd" in let pad := fresh "pad" in let E := fresh "E" in let L := fresh "L" in let H := fresh "H" in
  destruct (packet_open ty payload ltac:(vm_compute; split; [discriminate|reflexivity]) ltac:(discriminate)) as (hd & pad & E & L & H);
  let rest := fresh "rest" in let crc := fresh "crc" in intros rest crc; rewrite E, <- !app_assoc;
  let H1 := fresh "H" in let H2 := fresh "H" in let len := fresh "len" in
  destruct (H (payload ++ pad ++ rest)) as (H1 & len & H2); eexists; unfold readMIHSPacket; rewrite H1, H2; cbn [obind];
  match goal with |- context [(?a <? 24)%nat] => let K := fresh "K" in destruct (Nat.ltb_spec a 24) as [K|_]; [exfalso; rewrite app_length, L in K; lia|] end;
  rewrite <- L, skip_mid; cbv zeta;
  cbn [Z.eqb TimingP MetadataHapticsP MetadataPerceptionP EffectLibraryP MetadataChannelP MetadataBandP InitializationTimingP DataP CRC16P CRC32P GlobalCRC16P GlobalCRC32P Pos.eqb].

Lemma nodup_first {A} (f : A -> Z) a x b : NoDup (map f (a ++ x :: b)) -> first_at (fun y => f y = f x) (a ++ x :: b) (length a) x.
Proof.
  intros H. split; [|split; [reflexivity|]].
  - rewrite nth_error_app2, Nat.sub_diag by lia. reflexivity.
  - intros m y Hm Hy E. rewrite nth_error_app1 in Hy by lia. rewrite map_app in H. cbn [map] in H. apply NoDup_remove_2 in H. apply H.
    rewrite <- E. apply in_or_app. left. apply in_map. exact (nth_error_In _ _ Hy).
Qed.
Lemma map_nth_mid {A} (f : A -> A) a x b : map_nth f (length a) (a ++ x :: b) = a ++ f x :: b.
Proof. induction a as [|y a IH]; cbn [length app map_nth]; [reflexivity|]. now rewrite IH. Qed.
Lemma not_found h id : ~ In id (map p_id (h_perceptions h)) -> searchPerceptionInHaptic h id = -1.
Proof.
  intros H. apply index_of_none, Forall_forall. intros p Hp. apply Z.eqb_neq. intros ->. apply H. apply in_map. exact Hp.
Qed.
Lemma not_found_channel h id : ~ In id (map c_id (flat_map p_channels (h_perceptions h))) -> searchChannelInHaptic h id = -1.
Proof.
  unfold searchChannelInHaptic. induction (h_perceptions h) as [|p ps IH]; intros H; [reflexivity|]. cbn [searchChannel flat_map] in *.
  rewrite map_app, in_app_iff in H. rewrite index_of_none; [cbn; apply IH; tauto|]. apply Forall_forall. intros c Hc. apply Z.eqb_neq. intros ->.
  apply H. left. apply in_map. exact Hc.
Qed.

(** *** The stages *)
(** A perception after its metadata packet, after its library packet. *)
Definition perc1 (p q : perception) : Prop := exists devices, Forall2 device_sent (p_devices p) devices /\
  q = Perception (p_id p) (p_avatar p) (p_desc p) (p_prio p) (p_scheme p) (p_modality p) [] devices
        (Some (value_or (p_uexp p) (-3))) (Some (value_or (p_puexp p) 0)) [].
Definition perc2 (p q : perception) : Prop := exists q1 lib, perc1 p q1 /\ Forall2 effect_sent (p_library p) lib /\ q = set_library lib q1.

Lemma perc1_ids l l1 : Forall2 perc1 l l1 -> map p_id l1 = map p_id l.
Proof. induction 1 as [|p q l l1 (d & _ & ->) _ IH]; [reflexivity|]. cbn [map p_id]. now rewrite IH. Qed.
Lemma perc2_ids l l1 : Forall2 perc2 l l1 -> map p_id l1 = map p_id l /\ Forall (fun q => p_channels q = []) l1.
Proof.
  induction 1 as [|p q l l1 (q1 & lib & (d & _ & ->) & _ & ->) _ (IH1 & IH2)]; [split; [reflexivity|constructor]|].
  cbn [map set_library p_id]. split; [now rewrite IH1|]. apply Forall_cons; [reflexivity|exact IH2].
Qed.

Lemma stage_perceptions fuel l : forall r, Forall perception_ok l -> NoDup (map p_id (h_perceptions (sr_haptic r)) ++ map p_id l) ->
  exists qs l1, mapOut (fun p => do b <- writeMetadataPerception p; Ok (packet MetadataPerceptionP b)) l = Ok qs /\ Forall2 perc1 l l1 /\
    run fuel qs r (set_haptic (set_perceptions (h_perceptions (sr_haptic r) ++ l1) (sr_haptic r)) r).
Proof.
  induction l as [|p l IH]; intros r Hok Hnd.
  - exists [], []. split; [reflexivity|]. split; [constructor|]. rewrite app_nil_r. destruct r as [[] ? ? ? ? ?]; apply Run0.
  - inversion Hok as [|? ? Hp Hl]; subst. destruct (metadata_perception p Hp) as (b & devices & Hw & Hd & Hr).
    set (q := Perception (p_id p) (p_avatar p) (p_desc p) (p_prio p) (p_scheme p) (p_modality p) [] devices
              (Some (value_or (p_uexp p) (-3))) (Some (value_or (p_puexp p) 0)) []) in *.
    set (r1 := set_haptic (addPerception q (sr_haptic r)) r).
    assert (Ha : accepts fuel (packet MetadataPerceptionP b) r r1).
    { opened MetadataPerceptionP b. rewrite Hr. cbn [obind]. unfold receivePerception. rewrite not_found; [reflexivity|].
      cbn [q p_id]. cbn [map] in Hnd. apply NoDup_remove_2 in Hnd. rewrite in_app_iff in Hnd. tauto. }
    destruct (IH r1 Hl) as (qs & l1 & E & F & R).
    { unfold r1. destruct r as [[] ? ? ? ? ?]. cbn in *. rewrite map_app. cbn [map q p_id]. rewrite <- app_assoc. exact Hnd. }
    exists (packet MetadataPerceptionP b :: qs), (q :: l1). cbn [mapOut]. rewrite Hw. cbn [obind]. rewrite E. cbn [obind]. split; [reflexivity|].
    split; [constructor; [exists devices; split; [exact Hd|reflexivity]|exact F]|].
    eapply Run1; [exact Ha|]. unfold r1 in R. destruct r as [[] ? ? ? ? ?]. cbn in *. rewrite <- app_assoc in R. exact R.
Qed.

Lemma stage_libraries fuel l : forall l1 a r, Forall2 perc1 l l1 -> h_perceptions (sr_haptic r) = a ++ l1 -> NoDup (map p_id (a ++ l1)) ->
  Forall (fun p => nbits 8 (p_id p) /\ Forall (effect_ok known_semantic) (p_library p) /\ vec_size (p_library p) < 65536 /\
                   (library_depth (p_library p) <= fuel)%nat) l ->
  exists qs l2, mapOut (fun p => do b <- writeLibrary p; Ok (packet EffectLibraryP b)) (filter (fun p => negb (is_nil (p_library p))) l) = Ok qs /\
    Forall2 perc2 l l2 /\ run fuel qs r (set_haptic (set_perceptions (a ++ l2) (sr_haptic r)) r).
Proof.
  induction l as [|p l IH]; intros l1 a r H1 Eh Hnd Hok; inversion H1 as [|? q ? l1' Hq Hl]; subst.
  - exists [], []. split; [reflexivity|]. split; [constructor|]. rewrite <- Eh. destruct r as [[] ? ? ? ? ?]; apply Run0.
  - inversion Hok as [|? ? (Hi & He & Hs & Hf) Hok']; subst. cbn [filter]. destruct (p_library p) as [|e0 es0] eqn:El.
    + cbn [is_nil negb]. assert (H2 : perc2 p q).
      { exists q, []. split; [exact Hq|]. rewrite El. split; [constructor|]. destruct Hq as (d & _ & ->). reflexivity. }
      destruct (IH l1' (a ++ [q]) r Hl) as (qs & l2 & E & F & R).
      { rewrite <- app_assoc. exact Eh. } { rewrite <- app_assoc. exact Hnd. } { exact Hok'. }
      exists qs, (q :: l2). split; [exact E|]. split; [constructor; assumption|]. rewrite <- app_assoc in R. exact R.
    + cbn [is_nil negb mapOut]. rewrite <- El in *. clear El. destruct (library_packet p Hi He Hs) as (b & -> & Hr). cbn [obind].
      destruct (Hr fuel Hf) as (lib & Hlib & Hread). clear Hr.
      assert (Eid : p_id q = p_id p) by (destruct Hq as (d & _ & ->); reflexivity).
      pose proof (nodup_first p_id a q l1' Hnd) as Hfirst. rewrite Eid in Hfirst.
      set (q2 := set_library lib q).
      assert (Elib : set_library (p_library q ++ lib) q = q2) by (destruct Hq as (d & _ & ->); reflexivity).
      set (r1 := set_haptic (set_perceptions (a ++ q2 :: l1') (sr_haptic r)) r).
      assert (Ha : accepts fuel (packet EffectLibraryP b) r r1).
      { opened EffectLibraryP b. rewrite (Hread (sr_haptic r) (length a) q) by (rewrite Eh; exact Hfirst). cbn [obind].
        rewrite Eh, map_nth_mid, Elib. reflexivity. }
      destruct (IH l1' (a ++ [q2]) r1 Hl) as (qs & l2 & E & F & R).
      { rewrite <- app_assoc. unfold r1. destruct r as [[] ? ? ? ? ?]. reflexivity. }
      { rewrite <- app_assoc. cbn [app]. rewrite map_app in *. cbn [map] in *. replace (p_id q2) with (p_id q) by (destruct q; reflexivity). exact Hnd. }
      { exact Hok'. }
      rewrite E. cbn [obind]. exists (packet EffectLibraryP b :: qs), (q2 :: l2). split; [reflexivity|].
      split; [constructor; [exists q, lib; auto|exact F]|]. eapply Run1; [exact Ha|]. rewrite <- app_assoc in R. unfold r1 in R.
      destruct r as [[] ? ? ? ? ?]. exact R.
Qed.

(** *** Channels *)
Definition chan1 (c c' : channel) : Prop := exists gain mix,
  near 32 (Bopp MAX_FLOAT) MAX_FLOAT (c_gain c) gain /\ near 32 f32_0 MAX_FLOAT (c_mix c) mix /\
  c' = Channel (c_id c) (c_desc c) gain mix (c_mask c) (c_vertices c) [] (c_prio c) (c_device c)
         (c_freq c) (c_count c) (c_dir c) (c_res c) (c_body c) (c_target c).
Definition perc3 (p q : perception) : Prop := exists q2 cs, perc2 p q2 /\ Forall2 chan1 (p_channels p) cs /\ q = set_channels cs q2.

Lemma first_mid {A} (f : A -> Z) (g : A -> A) a x b : (forall y, f (g y) = f y) -> NoDup (map f (a ++ x :: b)) ->
  first_at (fun y => f y = f x) (a ++ g x :: b) (length a) (g x).
Proof.
  intros Hg H. pose proof (nodup_first f a (g x) b) as K. rewrite Hg in K. apply K. rewrite map_app in *. cbn [map] in *. now rewrite Hg.
Qed.
Lemma id_channels cs q : p_id (set_channels cs q) = p_id q. Proof. destruct q; reflexivity. Qed.
Lemma id_bands bs c : c_id (set_bands bs c) = c_id c. Proof. destruct c; reflexivity. Qed.

Lemma stage_channels1 fuel a q b l : forall ds r, h_perceptions (sr_haptic r) = a ++ set_channels ds q :: b -> NoDup (map p_id (a ++ q :: b)) ->
  nbits 8 (p_id q) -> Forall channel_ok l -> NoDup (map c_id (flat_map p_channels a ++ ds ++ flat_map p_channels b) ++ map c_id l) ->
  exists qs l1, mapOut (fun c => do b <- writeMetadataChannel (p_id q) c; Ok (packet MetadataChannelP b)) l = Ok qs /\ Forall2 chan1 l l1 /\
    run fuel qs r (set_haptic (set_perceptions (a ++ set_channels (ds ++ l1) q :: b) (sr_haptic r)) r).
Proof.
  induction l as [|c l IH]; intros ds r Eh Hp Hq Hok Hc.
  - exists [], []. split; [reflexivity|]. split; [constructor|]. rewrite app_nil_r, <- Eh. destruct r as [[] ? ? ? ? ?]; apply Run0.
  - inversion Hok as [|? ? Hc1 Hok']; subst. destruct (metadata_channel c (p_id q) Hc1 Hq) as (x & gain & mix & Hw & Hg & Hm & Hr).
    set (c' := Channel (c_id c) (c_desc c) gain mix (c_mask c) (c_vertices c) [] (c_prio c) (c_device c)
         (c_freq c) (c_count c) (c_dir c) (c_res c) (c_body c) (c_target c)) in *.
    pose proof (first_mid p_id (set_channels ds) a q b (id_channels ds) Hp) as Hf.
    set (r1 := set_haptic (set_perceptions (a ++ set_channels (ds ++ [c']) q :: b) (sr_haptic r)) r).
    assert (Ha : accepts fuel (packet MetadataChannelP x) r r1).
    { opened MetadataChannelP x. destruct (Hr (sr_haptic r) (pad ++ rest)) as [Hr1 _].
      rewrite (Hr1 (length a) (set_channels ds q)).
      2:{ rewrite Eh. apply Hf. } 2:{ apply id_channels. }
      2:{ intros m y Hm' Hy. rewrite Eh in Hy. exact (proj2 (proj2 Hf) m y Hm' Hy). }
      cbn [obind]. unfold receiveChannel. rewrite id_channels.
      rewrite (search_first _ _ (length a) (set_channels ds q)) by (rewrite Eh; exact Hf).
      rewrite not_found_channel.
      2:{ rewrite Eh, flat_map_app. cbn [flat_map]. rewrite channels_set. cbn [c' c_id]. cbn [map] in Hc. apply NoDup_remove_2 in Hc. rewrite in_app_iff in Hc. tauto. }
      cbn [Z.eqb]. unfold update_perception.
      erewrite update_at_nth by (rewrite Eh; apply Hf). cbn [obind].
      rewrite Eh, map_nth_mid. unfold addChannel. rewrite channels_set, set_channels_twice. reflexivity. }
    destruct (IH (ds ++ [c']) r1) as (qs & l1 & E & F & R).
    { unfold r1. destruct r as [[] ? ? ? ? ?]. reflexivity. } { exact Hp. } { exact Hq. } { exact Hok'. }
    { eapply Permutation_NoDup; [|exact Hc]. rewrite !map_app. cbn [map]. change (c_id c') with (c_id c). rewrite <- !app_assoc.
      apply Permutation_app_head. apply Permutation_app_head. cbn [app]. rewrite Permutation_middle. reflexivity. }
    exists (packet MetadataChannelP x :: qs), (c' :: l1). cbn [mapOut]. rewrite Hw. cbn [obind]. rewrite E. cbn [obind]. split; [reflexivity|].
    split; [constructor; [exists gain, mix; auto|exact F]|]. eapply Run1; [exact Ha|]. unfold r1 in R. rewrite <- app_assoc in R.
    destruct r as [[] ? ? ? ? ?]. exact R.
Qed.

Lemma chan1_ids l l1 : Forall2 chan1 l l1 -> map c_id l1 = map c_id l /\ Forall (fun c => c_bands c = []) l1.
Proof.
  induction 1 as [|c d l l1 (g & m & _ & _ & ->) _ (IH1 & IH2)]; [split; [reflexivity|constructor]|].
  cbn [map c_id]. split; [now rewrite IH1|]. apply Forall_cons; [reflexivity|exact IH2].
Qed.
Lemma nodup_left {A} (a b : list A) : NoDup (a ++ b) -> NoDup a.
Proof.
  induction a as [|x a IH]; intros H; [constructor|]. cbn [app] in H. inversion H as [|? ? H1 H2]; subst. constructor; [|exact (IH H2)].
  intros C. apply H1. apply in_or_app. left. exact C.
Qed.
Lemma flat_none {A B} (f : A -> list B) l : Forall (fun x => f x = []) l -> flat_map f l = [].
Proof. induction 1 as [|x l H _ IH]; [reflexivity|]. cbn [flat_map]. now rewrite H, IH. Qed.

Lemma stage_channels fuel l : forall l2 a r, Forall2 perc2 l l2 -> h_perceptions (sr_haptic r) = a ++ l2 -> NoDup (map p_id (a ++ l2)) ->
  Forall (fun p => nbits 8 (p_id p) /\ Forall channel_ok (p_channels p)) l ->
  NoDup (map c_id (flat_map p_channels a) ++ map c_id (flat_map p_channels l)) ->
  exists qss l3, mapOut (fun p => mapOut (fun c => do b <- writeMetadataChannel (p_id p) c; Ok (packet MetadataChannelP b)) (p_channels p)) l = Ok qss /\
    Forall2 perc3 l l3 /\ run fuel (concat qss) r (set_haptic (set_perceptions (a ++ l3) (sr_haptic r)) r).
Proof.
  induction l as [|p l IH]; intros l2 a r H2 Eh Hnd Hok Hc; inversion H2 as [|? q ? l2' Hq Hl]; subst.
  - exists [], []. split; [reflexivity|]. split; [constructor|]. rewrite <- Eh. destruct r as [[] ? ? ? ? ?]; apply Run0.
  - inversion Hok as [|? ? (Hi & Hco) Hok']; subst. destruct (perc2_ids _ _ Hl) as (Eids & Hnone).
    assert (Eq : q = set_channels [] q /\ p_id q = p_id p) by (destruct Hq as (q1 & lib & (d & _ & ->) & _ & ->); split; reflexivity).
    destruct Eq as [Eq Eid].
    destruct (stage_channels1 fuel a q l2' (p_channels p) [] r) as (qs & cs & E & F & R).
    { rewrite <- Eq. exact Eh. } { exact Hnd. } { rewrite Eid. exact Hi. } { exact Hco. }
    { rewrite (flat_none p_channels l2' Hnone). cbn [app flat_map map] in *. rewrite app_nil_r. rewrite map_app in Hc. rewrite app_assoc in Hc. exact (nodup_left _ _ Hc). }
    set (q3 := set_channels cs q). set (r1 := set_haptic (set_perceptions (a ++ q3 :: l2') (sr_haptic r)) r).
    destruct (IH l2' (a ++ [q3]) r1 Hl) as (qss & l3 & E3 & F3 & R3).
    { rewrite <- app_assoc. unfold r1. destruct r as [[] ? ? ? ? ?]. reflexivity. }
    { rewrite <- app_assoc. cbn [app]. rewrite map_app in *. cbn [map] in *. unfold q3. rewrite id_channels. exact Hnd. }
    { exact Hok'. }
    { rewrite flat_map_app. cbn [flat_map]. rewrite app_nil_r. unfold q3. rewrite channels_set, map_app, (proj1 (chan1_ids _ _ F)), <- app_assoc.
      cbn [flat_map] in Hc. rewrite map_app in Hc. exact Hc. }
    cbn [mapOut]. rewrite <- Eid, E. cbn [obind]. rewrite E3. cbn [obind]. exists (qs :: qss), (q3 :: l3). split; [reflexivity|].
    split; [constructor; [exists q, cs; auto|exact F3]|]. cbn [concat]. eapply run_app; [exact R|]. cbn [app]. fold q3. fold r1.
    unfold r1 in R3 |- *. rewrite <- app_assoc in R3. destruct r as [[] ? ? ? ? ?]. exact R3.
Qed.

(** *** Bands, and where they are *)
Fixpoint mapi {A B} (f : nat -> A -> B) (n : nat) (l : list A) : list B :=
  match l with [] => [] | x :: r => f n x :: mapi f (S n) r end.
Lemma mapi_app {A B} (f : nat -> A -> B) a : forall n b, mapi f n (a ++ b) = mapi f n a ++ mapi f (n + length a) b.
Proof.
  induction a as [|x a IH]; intros n b; cbn [app mapi length]; [now rewrite Nat.add_0_r|]. rewrite IH. do 3 f_equal. lia.
Qed.
Lemma mapi_length {A B} (f : nat -> A -> B) l : forall n, length (mapi f n l) = length l.
Proof. induction l as [|x l IH]; intros n; cbn [mapi length]; [reflexivity|]. now rewrite IH. Qed.
Lemma mapi_nth {A B} (f : nat -> A -> B) l : forall n k, nth_error (mapi f n l) k = option_map (f (n + k)%nat) (nth_error l k).
Proof.
  induction l as [|x l IH]; intros n [|k]; cbn [mapi nth_error option_map]; [reflexivity..|now rewrite Nat.add_0_r|].
  rewrite IH. replace (S n + k)%nat with (n + S k)%nat by lia. reflexivity.
Qed.
(** A band with the ids of its perception and channel, and the indices of perception, channel and band. *)
Definition spot : Type := ((Z * Z * band) * (nat * nat * nat))%type.
Definition spots_c (pid cid : Z) (pi ci bi : nat) (l : list band) : list spot := mapi (fun i b => ((pid, cid, b), (pi, ci, i))) bi l.
Fixpoint spots_p (pid : Z) (pi ci : nat) (l : list channel) : list spot :=
  match l with [] => [] | c :: r => spots_c pid (c_id c) pi ci 0 (c_bands c) ++ spots_p pid pi (S ci) r end.
Fixpoint spots_h (pi : nat) (l : list perception) : list spot :=
  match l with [] => [] | p :: r => spots_p (p_id p) pi 0 (p_channels p) ++ spots_h (S pi) r end.
Definition numbered (n : nat) (l : list spot) : list (Z * Z) := mapi (fun k s => (Z.of_nat k, Z.of_nat (snd (snd s)))) n l.
Lemma numbered_app n a b : numbered n (a ++ b) = numbered n a ++ numbered (n + length a) b.
Proof. apply mapi_app. Qed.
Lemma numbered_below n l : Forall (fun x => fst x < Z.of_nat n + vec_size l) (numbered n l).
Proof.
  unfold numbered, vec_size. revert n. induction l as [|s l IH]; intros n; cbn [mapi]; constructor; [cbn [fst length]; lia|].
  eapply Forall_impl; [|exact (IH (S n))]. cbn [length]. intros x Hx. cbv beta in *. lia.
Qed.
Definition set_sbands (b : list (Z * Z)) (r : sreader) : sreader :=
  SReader (sr_haptic r) b (sr_time r) (sr_timescale r) (sr_duration r) (sr_wait r).

Definition bare (b : band) : band := set_effects [] b.
Lemma searchBand_none l id : Forall (fun x : Z * Z => fst x < id) l -> searchBand l id = -1.
Proof.
  induction 1 as [|[i x] l H _ IH]; [reflexivity|]. cbn [searchBand fst] in *. destruct (Z.eqb_spec i id); [lia|exact IH].
Qed.
Lemma bands_bits f id l : mapi_bands f (Z.of_nat id) l = mapi (fun i b => f (Z.of_nat i) b) id l.
Proof.
  revert id. induction l as [|b l IH]; intros id; cbn [mapi_bands mapi]; [reflexivity|].
  replace (Z.of_nat id + 1) with (Z.of_nat (S id)) by lia. now rewrite IH.
Qed.

Lemma stage_bands1 fuel a q b ca c cb pi ci : length a = pi -> length ca = ci -> forall l bs id r,
  h_perceptions (sr_haptic r) = a ++ set_channels (ca ++ set_bands bs c :: cb) q :: b -> NoDup (map p_id (a ++ q :: b)) ->
  NoDup (map c_id (flat_map p_channels a ++ ca ++ c :: cb)) -> nbits 8 (p_id q) -> nbits 16 (c_id c) -> Forall band_ok l ->
  Z.of_nat id + vec_size l <= 256 -> Forall (fun x => fst x < Z.of_nat id) (sr_bands r) ->
  run fuel (map (packet MetadataBandP) (mapi_bands (fun i b => padToByteBoundary (writeMetadataBand (p_id q) (c_id c) i b)) (Z.of_nat id) l)) r
    (set_sbands (sr_bands r ++ numbered id (spots_c (p_id q) (c_id c) pi ci (length bs) l))
      (set_haptic (set_perceptions (a ++ set_channels (ca ++ set_bands (bs ++ map bare l) c :: cb) q :: b) (sr_haptic r)) r)).
Proof.
  intros La Lc. induction l as [|x l IH]; intros bs id r Eh Hp Hc Hq Hci Hok Hid Hsb.
  - cbn. rewrite !app_nil_r, <- Eh. destruct r as [[] ? ? ? ? ?]; apply Run0.
  - inversion Hok as [|? ? Hx Hok']; subst. cbn [mapi_bands map].
    set (r1 := set_sbands (sr_bands r ++ [(Z.of_nat id, vec_size bs)])
      (set_haptic (set_perceptions (a ++ set_channels (ca ++ set_bands (bs ++ [bare x]) c :: cb) q :: b) (sr_haptic r)) r)).
    pose proof (first_mid p_id (set_channels (ca ++ set_bands bs c :: cb)) a q b (id_channels _) Hp) as Hf.
    assert (Hc' : NoDup (map c_id (ca ++ c :: cb))).
    { rewrite map_app in Hc. apply NoDup_rev in Hc. rewrite rev_app_distr in Hc. apply nodup_left, NoDup_rev in Hc. rewrite rev_involutive in Hc. exact Hc. }
    pose proof (first_mid c_id (set_bands bs) ca c cb (id_bands bs) Hc') as Hfc.
    assert (Hb : forall m y, (m < length a)%nat -> nth_error (h_perceptions (sr_haptic r)) m = Some y -> Forall (fun d => c_id d <> c_id c) (p_channels y)).
    { intros m y Hm Hy. rewrite Eh, nth_error_app1 in Hy by exact Hm. apply Forall_forall. intros d Hd E.
      rewrite app_assoc, map_app in Hc. cbn [map] in Hc. apply NoDup_remove_2 in Hc. apply Hc. apply in_or_app. left. rewrite <- E. apply in_map.
      apply in_or_app. left. apply in_flat_map. exists y. split; [exact (nth_error_In _ _ Hy)|exact Hd]. }
    assert (Esearch : searchChannelInHaptic (sr_haptic r) (c_id c) = Z.of_nat (length ca)).
    { apply (search_channel_first _ _ (length a) (set_channels (ca ++ set_bands bs c :: cb) q) _ (set_bands bs c)).
      - rewrite Eh. apply Hf. - rewrite channels_set. exact Hfc. - exact Hb. }
    assert (Ha : accepts fuel (packet MetadataBandP (padToByteBoundary (writeMetadataBand (p_id q) (c_id c) (Z.of_nat id) x))) r r1).
    { unfold padToByteBoundary. destruct (fillBitset_app (writeMetadataBand (p_id q) (c_id c) (Z.of_nat id) x)) as (fill & ->).
      set (pay := _ ++ fill). opened MetadataBandP pay. unfold pay. rewrite <- app_assoc.
      rewrite (metadata_band_ids x (p_id q) (c_id c) (Z.of_nat id) (sr_haptic r) _ (length a) (set_channels (ca ++ set_bands bs c :: cb) q) (length ca) (set_bands bs c)).
      2:{ exact Hx. } 2:{ exact Hq. } 2:{ exact Hci. } 2:{ unfold nbits, vec_size in *. cbn [length] in Hid. lia. }
      2:{ rewrite Eh. exact Hf. } 2:{ rewrite channels_set. exact Hfc. } 2:{ exact Hb. }
      cbn [obind]. unfold receiveBand. cbv zeta. rewrite id_channels, id_bands. cbn [bs_id bs_band].
      rewrite (search_first _ _ (length a) (set_channels (ca ++ set_bands bs c :: cb) q)) by (rewrite Eh; exact Hf).
      rewrite Esearch, searchBand_none by exact Hsb.
      rewrite (vec_at_nth _ (length a) (set_channels (ca ++ set_bands bs c :: cb) q)) by (rewrite Eh; apply Hf). cbn [obind].
      rewrite channels_set, (vec_at_nth _ (length ca) (set_bands bs c)) by apply Hfc. cbn [obind].
      cbn [Z.eqb orb]. unfold update_channel, update_perception.
      erewrite update_at_known; [|rewrite Eh; apply Hf|].
      2:{ rewrite channels_set. erewrite update_at_nth by apply Hfc. cbn [obind].
          instantiate (1 := fun p => set_channels (map_nth (fun d => addBand (bare x) d) (length ca) (p_channels p)) p). cbv beta.
          rewrite !channels_set. unfold bare, set_effects. reflexivity. }
      cbn [obind]. unfold r1, set_sbands, set_haptic. cbn [sr_haptic sr_bands sr_time sr_timescale sr_duration sr_wait].
      rewrite Eh, map_nth_mid, channels_set, map_nth_mid. unfold addBand. rewrite !bands_set, set_bands_twice, set_channels_twice. reflexivity. }
    eapply Run1; [exact Ha|]. replace (Z.of_nat id + 1) with (Z.of_nat (S id)) by lia.
    pose proof (IH (bs ++ [bare x]) (S id) r1) as R.
    assert (E1 : h_perceptions (sr_haptic r1) = a ++ set_channels (ca ++ set_bands (bs ++ [bare x]) c :: cb) q :: b) by (unfold r1; destruct r as [[] ? ? ? ? ?]; reflexivity).
    specialize (R E1 Hp Hc Hq Hci Hok'). assert (Hl' : Z.of_nat (S id) + vec_size l <= 256) by (unfold vec_size in *; cbn [length] in Hid; lia).
    specialize (R Hl'). assert (Hs' : Forall (fun x => fst x < Z.of_nat (S id)) (sr_bands r1)).
    { unfold r1. cbn [set_sbands sr_bands]. apply Forall_app. split; [eapply Forall_impl; [|exact Hsb]; intros; cbv beta in *; lia|].
      constructor; [cbn [fst]; lia|constructor]. }
    specialize (R Hs'). unfold r1 in R at 2. unfold r1 in R. clear - R.
    cbn [spots_c mapi numbered map]. rewrite app_length in R. cbn [length] in R. rewrite Nat.add_1_r in R.
    destruct r as [[] ? ? ? ? ?]. cbn in R |- *. rewrite <- !app_assoc in R. exact R.
Qed.

Definition chan4 (c c4 : channel) : Prop := exists c1, chan1 c c1 /\ c4 = set_bands (map bare (c_bands c)) c1.
Definition perc4 (p q : perception) : Prop := exists q2 cs, perc2 p q2 /\ Forall2 chan4 (p_channels p) cs /\ q = set_channels cs q2.

Lemma sbands_below a n l : Forall (fun x => fst x < Z.of_nat n) a -> Forall (fun x => fst x < Z.of_nat (n + length l)) (a ++ numbered n l).
Proof.
  intros H. apply Forall_app. split.
  - eapply Forall_impl; [|exact H]. intros x Hx. cbv beta in *. lia.
  - eapply Forall_impl; [|exact (numbered_below n l)]. intros x Hx. unfold vec_size in *. cbv beta in *. lia.
Qed.
Lemma spots_c_length pid cid pi ci bi l : length (spots_c pid cid pi ci bi l) = length l. Proof. apply mapi_length. Qed.
Lemma spots_p_length pid pi l : forall ci, length (spots_p pid pi ci l) = length (flat_map c_bands l).
Proof. induction l as [|c l IH]; intros ci; [reflexivity|]. cbn [spots_p flat_map]. now rewrite !app_length, spots_c_length, IH. Qed.
Lemma allBands_c_snd pid l : forall id, snd (allBands_channels pid id l) = id + vec_size (flat_map c_bands l).
Proof.
  induction l as [|c l IH]; intros id; [cbn; lia|]. cbn [allBands_channels flat_map]. specialize (IH (id + vec_size (c_bands c))).
  destruct (allBands_channels pid (id + vec_size (c_bands c)) l) as [x y]. cbn [snd] in *. subst y. unfold vec_size. rewrite app_length. lia.
Qed.
Lemma sb_twice x y r : set_sbands x (set_sbands y r) = set_sbands x r. Proof. reflexivity. Qed.

Lemma stage_bands2 fuel a q b pi : length a = pi -> forall l l1 ca id r, Forall2 chan1 l l1 ->
  h_perceptions (sr_haptic r) = a ++ set_channels (ca ++ l1) q :: b -> NoDup (map p_id (a ++ q :: b)) ->
  NoDup (map c_id (flat_map p_channels a ++ ca ++ l)) -> nbits 8 (p_id q) -> Forall (fun c => nbits 16 (c_id c) /\ Forall band_ok (c_bands c)) l ->
  Z.of_nat id + vec_size (flat_map c_bands l) <= 256 -> Forall (fun x => fst x < Z.of_nat id) (sr_bands r) ->
  exists l4, Forall2 chan4 l l4 /\
  run fuel (map (packet MetadataBandP) (fst (allBands_channels (p_id q) (Z.of_nat id) l))) r
    (set_sbands (sr_bands r ++ numbered id (spots_p (p_id q) pi (length ca) l))
      (set_haptic (set_perceptions (a ++ set_channels (ca ++ l4) q :: b) (sr_haptic r)) r)).
Proof.
  intros La. induction l as [|c l IH]; intros l1 ca id r H1 Eh Hp Hc Hq Hok Hid Hsb; inversion H1 as [|? c1 ? l1' Hc1 Hl]; subst.
  - exists []. split; [constructor|]. cbn. rewrite !app_nil_r in *. rewrite <- Eh. destruct r as [[] ? ? ? ? ?]; apply Run0.
  - inversion Hok as [|? ? (Hci & Hbs) Hok']; subst. cbn [flat_map] in Hid. unfold vec_size in Hid. rewrite app_length in Hid.
    assert (Ec : c_id c1 = c_id c /\ set_bands [] c1 = c1) by (destruct Hc1 as (g & m & _ & _ & ->); split; reflexivity). destruct Ec as [Ec Eb].
    assert (Hc' : NoDup (map c_id (flat_map p_channels a ++ ca ++ c1 :: l1'))).
    { rewrite !map_app in *. cbn [map] in *. rewrite Ec, (proj1 (chan1_ids _ _ Hl)). exact Hc. }
    pose proof (stage_bands1 fuel a q b ca c1 l1' (length a) (length ca) eq_refl eq_refl (c_bands c) [] id r) as R1.
    rewrite Eb in R1. specialize (R1 Eh Hp Hc' Hq). rewrite Ec in R1.
    assert (Hid1 : Z.of_nat id + vec_size (c_bands c) <= 256) by (unfold vec_size; lia). specialize (R1 Hci Hbs Hid1 Hsb). cbn [app length] in R1.
    set (c4 := set_bands (map bare (c_bands c)) c1) in *. set (r1 := set_sbands _ _) in R1.
    destruct (IH l1' (ca ++ [c4]) (id + length (c_bands c))%nat r1 Hl) as (l4 & F & R).
    { rewrite <- app_assoc. unfold r1. destruct r as [[] ? ? ? ? ?]. reflexivity. } { exact Hp. }
    { rewrite !map_app in *. cbn [map] in *. unfold c4. rewrite id_bands, Ec. rewrite <- !app_assoc. exact Hc. } { exact Hq. } { exact Hok'. }
    { unfold vec_size. lia. }
    { unfold r1. cbn [set_sbands sr_bands]. pose proof (sbands_below _ id (spots_c (p_id q) (c_id c) (length a) (length ca) 0 (c_bands c)) Hsb) as K.
      rewrite spots_c_length in K. exact K. }
    exists (c4 :: l4). split; [constructor; [exists c1; auto|exact F]|]. cbn [allBands_channels].
    replace (Z.of_nat id + vec_size (c_bands c)) with (Z.of_nat (id + length (c_bands c))) by (unfold vec_size; lia).
    destruct (allBands_channels (p_id q) (Z.of_nat (id + length (c_bands c))) l) as [rest id'] eqn:Er. cbn [fst] in *.
    rewrite map_app. eapply run_app; [exact R1|]. unfold r1 in R |- *. cbn [spots_p]. rewrite numbered_app, spots_c_length.
    rewrite app_length in R. cbn [length] in R. rewrite Nat.add_1_r in R. clear - R.
    destruct r as [[] ? ? ? ? ?]. cbn in R |- *. rewrite <- !app_assoc in R. exact R.
Qed.

Lemma perc3_parts p q : perc3 p q -> exists q2 cs, perc2 p q2 /\ Forall2 chan1 (p_channels p) cs /\ q = set_channels cs q2 /\ p_id q = p_id p /\ p_id q2 = p_id p /\
  map c_id (p_channels q) = map c_id (p_channels p).
Proof.
  intros (q2 & cs & H2 & Hc & ->). exists q2, cs. split; [exact H2|]. split; [exact Hc|]. split; [reflexivity|]. rewrite id_channels, channels_set.
  destruct H2 as (q1 & lib & (d & _ & ->) & _ & ->). repeat split. exact (proj1 (chan1_ids _ _ Hc)).
Qed.
Lemma spots_total l : forall pi, length (spots_h pi l) = length (flat_map (fun p => flat_map c_bands (p_channels p)) l).
Proof. induction l as [|p l IH]; intros pi; [reflexivity|]. cbn [spots_h flat_map]. now rewrite !app_length, spots_p_length, IH. Qed.

Lemma stage_bands fuel l : forall l3 a id r, Forall2 perc3 l l3 ->
  h_perceptions (sr_haptic r) = a ++ l3 -> NoDup (map p_id (a ++ l)) ->
  NoDup (map c_id (flat_map p_channels a ++ flat_map p_channels l)) ->
  Forall (fun p => nbits 8 (p_id p) /\ Forall (fun c => nbits 16 (c_id c) /\ Forall band_ok (c_bands c)) (p_channels p)) l ->
  Z.of_nat id + vec_size (flat_map (fun p => flat_map c_bands (p_channels p)) l) <= 256 -> Forall (fun x => fst x < Z.of_nat id) (sr_bands r) ->
  exists l4, Forall2 perc4 l l4 /\
  run fuel (map (packet MetadataBandP) (fst (allBands_perceptions (Z.of_nat id) l))) r
    (set_sbands (sr_bands r ++ numbered id (spots_h (length a) l)) (set_haptic (set_perceptions (a ++ l4) (sr_haptic r)) r)).
Proof.
  induction l as [|p l IH]; intros l3 a id r H3 Eh Hp Hc Hok Hid Hsb; inversion H3 as [|? q ? l3' Hq Hl]; subst.
  - exists []. split; [constructor|]. cbn. rewrite !app_nil_r in *. rewrite <- Eh. destruct r as [[] ? ? ? ? ?]; apply Run0.
  - inversion Hok as [|? ? (Hpi & Hcs) Hok']; subst. cbn [flat_map] in Hid, Hc. unfold vec_size in Hid. rewrite app_length in Hid.
    destruct (perc3_parts p q Hq) as (q2 & cs & H2 & Hcs1 & Eq & Eid & Eid2 & Ecs).
    assert (Hids3 : map p_id l3' = map p_id l).
    { clear - Hl. induction Hl as [|x y l l3 Hx _ IHl]; [reflexivity|]. destruct (perc3_parts x y Hx) as (? & ? & _ & _ & _ & E & _). cbn [map]. now rewrite E, IHl. }
    destruct (stage_bands2 fuel a q2 l3' (length a) eq_refl (p_channels p) cs [] id r Hcs1) as (cs4 & F4 & R4).
    { cbn [app]. rewrite <- Eq. exact Eh. }
    { rewrite map_app in *. cbn [map] in *. rewrite Eid2, Hids3. exact Hp. }
    { cbn [app]. rewrite app_assoc, map_app in Hc. exact (nodup_left _ _ Hc). } { rewrite Eid2. exact Hpi. } { exact Hcs. } { unfold vec_size. lia. } { exact Hsb. }
    rewrite Eid2 in R4. set (q4 := set_channels cs4 q2). cbn [app length] in R4. fold q4 in R4. set (r1 := set_sbands _ _) in R4.
    assert (Ec4 : map c_id cs4 = map c_id (p_channels p)).
    { clear - F4. induction F4 as [|c c4 l m (c1 & (g & x & _ & _ & ->) & ->) _ IHF]; [reflexivity|]. cbn [map]. rewrite id_bands, IHF. reflexivity. }
    destruct (IH l3' (a ++ [q4]) (id + length (flat_map c_bands (p_channels p)))%nat r1 Hl) as (l4 & F & R).
    { rewrite <- app_assoc. unfold r1. destruct r as [[] ? ? ? ? ?]. reflexivity. }
    { rewrite <- app_assoc. cbn [app]. rewrite map_app in *. cbn [map] in *. unfold q4. rewrite id_channels, Eid2. exact Hp. }
    { rewrite flat_map_app. cbn [flat_map]. rewrite app_nil_r. unfold q4. rewrite channels_set. rewrite !map_app in *. rewrite Ec4, <- app_assoc. exact Hc. }
    { exact Hok'. } { unfold vec_size. lia. }
    { unfold r1. cbn [set_sbands sr_bands]. rewrite <- (spots_p_length (p_id p) (length a) (p_channels p) 0). apply sbands_below. exact Hsb. }
    exists (q4 :: l4). split; [constructor; [exists q2, cs4; auto|exact F]|]. cbn [allBands_perceptions].
    pose proof (allBands_c_snd (p_id p) (p_channels p) (Z.of_nat id)) as Es. destruct (allBands_channels (p_id p) (Z.of_nat id) (p_channels p)) as [here id'].
    cbn [fst snd] in *. subst id'.
    replace (Z.of_nat id + vec_size (flat_map c_bands (p_channels p))) with (Z.of_nat (id + length (flat_map c_bands (p_channels p)))) by (unfold vec_size; lia).
    destruct (allBands_perceptions (Z.of_nat (id + length (flat_map c_bands (p_channels p)))) l) as [rest id'']. cbn [fst] in *.
    rewrite map_app. eapply run_app; [exact R4|]. unfold r1 in R |- *. cbn [spots_h]. rewrite numbered_app, spots_p_length.
    rewrite app_length in R. cbn [length] in R. rewrite Nat.add_1_r in R. clear - R.
    destruct r as [[] ? ? ? ? ?]. cbn in R |- *. rewrite <- !app_assoc in R. exact R.
Qed.

(** *** Nothing to check away *)
Lemma check_loop_none {A} (drop : A -> bool) l : Forall (fun x => drop x = false) l -> check_loop drop l false = l.
Proof. induction 1 as [|x l H _ IH]; [reflexivity|]. cbn [check_loop]. now rewrite H, IH. Qed.
Lemma check_map_none {A} (f : A -> A) (drop : A -> bool) l : Forall (fun x => f x = x /\ drop x = false) l -> check_map f drop l false = l.
Proof. induction 1 as [|x l [H1 H2] _ IH]; [reflexivity|]. cbn [check_map]. now rewrite H1, H2, IH. Qed.
Lemma not_nil {A} (l : list A) : l <> [] -> is_nil l = false. Proof. destruct l; [congruence|reflexivity]. Qed.
Lemma check_same known pd h : Forall (perception_streamable known pd) (h_perceptions h) -> checkHapticComponent h = h.
Proof.
  intros H. unfold checkHapticComponent. rewrite check_map_none; [destruct h; reflexivity|].
  eapply Forall_impl; [|exact H]. intros p (_ & _ & _ & _ & Hne & Hc). split; [|now apply not_nil].
  unfold check_perception. rewrite check_map_none; [destruct p; reflexivity|].
  eapply Forall_impl; [|exact Hc]. intros c (_ & Hne' & Hb). split; [|now apply not_nil].
  unfold check_channel. rewrite check_map_none; [destruct c; reflexivity|].
  eapply Forall_impl; [|exact Hb]. intros b (_ & _ & Hne'' & He & _). split; [|now apply not_nil].
  unfold check_band. rewrite check_loop_none; [destruct b; reflexivity|].
  eapply Forall_impl; [|exact He]. intros e (_ & [(_ & Hk & _)|Hr]); unfold empty_basis.
  - rewrite (not_nil _ Hk). apply andb_false_r.
  - rewrite Hr. rewrite andb_false_r. reflexivity.
Qed.

Lemma to_unsigned_signed32 v : nbits 32 v -> to_unsigned 32 (to_signed 32 v) = v.
Proof. intros [H1 H2]. rewrite to_unsigned_mod_signed by lia. unfold to_unsigned. apply Z.mod_small. split; assumption. Qed.
Lemma timing_accept fuel w r : nbits 32 (sw_time w) -> nbits 32 (sw_timescale w) ->
  accepts fuel (timing_packet w) r (SReader (addSync (Sync (to_signed 32 (sw_time w)) (Some (sw_timescale w))) (sr_haptic r)) (sr_bands r)
        (sw_time w) (sw_timescale w) (sr_duration r) (sr_wait r)).
Proof.
  intros Ht Hs. unfold timing_packet. set (pay := writeInitializationTiming w). opened InitializationTimingP pay. unfold readInitializationTiming.
  pose proof (at_0 pay (pad ++ rest)) as H2. revert H2. generalize (pay ++ pad ++ rest) as bs. unfold pay, writeInitializationTiming. intros bs H2.
  vstep H2 (vreads_field32 (sw_time w)). vstep H2 (vreads_field32 (sw_timescale w)).
  vstep H2 (vreads_field_mod 24 128 ltac:(lia)). vstep H2 (vreads_field_mod 24 0 ltac:(lia)). vlast H2 (vreads_field_mod 1 0 ltac:(lia)).
  rewrite !to_unsigned_signed32 by assumption. rewrite ?L. reflexivity.
Qed.

(** *** The packets of the initialization unit *)
Definition made (p : bits) : Prop := exists ty payload, p = packet ty payload /\ ty <> DataP /\ 0 <= ty < 64.
Lemma made_framed p : made p -> vec_size p < 2 ^ 20 -> framed_packet p.
Proof.
  intros (ty & pl & -> & Hd & Hr) H. destruct (packet_shape ty pl Hd Hr) as (_ & E & L & _). unfold framed_packet. fold (vec_size (packet ty pl)). rewrite E, L.
  assert (0 <= bytes_for (vec_size pl)) by (unfold bytes_for; apply Z.div_pos; [unfold vec_size|]; lia).
  rewrite Z.mod_small; [reflexivity|]. change (2 ^ 20) with 1048576 in H. change (2 ^ 17) with 131072. lia.
Qed.
Lemma mapOut_Forall {A B} (f : A -> outcome B) (P : B -> Prop) l : (forall x y, In x l -> f x = Ok y -> P y) -> forall ys, mapOut f l = Ok ys -> Forall P ys.
Proof.
  induction l as [|x l IH]; intros H ys E; cbn [mapOut] in E.
  - injection E as <-. constructor.
  - destruct (f x) as [y| | |] eqn:Ey; cbn [obind] in E; try discriminate E. destruct (mapOut f l) as [ys'| | |]; cbn [obind] in E; try discriminate E.
    assert (Ez : ys = y :: ys') by congruence. rewrite Ez. constructor; [exact (H x y (or_introl eq_refl) Ey)|]. apply IH; [|reflexivity].
    intros x' y' Hi. apply H. right. exact Hi.
Qed.
Ltac made_with ty := match goal with H : obind ?w _ = Ok ?y |- made ?y => let b := fresh "b" in destruct w as [b| | |]; try discriminate H; exists ty, b;
  split; [cbn [obind] in H; congruence|split; [discriminate|vm_compute; split; [discriminate|reflexivity]]] end.
Lemma init_made w init w' : writeInitPackets w = Ok (init, w') -> Forall made init.
Proof.
  unfold writeInitPackets. cbv zeta. intros H. cases_in H.
  match goal with H1 : packets_haptics _ = Ok ?a, H2 : packets_perceptions _ = Ok ?b, H3 : packets_library _ = Ok ?c, H4 : packets_channels _ = Ok ?d |- _ =>
    rename H1 into Ea, H2 into Eb, H3 into Ec, H4 into Ed end.
  apply ok_pair in H. destruct H as [<- _].
  unfold packets_haptics, packets_perceptions, packets_library, packets_channels, packets_bands in *.
  apply Forall_app; split; [|apply Forall_app; split; [|apply Forall_app; split; [|apply Forall_app; split]]].
  - destruct (writeMetadataHaptics _) as [b| | |]; try discriminate Ea. cbn [obind] in Ea. match type of Ea with Ok ?x = Ok ?y => assert (Ex : y = x) by congruence; rewrite Ex end.
    constructor; [|constructor]. exists MetadataHapticsP, b. split; [reflexivity|split; [discriminate|vm_compute; split; [discriminate|reflexivity]]].
  - eapply mapOut_Forall; [|exact Eb]. intros x y _ E. cbv beta in E. made_with MetadataPerceptionP.
  - eapply mapOut_Forall; [|exact Ec]. intros x y _ E. cbv beta in E. made_with EffectLibraryP.
  - unfold omap in Ed. match type of Ed with context [mapOut ?f ?l] => destruct (mapOut f l) as [qss| | |] eqn:Eq end; try discriminate Ed.
    cbn [obind] in Ed. match type of Ed with Ok ?x = Ok ?y => assert (Ex : y = x) by congruence; rewrite Ex end. apply Forall_concat.
    eapply mapOut_Forall; [|exact Eq]. intros x y _ E. cbv beta in E. eapply mapOut_Forall; [|exact E]. clear. intros x0 y0 _ E. cbv beta in E. made_with MetadataChannelP.
  - apply Forall_forall. intros x Hx. apply in_map_iff in Hx. destruct Hx as (b & <- & _). exists MetadataBandP, b. split; [reflexivity|split; [discriminate|vm_compute; split; [discriminate|reflexivity]]].
Qed.

Lemma spots_bands l : forall pi, map fst (spots_h pi l) = flat_map (fun p => flat_map (fun c => map (fun b => (p_id p, c_id c, b)) (c_bands c)) (p_channels p)) l.
Proof.
  assert (Hc : forall pid cid pi ci bs bi, map fst (spots_c pid cid pi ci bi bs) = map (fun b => (pid, cid, b)) bs).
  { intros pid cid pi ci bs. unfold spots_c. induction bs as [|b bs IH]; intros bi; [reflexivity|]. cbn [mapi map fst]. now rewrite IH. }
  assert (Hp : forall pid pi cs ci, map fst (spots_p pid pi ci cs) = flat_map (fun c => map (fun b => (pid, c_id c, b)) (c_bands c)) cs).
  { intros pid pi cs. induction cs as [|c cs IH]; intros ci; [reflexivity|]. cbn [spots_p flat_map]. now rewrite map_app, Hc, IH. }
  induction l as [|p l IH]; intros pi; [reflexivity|]. cbn [spots_h flat_map]. now rewrite map_app, Hp, IH.
Qed.
Lemma bands_count h : vec_size (bands_of h) = vec_size (flat_map (fun p => flat_map c_bands (p_channels p)) (h_perceptions h)).
Proof. unfold vec_size, bands_of. rewrite <- (spots_bands (h_perceptions h) 0), map_length, spots_total. reflexivity. Qed.
Lemma last_app {A} (a b : list A) d : b <> [] -> last (a ++ b) d = last b d.
Proof.
  intros Hb. induction a as [|x a IH]; [reflexivity|]. cbn [app]. rewrite <- IH. destruct (a ++ b) as [|y l] eqn:E; [|reflexivity].
  apply app_eq_nil in E. destruct E. congruence.
Qed.
Lemma mapi_bands_length f id l : length (mapi_bands f id l) = length l.
Proof. revert id. induction l as [|x l IH]; intros id; [reflexivity|]. cbn [mapi_bands length]. now rewrite IH. Qed.
Lemma allBands_p_length l : forall id, length (fst (allBands_perceptions id l)) = length (flat_map (fun p => flat_map c_bands (p_channels p)) l) /\
  Forall (fun b : bits => (49 <= length b)%nat) (fst (allBands_perceptions id l)).
Proof.
  assert (Hb : forall pid cid bs id, Forall (fun b : bits => (49 <= length b)%nat) (mapi_bands (fun i b => padToByteBoundary (writeMetadataBand pid cid i b)) id bs)).
  { intros pid cid bs. induction bs as [|b bs IH]; intros id; cbn [mapi_bands]; constructor; [|apply IH].
    unfold padToByteBoundary. destruct (fillBitset_app (writeMetadataBand pid cid id b)) as (pad & ->). rewrite app_length.
    unfold writeMetadataBand. rewrite !app_length, !writeNBits_length. lia. }
  assert (Hc : forall pid cs id, length (fst (allBands_channels pid id cs)) = length (flat_map c_bands cs) /\
    Forall (fun b : bits => (49 <= length b)%nat) (fst (allBands_channels pid id cs))).
  { intros pid cs. induction cs as [|c cs IH]; intros id; [split; [reflexivity|constructor]|]. cbn [allBands_channels flat_map].
    destruct (IH (id + vec_size (c_bands c))) as [I1 I2]. destruct (allBands_channels pid (id + vec_size (c_bands c)) cs) as [rest id']. cbn [fst] in *.
    rewrite !app_length, mapi_bands_length, I1. split; [reflexivity|]. apply Forall_app. split; [apply Hb|exact I2]. }
  induction l as [|p l IH]; intros id; [split; [reflexivity|constructor]|]. cbn [allBands_perceptions flat_map].
  destruct (Hc (p_id p) (p_channels p) id) as [I1 I2]. destruct (allBands_channels (p_id p) id (p_channels p)) as [here id']. cbn [fst] in *.
  destruct (IH id') as [J1 J2]. destruct (allBands_perceptions id' l) as [rest id'']. cbn [fst] in *.
  rewrite !app_length, I1, J1. split; [reflexivity|]. apply Forall_app. split; assumption.
Qed.
Lemma packet_long ty payload : 0 <= ty < 64 -> ty <> DataP -> (49 <= length payload)%nat -> (72 < length (packet ty payload))%nat.
Proof. intros H1 H2 H. destruct (packet_open ty payload H1 H2) as (hd & pad & -> & L & _). rewrite !app_length. lia. Qed.

Definition start_writer (h : haptics) : swriter := SWriter h 0 (value_or (h_timescale h) 1000).
Definition announced (h : haptics) (l4 : list perception) : haptics :=
  Haptics (h_version h) (h_profile h) (h_level h) (h_date h) (h_desc h) l4 (h_avatars h) (Some 1000) [Sync 0 (Some (value_or (h_timescale h) 1000))].
Lemma init_run fuel pd h : streamable known_semantic pd h -> Forall (fun p => (library_depth (p_library p) <= fuel)%nat) (h_perceptions h) ->
  exists init l4, writeInitPackets (start_writer h) = Ok (init, start_writer h) /\ Forall2 perc4 (h_perceptions h) l4 /\
    init <> [] /\ (72 < length (last init []))%nat /\
    run fuel (timing_packet (start_writer h) :: init) initializeStream
      (SReader (announced h l4) (numbered 0 (spots_h 0 (h_perceptions h))) 0 (value_or (h_timescale h) 1000) 0 false).
Proof.
  intros (Tv & Tp & Tl & Td & Tde & Ha & Hna & Hts & Hsy & Hpn & Hps & Hip & Hic & Hbs & Hne0 & Hids & Hev) Hdep.
  pose proof (check_same _ _ h Hps) as Hck. set (l := h_perceptions h) in *.
  assert (Hck' : check_writer (start_writer h) = start_writer h) by (unfold check_writer, start_writer; cbn [sw_haptic sw_time sw_timescale]; now rewrite Hck).
  destruct (metadata_haptics h Tv Tp Tl Td Tde Ha Hna) as (bh & Ebh & Rbh).
  set (h1 := Haptics (h_version h) (h_profile h) (h_level h) (h_date h) (h_desc h) [] (h_avatars h) (Some 1000) [Sync 0 (Some (value_or (h_timescale h) 1000))]).
  set (R := fun hh sb => SReader hh sb 0 (value_or (h_timescale h) 1000) 0 false).
  destruct (stage_perceptions fuel l (R h1 [])) as (qb & l1 & Eb & F1 & R1).
  { eapply Forall_impl; [|exact Hps]. intros p (H & _). exact H. } { exact Hip. }
  change (set_haptic _ _) with (R (set_perceptions l1 h1) []) in R1.
  destruct (stage_libraries fuel l l1 [] (R (set_perceptions l1 h1) []) F1 eq_refl) as (qc & l2 & Ec & F2 & R2).
  { cbn [app]. rewrite (perc1_ids _ _ F1). exact Hip. }
  { rewrite Forall_forall in Hps, Hdep |- *. intros p Hp. destruct (Hps p Hp) as ((Hi & _) & He & Hs & _). auto. }
  change (set_haptic _ _) with (R (set_perceptions l2 h1) []) in R2.
  destruct (stage_channels fuel l l2 [] (R (set_perceptions l2 h1) []) F2 eq_refl) as (qd & l3 & Ed & F3 & R3).
  { cbn [app]. rewrite (proj1 (perc2_ids _ _ F2)). exact Hip. }
  { eapply Forall_impl; [|exact Hps]. intros p ((Hi & _) & _ & _ & _ & _ & Hc). split; [exact Hi|]. eapply Forall_impl; [|exact Hc]. intros c (H & _). exact H. }
  { exact Hic. }
  change (set_haptic _ _) with (R (set_perceptions l3 h1) []) in R3.
  destruct (stage_bands fuel l l3 [] 0 (R (set_perceptions l3 h1) []) F3 eq_refl) as (l4 & F4 & R4).
  { exact Hip. } { exact Hic. }
  { eapply Forall_impl; [|exact Hps]. intros p ((Hi & _) & _ & _ & _ & _ & Hc). split; [exact Hi|]. eapply Forall_impl; [|exact Hc]. intros c ((Hci & _) & _ & Hb). split; [exact Hci|].
    eapply Forall_impl; [|exact Hb]. intros b (H & _). exact H. }
  { rewrite bands_count in Hbs. exact Hbs. } { constructor. }
  set (bp := map (packet MetadataBandP) (fst (allBands_perceptions (Z.of_nat 0) l))) in R4.
  assert (Hne : bp <> []).
  { intros E. apply (f_equal (@length bits)) in E. unfold bp in E. rewrite map_length, (proj1 (allBands_p_length l (Z.of_nat 0))) in E. cbn [length] in E.
    destruct l as [|p l']; [congruence|]. inversion Hps as [|? ? (_ & _ & _ & _ & Hcn & Hcs) _]; subst. destruct (p_channels p) as [|c cs] eqn:Ep; [congruence|].
    inversion Hcs as [|? ? (_ & Hbn & _) _]; subst. cbn [flat_map] in E. rewrite Ep in E. cbn [flat_map] in E. destruct (c_bands c); [congruence|discriminate E]. }
  exists ([packet MetadataHapticsP bh] ++ qb ++ qc ++ concat qd ++ bp), l4. split; [|split; [exact F4|split; [|split]]].
  - unfold writeInitPackets. cbv zeta. rewrite !Hck'. cbn [sw_haptic start_writer]. unfold packets_haptics, packets_perceptions, packets_library, packets_channels, packets_bands.
    fold l. rewrite Ebh. cbn [obind]. rewrite Eb. cbn [obind]. rewrite Ec. cbn [obind]. rewrite Ed. reflexivity.
  - destruct qb; discriminate.
  - rewrite !app_assoc, last_app by exact Hne.
    assert (Hall : Forall (fun p : bits => (72 < length p)%nat) bp).
    { unfold bp. apply Forall_map. eapply Forall_impl; [|exact (proj2 (allBands_p_length l (Z.of_nat 0)))]. intros b Hb.
      apply packet_long; [vm_compute; split; [discriminate|reflexivity]|discriminate|exact Hb]. }
    rewrite Forall_forall in Hall. apply Hall. apply last_in. exact Hne.
  - eapply Run1; [apply timing_accept; [vm_compute; split; [discriminate|reflexivity]|exact Hts]|].
    change (SReader _ _ _ _ _ _) with (R (Haptics [] [77; 97; 105; 110] 1 [] [] [] [] (Some 1000) [Sync 0 (Some (value_or (h_timescale h) 1000))]) []) at 1.
    cbn [app]. eapply Run1.
    { opened MetadataHapticsP bh. rewrite Rbh. cbn [obind]. reflexivity. }
    eapply run_app; [exact R1|]. eapply run_app; [exact R2|]. eapply run_app; [exact R3|]. exact R4.
Qed.

Definition ready (h : haptics) (l4 : list perception) : sreader :=
  SReader (announced h l4) (numbered 0 (spots_h 0 (h_perceptions h))) 0 (value_or (h_timescale h) 1000) 0 false.
Lemma timing_made w : made (timing_packet w).
Proof. exists InitializationTimingP, (writeInitializationTiming w). split; [reflexivity|split; [discriminate|vm_compute; split; [discriminate|reflexivity]]]. Qed.
Lemma timing_size w : length (timing_packet w) = 144%nat.
Proof.
  destruct (packet_shape InitializationTimingP (writeInitializationTiming w) ltac:(discriminate) ltac:(vm_compute; split; [discriminate|reflexivity])) as (_ & _ & H & _).
  fold (timing_packet w) in H. unfold vec_size in H. unfold writeInitializationTiming in H. rewrite !app_length, !writeNBits_length in H.
  change (bytes_for (Z.of_nat (32 + (32 + (24 + (24 + 1)))))) with 15 in H. lia.
Qed.
Lemma concat_bytes ps : Forall framed_packet ps -> exists m, length (concat ps) = (8 * m)%nat.
Proof.
  induction 1 as [|p ps Hp _ (m & IH)]; [exists 0%nat; reflexivity|]. pose proof (field_nonneg 6 17 p). unfold framed_packet in Hp.
  exists (3 + Z.to_nat (field 6 17 p) + m)%nat. cbn [concat]. rewrite app_length. lia.
Qed.
Lemma init_read fuel pd h : streamable known_semantic pd h -> Forall (fun p => (library_depth (p_library p) <= fuel)%nat) (h_perceptions h) ->
  (forall init w, writeInitPackets (start_writer h) = Ok (init, w) -> Forall (fun p => vec_size p < 2 ^ 20) init /\ vec_size (concat init) < 2 ^ 30) ->
  exists init l4, writeInitPackets (start_writer h) = Ok (init, start_writer h) /\ Forall2 perc4 (h_perceptions h) l4 /\
    let u := fst (writeUnitInitialization init (start_writer h)) in
    framed_unit u /\ vec_size u < 2 ^ 31 /\ field 0 6 u = InitializationU /\
    forall crc, readMIHSUnit fuel u initializeStream crc = Ok (true, ready h l4, crc).
Proof.
  intros Hs Hd Hf. destruct (init_run fuel pd h Hs Hd) as (init & l4 & Ei & F4 & Hne & Hlast & Hrun). destruct (Hf _ _ Ei) as [Hf1 Hf2].
  exists init, l4. split; [exact Ei|]. split; [exact F4|]. cbv zeta.
  destruct (writeUnitInitialization init (start_writer h)) as [u w'] eqn:Eu. cbn [fst].
  destruct (init_unit _ _ _ _ Eu ltac:(cbn [start_writer sw_time]; lia)) as (Eu' & _ & _ & U1 & U2 & _).
  set (ps := timing_packet (start_writer h) :: init).
  change (timing_packet (start_writer h) ++ concat init) with (concat ps) in Eu'.
  assert (Hps : Forall framed_packet ps).
  { constructor; [apply made_framed; [apply timing_made|unfold vec_size; rewrite timing_size; reflexivity]|].
    pose proof (init_made _ _ _ Ei) as Hm. rewrite Forall_forall in *. intros p Hp. apply made_framed; auto. }
  destruct (concat_bytes ps Hps) as (m & Lm).
  assert (Lps : vec_size (concat ps) < 2 ^ 30 + 144) by (unfold ps; cbn [concat]; unfold vec_size in *; rewrite app_length, timing_size; lia).
  set (hd := unit_header InitializationU 0 0 (vec_size (concat ps) / 8)) in *. assert (Lhd : length hd = 72%nat) by reflexivity.
  assert (Hu : framed_unit u /\ vec_size u < 2 ^ 31).
  { destruct (unit_fields InitializationU 0 0 (vec_size (concat ps) / 8) (concat ps)) as (_ & _ & _ & F). fold hd in F. rewrite <- Eu' in F.
    assert (F' : field 36 32 u = vec_size (concat ps) / 8).
    { rewrite F. apply Z.mod_small. unfold vec_size in *. change (2 ^ 30) with 1073741824 in *. change (2 ^ 32) with 4294967296. unfold bits in *. lia. }
    unfold framed_unit. rewrite F'. rewrite Eu'. unfold vec_size in *. rewrite app_length, Lhd, Lm. change (2 ^ 30) with 1073741824 in *. change (2 ^ 28) with 268435456.
    change (2 ^ 31) with 2147483648. unfold bits in *. lia. }
  split; [apply Hu|]. split; [apply Hu|]. split; [exact U1|]. intros crc. rewrite Eu'. rewrite (read_unit_all fuel hd ps initializeStream crc Lhd); [|rewrite <- Eu'; apply Hu|exact Hps|discriminate|].
  - rewrite <- Eu'. replace (enter u initializeStream) with initializeStream by (unfold enter; rewrite U2; reflexivity).
    fold ps in Hrun. rewrite (run_hand_over _ _ _ _ Hrun [] crc). reflexivity.
  - unfold ps. destruct init; [congruence|exact Hlast].
Qed.
