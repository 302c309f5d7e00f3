(** The theorems about the packets of a band, assembled. *)
From Coq Require Import Sorting.Sorted Sorting.Permutation Reals.
From Verif Require Import Base BitsModel BitsSpec BitsProof BitsVecProof FloatBase FloatModel FloatSpec FloatProof
  FloatFields TypesModel TypesSpec TypesProof SemanticModel MetaModel BandModel DataModel CrcModel StreamModel VecReads MetaSpec MetaProof
  DataSpec DataProof MergeProof.
Local Open Scope Z_scope.
Ltac Zify.zify_post_hook ::= Z.div_mod_to_equations.

(** *** Ids *)

Lemma create_assign bt lo pd : forall cur ids au res frs au' ids' cur', nonneg ids ->
  createPayloadPacket bt lo pd cur ids au = Ok (res, frs, au', ids', cur') ->
  assign cur' ids' = assign cur ids /\ nonneg ids' /\
  createPayloadPacket bt lo pd (fst (assign cur ids)) (snd (assign cur ids)) au
    = Ok (res, frs, au', snd (assign cur ids), fst (assign cur ids)) /\
  (res = true -> cur' = fst (assign cur ids) /\ ids' = snd (assign cur ids)).
Proof.
  induction cur as [|e0 r IH]; intros ids au res frs au' ids' cur' Hn H; cbn [createPayloadPacket] in H.
  - injection H as <- <- <- <- <-. cbn. auto.
  - cbn [assign].
    set (p := if e_id e0 =? -1 then (let i := nextEffectId ids in (set_id i e0, ids ++ [i])) else (e0, ids)) in *.
    assert (Hp : e_id (fst p) <> -1 /\ nonneg (snd p)).
    { unfold p. pose proof (nextEffectId_nonneg ids Hn). destruct (Z.eqb_spec (e_id e0) (-1)); cbn; split; try lia; auto.
      apply Forall_app. split; [exact Hn|repeat constructor; assumption]. }
    destruct p as [e ids1]. cbn [fst snd] in Hp. destruct Hp as [Hid Hn1].
    assert (Hback : forall ids' cur', assign cur' ids' = assign r ids1 ->
        assign (e :: cur') ids' = (let '(r', i2) := assign r ids1 in (e :: r', i2))).
    { intros i' c' E. cbn [assign]. destruct (Z.eqb_spec (e_id e) (-1)); [contradiction|]. now rewrite E. }
    assert (Hunf : forall r' ids2 au, createPayloadPacket bt lo pd (e :: r') ids2 au =
      if e_type e =? BasisE then
        do '(endEffect, count, isRAU, b) <- writeEffectBasis bt lo pd e;
        let frs := if count >? 0 then [Fragment e count b] else [] in
        let au := if count >? 0 then (if isRAU then RAU else DAU) else au in
        if endEffect then
          do '(res, frs', au, ids, r') <- createPayloadPacket bt lo pd r' ids2 au;
          Ok (res, frs ++ frs', au, ids, e :: r')
        else Ok (false, frs, au, ids2, e :: r')
      else if e_type e =? ReferenceE then
        if (e_pos e >=? lo) && (e_pos e <? lo + pd) then
          do '(res, frs', au, ids, r') <- createPayloadPacket bt lo pd r' ids2 RAU;
          Ok (res, Fragment e 0 [] :: frs', au, ids, e :: r')
        else if e_pos e >? lo + pd then Ok (false, [], au, ids2, e :: r')
        else
          do '(res, frs', au, ids, r') <- createPayloadPacket bt lo pd r' ids2 au;
          Ok (res, frs', au, ids, e :: r')
      else
        do '(res, frs', au, ids, r') <- createPayloadPacket bt lo pd r' ids2 au;
        Ok (res, frs', au, ids, e :: r')).
    { intros r' ids2 a. cbn [createPayloadPacket]. destruct (Z.eqb_spec (e_id e) (-1)); [contradiction|reflexivity]. }
    destruct (assign r ids1) as [r' ids2] eqn:Ea. cbn [fst snd]. rewrite Hunf. clear Hunf.
    assert (Hrec : forall au1, match createPayloadPacket bt lo pd r ids1 au1 with
       | Ok (res1, frs1, au2, ids3, cur3) => assign cur3 ids3 = (r', ids2) /\ nonneg ids3 /\
           createPayloadPacket bt lo pd r' ids2 au1 = Ok (res1, frs1, au2, ids2, r') /\ (res1 = true -> cur3 = r' /\ ids3 = ids2)
       | _ => True end).
    { intros au1. destruct (createPayloadPacket bt lo pd r ids1 au1) as [[[[[res1 frs1] au2] ids3] cur3]| | |] eqn:E; auto.
      specialize (IH ids1 au1 _ _ _ _ _ Hn1 E). rewrite Ea in IH. exact IH. }
    destruct (e_type e =? BasisE).
    + destruct (writeEffectBasis bt lo pd e) as [[[[en ct] ra] b]| | |]; cbn [obind] in *; try discriminate.
      destruct en.
      * cbv zeta in *. match type of H with context [createPayloadPacket bt lo pd r ids1 ?a] => specialize (Hrec a) end.
        destruct (createPayloadPacket bt lo pd r ids1 _) as [[[[[res1 frs1] au2] ids3] cur3]| | |]; cbn [obind] in H; try discriminate.
        injection H as <- <- <- <- <-. destruct Hrec as (R1 & R2 & R3 & R4). rewrite R3. cbn [obind].
        split; [apply Hback; exact R1|]. split; [exact R2|]. split; [reflexivity|]. intros E. destruct (R4 E) as [-> ->]. auto.
      * injection H as <- <- <- <- <-. split; [apply Hback; exact Ea|]. split; [exact Hn1|]. split; [reflexivity|discriminate].
    + destruct (e_type e =? ReferenceE).
      * destruct ((e_pos e >=? lo) && (e_pos e <? lo + pd)).
        -- specialize (Hrec RAU).
           destruct (createPayloadPacket bt lo pd r ids1 _) as [[[[[res1 frs1] au2] ids3] cur3]| | |]; cbn [obind] in H; try discriminate.
           injection H as <- <- <- <- <-. destruct Hrec as (R1 & R2 & R3 & R4). rewrite R3. cbn [obind].
           split; [apply Hback; exact R1|]. split; [exact R2|]. split; [reflexivity|]. intros E. destruct (R4 E) as [-> ->]. auto.
        -- destruct (e_pos e >? lo + pd).
           ++ injection H as <- <- <- <- <-. split; [apply Hback; exact Ea|]. split; [exact Hn1|]. split; [reflexivity|discriminate].
           ++ specialize (Hrec au).
              destruct (createPayloadPacket bt lo pd r ids1 _) as [[[[[res1 frs1] au2] ids3] cur3]| | |]; cbn [obind] in H; try discriminate.
              injection H as <- <- <- <- <-. destruct Hrec as (R1 & R2 & R3 & R4). rewrite R3. cbn [obind].
              split; [apply Hback; exact R1|]. split; [exact R2|]. split; [reflexivity|]. intros E. destruct (R4 E) as [-> ->]. auto.
      * specialize (Hrec au).
        destruct (createPayloadPacket bt lo pd r ids1 _) as [[[[[res1 frs1] au2] ids3] cur3]| | |]; cbn [obind] in H; try discriminate.
        injection H as <- <- <- <- <-. destruct Hrec as (R1 & R2 & R3 & R4). rewrite R3. cbn [obind].
        split; [apply Hback; exact R1|]. split; [exact R2|]. split; [reflexivity|]. intros E. destruct (R4 E) as [-> ->]. auto.
Qed.
Lemma loop_assign bt pd ad : forall n time cur ids au out au' ids', nonneg ids ->
  packetizeLoop n bt pd ad time cur ids au = Ok (out, au', ids') ->
  ids' = snd (assign cur ids) /\ packetizeLoop n bt pd ad time (fst (assign cur ids)) (snd (assign cur ids)) au = Ok (out, au', ids').
Proof.
  induction n as [|n IH]; intros time cur ids au out au' ids' Hn H; cbn [packetizeLoop] in *; [discriminate|].
  destruct (createPayloadPacket bt time pd cur ids au) as [[[[[res frs] au1] ids1] cur1]| | |] eqn:E; cbn [obind] in H; try discriminate.
  destruct (create_assign _ _ _ _ _ _ _ _ _ _ _ Hn E) as (A1 & A2 & A3 & A4). rewrite A3. cbn [obind].
  destruct (emitPacket bt time au1 ad frs) as [o| | |]; cbn [obind] in *; try discriminate.
  destruct res.
  - injection H as <- <- <-. destruct (A4 eq_refl) as [-> ->]. auto.
  - destruct (packetizeLoop n bt pd ad (time + pd) cur1 ids1 au1) as [[[rest au2] ids2]| | |] eqn:El; cbn [obind] in H; try discriminate.
    injection H as <- <- <-. destruct (IH _ _ _ _ _ _ _ A2 El) as [-> Hl]. rewrite A1 in *. rewrite Hl. cbn [obind]. auto.
Qed.
Lemma band_ids fuel pd ad b ids au out au' ids' : b_type b <> WaveletB -> nonneg ids ->
  packetizeBand fuel pd ad b ids au = Ok (out, au', ids') ->
  exists L, only_ids_added (b_effects b) L /\ fresh_ids ids (b_effects b) L /\ ids' = ids ++ added_ids (b_effects b) L /\
    packetizeBand fuel pd ad (set_effects L b) ids' au = Ok (out, au', ids').
Proof.
  intros Hb Hn H. unfold packetizeBand in *. change (b_type (set_effects _ b)) with (b_type b).
  destruct (Z.eqb_spec (b_type b) WaveletB); [contradiction|].
  destruct (loop_assign _ _ _ _ _ _ _ _ _ _ _ Hn H) as [-> Hl].
  pose proof (assign_spec (b_effects b) ids Hn) as Hs. destruct (assign (b_effects b) ids) as [L idsF]. cbn [fst snd] in *.
  destruct Hs as (H1 & H2 & H3 & H4 & H5). exists L. split; [exact H1|]. split.
  - split; [exact H4|]. intros i Hi Hin. specialize (H5 i Hi i Hin). lia.
  - split; [exact H2|]. exact Hl.
Qed.

(** *** Ids and conditions after the assignment *)

Lemma only_ids_same l L : only_ids_added l L ->
  (forall bt, Forall (effect_data_ok known_semantic bt) l -> Forall (effect_data_ok known_semantic bt) L) /\
  flat_map events L = flat_map events l /\ map e_pos L = map e_pos l /\ map e_type L = map e_type l /\ length L = length l.
Proof.
  induction 1 as [|e e' l L He _ (I1 & I2 & I3 & I4 & I5)]; [repeat split; auto|].
  assert (He' : exists i, e' = set_id i e) by (destruct (e_id e =? -1); [destruct He as (i & _ & ->); eauto|subst; exists (e_id e); destruct e; reflexivity]).
  destruct He' as (i & ->). cbn [flat_map map length]. rewrite I2, I3, I4, I5. split.
  - intros bt H. inversion H; subst. constructor; [|auto]. destruct e; assumption.
  - destruct e; auto.
Qed.
Lemma boundary_same pd l L : only_ids_added l L -> not_ending_on_boundary pd l -> not_ending_on_boundary pd L.
Proof.
  intros Ho H a e El Hty. subst L. destruct (Forall2_app_inv_r _ _ Ho) as (l1 & l2 & _ & H2 & ->).
  inversion H2 as [|x ? ? ? Hx Hr]; subst. inversion Hr; subst.
  assert (E : e_pos e = e_pos x /\ e_type e = e_type x).
  { destruct (e_id x =? -1); [destruct Hx as (i & _ & ->); destruct x; auto|subst; auto]. }
  destruct E as [-> E]. apply (H l1 x eq_refl). congruence.
Qed.
Lemma sorted_same l L : only_ids_added l L -> sorted_by_position l -> sorted_by_position L.
Proof.
  intros Ho. unfold sorted_by_position. intros H. revert L Ho. induction H as [|x l _ IH Hx]; intros L Ho; inversion Ho as [|? y ? L' Hy HL]; subst; constructor.
  - apply IH. exact HL.
  - destruct (only_ids_same _ _ HL) as (_ & _ & E & _). assert (Ey : e_pos y = e_pos x).
    { destruct (e_id x =? -1); [destruct Hy as (i & _ & ->); destruct x; auto|subst; auto]. }
    apply Forall_forall. intros z Hz. apply (in_map e_pos) in Hz. rewrite E in Hz. apply in_map_iff in Hz. destruct Hz as (w & Ew & Hw).
    rewrite Forall_forall in Hx. specialize (Hx w Hw). cbv beta in *. lia.
Qed.
Lemma max_element_in l : forall x, In (max_element x l) (x :: l).
Proof.
  induction l as [|a l IH]; intros x; cbn [max_element]; [now left|]. destruct (x <? a).
  - right. apply IH.
  - destruct (IH x) as [H|H]; [now left|right; now right].
Qed.
Lemma assign_bound M l : forall ids, Forall (fun i => 0 <= i < M) ids -> 0 <= M -> Forall (fun e => -1 <= e_id e < M + vec_size l) l ->
  Forall (fun e => 0 <= e_id e < M + vec_size l) (fst (assign l ids)).
Proof.
  assert (G : forall l N ids, 0 <= N -> Forall (fun i => 0 <= i < N) ids -> forall K, N + vec_size l <= K -> Forall (fun e => -1 <= e_id e < K) l ->
     Forall (fun e => 0 <= e_id e < K) (fst (assign l ids))).
  { clear. induction l as [|e l IH]; intros N ids HN Hids K HK Hl; cbn [assign]; [constructor|]. inversion Hl as [|? ? He Hl']; subst.
    unfold vec_size in *. cbn [length] in HK.
    destruct (Z.eqb_spec (e_id e) (-1)) as [E|E].
    - set (i := nextEffectId ids). assert (Hi : 0 <= i <= N).
      { unfold i. split; [apply nextEffectId_nonneg; eapply Forall_impl; [|exact Hids]; cbn; lia|].
        destruct ids as [|x r]; cbn [nextEffectId]; [lia|]. pose proof (max_element_in r x) as Hin. rewrite Forall_forall in Hids. specialize (Hids _ Hin). lia. }
      specialize (IH (N + 1) (ids ++ [i]) ltac:(lia)). destruct (assign l (ids ++ [i])) as [r' i2]. cbn [fst].
      constructor; [destruct e; cbn; lia|]. apply (IH ltac:(apply Forall_app; split; [eapply Forall_impl; [|exact Hids]; cbn; lia|repeat constructor; lia]) K ltac:(lia) Hl').
    - specialize (IH N ids HN Hids K ltac:(lia) Hl'). destruct (assign l ids) as [r' i2]. cbn [fst] in *. constructor; [lia|exact IH]. }
  intros ids H HM Hl. apply (G l M ids HM H (M + vec_size l)); [lia|exact Hl].
Qed.
Lemma assign_cases l : forall ids x, nonneg ids -> In x (map e_id (fst (assign l ids))) ->
  (x <> -1 /\ In x (map e_id l)) \/ (forall j, In j ids -> j < x).
Proof.
  induction l as [|e l IH]; intros ids x Hn H; cbn [assign] in H; [destruct H|].
  destruct (Z.eqb_spec (e_id e) (-1)) as [E|E].
  - set (i := nextEffectId ids) in *. assert (Hn1 : nonneg (ids ++ [i])).
    { apply Forall_app. split; [exact Hn|repeat constructor; apply nextEffectId_nonneg; exact Hn]. }
    specialize (IH (ids ++ [i]) x Hn1). destruct (assign l (ids ++ [i])) as [r' i2]. cbn [fst map] in *.
    destruct H as [<-|H]; [right; destruct e; cbn; intros j Hj; apply nextEffectId_fresh; exact Hj|].
    destruct (IH H) as [[H1 H2]|H1]; [left; split; [exact H1|right; exact H2]|]. right. intros j Hj. apply H1, in_or_app. now left.
  - specialize (IH ids x Hn). destruct (assign l ids) as [r' i2]. cbn [fst map] in *.
    destruct H as [<-|H]; [left; split; [exact E|left; reflexivity]|]. destruct (IH H) as [[H1 H2]|H1]; [left; split; [exact H1|right; exact H2]|now right].
Qed.
Lemma assign_nodup l : forall ids, nonneg ids -> NoDup (given_ids l) -> (forall i, In i (given_ids l) -> In i ids) ->
  NoDup (map e_id (fst (assign l ids))).
Proof.
  induction l as [|e l IH]; intros ids Hn Hd Hin; cbn [assign]; [constructor|]. unfold given_ids in *. cbn [map filter] in *.
  assert (Hg : forall x, x <> -1 -> In x (map e_id l) -> In x (filter (fun i => negb (i =? -1)) (map e_id l))).
  { intros x Hx Hi. apply filter_In. split; [exact Hi|lia]. }
  destruct (Z.eqb_spec (e_id e) (-1)) as [E|E]; cbn [negb] in *.
  - set (i := nextEffectId ids). assert (Hn1 : nonneg (ids ++ [i])).
    { apply Forall_app. split; [exact Hn|repeat constructor; apply nextEffectId_nonneg; exact Hn]. }
    specialize (IH (ids ++ [i]) Hn1 Hd ltac:(intros x Hx; apply in_or_app; left; auto)).
    pose proof (fun x => assign_cases l (ids ++ [i]) x Hn1) as Hc. destruct (assign l (ids ++ [i])) as [r' i2]. cbn [fst map] in *.
    constructor; [|exact IH]. replace (e_id (set_id i e)) with i by (destruct e; reflexivity). intros H.
    destruct (Hc i H) as [[H1 H2]|H1].
    + specialize (Hin i (Hg i H1 H2)). pose proof (nextEffectId_fresh ids i Hin). fold i in H0. lia.
    + specialize (H1 i ltac:(apply in_or_app; right; left; reflexivity)). lia.
  - inversion Hd as [|? ? Hd1 Hd2]; subst. specialize (IH ids Hn Hd2 ltac:(intros x Hx; apply Hin; now right)).
    pose proof (fun x => assign_cases l ids x Hn) as Hc. destruct (assign l ids) as [r' i2]. cbn [fst map] in *.
    constructor; [|exact IH]. intros H. destruct (Hc _ H) as [[H1 H2]|H1].
    + apply Hd1, Hg; assumption.
    + specialize (H1 (e_id e) (Hin _ (or_introl eq_refl))). lia.
Qed.

(** *** The windows *)

Lemma windows_more pd L n m : 0 < pd -> (n <= m)%nat -> Forall (fun t => t < Z.of_nat n * pd) (flat_map events L) ->
  windows_from pd L 0 m = windows_from pd L 0 n.
Proof.
  intros Hpd Hnm Hev. unfold windows_from. replace m with (n + (m - n))%nat by lia. rewrite seq_app, map_app, filter_app.
  change (0 + n)%nat with n. fold (windows_from pd L n (m - n)). rewrite (windows_from_nil pd L n (m - n) Hpd Hev). apply app_nil_r.
Qed.
Lemma windows_enough pd L n m : 0 < pd -> Forall (fun t => t < Z.of_nat n * pd) (flat_map events L) ->
  Forall (fun t => t < Z.of_nat m * pd) (flat_map events L) -> windows_from pd L 0 n = windows_from pd L 0 m.
Proof.
  intros Hpd Hn Hm. destruct (Nat.le_ge_cases n m) as [H|H]; [symmetry|]; apply windows_more; assumption.
Qed.
Lemma events_bound bt L : Forall (effect_data_ok known_semantic bt) L -> Forall (fun t => 0 <= t < 2 ^ 30 + 65536) (flat_map events L).
Proof.
  intros H. apply Forall_forall. intros t Ht. apply in_flat_map in Ht. destruct Ht as (e & He & Ht).
  rewrite Forall_forall in H. destruct (H e He) as (Hp & Hk). unfold nbits in Hp. unfold events in Ht.
  destruct Hk as [(Hty & _ & Hk & _)|Hty]; rewrite Hty in Ht.
  - change (BasisE =? BasisE) with true in Ht. cbn match in Ht. apply in_map_iff in Ht. destruct Ht as (k & <- & Hkk).
    rewrite Forall_forall in Hk. destruct (Hk k Hkk) as [(p & Ep & Hp16) _]. unfold kpos. rewrite Ep. unfold nbits in Hp16.
    change (2 ^ 16) with 65536 in *. lia.
  - change (ReferenceE =? BasisE) with false in Ht. change (ReferenceE =? ReferenceE) with true in Ht. cbn match in Ht.
    destruct Ht as [<-|[]]. lia.
Qed.
Lemma window_length lo hi L : (length (window lo hi L) <= length L)%nat.
Proof.
  unfold window. induction L as [|e l IHl]; cbn [flat_map length]; [lia|]. rewrite app_length.
  assert ((length (part lo hi e) <= 1)%nat); [|lia]. unfold part. destruct (_ =? _); [destruct (filter _ _); cbn; lia|destruct (_ && _); cbn; lia].
Qed.

Lemma band_packets fuel pd ad b ids au : band_data_ok known_semantic pd ids b -> (au = RAU \/ au = DAU) -> (1 <= fuel)%nat ->
  Forall (fun t => t < Z.of_nat fuel * pd) (flat_map events (b_effects b)) ->
  let '(L, idsF) := assign (b_effects b) ids in
  exists out au', packetizeBand fuel pd ad b ids au = Ok (out, au', idsF) /\ (au' = RAU \/ au' = DAU) /\
    Forall2 (packet_bits (b_type b) ad) (windows pd L fuel) out.
Proof.
  intros (Hdb & Hpd & Hok & Hsz & Hid & Hids & Hseq & Hend) Hau Hf Hev.
  assert (Hn : nonneg ids) by (eapply Forall_impl; [|exact Hids]; cbn; lia).
  pose proof (assign_spec (b_effects b) ids Hn) as Hs.
  pose proof (assign_bound (65536 - vec_size (b_effects b)) (b_effects b) ids Hids ltac:(lia)
    ltac:(eapply Forall_impl; [|exact Hid]; cbv beta; intros; lia)) as Hb.
  destruct (assign (b_effects b) ids) as [L idsF] eqn:Ea. cbn [fst] in Hb. destruct Hs as (Ho & _).
  destruct (only_ids_same _ _ Ho) as (S1 & S2 & S3 & S4 & S5).
  unfold packetizeBand. replace (b_type b =? WaveletB) with false by (destruct Hdb as [->|[->| ->]]; reflexivity).
  apply (loop_ok (b_type b) Hdb pd ad L idsF Hpd (S1 _ Hok)) with (i := 0%nat); auto.
  - eapply Forall_impl; [|exact Hb]. cbv beta. unfold nbits. change (2 ^ 16) with 65536. intros. lia.
  - unfold in_sequence. rewrite S2. exact Hseq.
  - exact (boundary_same pd _ _ Ho Hend).
  - rewrite S2. exact Hev.
Qed.

Lemma window_time bt pd L n w : 0 < pd -> Forall (effect_data_ok known_semantic bt) L -> In w (windows pd L n) -> 0 <= fst w < 2 ^ 31.
Proof.
  intros Hpd Hok Hw. unfold windows in Hw. apply filter_In in Hw. destruct Hw as [Hw Hne].
  apply in_map_iff in Hw. destruct Hw as (i & <- & _). cbn [fst snd] in *. split; [nia|].
  destruct (window _ _ L) as [|x l] eqn:E; [discriminate|].
  assert (Hx : In x (window (Z.of_nat i * pd) (Z.of_nat i * pd + pd) L)) by (rewrite E; left; reflexivity).
  apply in_flat_map in Hx. destruct Hx as (e & He & Hx). apply part_event in Hx. destruct Hx as (t & Ht & Hle).
  pose proof (events_bound bt L Hok) as Hb. rewrite Forall_forall in Hb.
  specialize (Hb t (proj2 (in_flat_map _ _ _) (ex_intro _ e (conj He Ht)))). lia.
Qed.
Lemma Forall2_impl_in {A B} (R S : A -> B -> Prop) l m : (forall x y, In x l -> R x y -> S x y) -> Forall2 R l m -> Forall2 S l m.
Proof.
  intros H HF. induction HF as [|x y l m Hxy _ IH]; constructor; [apply H; [left; reflexivity|exact Hxy]|].
  apply IH. intros. apply H; [right; assumption|assumption].
Qed.

Lemma band_carried fuel pd ad b ids au : band_data_ok known_semantic pd ids b -> address_ok ad -> (au = RAU \/ au = DAU) -> (1 <= fuel)%nat ->
  Forall (fun t => t < Z.of_nat fuel * pd) (flat_map events (b_effects b)) ->
  exists L out au', packetizeBand fuel pd ad b ids au = Ok (out, au', ids ++ added_ids (b_effects b) L) /\
    only_ids_added (b_effects b) L /\ fresh_ids ids (b_effects b) L /\
    Forall2 (carries (b_type b) ad) (windows pd L fuel) out.
Proof.
  intros Hb Had Hau Hf Hev. pose proof (band_packets fuel pd ad b ids au Hb Hau Hf Hev) as HP.
  destruct Hb as (Hdb & Hpd & Hok & Hsz & Hid & Hids & Hseq & Hend).
  assert (Hn : nonneg ids) by (eapply Forall_impl; [|exact Hids]; cbn; lia).
  pose proof (assign_spec (b_effects b) ids Hn) as Hs. destruct (assign (b_effects b) ids) as [L idsF].
  destruct Hs as (Ho & -> & _ & H4 & H5). destruct HP as (out & au' & HP & _ & HF). exists L, out, au'.
  destruct (only_ids_same _ _ Ho) as (S1 & S2 & S3 & S4 & S5).
  split; [exact HP|]. split; [exact Ho|]. split.
  - split; [exact H4|]. intros i Hi Hin. specialize (H5 i Hi i Hin). lia.
  - eapply Forall2_impl_in; [|exact HF]. intros w p Hw Hp. apply packet_carries; [exact Had| | |exact Hp].
    + unfold windows in Hw. apply filter_In in Hw. destruct Hw as [Hw _]. apply in_map_iff in Hw. destruct Hw as (i & <- & _). cbn [snd].
      pose proof (window_length (Z.of_nat i * pd) (Z.of_nat i * pd + pd) L). unfold vec_size in *. lia.
    + apply (window_time (b_type b) pd L fuel w); [lia|exact (S1 _ Hok)|exact Hw].
Qed.

Lemma band_restored fuel pd ad b ids au : band_data_ok known_semantic pd ids b -> address_ok ad -> (au = RAU \/ au = DAU) -> (1 <= fuel)%nat ->
  Forall (fun t => t < Z.of_nat fuel * pd) (flat_map events (b_effects b)) ->
  sorted_by_position (b_effects b) -> NoDup (given_ids (b_effects b)) -> (forall i, In i (given_ids (b_effects b)) -> In i ids) ->
  exists L out au' ids', packetizeBand fuel pd ad b ids au = Ok (out, au', ids') /\ only_ids_added (b_effects b) L /\
    forall r pi ci bi b0, found r ad pi ci bi b0 -> b_type b0 = b_type b -> b_effects b0 = [] -> sr_wait r = false ->
    exists r' l, deliver out r = Ok r' /\ sr_haptic r' = change_band (set_effects l) pi ci bi (sr_haptic r) /\
      Forall2 (data_sent (b_type b)) L l.
Proof.
  intros Hb Had Hau Hf Hev Hpos Hnd Hin. pose proof (band_packets fuel pd ad b ids au Hb Hau Hf Hev) as HP.
  destruct Hb as (Hdb & Hpd & Hok & Hsz & Hid & Hids & Hseq & Hend).
  assert (Hn : nonneg ids) by (eapply Forall_impl; [|exact Hids]; cbn; lia).
  pose proof (assign_spec (b_effects b) ids Hn) as Hs. pose proof (assign_nodup (b_effects b) ids Hn Hnd Hin) as HN.
  destruct (assign (b_effects b) ids) as [L idsF]. cbn [fst] in HN.
  destruct Hs as (Ho & _). destruct HP as (out & au' & HP & _ & HF). exists L, out, au', idsF.
  destruct (only_ids_same _ _ Ho) as (S1 & S2 & S3 & S4 & S5).
  split; [exact HP|]. split; [exact Ho|]. intros r pi ci bi b0 Hfo Hbt He0 Hw.
  pose proof (events_bound _ _ Hok) as Hbd. rewrite <- S2 in *.
  set (m := Z.to_nat ((2 ^ 30 + 65536) / pd + 1)).
  assert (Hm : 2 ^ 30 + 65536 < Z.of_nat m * pd <= 2 ^ 31).
  { unfold m. rewrite Z2Nat.id by (assert (0 <= (2 ^ 30 + 65536) / pd) by (apply Z.div_pos; lia); lia).
    pose proof (Z.div_mod (2 ^ 30 + 65536) pd ltac:(lia)). pose proof (Z.mod_pos_bound (2 ^ 30 + 65536) pd ltac:(lia)).
    set (q := (2 ^ 30 + 65536) / pd) in *. clearbody q. change (2 ^ 24) with 16777216 in *. change (2 ^ 30) with 1073741824 in *. change (2 ^ 31) with 2147483648 in *. nia. }
  assert (Hev' : Forall (fun t => t < Z.of_nat m * pd) (flat_map events L)) by (eapply Forall_impl; [|exact Hbd]; cbv beta; lia).
  unfold windows in HF. fold (windows_from pd L 0 fuel) in HF. rewrite (windows_enough pd L fuel m) in HF by (auto; lia).
  destruct (deliver_ok (b_type b) pd L ad pi ci bi Hdb ltac:(lia) HN (sorted_same _ _ Ho Hpos) ltac:(unfold in_sequence; rewrite S2; exact Hseq) Had
     ltac:(unfold vec_size in *; lia) m 0 out r b0 Hfo Hbt Hw ltac:(rewrite Nat.add_0_l; lia) HF) as (r' & l & Hd & _ & Hl & Hh & _).
  { rewrite He0. replace (window 0 (Z.of_nat 0 * pd) L) with (@nil effect); [constructor|]. symmetry. cbn.
    apply flat_map_nil. intros e He. apply part_nil_after, Forall_forall. intros t Ht.
    rewrite Forall_forall in Hbd. specialize (Hbd t (proj2 (in_flat_map _ _ _) (ex_intro _ e (conj He Ht)))). lia. }
  exists r', l. split; [exact Hd|]. split; [exact Hh|].
  replace L with (window 0 (Z.of_nat (0 + m) * pd) L) at 1; [exact Hl|].
  unfold window. specialize (S1 _ Hok). clear - S1 Hbd Hm. cbn [Nat.add].
  induction L as [|e L IH]; [reflexivity|]. cbn [flat_map] in *. apply Forall_app in Hbd. destruct Hbd as [B1 B2]. inversion S1 as [|? ? He S1']; subst.
  rewrite (part_whole (Z.of_nat m * pd) e).
  - cbn [app]. f_equal. exact (IH S1' B2).
  - destruct He as (_ & [(A & B & _)|A]); auto.
  - eapply Forall_impl; [|exact B1]. cbv beta. lia.
Qed.

(** *** Each keyframe is in one window *)

Lemma keyframes_partition pd (f : keyframe -> Z) ks : 0 < pd -> StronglySorted Z.le (map f ks) -> Forall (fun k => 0 <= f k) ks -> forall n,
  flat_map (fun i => filter (fun k => in_window (Z.of_nat i * pd) (Z.of_nat i * pd + pd) (f k)) ks) (seq 0 n)
  = filter (fun k => in_window 0 (Z.of_nat n * pd) (f k)) ks.
Proof.
  intros Hpd Hs H0 n. induction n as [|n IH].
  - cbn. symmetry. apply filter_none. intros k _. unfold in_window. lia.
  - rewrite seq_S, flat_map_app, IH. cbn [Nat.add flat_map]. rewrite app_nil_r.
    replace (Z.of_nat (S n) * pd) with (Z.of_nat n * pd + pd) by nia.
    symmetry. apply sorted_filter_split; [nia|exact Hs].
Qed.
Lemma windows_partition bt pd l n : 0 < pd -> Forall (effect_data_ok known_semantic bt) l -> in_sequence l ->
  Forall (fun t => t < Z.of_nat n * pd) (flat_map events l) ->
  Forall (fun e => if e_type e =? BasisE
    then flat_map (fun i => flat_map e_kfs (part (Z.of_nat i * pd) (Z.of_nat i * pd + pd) e)) (seq 0 n) = e_kfs e
    else flat_map (fun i => part (Z.of_nat i * pd) (Z.of_nat i * pd + pd) e) (seq 0 n) = [e]) l.
Proof.
  intros Hpd Hok Hseq Hev. apply Forall_forall. intros e He.
  pose proof (events_bound bt l Hok) as Hb.
  assert (Hs : StronglySorted Z.le (events e)).
  { apply in_split in He. destruct He as (a & c & ->). unfold in_sequence in Hseq. rewrite flat_map_app in Hseq.
    apply ss_app in Hseq. destruct Hseq as (_ & Hs & _). cbn [flat_map] in Hs. apply ss_app in Hs. apply Hs. }
  assert (Hbe : Forall (fun t => 0 <= t < Z.of_nat n * pd) (events e)).
  { apply Forall_forall. intros t Ht. rewrite Forall_forall in Hb, Hev.
    specialize (Hb t (proj2 (in_flat_map _ _ _) (ex_intro _ e (conj He Ht)))). specialize (Hev t (proj2 (in_flat_map _ _ _) (ex_intro _ e (conj He Ht)))). lia. }
  rewrite Forall_forall in Hok. destruct (Hok e He) as (_ & [(Hty & _)|Hty]).
  - rewrite Hty. change (BasisE =? BasisE) with true. cbn match. unfold events in Hs, Hbe. rewrite Hty in Hs, Hbe. change (BasisE =? BasisE) with true in *. cbn match in *.
    assert (H1 : Forall (fun k => 0 <= e_pos e + kpos k < Z.of_nat n * pd) (e_kfs e)) by (apply (proj1 (Forall_map _ _ _)) in Hbe; exact Hbe).
    transitivity (flat_map (fun i => filter (fun k => in_window (Z.of_nat i * pd) (Z.of_nat i * pd + pd) (e_pos e + kpos k)) (e_kfs e)) (seq 0 n)).
    + apply flat_map_ext. intros i. unfold part. rewrite Hty. change (BasisE =? BasisE) with true. cbn match.
      destruct (filter _ (e_kfs e)) as [|k ks]; [reflexivity|]. cbn [flat_map]. rewrite app_nil_r. destruct e; reflexivity.
    + rewrite (keyframes_partition pd (fun k => e_pos e + kpos k) (e_kfs e) Hpd Hs) by (eapply Forall_impl; [|exact H1]; cbv beta; lia).
      clear - H1. induction H1 as [|k ks Hk _ IH]; [reflexivity|]. cbn [filter]. unfold in_window at 1.
      replace ((0 <=? e_pos e + kpos k) && (e_pos e + kpos k <? Z.of_nat n * pd)) with true by lia. now rewrite IH.
  - rewrite Hty. change (ReferenceE =? BasisE) with false. cbn match. unfold events in Hbe. rewrite Hty in Hbe.
    change (ReferenceE =? BasisE) with false in *. change (ReferenceE =? ReferenceE) with true in *. cbn match in *.
    inversion Hbe as [|? ? Hp _]; subst. clear - Hty Hpd Hp.
    assert (Hpart : forall i, part (Z.of_nat i * pd) (Z.of_nat i * pd + pd) e = if in_window (Z.of_nat i * pd) (Z.of_nat i * pd + pd) (e_pos e) then [e] else []).
    { intros i. unfold part. rewrite Hty. reflexivity. }
    induction n as [|n IH]; [lia|]. rewrite seq_S, flat_map_app. cbn [Nat.add flat_map]. rewrite Hpart, app_nil_r.
    destruct (Z.ltb_spec (e_pos e) (Z.of_nat n * pd)) as [H|H].
    + rewrite IH by lia. unfold in_window. replace (Z.of_nat n * pd <=? e_pos e) with false by lia. reflexivity.
    + rewrite flat_map_nil.
      * unfold in_window. replace ((Z.of_nat n * pd <=? e_pos e) && (e_pos e <? Z.of_nat n * pd + pd)) with true by nia. reflexivity.
      * intros i Hi. apply in_seq in Hi. rewrite Hpart. unfold in_window.
        destruct (Z.ltb_spec (e_pos e) (Z.of_nat i * pd + pd)); [nia|]. now rewrite andb_false_r.
Qed.

(** *** Termination *)

Lemma basis_loop_false bt lo pd ts : forall kfs j first rau n ra bs,
  writeEffectBasis_loop bt lo pd ts kfs j first rau = Ok (false, n, ra, bs) -> exists k, In k kfs /\ lo + pd <= ts + kpos k.
Proof.
  induction kfs as [|k r IH]; intros j first rau n ra bs H; cbn [writeEffectBasis_loop] in H; [discriminate|].
  destruct (k_pos k) as [p|] eqn:Ep; [|discriminate].
  destruct ((p + ts <? lo + pd) && (p + ts >=? lo)).
  - destruct (writeKeyframe bt k) as [b| | |]; cbn [obind] in H; try discriminate.
    destruct (writeEffectBasis_loop bt lo pd ts r (S j) false _) as [[[[res n'] ra'] bs']| | |] eqn:E; cbn [obind] in H; try discriminate.
    injection H as -> _ _ _. destruct (IH _ _ _ _ _ _ E) as (k' & Hk & Hle). exists k'. split; [now right|exact Hle].
  - destruct (p + ts >=? lo + pd) eqn:Eg.
    + exists k. split; [now left|]. unfold kpos. rewrite Ep. lia.
    + destruct (IH _ _ _ _ _ _ H) as (k' & Hk & Hle). exists k'. split; [now right|exact Hle].
Qed.
Lemma int_fuel {p e} T (x : binary_float p e) : int_of_float T x <> NoFuel.
Proof. unfold int_of_float. destruct (is_finite x); [|discriminate]. destruct (_ =? _); discriminate. Qed.
Lemma float_fuel T n v mn mx : writeFloatNBits T n v mn mx <> NoFuel.
Proof.
  unfold writeFloatNBits, encodeFloat. match goal with |- context [int_of_float T ?x] => pose proof (int_fuel T x) as H; destruct (int_of_float T x) end;
    cbn [obind]; try discriminate. congruence.
Qed.
Lemma basis_loop_fuel bt lo pd ts : forall kfs j first rau, writeEffectBasis_loop bt lo pd ts kfs j first rau <> NoFuel.
Proof.
  assert (Hk : forall k, writeKeyframe bt k <> NoFuel).
  { assert (Ha : forall a, writeAmplitude a <> NoFuel).
    { intros a. apply float_fuel. }
    intros k. unfold writeKeyframe, writeTransient, writeCurve, writeVectorial.
    destruct (k_amp k) as [a|]; [pose proof (Ha a) as Ha'; destruct (writeAmplitude a)|];
      destruct (k_pos k), (k_freq k), (bt =? TransientB), (bt =? CurveB), (bt =? VectorialB); cbn [obind]; try discriminate; congruence. }
  induction kfs as [|k r IH]; intros j first rau; cbn [writeEffectBasis_loop]; [discriminate|].
  destruct (k_pos k); [|discriminate]. destruct (_ && _).
  - pose proof (Hk k). destruct (writeKeyframe bt k); cbn [obind]; try discriminate; try congruence.
    match goal with |- obind ?x _ <> _ => pose proof (IH (S j) false (if first then if (j =? 0)%nat then rau else false else rau)); destruct x as [[[[? ?] ?] ?]| | |] end;
      cbn [obind]; try discriminate; congruence.
  - destruct (_ >=? _); [discriminate|apply IH].
Qed.

Lemma same_events bt lo pd : forall cur ids au res frs au' ids' cur',
  createPayloadPacket bt lo pd cur ids au = Ok (res, frs, au', ids', cur') ->
  flat_map events cur' = flat_map events cur /\ (res = false -> exists t, In t (flat_map events cur) /\ lo + pd <= t).
Proof.
  induction cur as [|e0 r IH]; intros ids au res frs au' ids' cur' H; cbn [createPayloadPacket] in H.
  - injection H as <- <- <- <- <-. split; [reflexivity|discriminate].
  - destruct (if e_id e0 =? -1 then (let i := nextEffectId ids in (set_id i e0, ids ++ [i])) else (e0, ids)) as [e ids1] eqn:Ep.
    assert (Ee : events e = events e0).
    { destruct (e_id e0 =? -1); injection Ep as <- <-; [destruct e0; reflexivity|reflexivity]. }
    cbn [flat_map]. rewrite <- Ee.
    assert (Hrec : forall au1 res1 frs1 au2 ids2 r', createPayloadPacket bt lo pd r ids1 au1 = Ok (res1, frs1, au2, ids2, r') ->
       flat_map events (e :: r') = events e ++ flat_map events r /\
       (res1 = false -> exists t, In t (events e ++ flat_map events r) /\ lo + pd <= t)).
    { intros au1 res1 frs1 au2 ids2 r' E. destruct (IH _ _ _ _ _ _ _ E) as [I1 I2]. cbn [flat_map]. rewrite I1. split; [reflexivity|].
      intros E1. destruct (I2 E1) as (t & Ht & Hle). exists t. split; [apply in_or_app; now right|exact Hle]. }
    destruct (e_type e =? BasisE) eqn:Et.
    + destruct (writeEffectBasis bt lo pd e) as [[[[en ct] ra] b]| | |] eqn:Eb; cbn [obind] in H; try discriminate. destruct en.
      * cbv zeta in H.
        destruct (createPayloadPacket bt lo pd r ids1 _) as [[[[[r1 f1] a2] i2] c2]| | |] eqn:E; cbn [obind] in H; try discriminate.
        injection H as <- <- <- <- <-. exact (Hrec _ _ _ _ _ _ E).
      * injection H as <- <- <- <- <-. split; [reflexivity|]. intros _. unfold writeEffectBasis in Eb.
        destruct (basis_loop_false _ _ _ _ _ _ _ _ _ _ _ Eb) as (k & Hk & Hle). exists (e_pos e + kpos k). split; [|exact Hle].
        apply in_or_app. left. unfold events. rewrite Et. apply (in_map (fun k => e_pos e + kpos k)). exact Hk.
    + destruct (e_type e =? ReferenceE) eqn:Er.
      * destruct ((e_pos e >=? lo) && (e_pos e <? lo + pd)).
        -- destruct (createPayloadPacket bt lo pd r ids1 _) as [[[[[r1 f1] a2] i2] c2]| | |] eqn:E; cbn [obind] in H; try discriminate.
           injection H as <- <- <- <- <-. exact (Hrec _ _ _ _ _ _ E).
        -- destruct (e_pos e >? lo + pd) eqn:Eg.
           ++ injection H as <- <- <- <- <-. split; [reflexivity|]. intros _. exists (e_pos e). split; [|lia].
              apply in_or_app. left. unfold events. rewrite Et, Er. now left.
           ++ destruct (createPayloadPacket bt lo pd r ids1 _) as [[[[[r1 f1] a2] i2] c2]| | |] eqn:E; cbn [obind] in H; try discriminate.
              injection H as <- <- <- <- <-. exact (Hrec _ _ _ _ _ _ E).
      * destruct (createPayloadPacket bt lo pd r ids1 _) as [[[[[r1 f1] a2] i2] c2]| | |] eqn:E; cbn [obind] in H; try discriminate.
        injection H as <- <- <- <- <-. exact (Hrec _ _ _ _ _ _ E).
Qed.
Lemma create_fuel bt lo pd : forall cur ids au, createPayloadPacket bt lo pd cur ids au <> NoFuel.
Proof.
  induction cur as [|e0 r IH]; intros ids au; cbn [createPayloadPacket]; [discriminate|].
  destruct (if e_id e0 =? -1 then (let i := nextEffectId ids in (set_id i e0, ids ++ [i])) else (e0, ids)) as [e ids1].
  assert (Hr : forall au1 (f : bool * list fragment * Z * list Z * list effect -> outcome (bool * list fragment * Z * list Z * list effect)),
     (forall x, f x <> NoFuel) -> obind (createPayloadPacket bt lo pd r ids1 au1) f <> NoFuel).
  { intros au1 f Hf. pose proof (IH ids1 au1). destruct (createPayloadPacket bt lo pd r ids1 au1); cbn [obind]; try discriminate; [apply Hf|congruence]. }
  destruct (e_type e =? BasisE).
  - pose proof (basis_loop_fuel bt lo pd (e_pos e) (e_kfs e) 0 true true) as Hb. unfold writeEffectBasis.
    destruct (writeEffectBasis_loop bt lo pd (e_pos e) (e_kfs e) 0 true true) as [[[[en ct] ra] b]| | |]; cbn [obind]; try discriminate; [|congruence].
    destruct en; [|discriminate]. apply Hr. intros [[[[? ?] ?] ?] ?]. discriminate.
  - destruct (e_type e =? ReferenceE); [destruct (_ && _); [|destruct (_ >? _); [discriminate|]]|]; apply Hr; intros [[[[? ?] ?] ?] ?]; discriminate.
Qed.
Lemma semantic_fuel o : writeSemantic o <> NoFuel.
Proof.
  unfold writeSemantic. destruct o as [s|]; [|discriminate]. unfold semantic_code. destruct (find _ _); cbn [obind]; discriminate.
Qed.
Lemma emit_fuel bt time au ad frs : emitPacket bt time au ad frs <> NoFuel.
Proof.
  assert (H : forall frs, writeMany (writeFragment bt time) frs <> NoFuel).
  { assert (Hone : forall fr, writeFragment bt time fr <> NoFuel).
    { intros fr. unfold writeFragment. destruct (e_type (fr_effect fr) =? BasisE); [|discriminate].
      pose proof (semantic_fuel (e_semantic (fr_effect fr))) as Hs.
      destruct (writeSemantic (e_semantic (fr_effect fr))) as [sb| | |]; cbn [obind]; try discriminate; [|congruence].
      destruct (bt =? VectorialB); [|discriminate].
      match goal with |- context [writeFloatNBits ?T ?n ?v ?a ?b] => pose proof (float_fuel T n v a b) as Hx; destruct (writeFloatNBits T n v a b) end;
        cbn [obind]; try discriminate. congruence. }
    induction frs0 as [|f r IH]; cbn [writeMany]; [discriminate|]. pose proof (Hone f).
    destruct (writeFragment bt time f); cbn [obind]; try discriminate; [|congruence].
    destruct (writeMany (writeFragment bt time) r); cbn [obind]; try discriminate; congruence. }
  unfold emitPacket, writePayloadPacket. destruct frs as [|f r]; [discriminate|]. pose proof (H (f :: r)).
  destruct (writeMany (writeFragment bt time) (f :: r)); cbn [obind]; try discriminate; congruence.
Qed.
Lemma emit_one bt time au ad frs out : emitPacket bt time au ad frs = Ok out -> (length out <= 1)%nat.
Proof.
  unfold emitPacket. destruct frs; [intros H; injection H as <-; cbn; lia|].
  destruct (writePayloadPacket _ _ _); cbn [obind]; try discriminate. intros H.
  assert (E : forall x y : list bits, Ok x = Ok y -> length y = length x) by congruence.
  rewrite (E _ _ H). cbn [length]. lia.
Qed.
Lemma loop_terminates bt pd ad : 0 < pd -> forall n time cur ids au, (1 <= n)%nat ->
  Forall (fun t => t < time + Z.of_nat n * pd) (flat_map events cur) ->
  packetizeLoop n bt pd ad time cur ids au <> NoFuel /\
  forall out au' ids', packetizeLoop n bt pd ad time cur ids au = Ok (out, au', ids') -> (length out <= n)%nat.
Proof.
  intros Hpd. induction n as [|n IH]; intros time cur ids au Hn Hev; [lia|]. cbn [packetizeLoop].
  pose proof (create_fuel bt time pd cur ids au) as Hc.
  destruct (createPayloadPacket bt time pd cur ids au) as [[[[[res frs] au1] ids1] cur1]| | |] eqn:E; cbn [obind];
    try (split; [discriminate|intros; discriminate]); [|congruence].
  destruct (same_events _ _ _ _ _ _ _ _ _ _ _ E) as [Es Hf].
  pose proof (emit_fuel bt time au1 ad frs) as He. pose proof (emit_one bt time au1 ad frs) as He1.
  destruct (emitPacket bt time au1 ad frs) as [o| | |]; cbn [obind]; try (split; [discriminate|intros; discriminate]); [|congruence].
  specialize (He1 o eq_refl). destruct res.
  - split; [discriminate|]. intros out au' ids' H. injection H as <- _ _. lia.
  - destruct (Hf eq_refl) as (t & Ht & Hle). rewrite Forall_forall in Hev. pose proof (Hev t Ht) as Hlt. cbv beta in Hlt.
    destruct (IH (time + pd) cur1 ids1 au1) as [I1 I2].
    + destruct n; [nia|lia].
    + rewrite Es. apply Forall_forall. intros u Hu. specialize (Hev u Hu). cbv beta in Hev. nia.
    + destruct (packetizeLoop n bt pd ad (time + pd) cur1 ids1 au1) as [[[rest au2] ids2]| | |]; cbn [obind]; try (split; [discriminate|intros; discriminate]); [|congruence].
      split; [discriminate|]. intros out au' ids' H. injection H as <- _ _. specialize (I2 _ _ _ eq_refl). rewrite app_length. lia.
Qed.
Lemma band_terminates fuel pd ad b ids au : 0 < pd -> b_type b <> WaveletB -> (1 <= fuel)%nat ->
  Forall (fun t => t < Z.of_nat fuel * pd) (flat_map events (b_effects b)) ->
  packetizeBand fuel pd ad b ids au <> NoFuel /\
  forall out au' ids', packetizeBand fuel pd ad b ids au = Ok (out, au', ids') -> (length out <= fuel)%nat.
Proof.
  intros Hpd Hb Hf Hev. unfold packetizeBand. destruct (Z.eqb_spec (b_type b) WaveletB); [contradiction|].
  apply loop_terminates; auto.
Qed.
(** With a packet duration of 0 the loop does not end. *)
Lemma zero_duration_loops bt ad p a f : forall n e ids au, e_type e = BasisE -> e_kfs e = [Keyframe (Some p) a f] -> 0 <= e_pos e + p -> e_id e <> -1 ->
  packetizeLoop n bt 0 ad 0 [e] ids au = NoFuel.
Proof.
  induction n as [|n IH]; intros e ids au Hty Hk Hp Hid; [reflexivity|]. cbn [packetizeLoop createPayloadPacket].
  destruct (Z.eqb_spec (e_id e) (-1)); [contradiction|]. rewrite Hty. change (BasisE =? BasisE) with true. cbn match.
  unfold writeEffectBasis. rewrite Hk. cbn [writeEffectBasis_loop k_pos].
  replace ((p + e_pos e <? 0 + 0) && (p + e_pos e >=? 0)) with false by lia.
  replace (p + e_pos e >=? 0 + 0) with true by lia. cbn [obind emitPacket]. change (0 + 0) with 0. change (0 >? 0) with false. cbn match. cbn [emitPacket obind]. rewrite (IH e ids au Hty Hk Hp Hid). reflexivity.
Qed.
