(** Proofs about packets, units and files of a stream. *)
From Coq Require Import Sorting.Sorted Sorting.Permutation.
From Verif Require Import Base BitsModel BitsProof BitsVecProof FloatBase FloatModel TypesModel TypesSpec MetaModel DataModel CrcModel StreamModel
  VecReads MetaSpec MetaProof DataSpec DataProof MergeProof UnitSpec.
Local Open Scope Z_scope.
Ltac Zify.zify_post_hook ::= Z.div_mod_to_equations.

(** *** Fields *)

Lemma field_read i n b : (i + n <= length b)%nat -> (1 <= n <= 31)%nat -> readUInt b i n = Ok (field i n b, (i + n)%nat).
Proof.
  intros Hl Hn. unfold readUInt, slice. replace (i + n <=? length b)%nat with true by (symmetry; apply Nat.leb_le; lia). cbn [obind].
  replace (n =? 0)%nat with false by (symmetry; apply Nat.eqb_neq; lia). cbv zeta. fold (field i n b).
  assert (H : 0 <= field i n b < 2 ^ Z.of_nat n).
  { unfold field. pose proof (bits_val_bound (firstn n (skipn i b))) as H. rewrite firstn_length_le in H; [exact H|]. rewrite skipn_length. lia. }
  assert (2 ^ Z.of_nat n <= 2 ^ 31) by (apply Z.pow_le_mono_r; lia).
  destruct (Z.leb_spec (2 ^ 64) (field i n b)) as [H1|_]; [change (2 ^ 64) with 18446744073709551616 in H1; change (2 ^ 31) with 2147483648 in *; lia|].
  rewrite to_signed_id; [reflexivity|lia|]. change (2 ^ (Z.of_nat 32 - 1)) with (2 ^ 31). lia.
Qed.
Lemma field_read32 i b : (i + 32 <= length b)%nat -> field i 32 b < 2 ^ 31 -> readUInt b i 32 = Ok (field i 32 b, (i + 32)%nat).
Proof.
  intros Hl Hn. unfold readUInt, slice. replace (i + 32 <=? length b)%nat with true by (symmetry; apply Nat.leb_le; lia). cbn [obind].
  change (32 =? 0)%nat with false. cbv iota zeta. fold (field i 32 b).
  assert (H : 0 <= field i 32 b). { unfold field. apply bits_val_bound. }
  destruct (Z.leb_spec (2 ^ 64) (field i 32 b)) as [H1|_]; [change (2 ^ 64) with 18446744073709551616 in H1; change (2 ^ 31) with 2147483648 in *; lia|].
  rewrite to_signed_id; [reflexivity|lia|]. change (2 ^ (Z.of_nat 32 - 1)) with (2 ^ 31). lia.
Qed.
Lemma field_nonneg i n b : 0 <= field i n b.
Proof. unfold field. apply bits_val_bound. Qed.
Lemma field_app i n a b : (i + n <= length a)%nat -> field i n (a ++ b) = field i n a.
Proof.
  intros H. unfold field. rewrite skipn_app, firstn_app, skipn_length. replace (n - (length a - i))%nat with 0%nat by lia.
  rewrite firstn_O, app_nil_r. reflexivity.
Qed.
Lemma field_app_r i n a b : field (length a + i) n (a ++ b) = field i n b.
Proof.
  unfold field. rewrite skipn_app. rewrite skipn_all2 by lia. replace (length a + i - length a)%nat with i by lia. reflexivity.
Qed.

(** *** Reading a unit (C19) *)

Lemma framed_long p : framed_packet p -> (24 <= length p)%nat.
Proof. intros H. unfold framed_packet in H. pose proof (field_nonneg 6 17 p). lia. Qed.

Lemma packet_length fuel p rest r crc ok r' crc' len : framed_packet p -> readMIHSPacket fuel (p ++ rest) r crc = Ok (ok, r', crc', len) ->
  len = 8 * field 6 17 p.
Proof.
  intros Hp. pose proof (framed_long p Hp) as Hl. unfold readMIHSPacket.
  rewrite (field_read 0 6) by (rewrite ?app_length; lia). cbn [obind].
  rewrite (field_read 6 17) by (rewrite ?app_length; lia). cbn [obind].
  rewrite (field_app 6 17) by lia. destruct (_ <? 24)%nat; [discriminate|]. cbv zeta.
  set (L := field 6 17 p * 8). replace (8 * field 6 17 p) with L by (unfold L; lia). clearbody L. clear Hl Hp.
  repeat match goal with
  | |- (if ?b then _ else _) = _ -> _ => destruct b
  | |- obind ?x _ = _ -> _ => destruct x as [?| | |]; cbn [obind]; [|discriminate..]
  | |- match ?x with Some _ => _ | None => _ end = _ -> _ => destruct x as [?|]
  | |- (let '(_, _) := ?x in _) = _ -> _ => destruct x
  end; intros E; try (injection E as _ _ _ <-; reflexivity); discriminate E.
Qed.

Lemma skip_mid {A} (a b : list A) : skipn (length a) (a ++ b) = b.
Proof. rewrite skipn_app, skipn_all, Nat.sub_diag. reflexivity. Qed.

Lemma unit_loop fuel unit L : forall ps pre n r crc, unit = pre ++ concat ps -> Forall framed_packet ps ->
  L + 72 = vec_size unit -> (72 <= length pre)%nat -> (length ps < n)%nat ->
  readPackets n fuel unit (vec_size pre) L r crc
  = hand_over fuel (firstn (reached ps) ps) (concat (skipn (reached ps) ps)) r crc.
Proof.
  induction ps as [|p ps IH]; intros pre n r crc Eu Hp HL Hpre Hn; (destruct n as [|n]; [cbn in Hn; lia|]); cbn [readPackets].
  - cbn [concat] in Eu. rewrite app_nil_r in Eu. subst pre. replace (vec_size unit <? L) with false by lia. reflexivity.
  - inversion Hp as [|? ? Hp1 Hps]; subst. cbn [reached]. cbn [concat] in *.
    assert (Es : vec_size (pre ++ p ++ concat ps) = vec_size pre + vec_size p + vec_size (concat ps)) by (unfold vec_size; rewrite !app_length; lia).
    destruct (Nat.ltb_spec 72 (length (p ++ concat ps))) as [Hc|Hc]; rewrite app_length in Hc.
    + replace (vec_size pre <? L) with true by (unfold vec_size in *; lia). cbn [firstn skipn hand_over].
      unfold vec_size at 1. rewrite Nat2Z.id, skip_mid. rewrite <- concat_app, firstn_skipn.
      destruct (readMIHSPacket fuel (p ++ concat ps) r crc) as [[[[ok r'] crc'] len]| | |] eqn:E; cbn [obind]; try reflexivity.
      destruct ok; [|reflexivity]. apply packet_length in E; [|exact Hp1].
      replace (vec_size pre + len + 24) with (vec_size (pre ++ p)) by (unfold vec_size, framed_packet in *; rewrite app_length; lia).
      destruct (Z.ltb_spec (vec_size (pre ++ p ++ concat ps)) (vec_size (pre ++ p))) as [Hbad|_].
      { unfold vec_size in Hbad. rewrite !app_length in Hbad. lia. }
      apply IH; auto.
      * now rewrite <- app_assoc.
      * rewrite app_length. lia.
      * cbn in Hn. lia.
    + replace (vec_size pre <? L) with false by (unfold vec_size in *; lia). reflexivity.
Qed.

Lemma framed_count ps : Forall framed_packet ps -> (length ps <= length (concat ps))%nat.
Proof.
  induction 1 as [|p ps Hp _ IH]; [cbn; lia|]. cbn [concat]. rewrite app_length. pose proof (framed_long p Hp). cbn [length]. lia.
Qed.

Lemma tick_time r : SReader (sr_haptic r) (sr_bands r) (to_unsigned 32 (sr_time r + sr_duration r)) (sr_timescale r)
                  (sr_duration r) (sr_wait r) = tick r.
Proof. reflexivity. Qed.

Lemma read_unit fuel hd ps r crc : let u := hd ++ concat ps in length hd = 72%nat -> framed_unit u -> Forall framed_packet ps ->
  readMIHSUnit fuel u r crc
  = do '(ok, r', crc') <- hand_over fuel (firstn (reached ps) ps) (concat (skipn (reached ps) ps)) (enter u r) crc;
    Ok (ok, (if ok then tick r' else r'), crc').
Proof.
  intros u Hhd [Hu Hs] Hp. unfold readMIHSUnit.
  assert (Eu : u = hd ++ concat ps) by reflexivity. clearbody u.
  assert (Hl : (72 <= length u)%nat) by (rewrite Eu, app_length; lia).
  rewrite (field_read 0 6) by lia. cbn [obind]. rewrite (field_read (0 + 6) 2) by lia. cbn [obind].
  rewrite (field_read (0 + 6 + 2) 4) by lia. cbn [obind]. rewrite (field_read (0 + 6 + 2 + 4) 24) by lia. cbn [obind].
  rewrite (field_read32 (0 + 6 + 2 + 4 + 24)) by (cbn [Nat.add]; change (2 ^ 28) with 268435456 in *; change (2 ^ 31) with 2147483648; lia). cbn [obind].
  cbn [Nat.add] in *. pose proof (field_nonneg 36 32 u) as Hn.
  replace ((field 36 32 u * 8 >=? 2 ^ 31) || (field 36 32 u * 8 <? - 2 ^ 31) || (length u <? 72)%nat) with false.
  2:{ symmetry. change (2 ^ 28) with 268435456 in *; change (2 ^ 31) with 2147483648. apply orb_false_intro; [lia|]. apply Nat.ltb_ge. lia. }
  replace (SReader (sr_haptic r) (sr_bands r) (sr_time r) (sr_timescale r) (field 12 24 u)
             (if sr_wait r && (field 6 2 u =? 0) then false else sr_wait r)) with (enter u r).
  2:{ unfold enter. f_equal. destruct (sr_wait r), (field 6 2 u =? 0); reflexivity. }
  change 72 with (Z.of_nat 72). rewrite <- Hhd at 1. fold (vec_size hd).
  rewrite (unit_loop fuel u (field 36 32 u * 8) ps hd); auto.
  - destruct (hand_over _ _ _ _ _) as [[[ok r'] crc']| | |]; cbn [obind]; try reflexivity.
    destruct ok; [|reflexivity]. rewrite tick_time. reflexivity.
  - unfold vec_size. lia.
  - lia.
  - rewrite Eu, app_length. pose proof (framed_count ps Hp). unfold bits in *. lia.
Qed.

Lemma reached_all ps : Forall framed_packet ps -> (match ps with [] => True | _ => (72 < length (last ps []))%nat end) -> reached ps = length ps.
Proof.
  induction ps as [|p ps IH]; intros Hp Hl; [reflexivity|]. inversion Hp; subst. cbn [reached].
  assert (Hc : (72 < length (concat (p :: ps)))%nat).
  { destruct ps as [|q ps].
    - cbn [last concat] in *. rewrite app_nil_r. exact Hl.
    - assert (Hin : forall l (d x : bits), In x l -> (length x <= length (concat l))%nat).
      { intros l d x. induction l as [|y l IHl]; intros []; cbn [concat]; rewrite app_length; [subst; lia|]. specialize (IHl H). lia. }
      apply Nat.lt_le_trans with (1 := Hl). apply Hin; [exact []|].
      rewrite (app_removelast_last (l := p :: q :: ps) [] ltac:(discriminate)) at 2. apply in_or_app. right. left. reflexivity. }
  apply Nat.ltb_lt in Hc. rewrite Hc. cbn [length]. f_equal. apply IH; [assumption|]. destruct ps; [exact I|exact Hl].
Qed.

(** *** Files *)

Lemma read_bytes_app a f : read_bytes (length a) (a ++ f) = (a, f).
Proof. induction a as [|x a IH]; [reflexivity|]. cbn [length app read_bytes]. rewrite IH. reflexivity. Qed.

Lemma writeBitset_cons8 b0 b1 b2 b3 b4 b5 b6 b7 r : 
  writeBitset (b0 :: b1 :: b2 :: b3 :: b4 :: b5 :: b6 :: b7 :: r) = byte_of_bits 8 [b0; b1; b2; b3; b4; b5; b6; b7] :: writeBitset r.
Proof. reflexivity. Qed.
Lemma writeBitset_app : forall n a b, length a = (8 * n)%nat -> writeBitset (a ++ b) = writeBitset a ++ writeBitset b /\ length (writeBitset a) = n.
Proof.
  induction n as [|n IH]; intros a b Ha.
  - destruct a; [split; reflexivity|discriminate].
  - do 8 (destruct a as [|? a]; [cbn in Ha; lia|]). cbn [app]. rewrite !writeBitset_cons8. cbn [length] in Ha.
    destruct (IH a b ltac:(lia)) as [E1 E2]. rewrite E1. cbn [app length]. split; [reflexivity|now rewrite E2].
Qed.
Lemma writeBitset_bytes n a : length a = (8 * n)%nat -> flat_map byte_bits (writeBitset a) = a.
Proof.
  intros H. destruct (writeBitset_fill a) as [E _]. rewrite E. unfold fillBitset.
  replace (length a mod 8)%nat with 0%nat by (rewrite H, Nat.mul_comm, Nat.mod_mul; lia). cbn. now rewrite app_nil_r.
Qed.
Lemma read_nbytes n a b : length a = (8 * n)%nat -> readNBytes (writeBitset (a ++ b)) n = (a, writeBitset b).
Proof.
  intros H. destruct (writeBitset_app n a b H) as [E L]. unfold readNBytes. rewrite E, <- L, read_bytes_app.
  now rewrite (writeBitset_bytes n a H).
Qed.

Lemma framed_unit_long u : framed_unit u -> (72 <= length u)%nat.
Proof. intros [H _]. pose proof (field_nonneg 36 32 u). lia. Qed.

Lemma load_units : forall us n done_ total, Forall framed_unit us -> (length us < n)%nat ->
  total = done_ + vec_size (writeBitset (concat us)) -> 0 <= done_ -> total < 2 ^ 32 ->
  loadUnits n (writeBitset (concat us)) done_ total = Ok us.
Proof.
  induction us as [|u us IH]; intros n done_ total Hu Hn Et Hd Ht; (destruct n as [|n]; [cbn in Hn; lia|]); cbn [loadUnits].
  - cbn in Et. unfold vec_size in Et. cbn in Et. replace (done_ <? total) with false by lia. reflexivity.
  - inversion Hu as [|? ? Hu1 Hus]; subst. pose proof (framed_unit_long u Hu1) as Hl. destruct Hu1 as [H1 H2]. pose proof (field_nonneg 36 32 u) as H3.
    set (m := Z.to_nat (field 36 32 u)) in *.
    assert (Ha : length (firstn 72 u) = (8 * 9)%nat) by (rewrite firstn_length_le; lia).
    assert (Hb : length (skipn 72 u) = (8 * m)%nat) by (rewrite skipn_length; unfold m; lia).
    assert (Eu : u = firstn 72 u ++ skipn 72 u) by (symmetry; apply firstn_skipn).
    cbn [concat] in *.
    destruct (writeBitset_app 9 (firstn 72 u) (skipn 72 u ++ concat us) Ha) as [E1 E2].
    destruct (writeBitset_app m (skipn 72 u) (concat us) Hb) as [E3 E4].
    assert (Esz : vec_size (writeBitset (u ++ concat us)) = 9 + Z.of_nat m + vec_size (writeBitset (concat us))).
    { rewrite Eu, <- app_assoc, E1, E3. unfold vec_size. rewrite !app_length. lia. }
    rewrite Esz in *.
    replace (done_ <? done_ + (9 + Z.of_nat m + vec_size (writeBitset (concat us)))) with true by (unfold vec_size in *; lia).
    replace (writeBitset (u ++ concat us)) with (writeBitset (firstn 72 u ++ skipn 72 u ++ concat us)) by (now rewrite app_assoc, <- Eu).
    rewrite (read_nbytes 9 (firstn 72 u) _ Ha).
    assert (Ef : field 36 32 (firstn 72 u) = field 36 32 u) by (rewrite Eu at 2; rewrite field_app by (rewrite Ha; lia); reflexivity).
    rewrite (field_read32 36) by (rewrite ?Ef, ?Ha; change (2 ^ 28) with 268435456 in *; change (2 ^ 31) with 2147483648; lia).
    cbn [obind]. rewrite Ef. replace (field 36 32 u <? 0) with false by lia. fold m.
    rewrite (read_nbytes m (skipn 72 u) _ Hb). rewrite firstn_skipn.
    assert (Em : field 36 32 u = Z.of_nat m) by (unfold m; lia). rewrite Em.
    replace (to_unsigned 32 (done_ + 9 + Z.of_nat m)) with (done_ + 9 + Z.of_nat m).
    2:{ unfold to_unsigned. rewrite Z.mod_small; [reflexivity|]. change (2 ^ Z.of_nat 32) with (2 ^ 32). unfold vec_size in *. lia. }
    rewrite IH; auto.
    + cbn in Hn. lia.
    + unfold vec_size in *. lia.
    + lia.
Qed.

Lemma load_file us : Forall framed_unit us -> vec_size (concat us) < 2 ^ 35 -> loadFile (writeBitset (concat us)) = Ok us.
Proof.
  intros Hu Hs. unfold loadFile. fold (vec_size (writeBitset (concat us))).
  assert (H8 : exists n, length (concat us) = (8 * n)%nat /\ (length us <= n)%nat).
  { clear Hs. induction Hu as [|u us Hu _ (n & E & Hn)]; [exists 0%nat; split; [reflexivity|cbn; lia]|]. pose proof (field_nonneg 36 32 u).
    destruct Hu as [H1 _]. exists (9 + Z.to_nat (field 36 32 u) + n)%nat. cbn [concat length]. rewrite app_length. lia. }
  destruct H8 as (n & E8 & Hn). destruct (writeBitset_app n (concat us) [] E8) as [_ EL].
  apply load_units; auto.
  - rewrite EL. lia.
  - lia.
  - unfold vec_size in *. rewrite EL. change (2 ^ 35) with (8 * 2 ^ 32) in Hs. lia.
Qed.

(** *** Packets in units *)

Lemma field_write n v rest : field 0 n (writeNBits n v ++ rest) = v mod 2 ^ Z.of_nat n.
Proof.
  unfold field. change (skipn 0 (writeNBits n v ++ rest)) with (writeNBits n v ++ rest).
  rewrite firstn_app, writeNBits_length, Nat.sub_diag, firstn_O, app_nil_r, firstn_all2 by (rewrite writeNBits_length; lia).
  apply bits_val_writeNBits.
Qed.
Lemma field_skip i n k v rest : field (k + i) n (writeNBits k v ++ rest) = field i n rest.
Proof. rewrite <- (writeNBits_length k v) at 1. apply field_app_r. Qed.
Lemma skipn_write k v rest : skipn k (writeNBits k v ++ rest) = rest.
Proof. rewrite <- (writeNBits_length k v) at 1. apply skip_mid. Qed.

Lemma fill_length bs : exists k, (k < 8)%nat /\ length (fillBitset bs) = (length bs + k)%nat /\ fillBitset bs = bs ++ repeat false k /\ (exists m, length bs + k = 8 * m)%nat.
Proof.
  unfold fillBitset. exists ((8 - length bs mod 8) mod 8)%nat.
  split; [apply Nat.mod_upper_bound; lia|]. split; [rewrite app_length, repeat_length; reflexivity|]. split; [reflexivity|].
  exists ((length bs + (8 - length bs mod 8) mod 8) / 8)%nat. pose proof (Nat.div_mod (length bs) 8 ltac:(lia)). 
  pose proof (Nat.mod_upper_bound (length bs) 8 ltac:(lia)). destruct (Nat.eq_dec (length bs mod 8) 0) as [E|E].
  - rewrite E. change ((8 - 0) mod 8)%nat with 0%nat. rewrite Nat.add_0_r. lia.
  - rewrite (Nat.mod_small (8 - length bs mod 8) 8) by lia. lia.
Qed.

Definition data_header (n : Z) : bits := writeNBits 6 DataP ++ writeNBits 17 n ++ writeNBits 1 0.
(** The number of bytes of a packet. *)
Definition byte_count (n : nat) : Z := (Z.of_nat n + 7) / 8.
Lemma packet_data p : exists k, (k < 8)%nat /\ packet DataP p = data_header (byte_count (length p) - 4) ++ p ++ repeat false k /\
  (Z.of_nat (length p + k) = 8 * byte_count (length p)).
Proof.
  unfold packet, padToByteBoundary, writeMIHSPacketHeader. change (DataP =? DataP) with true. cbv iota zeta.
  set (n := (vec_size p + (if vec_size p mod 8 =? 0 then 0 else 8 - vec_size p mod 8)) / 8).
  assert (En : n = byte_count (length p)) by (unfold n, byte_count, vec_size; destruct (Z.eqb_spec (Z.of_nat (length p) mod 8) 0); lia).
  rewrite En. fold (data_header (byte_count (length p) - 4)). destruct (fill_length (data_header (byte_count (length p) - 4) ++ p)) as (k & Hk & _ & E & m & Hm).
  exists k. split; [exact Hk|]. rewrite E, <- app_assoc. split; [reflexivity|].
  rewrite app_length in Hm. unfold data_header in Hm. rewrite !app_length, !writeNBits_length in Hm. unfold byte_count. lia.
Qed.
Lemma data_header_length n : length (data_header n) = 24%nat.
Proof. reflexivity. Qed.

Lemma strip_data p : sendable p -> exists q x, strip_time (packet DataP p) = Ok q /\ data_packet p q /\ nth_error q 24 = Some x.
Proof.
  intros ((H1 & _) & H2 & H3). destruct (packet_data p) as (k & Hk & E & Hn). unfold strip_time. rewrite E.
  set (n := byte_count (length p)) in *. rewrite !app_length, data_header_length, repeat_length.
  replace (56 <=? 24 + (length p + k))%nat with true by (symmetry; apply Nat.leb_le; lia).
  set (q := firstn 24 _ ++ skipn 56 _).
  assert (Eq : q = data_header (n - 4) ++ skipn 32 p ++ repeat false k).
  { unfold q. rewrite firstn_app, data_header_length, Nat.sub_diag, firstn_O, app_nil_r, (firstn_all2 (data_header _)) by (rewrite data_header_length; lia).
    f_equal. rewrite skipn_app, data_header_length, (skipn_all2 (data_header _)) by (rewrite data_header_length; lia). cbn [app].
    change (56 - 24)%nat with 32%nat. rewrite skipn_app. replace (32 - length p)%nat with 0%nat by lia. reflexivity. }
  clearbody q. destruct (nth_error q 24) as [x|] eqn:Ex.
  2:{ apply nth_error_None in Ex. rewrite Eq, !app_length, data_header_length, skipn_length, repeat_length in Ex. lia. }
  exists q, x. split; [reflexivity|]. split; [|exact Ex].
  assert (Hb : 0 <= n - 4 < 2 ^ 17) by (unfold vec_size in *; change (2 ^ 20) with 1048576 in *; change (2 ^ 17) with 131072; lia).
  split; [|split].
  - unfold framed_packet. rewrite Eq at 1. rewrite !app_length, data_header_length, skipn_length, repeat_length.
    replace (field 6 17 q) with (n - 4); [lia|].
    rewrite Eq. unfold data_header. rewrite <- !app_assoc. rewrite (field_skip 0 17 6), field_write. symmetry. apply Z.mod_small. exact Hb.
  - rewrite Eq. unfold data_header. rewrite <- !app_assoc, field_write. reflexivity.
  - exists (repeat false k). split; [|rewrite repeat_length; exact Hk]. rewrite Eq. rewrite <- (data_header_length (n - 4)) at 1. apply skip_mid.
Qed.

Lemma packet_time p : sendable p -> packetTS (packet DataP p) = Ok (stamp p).
Proof.
  intros ((H1 & H0) & H2 & H3). destruct (packet_data p) as (k & Hk & E & Hn). unfold packetTS. rewrite E.
  rewrite !app_length, data_header_length. replace (24 <=? 24 + _)%nat with true by (symmetry; apply Nat.leb_le; lia).
  rewrite <- (data_header_length (byte_count (length p) - 4)) at 1. rewrite skip_mid. unfold readPacketTS, slice.
  replace (0 + 32 <=? length (p ++ repeat false k))%nat with true by (symmetry; apply Nat.leb_le; rewrite app_length; lia). cbn [obind].
  change (skipn 0 (p ++ repeat false k)) with (p ++ repeat false k). rewrite firstn_app.
  replace (32 - length p)%nat with 0%nat by lia. rewrite firstn_O, app_nil_r. fold (stamp p).
  destruct (Z.leb_spec (2 ^ 31) (stamp p)); [lia|reflexivity].
Qed.

(** *** Units *)

Lemma unit_fields type sync duration len rest : let u := unit_header type sync duration len ++ rest in
  field 0 6 u = type mod 2 ^ 6 /\ field 6 2 u = sync mod 2 ^ 2 /\ field 12 24 u = duration mod 2 ^ 24 /\ field 36 32 u = len mod 2 ^ 32.
Proof.
  cbv zeta. unfold unit_header. rewrite <- !app_assoc. split; [apply (field_write 6)|].
  rewrite (field_skip 0 2 6). split; [apply (field_write 2)|].
  rewrite (field_skip 6 24 6), (field_skip 4 24 2), (field_skip 0 24 4). split; [apply (field_write 24)|].
  rewrite (field_skip 30 32 6), (field_skip 28 32 2), (field_skip 24 32 4), (field_skip 0 32 24). apply (field_write 32).
Qed.
Lemma unit_header_length type sync duration len : length (unit_header type sync duration len) = 72%nat.
Proof. reflexivity. Qed.

Lemma temporal_ok t : forall group sync t0, Forall sendable group -> Forall (fun p => stamp p = t) group ->
  exists qs s, temporal_payload (map (packet DataP) group) sync t0 = Ok (concat qs, s, match group with [] => t0 | _ => t end) /\
    Forall2 data_packet group qs.
Proof.
  induction group as [|p group IH]; intros sync t0 Hs Ht; cbn [map temporal_payload].
  - exists [], sync. split; [reflexivity|constructor].
  - inversion Hs; subst. inversion Ht; subst. destruct (strip_data p ltac:(assumption)) as (q & x & Eq & Hq & Ex).
    rewrite Eq. cbn [obind]. rewrite Ex. cbn [obind]. rewrite packet_time by assumption. cbn [obind].
    destruct (IH (sync && negb x) (stamp p) ltac:(assumption) ltac:(assumption)) as (qs & s & E & HF). rewrite E. cbn [obind].
    exists (q :: qs), s. split; [|constructor; assumption]. cbn [concat]. destruct group; reflexivity.
Qed.

Lemma data_packet_length p q : (32 <= length p)%nat -> data_packet p q -> (length q < length p + 32)%nat /\ exists m, length q = (8 * m)%nat.
Proof.
  intros Hp (Hf & _ & pad & E & Hpad). pose proof (framed_long q Hf). pose proof (field_nonneg 6 17 q). unfold framed_packet in Hf. split.
  - assert (Hl : length (skipn 24 q) = (length (skipn 32 p) + length pad)%nat) by (rewrite E; apply app_length). rewrite !skipn_length in Hl. lia.
  - exists (3 + Z.to_nat (field 6 17 q))%nat. lia.
Qed.
Lemma payload_length group qs : Forall (fun p => (32 <= length p)%nat) group -> Forall2 data_packet group qs ->
  vec_size (concat qs) <= vec_size (concat group) + 32 * vec_size group /\ (exists m, length (concat qs) = (8 * m)%nat).
Proof.
  intros Hg H. induction H as [|p q group qs H _ IH]; [cbn; split; [lia|exists 0%nat; reflexivity]|]. inversion Hg; subst.
  destruct (IH ltac:(assumption)) as [I1 (m & I2)]. destruct (data_packet_length p q ltac:(assumption) H) as [L1 (n & L2)].
  cbn [concat]. unfold vec_size in *. rewrite !app_length. cbn [length]. split; [lia|]. exists (n + m)%nat. lia.
Qed.

(** The unit of a group of packets. *)
Lemma temporal_unit pd group w t : group <> [] -> Forall sendable group -> Forall (fun p => stamp p = t) group -> 0 <= pd < 2 ^ 24 ->
  unit_payload_ok group ->
  exists u hd qs, writeUnitTemporal pd (map (packet DataP) group) w = Ok (u, set_time (t + pd) w) /\
    Forall2 data_packet group qs /\ u = hd ++ concat qs /\ length hd = 72%nat /\ framed_unit u /\
    field 0 6 u = TemporalU /\ field 12 24 u = pd.
Proof.
  intros Hne Hs Ht Hpd Hsz. unfold writeUnitTemporal. destruct (temporal_ok t group true (sw_time w) Hs Ht) as (qs & s & E & HF).
  rewrite E. cbn [obind].
  assert (Hg : Forall (fun p : bits => (32 <= length p)%nat) group) by (eapply Forall_impl; [|exact Hs]; intros p ((H & _) & _); exact H).
  destruct (payload_length group qs Hg HF) as [L1 (m & L2)]. unfold unit_payload_ok in Hsz.
  replace (match map (packet DataP) group with [] => 0 | _ :: _ => pd end) with pd by (destruct group; [congruence|reflexivity]).
  replace (match group with [] => sw_time w | _ => t end) with t by (destruct group; [congruence|reflexivity]).
  eexists _, _, qs. split; [reflexivity|]. split; [exact HF|]. split; [reflexivity|]. split; [reflexivity|].
  set (hd := unit_header _ _ _ _).
  destruct (unit_fields TemporalU (if s then 0 else 1) pd (vec_size (concat qs) / 8) (concat qs)) as (F1 & _ & F3 & F4).
  fold hd in F1, F3, F4.
  assert (F4' : field 36 32 (hd ++ concat qs) = vec_size (concat qs) / 8).
  { rewrite F4. apply Z.mod_small. unfold vec_size in *. change (2 ^ 31) with 2147483648 in *; change (2 ^ 32) with 4294967296. unfold bits in *. lia. }
  split; [|split; [exact F1|rewrite F3; apply Z.mod_small; exact Hpd]].
  split; rewrite F4'; unfold vec_size in *; rewrite ?app_length, ?L2; change (length hd) with 72%nat; change (2 ^ 31) with 2147483648 in *; change (2 ^ 28) with 268435456; unfold bits in *; lia.
Qed.

Lemma round_ok pd d : 0 < pd < 2 ^ 24 -> 0 <= d < 2 ^ 31 -> d mod pd = 0 -> round_duration pd d = Ok d.
Proof.
  intros Hpd Hd Hm. unfold round_duration, to_unsigned. change (Z.of_nat 32) with 32. 
  rewrite (Z.mod_small pd) by (change (2 ^ 24) with 16777216 in *; change (2 ^ 32) with 4294967296; lia).
  rewrite (Z.mod_small d) by (change (2 ^ 31) with 2147483648 in *; change (2 ^ 32) with 4294967296; lia).
  replace (pd =? 0) with false by lia. rewrite Hm. reflexivity.
Qed.
Lemma silent_fields d : 0 <= d < 2 ^ 24 -> let u := unit_header SilentU 0 d 0 in
  field 0 6 u = SilentU /\ field 12 24 u = d /\ field 36 32 u = 0 /\ framed_unit u.
Proof.
  intros Hd. pose proof (unit_fields SilentU 0 d 0 []) as H. cbv zeta in *. rewrite app_nil_r in H. destruct H as (F1 & _ & F3 & F4).
  rewrite Z.mod_small in F3 by exact Hd. split; [exact F1|]. split; [exact F3|]. split; [exact F4|].
  split; rewrite F4; rewrite ?unit_header_length; reflexivity.
Qed.

(** Initialization units. *)
Definition timing_packet (w : swriter) : bits := packet InitializationTimingP (writeInitializationTiming w).
Lemma init_unit init w u w' : writeUnitInitialization init w = (u, w') -> 0 <= sw_time w < 2 ^ 32 ->
  u = unit_header InitializationU 0 0 (vec_size (timing_packet w ++ concat init) / 8) ++ timing_packet w ++ concat init /\
  sw_time w' = sw_time w /\ sw_timescale w' = sw_timescale w /\ field 0 6 u = InitializationU /\ field 12 24 u = 0 /\ field 96 32 u = sw_time w.
Proof.
  unfold writeUnitInitialization. cbv zeta. intros E Ht. apply pair_equal_spec in E. destruct E as [<- <-].
  change (writeInitializationTiming (check_writer w)) with (writeInitializationTiming w). fold (timing_packet w).
  split; [reflexivity|]. split; [reflexivity|]. split; [reflexivity|].
  destruct (unit_fields InitializationU 0 0 (vec_size (timing_packet w ++ concat init) / 8) (timing_packet w ++ concat init)) as (F1 & _ & F3 & _).
  split; [exact F1|]. split; [exact F3|].
  set (hd := unit_header _ _ _ _). change 96%nat with (length hd + 24)%nat. rewrite field_app_r.
  unfold timing_packet, packet, padToByteBoundary. destruct (fillBitset_app (writeMIHSPacketHeader InitializationTimingP
      (vec_size (writeInitializationTiming w)) ++ writeInitializationTiming w)) as (pad & ->).
  unfold writeMIHSPacketHeader. cbv zeta. rewrite <- !app_assoc.
  rewrite (field_skip 18 32 6), (field_skip 1 32 17), (field_skip 0 32 1). unfold writeInitializationTiming. rewrite <- !app_assoc, field_write.
  apply Z.mod_small. exact Ht.
Qed.

Lemma sync_ok pd init syncs st us st' ps : 0 <= sw_time (us_writer st) < 2 ^ 32 -> sync_unit syncs init st = (us, st') ->
  sw_time (us_writer st') = sw_time (us_writer st) /\
  forall rest, timeline pd init (sw_time (us_writer st)) ps rest -> timeline pd init (sw_time (us_writer st)) ps (us ++ rest).
Proof.
  intros Ht. unfold sync_unit. destruct (_ && _).
  - destruct (writeUnitInitialization init (us_writer st)) as [u w] eqn:E. destruct (getNextSync _ _ _) as [s i]. intros H. injection H as <- <-.
    destruct (init_unit _ _ _ _ E Ht) as (Eu & E1 & _ & F1 & F2 & F3). split; [exact E1|]. intros rest Hr. cbn [app].
    apply (TlInit pd init _ u (unit_header InitializationU 0 0 (vec_size (timing_packet (us_writer st) ++ concat init) / 8)) (timing_packet (us_writer st)));
      auto.
  - intros H. injection H as <- <-. split; [reflexivity|]. auto.
Qed.

Lemma last_map {A B} (f : A -> B) l d d' : l <> [] -> last (map f l) d' = f (last l d).
Proof. induction l as [|x l IH]; [congruence|]. intros _. destruct l as [|y l]; [reflexivity|]. cbn [map last] in *. apply IH. discriminate. Qed.
Lemma last_in {A} (l : list A) d : l <> [] -> In (last l d) l.
Proof. intros H. rewrite (app_removelast_last d H) at 2. apply in_or_app. right. left. reflexivity. Qed.

Lemma units_ok pd init syncs : 0 < pd < 2 ^ 24 -> forall ps buf st t, buf <> [] -> Forall sendable (buf ++ ps) -> Forall (fun p => stamp p = t) buf ->
  sw_time (us_writer st) = t -> Forall (fun p => stamp p mod pd = 0) (buf ++ ps) -> no_long_gap t ps -> unit_payload_ok (buf ++ ps) ->
  exists us, units_loop pd syncs init (map (packet DataP) ps) (map (packet DataP) buf) st = Ok us /\ timeline pd init t (buf ++ ps) us.
Proof.
  intros Hpd. induction ps as [|p ps IH]; intros buf st t Hne Hs Ht Hw Hm Hg Hz.
  - cbn [map units_loop]. rewrite app_nil_r in *.
    destruct (temporal_unit pd buf (us_writer st) t Hne Hs Ht ltac:(lia) Hz) as (u & hd & qs & E & HF & Eu & Lu & Fu & F1 & F2).
    rewrite E. cbn [obind]. set (st1 := UState _ _ _). destruct (sync_unit syncs init st1) as [s1 st2] eqn:E1.
    assert (Hst : stamp (last buf []) = t) by (rewrite Forall_forall in Ht; apply Ht, last_in, Hne).
    assert (Hlt : t < 2 ^ 31). { rewrite Forall_forall in Hs. destruct (Hs _ (last_in buf [] Hne)) as ((_ & H) & _). lia. }
    assert (H0 : 0 <= t) by (rewrite <- Hst; unfold stamp; apply bits_val_bound).
    destruct (sync_ok pd init syncs st1 s1 st2 [] ltac:(unfold st1; cbn [us_writer set_time sw_time]; change (2 ^ 31) with 2147483648 in *; change (2 ^ 24) with 16777216 in *; change (2 ^ 32) with 4294967296; lia) E1) as (Es & Hs1).
    exists (u :: s1). split; [reflexivity|]. rewrite <- (app_nil_r buf). 
    apply (TlData pd init t u hd buf qs []); auto. replace (clock t u) with (t + pd) by (unfold clock; rewrite F1, F2; reflexivity).
    rewrite <- (app_nil_r s1). apply Hs1. constructor.
  - cbn [map units_loop]. rewrite (last_map (packet DataP) buf [] [] Hne).
    assert (Hst : stamp (last buf []) = t) by (rewrite Forall_forall in Ht; apply Ht, last_in, Hne).
    assert (Hsl : sendable (last buf [])) by (rewrite Forall_forall in Hs; apply Hs, in_or_app; left; apply last_in, Hne).
    assert (Hsp : sendable p) by (rewrite Forall_forall in Hs; apply Hs, in_or_app; right; left; reflexivity).
    rewrite (packet_time _ Hsl). cbn [obind]. rewrite (packet_time _ Hsp). cbn [obind]. rewrite Hst.
    cbn [no_long_gap] in Hg. destruct Hg as [Hgp Hg].
    destruct (Z.eqb_spec t (stamp p)) as [Ep|Ep].
    + replace (map (packet DataP) buf ++ [packet DataP p]) with (map (packet DataP) (buf ++ [p])) by (rewrite map_app; reflexivity).
      replace (buf ++ p :: ps) with ((buf ++ [p]) ++ ps) in * by (rewrite <- app_assoc; reflexivity).
      apply IH; auto.
      * destruct buf; discriminate.
      * apply Forall_app. split; [exact Ht|]. constructor; [congruence|constructor].
      * now rewrite Ep.
    + apply Forall_app in Hs. destruct Hs as [Hsb Hsps].
      assert (Hzb : unit_payload_ok buf /\ unit_payload_ok ([p] ++ ps)).
      { clear - Hz. unfold unit_payload_ok, vec_size in *. rewrite concat_app, !app_length in Hz.
        change ([p] ++ ps) with (p :: ps). split; lia. }
      destruct Hzb as [Hzb Hzp].
      destruct (temporal_unit pd buf (us_writer st) t Hne Hsb Ht ltac:(lia) Hzb) as (u & hd & qs & E & HF & Eu & Lu & Fu & F1 & F2).
      unfold flush_unit. rewrite E. cbn [obind]. set (st1 := UState _ _ _). destruct (sync_unit syncs init st1) as [s1 st2] eqn:E1.
      assert (H0 : 0 <= t) by (rewrite <- Hst; unfold stamp; apply bits_val_bound).
      assert (Hlt : stamp p < 2 ^ 31) by (destruct Hsp as ((_ & H) & _); exact H).
      apply Forall_app in Hm. destruct Hm as [Hmb Hmp].
      assert (Hmt : t mod pd = 0). { rewrite <- Hst. rewrite Forall_forall in Hmb. apply Hmb, last_in, Hne. }
      assert (Hmp1 : stamp p mod pd = 0) by (inversion Hmp; assumption).
      assert (Hge : t + pd <= stamp p).
      { pose proof (Z.div_mod t pd ltac:(lia)) as D1. pose proof (Z.div_mod (stamp p) pd ltac:(lia)) as D2. rewrite Hmt in D1. rewrite Hmp1 in D2.
        assert (t / pd < stamp p / pd); [|nia]. apply (Zmult_lt_reg_r _ _ pd); nia. }
      destruct (sync_ok pd init syncs st1 s1 st2 (p :: ps) ltac:(unfold st1; cbn [us_writer set_time sw_time]; change (2 ^ 31) with 2147483648 in *; change (2 ^ 24) with 16777216 in *; change (2 ^ 32) with 4294967296; lia) E1) as (Es & Hs1).
      assert (Et1 : sw_time (us_writer st1) = t + pd) by reflexivity. rewrite Et1 in *.
      rewrite Es. destruct (Z.eqb_spec (t + pd) (stamp p)) as [Eq|Eq].
      * cbn [obind]. destruct (IH [p] st2 (stamp p) ltac:(discriminate) Hsps ltac:(constructor; auto) ltac:(congruence) Hmp Hg Hzp) as (us & EU & HT).
        cbn [map] in EU. rewrite EU. cbn [obind]. exists ((u :: s1) ++ us). split; [reflexivity|].
        apply (TlData pd init t u hd buf qs (p :: ps)); auto.
        replace (clock t u) with (t + pd) by (unfold clock; rewrite F1, F2; reflexivity). apply Hs1. rewrite Eq. exact HT.
      * unfold writeUnitSilent. rewrite (packet_time _ Hsp). cbn [obind]. rewrite Es.
        set (d := stamp p - (t + pd)). assert (Hd : 0 <= d < 2 ^ 24) by (unfold d; lia).
        rewrite (round_ok pd d) by (try assumption; unfold d; try (change (2 ^ 31) with 2147483648 in *; change (2 ^ 24) with 16777216 in *; lia);
          replace (stamp p - (t + pd)) with (stamp p - t + (-1) * pd) by lia; rewrite Z.mod_add, Zminus_mod, Hmt, Hmp1 by lia; apply Zmod_0_l).
        cbn [obind]. set (st3 := UState _ _ _). destruct (sync_unit syncs init st3) as [s2 st4] eqn:E2.
        assert (Et3 : sw_time (us_writer st3) = stamp p).
        { unfold st3. cbn [us_writer set_time sw_time]. unfold d. lia. }
        destruct (sync_ok pd init syncs st3 s2 st4 (p :: ps) ltac:(rewrite Et3; change (2 ^ 31) with 2147483648 in *; change (2 ^ 32) with 4294967296; lia) E2) as (Es3 & Hs2).
        rewrite Et3 in *. cbn [obind].
        destruct (IH [p] st4 (stamp p) ltac:(discriminate) Hsps ltac:(constructor; auto) Es3 Hmp Hg Hzp) as (us & EU & HT).
        cbn [map] in EU. rewrite EU. cbn [obind]. eexists. split; [reflexivity|].
        destruct (silent_fields d Hd) as (S1 & S2 & S3 & S4). set (v := unit_header SilentU 0 d 0) in *.
        cbn [app]. apply (TlData pd init t u hd buf qs (p :: ps)); auto.
        replace (clock t u) with (t + pd) by (unfold clock; rewrite F1, F2; reflexivity). rewrite <- app_assoc. apply Hs1.
        assert (Ecl : clock (t + pd) v = stamp p) by (unfold clock; rewrite S1, S2; change (SilentU =? InitializationU) with false; cbv iota; unfold d; lia).
        cbn [app]. apply TlSilent; auto.
        -- rewrite S2. unfold d. replace (stamp p - (t + pd)) with (stamp p - t + (-1) * pd) by lia. rewrite Z.mod_add, Zminus_mod, Hmt, Hmp1 by lia. apply Zmod_0_l.
        -- rewrite Ecl. apply Hs2. exact HT.
Qed.

(** *** The sync flags of silent units *)

Definition same_but_sync (u u' : bits) : Prop :=
  u' = u \/ (field 0 6 u = SilentU /\ exists s, u' = firstn 6 u ++ s ++ skipn 8 u /\ length s = 2%nat /\ (8 <= length u)%nat).
Lemma sync_fields u u' : same_but_sync u u' -> length u' = length u /\
  field 0 6 u' = field 0 6 u /\ field 12 24 u' = field 12 24 u /\ field 36 32 u' = field 36 32 u.
Proof.
  intros [->|(_ & s & E & Hs & Hl)]; [auto|].
  assert (L6 : length (firstn 6 u) = 6%nat) by (rewrite firstn_length_le; lia).
  assert (Eu : u = firstn 6 u ++ firstn 2 (skipn 6 u) ++ skipn 8 u).
  { rewrite <- (firstn_skipn 6 u) at 1. f_equal. rewrite <- (firstn_skipn 2 (skipn 6 u)) at 1. f_equal.
    clear. do 6 (destruct u as [|? u]; [reflexivity|]). reflexivity. }
  assert (L2 : length (firstn 2 (skipn 6 u)) = 2%nat) by (rewrite firstn_length_le; [reflexivity|rewrite skipn_length; lia]).
  split; [rewrite E, !app_length, L6, Hs, skipn_length; lia|].
  assert (HF : forall i n, field (8 + i) n u' = field (8 + i) n u).
  { intros i n. rewrite Eu, E. rewrite !app_assoc.
    replace (8 + i)%nat with (length (firstn 6 u ++ s) + i)%nat at 1 by (rewrite app_length, L6, Hs; lia). rewrite field_app_r.
    replace (8 + i)%nat with (length (firstn 6 u ++ firstn 2 (skipn 6 u)) + i)%nat at 1 by (rewrite app_length, L6, L2; lia). now rewrite field_app_r. }
  split; [|split; [apply (HF 4%nat 24%nat)|apply (HF 28%nat 32%nat)]].
  rewrite E. rewrite (field_app 0 6) by (rewrite L6; lia). rewrite Eu at 2. rewrite (field_app 0 6) by (rewrite L6; lia). reflexivity.
Qed.

Lemma unit_type_field u : (6 <= length u)%nat -> unit_type u = Ok (field 0 6 u).
Proof. intros H. unfold unit_type. rewrite (field_read 0 6) by lia. reflexivity. Qed.
Lemma next_bits us : Forall (fun u : bits => (8 <= length u)%nat) us -> exists o, next_sync_bits us = Ok o /\ forall s, o = Some s -> length s = 2%nat.
Proof.
  induction 1 as [|u us Hu _ IH]; cbn [next_sync_bits].
  - exists None. split; [reflexivity|discriminate].
  - rewrite unit_type_field by lia. cbn [obind]. destruct (_ || _); [|exact IH].
    unfold slice. replace (6 + 2 <=? length u)%nat with true by (symmetry; apply Nat.leb_le; lia). cbn [obind].
    eexists. split; [reflexivity|]. intros s E. assert (Es : s = firstn 2 (skipn 6 u)) by congruence. rewrite Es, firstn_length_le; [reflexivity|rewrite skipn_length; lia].
Qed.
Lemma flags_ok us : Forall (fun u : bits => (8 <= length u)%nat) us -> exists us', silentUnitSyncFlag us = Ok us' /\ Forall2 same_but_sync us us'.
Proof.
  induction 1 as [|u us Hu Hus IH]; cbn [silentUnitSyncFlag].
  - exists []. split; [reflexivity|constructor].
  - rewrite unit_type_field by lia. cbn [obind]. destruct IH as (us' & E & HF).
    destruct (Z.eqb_spec (field 0 6 u) SilentU) as [Es|Es].
    + destruct (next_bits us Hus) as (o & Eo & Ho). rewrite Eo. cbn [obind]. destruct o as [s|].
      * replace (8 <=? length u)%nat with true by (symmetry; apply Nat.leb_le; lia). cbn [obind]. rewrite E. cbn [obind].
        eexists. split; [reflexivity|]. constructor; [|exact HF]. right. split; [exact Es|]. exists s. auto.
      * cbn [obind]. rewrite E. cbn [obind]. eexists. split; [reflexivity|]. constructor; [left; reflexivity|exact HF].
    + cbn [obind]. rewrite E. cbn [obind]. eexists. split; [reflexivity|]. constructor; [left; reflexivity|exact HF].
Qed.

Lemma timeline_flags pd init t ps us : timeline pd init t ps us -> forall us', Forall2 same_but_sync us us' -> timeline pd init t ps us'.
Proof.
  induction 1 as [t|t u p ps us H1 H2 H3 H4 H5 HT IH|t u hd q ps us E Hl H1 H2 H3 HT IH|t u hd group qs ps us Hne Hst HF E Hl Hf H1 H2 HT IH];
    intros us' HF'; inversion HF' as [|? u' ? us2 Hu Hus]; subst; [constructor|..].
  - destruct (sync_fields u u' Hu) as (F0 & F1 & F2 & F3). apply TlSilent; [congruence|congruence|unfold framed_unit in *; rewrite F0, F3; exact H3|congruence|..];
    (replace (clock t u') with (clock t u); [|unfold clock; rewrite F1, F2, H1; reflexivity]); [exact H5|apply IH; exact Hus].
  - destruct Hu as [->|(Hs & _)]; [|rewrite H1 in Hs; discriminate]. eapply TlInit; eauto.
  - destruct Hu as [->|(Hs & _)]; [|rewrite H1 in Hs; discriminate]. eapply TlData; eauto.
Qed.
Lemma timeline_long pd init t ps us : timeline pd init t ps us -> Forall (fun u : bits => (8 <= length u)%nat) us.
Proof.
  induction 1 as [t|t u p ps us H1 H2 H3 H4 H5 HT IH|t u hd q ps us E Hl H1 H2 H3 HT IH|t u hd group qs ps us Hne Hst HF E Hl Hf H1 H2 HT IH];
    [constructor|..]; constructor; auto; subst u || lia; rewrite app_length; lia.
Qed.

(** *** All units of a stream *)

Lemma write_units fuel pd h init w ds : 0 < pd < 2 ^ 24 ->
  writeInitPackets (SWriter h 0 (value_or (h_timescale h) 1000)) = Ok (init, w) ->
  writeData fuel pd (checkHapticComponent (checkHapticComponent (sw_haptic w))) = Ok ds ->
  Forall sendable ds -> Forall (fun p => stamp p mod pd = 0) ds -> no_long_gap 0 ds -> unit_payload_ok ds ->
  exists us, writeUnits fuel pd h = Ok (fst (writeUnitInitialization init w) :: us) /\ timeline pd init 0 ds us.
Proof.
  intros Hpd Hi Hd Hs Hm Hg Hz. unfold writeUnits. rewrite Hi. cbn [obind].
  assert (Hw : 0 <= sw_time w < 2 ^ 32).
  { unfold writeInitPackets in Hi. cbv zeta in Hi.
    repeat match type of Hi with obind ?x _ = _ => destruct x; cbn [obind] in Hi; [|discriminate Hi..] end.
    assert (E : w = check_writer (check_writer (check_writer (check_writer (check_writer (SWriter h 0 (value_or (h_timescale h) 1000))))))) by congruence.
    subst w. cbn [check_writer sw_time]. lia. }
  destruct (writeUnitInitialization init w) as [iu w1] eqn:Ei. cbn [fst].
  destruct (init_unit _ _ _ _ Ei Hw) as (Eu & _ & _ & F1 & _).
  assert (Ew1 : sw_haptic w1 = checkHapticComponent (sw_haptic w)).
  { unfold writeUnitInitialization in Ei. cbv zeta in Ei. apply pair_equal_spec in Ei. destruct Ei as [_ <-]. reflexivity. }
  destruct (getNextSync (h_syncs h) (Sync (-1) (Some 1000)) 0) as [s idx].
  replace (sw_haptic (check_writer w1)) with (checkHapticComponent (checkHapticComponent (sw_haptic w))) by (rewrite <- Ew1; reflexivity).
  unfold packets_data. rewrite Hd. cbn [obind].
  assert (Hi8 : (8 <= length iu)%nat) by (rewrite Eu, app_length, unit_header_length; lia).
  assert (Hflag : forall us, timeline pd init 0 ds us -> exists us', silentUnitSyncFlag (iu :: us) = Ok (iu :: us') /\ timeline pd init 0 ds us').
  { intros us HT. destruct (flags_ok (iu :: us) ltac:(constructor; [exact Hi8|exact (timeline_long _ _ _ _ _ HT)])) as (us' & E & HF).
    inversion HF as [|? iu' ? us2 Hu Hus]; subst us'. destruct Hu as [->|(Hbad & _)]; [|rewrite F1 in Hbad; discriminate].
    exists us2. split; [exact E|]. eapply timeline_flags; eauto. }
  destruct ds as [|p ds]; cbn [map].
  - destruct (Hflag [] ltac:(constructor)) as (us' & E & HT). exists us'. split; [exact E|exact HT].
  - assert (Hsp : sendable p) by (inversion Hs; assumption). assert (Hmp : stamp p mod pd = 0) by (inversion Hm; assumption).
    cbn [no_long_gap] in Hg. destruct Hg as [Hgp Hg]. unfold writeUnitSilentFirst. rewrite (packet_time p Hsp). cbn [obind].
    assert (Hloop : forall st, sw_time (us_writer st) = stamp p -> exists us, units_loop pd (h_syncs h) init (map (packet DataP) ds) [packet DataP p] st = Ok us /\ timeline pd init (stamp p) (p :: ds) us).
    { intros st Est. exact (units_ok pd init (h_syncs h) Hpd ds [p] st (stamp p) ltac:(discriminate) Hs ltac:(constructor; auto) Est Hm Hg Hz). }
    destruct (Z.geb_spec (stamp p) pd) as [Hge|Hlt].
    + rewrite (round_ok pd (stamp p)) by (try assumption; change (2 ^ 31) with 2147483648; change (2 ^ 24) with 16777216 in *; lia). cbn [obind].
      destruct (Hloop (UState (set_time (sw_time (set_time 0 (check_writer w1)) + stamp p) (set_time 0 (check_writer w1))) s idx) eq_refl) as (us & E & HT).
      rewrite E. cbn [obind].
      destruct (silent_fields (stamp p) ltac:(lia)) as (S1 & S2 & S3 & S4). set (v := unit_header SilentU 0 (stamp p) 0) in *.
      destruct (Hflag (v :: us)) as (us' & E' & HT').
      { apply TlSilent; [exact S1|reflexivity|exact S4|rewrite S2; exact Hmp|..];
        (assert (Ec : clock 0 v = stamp p) by (unfold clock; rewrite S1, S2; change (SilentU =? InitializationU) with false; cbv iota; lia));
        [exact Ec|rewrite Ec; exact HT]. }
      exists us'. split; [exact E'|exact HT'].
    + assert (E0 : stamp p = 0) by (rewrite Z.mod_small in Hmp by lia; exact Hmp). cbn [obind].
      destruct (Hloop (UState (set_time 0 (check_writer w1)) s idx) ltac:(rewrite E0; reflexivity)) as (us & E & HT). rewrite E. cbn [obind app].
      rewrite E0 in HT. destruct (Hflag us HT) as (us' & E' & HT'). exists us'. split; [exact E'|exact HT'].
Qed.

(** *** The reader's clock (C21) *)

Ltac cases_in H := repeat match type of H with
  | (if ?b then _ else _) = _ => destruct b
  | obind ?x _ = _ => let E := fresh "E" in destruct x as [?| | |] eqn:E; cbn [obind] in H; [|discriminate H..]
  | match ?x with Some _ => _ | None => _ end = _ => destruct x as [?|]
  | (let '(_, _) := ?x in _) = _ => destruct x
  end; try discriminate H.
Definition same_clock (r r' : sreader) : Prop := sr_time r' = sr_time r /\ sr_duration r' = sr_duration r.
Lemma receiveBand_clock r p c b r' : receiveBand r p c b = Ok r' -> same_clock r r'.
Proof.
  unfold receiveBand. cbv zeta. intros H. cases_in H.
  - assert (X : r' = SReader (sr_haptic r') (sr_bands r') (sr_time r) (sr_timescale r) (sr_duration r) (sr_wait r)) by (injection H as <-; reflexivity).
    rewrite X. split; reflexivity.
  - injection H as <-. split; reflexivity.
Qed.
Lemma ok_pair {A B} (a a' : A) (b b' : B) : Ok (a, b) = Ok (a', b') -> a = a' /\ b = b'.
Proof. intros H. split; congruence. Qed.
Lemma readData_clock r bs ok r' : readData r bs = Ok (ok, r') -> same_clock r r'.
Proof.
  unfold readData. cbv zeta. intros H. unfold same_clock. cases_in H; apply ok_pair in H; destruct H as [_ <-]; split; reflexivity.
Qed.
(** A packet that does not carry a time leaves the clock and the duration of the unit alone. *)
Lemma packet_clock fuel b r crc ok r' crc' len : readMIHSPacket fuel b r crc = Ok (ok, r', crc', len) ->
  field 0 6 b <> TimingP -> field 0 6 b <> InitializationTimingP -> same_clock r r'.
Proof.
  unfold readMIHSPacket. intros H T1 T2.
  destruct (Nat.le_gt_cases 6 (length b)) as [L|L].
  2:{ unfold readUInt, slice in H. replace (0 + 6 <=? length b)%nat with false in H by (symmetry; apply Nat.leb_gt; lia). discriminate H. }
  rewrite (field_read 0 6) in H by lia. cbn [obind] in H.
  destruct (readUInt b 6 17) as [[len0 x0]| | |]; cbn [obind] in H; [|discriminate H..]. destruct (_ <? 24)%nat; [discriminate H|]. cbv zeta in H.
  replace (field 0 6 b =? TimingP) with false in H by lia. replace (field 0 6 b =? InitializationTimingP) with false in H by lia.
  set (ty := field 0 6 b) in *. clearbody ty.
  cases_in H; repeat (apply ok_pair in H; destruct H as [H _]); apply pair_equal_spec in H; destruct H as [H _]; apply pair_equal_spec in H; destruct H as [_ H]; subst r';
   try (split; reflexivity); eauto using receiveBand_clock, readData_clock.
Qed.

Lemma hand_over_clock fuel tail : forall ps r crc ok r' crc', hand_over fuel ps tail r crc = Ok (ok, r', crc') ->
  Forall (fun p => framed_packet p /\ field 0 6 p <> TimingP /\ field 0 6 p <> InitializationTimingP) ps -> same_clock r r'.
Proof.
  induction ps as [|p ps IH]; intros r crc ok r' crc' H Hp; cbn [hand_over] in H.
  - injection H as _ <- _. split; reflexivity.
  - inversion Hp as [|? ? (F & T1 & T2) Hps]; subst.
    destruct (readMIHSPacket _ _ _ _) as [[[[ok1 r1] crc1] len]| | |] eqn:E; cbn [obind] in H; try discriminate H.
    assert (Ef : field 0 6 (p ++ concat ps ++ tail) = field 0 6 p) by (apply field_app; pose proof (framed_long p F); lia).
    apply packet_clock in E; [|rewrite Ef; assumption..]. destruct E as [E1 E2]. destruct ok1.
    + destruct (IH _ _ _ _ _ H Hps) as [I1 I2]. split; congruence.
    + injection H as _ <- _. split; assumption.
Qed.

(** The clock at the end of a unit without time packets that has been read to its end. *)
Lemma unit_clock fuel hd ps r crc r' crc' : let u := hd ++ concat ps in length hd = 72%nat -> framed_unit u ->
  Forall (fun p => framed_packet p /\ field 0 6 p <> TimingP /\ field 0 6 p <> InitializationTimingP) ps ->
  readMIHSUnit fuel u r crc = Ok (true, r', crc') -> sr_time r' = (sr_time r + field 12 24 u) mod 2 ^ 32.
Proof.
  intros u Hhd Hu Hp H. unfold u in H. rewrite (read_unit fuel hd ps r crc Hhd Hu) in H by (eapply Forall_impl; [|exact Hp]; intros p X; apply X).
  fold u in H. destruct (hand_over _ _ _ _ _) as [[[ok r1] crc1]| | |] eqn:E; cbn [obind] in H; try discriminate H.
  destruct ok; [|discriminate H].
  assert (Er : r' = tick r1) by congruence. subst r'. apply hand_over_clock in E.
  - destruct E as [E1 E2]. unfold tick. cbn [at_time sr_time]. rewrite E1, E2. reflexivity.
  - rewrite <- (firstn_skipn (reached ps) ps) in Hp. apply Forall_app in Hp. apply Hp.
Qed.
Lemma to_unsigned_mod_signed w x : (0 < w)%nat -> to_unsigned w (to_signed w x) = to_unsigned w x.
Proof.
  intros Hw. unfold to_signed, to_unsigned. set (m := 2 ^ Z.of_nat w). assert (Hm : 0 < m) by (unfold m; lia).
  set (k := 2 ^ (Z.of_nat w - 1)). rewrite <- Zminus_mod_idemp_l, Z.mod_mod by lia. rewrite Zminus_mod_idemp_l. f_equal. lia.
Qed.
Lemma init_timing r bs r' : readInitializationTiming r bs = Ok r' -> sr_time r' = field 0 32 bs /\ sr_duration r' = sr_duration r.
Proof.
  unfold readInitializationTiming. intros H.
  destruct (Nat.le_gt_cases 32 (length bs)) as [L|L].
  2:{ unfold readUInt, slice in H. replace (0 + 32 <=? length bs)%nat with false in H by (symmetry; apply Nat.leb_gt; lia). discriminate H. }
  destruct (readUInt bs 0 32) as [[t i]| | |] eqn:E; cbn [obind] in H; try discriminate H.
  assert (Et : t = to_signed 32 (field 0 32 bs)).
  { unfold readUInt, slice in E. replace (0 + 32 <=? length bs)%nat with true in E by (symmetry; apply Nat.leb_le; lia). cbn [obind] in E.
    change (32 =? 0)%nat with false in E. cbv iota zeta in E. fold (field 0 32 bs) in E. destruct (2 ^ 64 <=? _); [discriminate E|]. congruence. }
  cases_in H. assert (Er : sr_time r' = to_unsigned 32 t /\ sr_duration r' = sr_duration r) by (injection H as <-; split; reflexivity).
  destruct Er as [-> ->]. split; [|reflexivity]. subst t.
  assert (Hb : 0 <= field 0 32 bs < 2 ^ 32).
  { unfold field. pose proof (bits_val_bound (firstn 32 (skipn 0 bs))) as X. rewrite firstn_length_le in X by (rewrite skipn_length; lia). exact X. }
  set (x := field 0 32 bs) in *. clearbody x. rewrite to_unsigned_mod_signed by lia. unfold to_unsigned. apply Z.mod_small. exact Hb.
Qed.
Lemma init_unit_clock fuel hd q ps r crc r' crc' : let u := hd ++ concat (q :: ps) in length hd = 72%nat -> framed_unit u ->
  framed_packet q -> field 0 6 q = InitializationTimingP -> (56 <= length q)%nat -> (72 < length (concat (q :: ps)))%nat ->
  Forall (fun p => framed_packet p /\ field 0 6 p <> TimingP /\ field 0 6 p <> InitializationTimingP) ps ->
  readMIHSUnit fuel u r crc = Ok (true, r', crc') -> sr_time r' = (field 96 32 u + field 12 24 u) mod 2 ^ 32.
Proof.
  intros u Hhd Hu Hq Hty Hlq Hlong Hp H. unfold u in H.
  rewrite (read_unit fuel hd (q :: ps) r crc Hhd Hu) in H by (constructor; [exact Hq|eapply Forall_impl; [|exact Hp]; intros p X; apply X]).
  assert (Er : reached (q :: ps) = S (reached ps)).
  { apply Nat.ltb_lt in Hlong. unfold reached at 1. fold reached. unfold bits in *. rewrite Hlong. reflexivity. }
  rewrite Er in H. clear Er. fold u in H. cbn [firstn skipn hand_over] in H.
  destruct (readMIHSPacket fuel _ _ _) as [[[[ok1 r1] crc1] len]| | |] eqn:E; cbn [obind] in H; try discriminate H.
  set (rest := concat (firstn (reached ps) ps) ++ _) in E.
  assert (E1 : sr_time r1 = field 24 32 (q ++ rest) /\ sr_duration r1 = field 12 24 u).
  { clear H. unfold readMIHSPacket in E. rewrite (field_read 0 6) in E by (rewrite ?app_length; lia). cbn [obind] in E.
    rewrite field_app, Hty in E by lia. destruct (readUInt _ 6 17) as [[? ?]| | |]; cbn [obind] in E; try discriminate E.
    destruct (_ <? 24)%nat; [discriminate E|]. cbv zeta in E.
    change (InitializationTimingP =? TimingP) with false in E. change (InitializationTimingP =? MetadataHapticsP) with false in E.
    change (InitializationTimingP =? MetadataPerceptionP) with false in E. change (InitializationTimingP =? EffectLibraryP) with false in E.
    change (InitializationTimingP =? MetadataChannelP) with false in E. change (InitializationTimingP =? MetadataBandP) with false in E.
    change (InitializationTimingP =? DataP) with false in E. change (InitializationTimingP =? CRC16P) with false in E.
    change (InitializationTimingP =? CRC32P) with false in E. change (InitializationTimingP =? GlobalCRC16P) with false in E.
    change (InitializationTimingP =? GlobalCRC32P) with false in E. change (InitializationTimingP =? InitializationTimingP) with true in E. cbv iota in E.
    destruct (readInitializationTiming _ _) as [r2| | |] eqn:Er; cbn [obind] in E; try discriminate E.
    assert (r1 = r2) by congruence. subst r2. apply init_timing in Er. destruct Er as [-> ->]. split; [|reflexivity].
    unfold field. change (skipn 0 (skipn 24 (q ++ rest))) with (skipn 24 (q ++ rest)). reflexivity. }
  destruct E1 as [E1 E2].
  assert (Eq : field 96 32 u = field 24 32 (q ++ rest)).
  { unfold u. change 96%nat with (72 + 24)%nat. rewrite <- Hhd. rewrite field_app_r. cbn [concat]. rewrite !field_app by lia. reflexivity. }
  destruct ok1; [|discriminate H].
  destruct (hand_over _ _ _ _ _) as [[[ok r3] crc3]| | |] eqn:E3; cbn [obind] in H; try discriminate H.
  destruct ok; [|discriminate H]. assert (Er : r' = tick r3) by congruence. subst r'. apply hand_over_clock in E3.
  - destruct E3 as [E3 E4]. unfold tick. cbn [at_time sr_time]. rewrite E3, E4, E1, E2, Eq. reflexivity.
  - rewrite <- (firstn_skipn (reached ps) ps) in Hp. apply Forall_app in Hp. apply Hp.
Qed.

(** *** Silent units (C43) *)
Lemma silent_unit pd next w : 0 < pd < 2 ^ 31 -> sendable next -> 0 <= sw_time w <= stamp next ->
  exists d, writeUnitSilent pd (packet DataP next) w = Ok (unit_header SilentU 0 d 0, set_time (sw_time w + d) w) /\
    0 <= d /\ d mod pd = 0 /\ sw_time w + d <= stamp next < sw_time w + d + pd.
Proof.
  intros Hpd Hs Hw. assert (H31 : stamp next < 2 ^ 31) by (destruct Hs as ((_ & H) & _); exact H).
  unfold writeUnitSilent. rewrite (packet_time next Hs). cbn [obind]. unfold round_duration, to_unsigned.
  change (Z.of_nat 32) with 32. change (2 ^ 31) with 2147483648 in *.
  rewrite (Z.mod_small pd) by (change (2 ^ 32) with 4294967296; lia).
  rewrite (Z.mod_small (stamp next - sw_time w)) by (change (2 ^ 32) with 4294967296; lia).
  replace (pd =? 0) with false by lia.
  set (g := stamp next - sw_time w) in *. assert (Hg : 0 <= g) by lia.
  pose proof (Z.mod_pos_bound g pd ltac:(lia)) as Hm. pose proof (Z.div_mod g pd ltac:(lia)) as HD.
  destruct (Z.eqb_spec (g mod pd) 0) as [E|E]; cbn [obind].
  - exists g. split; [reflexivity|]. unfold g in *. lia.
  - exists (g - g mod pd). rewrite Z.rem_mod_nonneg by lia. split; [reflexivity|].
    pose proof (Z.mod_le g pd Hg ltac:(lia)) as Hle.
    split; [lia|]. split; [|unfold g in *; lia]. replace (g - g mod pd) with ((g / pd) * pd) by lia. apply Z.mod_mul. lia.
Qed.

(** *** For the theorems and examples of UnitProps.v *)
Lemma read_unit_all fuel hd ps r crc : let u := hd ++ concat ps in
  length hd = 72%nat -> framed_unit u -> Forall framed_packet ps -> ps <> [] -> (72 < length (last ps []))%nat ->
  readMIHSUnit fuel u r crc
  = do '(ok, r', crc') <- hand_over fuel ps [] (enter u r) crc; Ok (ok, (if ok then tick r' else r'), crc').
Proof.
  intros u Hhd Hu Hp Hne Hl. unfold u. rewrite (read_unit fuel hd ps r crc Hhd Hu Hp), (reached_all ps Hp) by (destruct ps; [congruence|exact Hl]).
  rewrite firstn_all, skipn_all. reflexivity.
Qed.
Definition sendable_b (p : bits) : bool := (33 <=? vec_size p) && (stamp p <? 2 ^ 31) && (vec_size p <=? 2 ^ 20).
Lemma sendable_one p : sendable_b p = true -> sendable p.
Proof. unfold sendable_b, sendable, stamped, vec_size. lia. Qed.
Lemma sendable_check ds : forallb sendable_b ds = true -> Forall sendable ds.
Proof. intros H. apply Forall_forall. intros p Hp. rewrite forallb_forall in H. apply sendable_one, H, Hp. Qed.
Lemma times_100 ds : unit_payload_ok ds -> map stamp ds = [0; 100; 400] ->
  Forall (fun p => stamp p mod 100 = 0) ds /\ no_long_gap 0 ds /\ unit_payload_ok ds /\ map stamp ds = [0; 100; 400].
Proof.
  intros Hz H. destruct ds as [|a [|b [|c [|d ds]]]]; try discriminate H. injection H as Ha Hb Hc.
  split; [repeat (apply Forall_cons; [rewrite ?Ha, ?Hb, ?Hc; reflexivity|]); apply Forall_nil|].
  split; [|split; [exact Hz|cbn [map]; congruence]]. cbn [no_long_gap]. rewrite Ha, Hb, Hc. change (2 ^ 24) with 16777216. lia.
Qed.
Lemma silent_in_stream pd init t ds us : timeline pd init t ds us ->
  forall a u b, us = a ++ u :: b -> field 0 6 u = SilentU ->
  field 12 24 u mod pd = 0 /\ exists p, In p ds /\ fold_left clock a t + field 12 24 u = stamp p.
Proof.
  induction 1 as [t|t u p ps us H1 H2 H3 H4 H5 HT IH|t u hd q ps us E Hl H1 H2 H3 HT IH|t u hd group qs ps us Hne Hst HF E Hl Hf H1 H2 HT IH];
    intros a v b Ea Hv; destruct a as [|x a]; cbn [app] in Ea; try discriminate Ea; injection Ea as Ex Ea; subst x || subst v.
  - split; [exact H4|]. exists p. split; [left; reflexivity|]. unfold clock in H5. rewrite H1 in H5. exact H5.
  - exact (IH a v b Ea Hv).
  - exfalso. rewrite H1 in Hv. discriminate Hv.
  - destruct (IH a v b Ea Hv) as (I1 & p & I2 & I3). split; [exact I1|]. exists p. split; [exact I2|].
    cbn [fold_left]. unfold clock at 2. rewrite H1, H2, H3, Z.add_0_r. exact I3.
  - exfalso. rewrite H1 in Hv. discriminate Hv.
  - destruct (IH a v b Ea Hv) as (I1 & p & I2 & I3). split; [exact I1|]. exists p. split; [|exact I3]. apply in_or_app. right. exact I2.
Qed.
Lemma never_false fuel file ok h : readFile fuel file = Ok (ok, h) -> ok = true.
Proof.
  unfold readFile. intros H. destruct (match file with Some f => loadFile f | None => Ok [] end) as [us| | |]; cbn [obind] in H; try discriminate H.
  destruct (readUnits _ _ _ _ _) as [r| | |]; cbn [obind] in H; try discriminate H. congruence.
Qed.
