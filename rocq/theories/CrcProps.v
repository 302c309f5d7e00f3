(** Properties C07, C08, C09: checksums. *)
From Verif Require Import Base BitsModel BitsSpec BitsProof CrcModel CrcSpec CrcProof.

(** C07, 16 bits: the computation terminates on both messages and the checksums differ. *)
Theorem C07_burst_detection_16 :
  forall m e : bits, length e = length m -> error_burst 16 e ->
    exists c c', computeCRC m (poly_bits 16 CRC16_POLYNOMIAL) = Ok c
      /\ computeCRC (corrupt m e) (poly_bits 16 CRC16_POLYNOMIAL) = Ok c'
      /\ length c = 16%nat /\ length c' = 16%nat /\ c <> c'.
Proof. exact burst16. Qed.
Print Assumptions C07_burst_detection_16.

Theorem C07_burst_detection_32 :
  forall m e : bits, length e = length m -> error_burst 32 e ->
    exists c c', computeCRC m (poly_bits 32 CRC32_POLYNOMIAL) = Ok c
      /\ computeCRC (corrupt m e) (poly_bits 32 CRC32_POLYNOMIAL) = Ok c'
      /\ length c = 32%nat /\ length c' = 32%nat /\ c <> c'.
Proof. exact burst32. Qed.
Print Assumptions C07_burst_detection_32.

Example C07_hyps :
  let m := writeNBits 48 123456789012 in
  let e := repeat false 5 ++ [true; false; true; true; true; false; true] ++ repeat false 36 in
  length e = length m /\ error_burst 16 e /\ corrupt m e <> m.
Proof.
  cbn zeta. split; [reflexivity|]. split.
  - exists 5%nat, [true; false; true; true; true; false; true], 36%nat.
    split; [reflexivity|]. split; [cbn; lia|]. left. reflexivity.
  - vm_compute. discriminate.
Qed.

(** C07 is sharp: a burst of 17 bits (the generator itself) goes undetected. *)
Theorem C07_burst_17_refuted :
  exists m e : bits, length e = length m /\ error_burst 17 e /\
    computeCRC (corrupt m e) (poly_bits 16 CRC16_POLYNOMIAL) = computeCRC m (poly_bits 16 CRC16_POLYNOMIAL).
Proof.
  exists (repeat false 17), (true :: writeNBits 16 49185). split; [reflexivity|]. split.
  - exists 0%nat, (true :: writeNBits 16 49185), 0%nat. split; [reflexivity|]. split; [cbn; lia|]. left; reflexivity.
  - vm_compute. reflexivity.
Qed.
Print Assumptions C07_burst_17_refuted.

(** C08 is false for every packet: asked for the checksum of exactly one packet, the writer
    produces nothing and reports failure (the test on the number of packets is inverted, and with
    no packet it indexes an empty vector). *)
Theorem C08_single_packet_never_protected_refuted :
  forall (p : bits) (crcLevel : Z), writeCRC [p] crcLevel = Ok (false, []).
Proof. exact single_packet_nothing. Qed.
Print Assumptions C08_single_packet_never_protected_refuted.

Theorem C08_no_packet_is_undefined :
  forall crcLevel : Z, crcLevel = 0 \/ crcLevel = 1 -> writeCRC [] crcLevel = UB.
Proof. exact no_packet_ub. Qed.
Print Assumptions C08_no_packet_is_undefined.

(** C08, the reader's side: a single-packet checksum packet that carries the correct checksum is accepted,
    and one carrying any other nonzero value is rejected; a checksum equal to 0 is always rejected. *)
Theorem C08_reader_verdict_16 :
  forall p c : bits, computeCRC p (poly_bits 16 CRC16_POLYNOMIAL) = Ok c ->
  forall value : bits, length value = 16%nat ->
  exists crc b crc', readCRC value PCRC16 = Ok crc /\ checkCRC [p] crc = Ok (b, crc')
    /\ (b = true <-> value = c /\ value <> repeat false 16).
Proof. exact reader16. Qed.
Print Assumptions C08_reader_verdict_16.

Theorem C08_reader_verdict_32 :
  forall p c : bits, computeCRC p (poly_bits 32 CRC32_POLYNOMIAL) = Ok c ->
  forall value : bits, length value = 32%nat ->
  exists crc b crc', readCRC value PCRC32 = Ok crc /\ checkCRC [p] crc = Ok (b, crc')
    /\ (b = true <-> value = c /\ value <> repeat false 32).
Proof. exact reader32. Qed.
Print Assumptions C08_reader_verdict_32.

Example C08_hyps :
  exists c, computeCRC (writeNBits 40 777777777) (poly_bits 16 CRC16_POLYNOMIAL) = Ok c
            /\ length c = 16%nat /\ c <> repeat false 16.
Proof. eexists. split; [vm_compute; reflexivity|]. split; [reflexivity|discriminate]. Qed.

(** C08: intact data whose checksum is 0 exists and is rejected. *)
Theorem C08_zero_checksum_refuted :
  exists p : bits, In true p /\ exists crc crc',
    computeCRC p (poly_bits 16 CRC16_POLYNOMIAL) = Ok (repeat false 16) /\
    readCRC (repeat false 16) PCRC16 = Ok crc /\ checkCRC [p] crc = Ok (false, crc').
Proof.
  exists (true :: writeNBits 16 49185). split; [left; reflexivity|].
  exists (Crc 1 0 0), (Crc 255 0 0). split; [|split]; vm_compute; reflexivity.
Qed.
Print Assumptions C08_zero_checksum_refuted.

(** C09: verdict of the reader on intact data for 2 to 255 packets.  [c] is the checksum of the packets
    in stream order and [c'] that of the packets in reverse order: acceptance happens exactly when they
    coincide and are not 0.  In all cases the packet counter of the reader is left at 255. *)
Theorem C09_global_verdict_16 :
  forall ps : list bits, (2 <= length ps <= 255)%nat -> concat ps <> [] ->
  exists payload crc b c c',
    writeCRC ps 0 = Ok (true, payload) /\ readCRC payload PGlobalCRC16 = Ok crc
    /\ computeCRC (concat ps) (poly_bits 16 CRC16_POLYNOMIAL) = Ok c
    /\ computeCRC (concat (rev ps)) (poly_bits 16 CRC16_POLYNOMIAL) = Ok c'
    /\ checkCRC ps crc = Ok (b, Crc 255 0 0)
    /\ (b = true <-> c = c' /\ c <> repeat false 16).
Proof. exact global16. Qed.
Print Assumptions C09_global_verdict_16.

Theorem C09_global_verdict_32 :
  forall ps : list bits, (2 <= length ps <= 255)%nat -> concat ps <> [] ->
  exists payload crc b c c',
    writeCRC ps 1 = Ok (true, payload) /\ readCRC payload PGlobalCRC32 = Ok crc
    /\ computeCRC (concat ps) (poly_bits 32 CRC32_POLYNOMIAL) = Ok c
    /\ computeCRC (concat (rev ps)) (poly_bits 32 CRC32_POLYNOMIAL) = Ok c'
    /\ checkCRC ps crc = Ok (b, Crc 255 0 0)
    /\ (b = true <-> c = c' /\ c <> repeat false 32).
Proof. exact global32. Qed.
Print Assumptions C09_global_verdict_32.

Example C09_hyps : (2 <= length [writeNBits 8 1; writeNBits 16 300; writeNBits 8 2] <= 255)%nat
  /\ concat [writeNBits 8 1; writeNBits 16 300; writeNBits 8 2] <> [].
Proof. split; [cbn; lia|discriminate]. Qed.

(** C09, refutation: two intact packets are rejected. *)
Theorem C09_intact_packets_rejected_refuted :
  exists (ps : list bits) payload crc crc',
    length ps = 2%nat /\ writeCRC ps 0 = Ok (true, payload) /\ readCRC payload PGlobalCRC16 = Ok crc
    /\ checkCRC ps crc = Ok (false, crc').
Proof.
  exists [writeNBits 8 1; writeNBits 8 2],
    (writeNBits 8 2 ++ writeNBits 16 63253), (Crc 2 63253 0), (Crc 255 0 0).
  split; [reflexivity|]. split; [|split]; (vm_compute; reflexivity).
Qed.
Print Assumptions C09_intact_packets_rejected_refuted.
