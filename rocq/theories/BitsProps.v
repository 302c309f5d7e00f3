(** Properties C01, C02, C03, C06: bit-level reading and writing. *)
From Verif Require Import Base BitsModel BitsSpec BitsProof BitsVecProof.

(** C01.  [fs] is any list of (C++ type, width, value); the file is what the writer flushes
    ([writeBitset (fillBitset ...)]), followed by arbitrary bytes.  [read_fields] calls
    [readNBits] once per field.  All values come back, the following bytes are untouched and
    only zero padding bits are left over. *)
Theorem C01_bit_fields_round_trip :
  forall (fs : list (ctype * nat * Z)) (tail : list Z),
    Forall (fun f => field_ok (fst (fst f)) (snd (fst f)) (snd f)) fs -> Forall is_byte tail ->
    exists pad, (pad < 8)%nat /\
      read_fields (map fst fs) (RS (writeBitset (fillBitset (write_fields fs)) ++ tail) [])
      = (map snd fs, RS tail (repeat false pad)).
Proof. exact fields_file. Qed.
Print Assumptions C01_bit_fields_round_trip.

Example C01_hyps :
  Forall (fun f => field_ok (fst (fst f)) (snd (fst f)) (snd f))
    [(u8, 3%nat, 5); (u32, 25%nat, 33554431); (i8, 8%nat, -7); (u8, 1%nat, 1)]
  /\ Forall is_byte [255; 0].
Proof.
  split.
  - repeat constructor; cbn; try lia.
  - repeat constructor; unfold is_byte; lia.
Qed.
Example C01_run :
  read_fields [(u8, 3%nat); (u32, 25%nat); (i8, 8%nat); (u8, 1%nat)]
    (RS (writeBitset (fillBitset (write_fields
       [(u8, 3%nat, 5); (u32, 25%nat, 33554431); (i8, 8%nat, -7); (u8, 1%nat, 1)])) ++ [255; 0]) [])
  = ([5; 33554431; -7; 1], RS [255; 0] [false; false; false]).
Proof. vm_compute. reflexivity. Qed.

(** C01, the bytes of the file: flushing a bit buffer writes its bits, most significant first,
    padded with zero bits to whole bytes. *)
Theorem C01_flush_is_padded_bits :
  forall bs : bits,
    flat_map (writeNBits 8) (writeBitset bs) = bs ++ repeat false ((8 - length bs mod 8) mod 8)
    /\ Forall is_byte (writeBitset bs).
Proof.
  intros bs. rewrite (flat_map_ext _ byte_bits) by (intros; symmetry; apply byte_bits_write).
  exact (writeBitset_fill bs).
Qed.
Print Assumptions C01_flush_is_padded_bits.

(** C02 is false: the values read from a file cut at any point are those of the file whose missing
    bytes are replaced by zeros, and the readers return normally. *)
Theorem C02_truncated_reads_as_zero_extended :
  forall (ws : list (ctype * nat)) (file : list Z) (un : bits) (k : nat),
    fst (read_fields ws (RS file un)) = fst (read_fields ws (RS (file ++ repeat 0 k) un)).
Proof. intros. symmetry. apply read_fields_zeros. Qed.
Print Assumptions C02_truncated_reads_as_zero_extended.

(** C02, refutation: a written file with its last byte cut off is read without any error and yields
    a different value. *)
Theorem C02_truncation_detected_refuted :
  exists (fs : list (ctype * nat * Z)) (file : list Z) (b : Z),
    Forall (fun f => field_ok (fst (fst f)) (snd (fst f)) (snd f)) fs
    /\ writeBitset (fillBitset (write_fields fs)) = file ++ [b]
    /\ (exists vs st, read_fields (map fst fs) (RS file []) = (vs, st) /\ vs <> map snd fs).
Proof.
  exists [(u8, 8%nat, 17); (u16, 16%nat, 770)], [17; 3], 2.
  split; [|split].
  - repeat constructor; cbn; lia.
  - reflexivity.
  - eexists _, _. split; [vm_compute; reflexivity|]. discriminate.
Qed.
Print Assumptions C02_truncation_detected_refuted.

(** C03: strings of at most 255 bytes, from any reader state whose stream starts with the encoding. *)
Theorem C03_string_round_trip :
  forall (s : list Z) (st : rstate) (rest : bits),
    Forall is_byte s -> (length s <= 255)%nat ->
    (length (rs_unused st) < 8)%nat ->
    rs_unused st ++ flat_map byte_bits (rs_file st) = writeString s ++ rest ->
    exists st', readString st = (s, st')
      /\ (length (rs_unused st') < 8)%nat
      /\ rs_unused st' ++ flat_map byte_bits (rs_file st') = rest.
Proof. intros s st rest Hs Hl Hok E. exact (reads_string s Hs Hl st rest Hok E). Qed.
Print Assumptions C03_string_round_trip.

Example C03_hyps :
  let s := [72; 105; 195; 0] in
  let st := RS [35; 66; 67; 78; 24; 0; 95] [false; false; false] in
  Forall is_byte s /\ (length (rs_unused st) < 8)%nat /\
  writeString s = byte_bits 4 ++ byte_bits 72 ++ byte_bits 105 ++ byte_bits 195 ++ byte_bits 0.
Proof. cbn. split; [repeat constructor; unfold is_byte; lia|]. split; [lia|reflexivity]. Qed.

(** C03, refutation for long strings: a 256-byte string is read back shorter than it was written, and
    the next field is read from its last byte. *)
Theorem C03_long_string_refuted :
  exists s : list Z, Forall is_byte s /\ length s = 256%nat /\
    let st := RS (writeBitset (fillBitset (writeString s ++ writeNBits 8 42))) [] in
    let '(s', st') := readString st in
    s' <> s /\ fst (readNBits u8 8 st') <> 42.
Proof.
  exists (repeat 65 256). split; [|split].
  - apply Forall_forall. intros x Hx. apply repeat_spec in Hx. subst. unfold is_byte. lia.
  - reflexivity.
  - vm_compute. split; discriminate.
Qed.
Print Assumptions C03_long_string_refuted.

(** C03: what exactly happens to every longer string: the first 255 bytes are read back and the other
    bytes are left in the stream, in front of the next field. *)
Theorem C03_long_string_leaves_tail :
  forall (s : list Z) (st : rstate) (rest : bits),
    Forall is_byte s -> (255 < length s)%nat ->
    (length (rs_unused st) < 8)%nat ->
    rs_unused st ++ flat_map byte_bits (rs_file st) = writeString s ++ rest ->
    exists st', readString st = (firstn 255 s, st')
      /\ (length (rs_unused st') < 8)%nat
      /\ rs_unused st' ++ flat_map byte_bits (rs_file st') = flat_map byte_bits (skipn 255 s) ++ rest.
Proof. intros s st rest. exact (reads_string_long s st rest). Qed.
Print Assumptions C03_long_string_leaves_tail.

(** C03: strings in bit vectors (the length is passed by the caller, so there is no limit). *)
Theorem C03_string_in_bit_vector :
  forall (s : list Z) (pre post : bits),
    Forall is_byte s ->
    readStringBits (pre ++ flat_map byte_bits s ++ post) (length pre) (length s)
    = Ok (s, (length pre + 8 * length s)%nat).
Proof. intros s pre post Hs. exact (readStringBits_app s Hs pre post). Qed.
Print Assumptions C03_string_in_bit_vector.

(** C03, vectors: three signed bytes. *)
Theorem C03_vector_round_trip :
  forall (v : vector) (st : rstate) (rest : bits),
    vector_ok v -> (length (rs_unused st) < 8)%nat ->
    rs_unused st ++ flat_map byte_bits (rs_file st) = writeVector v ++ rest ->
    exists st', readVector st = (v, st')
      /\ (length (rs_unused st') < 8)%nat
      /\ rs_unused st' ++ flat_map byte_bits (rs_file st') = rest.
Proof. intros v st rest Hv Hok E. exact (reads_vector v Hv st rest Hok E). Qed.
Print Assumptions C03_vector_round_trip.
Example C03_vector_hyps : vector_ok (Vec (-128) 0 127).
Proof. repeat split; cbn; lia. Qed.

(** C06.  [code] is the n-bit two's complement code of v: the big-endian value of its bits is v modulo
    2^n.  Surrounding bits are arbitrary. *)
Theorem C06_signed_read :
  forall (pre code post : bits) (v : Z),
    let n := length code in
    (1 <= n <= 31)%nat ->
    - 2 ^ (Z.of_nat n - 1) <= v < 2 ^ (Z.of_nat n - 1) ->
    bits_val code = v mod 2 ^ Z.of_nat n ->
    readInt (pre ++ code ++ post) (length pre) n = Ok (v, (length pre + n)%nat).
Proof.
  intros pre code post v n Hn Hv Hc. unfold n. rewrite readInt_app by exact Hn.
  rewrite Hc, to_signed_mod, to_signed_id by (try lia; exact Hv). reflexivity.
Qed.
Print Assumptions C06_signed_read.

Theorem C06_unsigned_read :
  forall (pre code post : bits) (v : Z),
    let n := length code in
    (1 <= n <= 31)%nat ->
    bits_val code = v ->
    readUInt (pre ++ code ++ post) (length pre) n = Ok (v, (length pre + n)%nat).
Proof. intros pre code post v n Hn <-. apply readUInt_app; exact Hn. Qed.
Print Assumptions C06_unsigned_read.

(** C06: the writer produces that code. *)
Theorem C06_writer_code :
  forall (n : nat) (v : Z),
    length (writeNBits n v) = n /\ bits_val (writeNBits n v) = v mod 2 ^ Z.of_nat n.
Proof. intros. split; [apply writeNBits_length|apply bits_val_writeNBits]. Qed.
Print Assumptions C06_writer_code.

Example C06_hyps :
  let code := [true; false; true; true] in
  (1 <= length code <= 31)%nat /\ - 2 ^ (Z.of_nat (length code) - 1) <= -5 < 2 ^ (Z.of_nat (length code) - 1)
  /\ bits_val code = (-5) mod 2 ^ Z.of_nat (length code).
Proof. cbn. lia. Qed.

(** C06 fails at 32 bits: unsigned values of 2^31 and more come back negative, and the smallest
    signed value overflows. *)
Theorem C06_unsigned_32_refuted :
  exists code, length code = 32%nat /\ bits_val code = 2 ^ 31 /\
    readUInt code 0 32 = Ok (- 2 ^ 31, 32%nat).
Proof. exists (writeNBits 32 (2 ^ 31)). vm_compute. auto. Qed.
Print Assumptions C06_unsigned_32_refuted.

Theorem C06_signed_32_min_refuted :
  exists code, length code = 32%nat /\ bits_val code = (- 2 ^ 31) mod 2 ^ 32 /\
    readInt code 0 32 = UB.
Proof. exists (writeNBits 32 (2 ^ 31)). vm_compute. auto. Qed.
Print Assumptions C06_signed_32_min_refuted.
