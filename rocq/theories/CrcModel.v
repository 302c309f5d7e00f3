(** Model of the checksum functions of source/IOHaptics/src/IOStream.cpp. *)
From Verif Require Import Base BitsModel.

(** IOStream.h 51-52. *)
Definition CRC32_POLYNOMIAL : Z := 2187366103.
Definition CRC16_POLYNOMIAL : Z := 49185.

(** [std::bitset<n>(p).to_string()] pushed with writeStrBits: IOStream.cpp 2260-2262,
    2264-2266, 2342-2345, 2357-2360. *)
Definition poly_bits (n : nat) (p : Z) : bits := writeNBits n p.

(** The xor loop of computeCRC, IOStream.cpp 2383-2385.  [bitstream] has at least as
    many elements as [polynomial] there (guard of the while loop), so the indexing is
    in range. *)
Fixpoint xor_prefix (bs poly : bits) : bits :=
  match bs, poly with
  | b :: bs', p :: poly' => xorb b p :: xor_prefix bs' poly'
  | _, [] => bs
  | [], _ :: _ => []
  end.

(** The while loop of computeCRC, IOStream.cpp 2379-2388.  [fuel] bounds the number of
    iterations. *)
Fixpoint computeCRC_loop (fuel : nat) (poly bs : bits) : outcome bits :=
  if (length poly <? length bs)%nat then
    match fuel, bs with
    | S f, msb :: rest => computeCRC_loop f poly (if msb then xor_prefix rest poly else rest)
    | _, _ => NoFuel
    end
  else Ok bs.

(** computeCRC: IOStream.cpp 2375-2389 (the final content of [bitstream]). *)
Definition computeCRC (bs poly : bits) : outcome bits :=
  let bs0 := bs ++ repeat false (length poly) in
  computeCRC_loop (length bs0) poly bs0.

(** writeCRC: IOStream.cpp 2256-2298.  Returns the boolean result and the bits appended
    to [packetCRC].  An empty [bitstream] is indexed at 0: undefined behaviour. *)
Definition writeCRC (bitstream : list bits) (crcLevel : Z) : outcome (bool * bits) :=
  let poly :=
    if crcLevel =? 0 then poly_bits 16 CRC16_POLYNOMIAL
    else if crcLevel =? 1 then poly_bits 32 CRC32_POLYNOMIAL
    else [] in
  match poly with
  | [] => Ok (false, [])
  | _ =>
      match bitstream with
      | [] => UB
      | [_] => Ok (false, [])
      | _ =>
          let quotient := concat bitstream in
          let nbPackets := Z.of_nat (length bitstream) in
          match quotient with
          | [] => Ok (false, [])
          | _ =>
              do crc <- computeCRC quotient poly;
              Ok (true, writeNBits 8 (to_unsigned 8 nbPackets) ++ crc)
          end
      end
  end.

(** struct CRC: IOStream.h 81-88 (the polynomials are never changed). *)
Record crc_t := Crc { nbPackets : Z; value16 : Z; value32 : Z }.

(** The packet types of checksum packets: IOStream.h 56-69. *)
Inductive crc_packet := PCRC32 | PCRC16 | PGlobalCRC16 | PGlobalCRC32.

(** readCRC: IOStream.cpp 2299-2327.  The assignments convert to uint8_t, uint16_t and
    uint32_t. *)
Definition readCRC (payload : bits) (ty : crc_packet) : outcome crc_t :=
  match ty with
  | PCRC16 =>
      do '(v, _) <- readUInt payload 0 16;
      Ok (Crc 1 (to_unsigned 16 v) 0)
  | PCRC32 =>
      do '(v, _) <- readUInt payload 0 32;
      Ok (Crc 1 0 (to_unsigned 32 v))
  | PGlobalCRC16 =>
      do '(n, i) <- readUInt payload 0 8;
      do '(v, _) <- readUInt payload i 16;
      Ok (Crc (to_unsigned 8 n) (to_unsigned 16 v) 0)
  | PGlobalCRC32 =>
      do '(n, i) <- readUInt payload 0 8;
      do '(v, _) <- readUInt payload i 32;
      Ok (Crc (to_unsigned 8 n) 0 (to_unsigned 32 v))
  end.

(** The accumulation loop of checkCRC, IOStream.cpp 2335-2339: packet [index] is
    inserted in front of what has been accumulated; [k] is the number of iterations. *)
Fixpoint checkCRC_gather (k : nat) (packets : list bits) (acc : bits) : bits :=
  match k, packets with
  | O, _ => acc
  | S k', p :: ps => checkCRC_gather k' ps (p ++ acc)
  | S _, [] => acc
  end.

(** checkCRC: IOStream.cpp 2329-2373.  Returns the verdict and the new [crc]: the post-decrement in the
    loop condition leaves [nbPackets] at 255 (uint8_t wrap), and the checked value is
    reset to 0.  When both values are 0 the verdict is false. *)
Definition checkCRC (bitstream : list bits) (crc : crc_t) : outcome (bool * crc_t) :=
  if Z.of_nat (length bitstream) <? nbPackets crc then Ok (false, crc)
  else
    let prot := checkCRC_gather (Z.to_nat (nbPackets crc)) bitstream [] in
    let nb := to_unsigned 8 (-1) in
    if 0 <? value16 crc then
      do c <- computeCRC prot (poly_bits 16 CRC16_POLYNOMIAL);
      do '(v, _) <- readUInt c 0 16;
      Ok (value16 crc =? v, Crc nb 0 (value32 crc))
    else if 0 <? value32 crc then
      do c <- computeCRC prot (poly_bits 32 CRC32_POLYNOMIAL);
      do '(v, _) <- readUInt c 0 32;
      Ok (to_signed 32 (value32 crc) =? v, Crc nb (value16 crc) 0)
    else Ok (false, Crc nb (value16 crc) (value32 crc)).
