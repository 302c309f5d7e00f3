(** Model of source/IOHaptics/include/IOBinaryPrimitives.h and
    source/IOHaptics/src/IOBinaryPrimitives.cpp (integer and string part). *)
From Verif Require Import Base.

(** Input stream state: bytes not yet extracted from the [std::istream], and the
    [unusedBits] vector every reader threads through. *)
Record rstate := RS { rs_file : list Z; rs_unused : bits }.

(** The eight bits of a byte, most significant first.
    IOBinaryPrimitives.h 72-74 (and 215-217). *)
Fixpoint byte_bits_from (i : nat) (byte : Z) : bits :=
  match i with
  | O => []
  | S j => Z.testbit byte (Z.of_nat j) :: byte_bits_from j byte
  end.
Definition byte_bits (byte : Z) : bits := byte_bits_from 8 byte.

(** [std::vector<char> bytes(k); file.read(bytes.data(), k)]: IOBinaryPrimitives.h
    69-70 and 212-213.  If the stream ends early the vector keeps its initial
    zeros and no error is raised (the stream state is never inspected). *)
Fixpoint read_bytes (k : nat) (file : list Z) : list Z * list Z :=
  match k with
  | O => ([], file)
  | S k' =>
      match file with
      | [] => let '(bs, f') := read_bytes k' [] in (0 :: bs, f')
      | b :: f => let '(bs, f') := read_bytes k' f in (b :: bs, f')
      end
  end.

(** The loop of readNBits: IOBinaryPrimitives.h 78-87.  [i] is the loop index. *)
Fixpoint readNBits_loop (n i : nat) (bitset : bits) (value : Z) (unused : bits) : Z * bits :=
  match bitset with
  | [] => (value, unused)
  | b :: bs =>
      if (i <? n)%nat
      then readNBits_loop n (S i) bs
             (if b then Z.lor value (Z.shiftl 1 (Z.of_nat (n - i - 1))) else value) unused
      else readNBits_loop n (S i) bs value (unused ++ [b])
  end.

(** readNBits<T, bitCount>: IOBinaryPrimitives.h 61-89.  The accumulation in the
    type T is modelled by accumulating in Z and converting once at the end, which
    gives the same value since [|=] commutes with truncation.  [bitCount] is at
    most 32 in the code (beyond that [1U << 32] would be undefined). *)
Definition readNBits (T : ctype) (n : nat) (st : rstate) : Z * rstate :=
  let un := rs_unused st in
  let '(bitset, file') :=
    if (length un <? n)%nat then
      let toRead := (n - length un)%nat in
      let nbBytes := if (toRead mod 8 =? 0)%nat then (toRead / 8)%nat else (toRead / 8 + 1)%nat in
      let '(bytes, f') := read_bytes nbBytes (rs_file st) in
      (un ++ flat_map byte_bits bytes, f')
    else (un, rs_file st) in
  let '(value, un') := readNBits_loop n 0 bitset 0 [] in
  (cast T value, RS file' un').

(** writeNBits<T, bitCount>: IOBinaryPrimitives.h 104-109; the bits appended to
    [output], most significant first.  [value] is the value of type T. *)
Fixpoint writeNBits (n : nat) (value : Z) : bits :=
  match n with
  | O => []
  | S m => Z.odd (Z.shiftr value (Z.of_nat m)) :: writeNBits m value
  end.

(** fillBitset: IOBinaryPrimitives.h 121-126. *)
Definition fillBitset (bs : bits) : bits :=
  bs ++ repeat false ((8 - (length bs mod 8)) mod 8).

(** Inner loop of writeBitset: IOBinaryPrimitives.h 131-136; [j] is the loop index,
    [bs] the bits from position i on (missing bits are not set). *)
Fixpoint byte_of_bits (j : nat) (bs : bits) : Z :=
  match bs with
  | [] => 0
  | b :: bs' =>
      match j with
      | O => 0
      | S j' => Z.lor (if b then Z.shiftl 1 (Z.of_nat j') else 0) (byte_of_bits j' bs')
      end
  end.

(** writeBitset: IOBinaryPrimitives.h 128-139; the bytes appended to the file. *)
Fixpoint writeBitset (bs : bits) : list Z :=
  match bs with
  | [] => []
  | b0 :: b1 :: b2 :: b3 :: b4 :: b5 :: b6 :: b7 :: rest =>
      byte_of_bits 8 [b0; b1; b2; b3; b4; b5; b6; b7] :: writeBitset rest
  | l => [byte_of_bits 8 l]
  end.

(** writeString: IOBinaryPrimitives.cpp 54-62.  Characters are byte values. *)
Definition writeString (text : list Z) : bits :=
  let size := Z.of_nat (length text) in
  writeNBits 8 (to_unsigned 8 (if 255 <? size then 255 else size))
  ++ flat_map byte_bits text.

(** Loop of readString: IOBinaryPrimitives.cpp 70-74, run [k] times.  A character is
    kept as its unsigned value. *)
Fixpoint readString_loop (k : nat) (st : rstate) : list Z * rstate :=
  match k with
  | O => ([], st)
  | S k' =>
      let '(c, st1) := readNBits u8 8 st in
      let '(s, st2) := readString_loop k' st1 in
      (c :: s, st2)
  end.

(** readString: IOBinaryPrimitives.cpp 64-76. *)
Definition readString (st : rstate) : list Z * rstate :=
  let '(size, st1) := readNBits u8 8 st in
  readString_loop (Z.to_nat size) st1.

(** haptics::types::Vector: three int8_t components (Types/include/Channel.h). *)
Record vector := Vec { vx : Z; vy : Z; vz : Z }.

(** writeVector / readVector: IOBinaryPrimitives.cpp 39-52. *)
Definition writeVector (v : vector) : bits :=
  writeNBits 8 (vx v) ++ writeNBits 8 (vy v) ++ writeNBits 8 (vz v).
Definition readVector (st : rstate) : vector * rstate :=
  let '(x, st1) := readNBits i8 8 st in
  let '(y, st2) := readNBits i8 8 st1 in
  let '(z, st3) := readNBits i8 8 st2 in
  (Vec x y z, st3).

(** ** Bit-vector readers (used by IOStream.cpp) *)

(** Unchecked [bitstream[i]] for i = start .. start+len-1: IOBinaryPrimitives.h
    169-175.  Reading outside the vector is undefined behaviour. *)
Definition slice (bs : bits) (start len : nat) : outcome bits :=
  if (start + len <=? length bs)%nat then Ok (firstn len (skipn start bs)) else UB.

(** readUInt: IOBinaryPrimitives.h 167-179.  [std::stoul] throws on an empty
    string, and throws std::out_of_range for values of 65 bits or more (64-bit
    unsigned long); the result is converted to a 32-bit int.
    Returns the value and the new [startIdx]. *)
Definition readUInt (bs : bits) (start len : nat) : outcome (Z * nat) :=
  do s <- slice bs start len;
  if (len =? 0)%nat then Throw
  else let v := bits_val s in
       if 2 ^ 64 <=? v then Throw else Ok (to_signed 32 v, (start + len)%nat).

(** readInt: IOBinaryPrimitives.h 181-191.  (Returns 1 on an empty vector, leaving
    the index unchanged.)  [-(x + 1)] is undefined if x + 1 overflows. *)
Definition readInt (bs : bits) (start len : nat) : outcome (Z * nat) :=
  match bs with
  | [] => Ok (1, start)
  | _ =>
      match nth_error bs start with
      | None => UB
      | Some true =>
          do '(v, i) <- readUInt (map negb bs) start len;
          if v =? 2 ^ 31 - 1 then UB else Ok (- (v + 1), i)
      | Some false => readUInt bs start len
      end
  end.

(** readString on a bit vector: IOBinaryPrimitives.h 193-209.  Iterators past the
    end are undefined behaviour. *)
Fixpoint readStringBits (bs : bits) (start len : nat) : outcome (list Z * nat) :=
  match len with
  | O => Ok ([], start)
  | S len' =>
      do c <- slice bs start 8;
      do '(s, i) <- readStringBits bs (start + 8)%nat len';
      Ok (bits_val c :: s, i)
  end.

(** readNBytes: IOBinaryPrimitives.h 211-220: bits appended to [bitstream] and the
    remaining file. *)
Definition readNBytes (file : list Z) (nb : nat) : bits * list Z :=
  let '(bytes, f') := read_bytes nb file in (flat_map byte_bits bytes, f').
