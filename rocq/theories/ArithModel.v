(** The adaptive binary arithmetic coder: source/Spiht/src/ArithEnc.cpp and ArithDec.cpp.
    No proofs in this file.  Symbols and bits are [unsigned char] values ([Z]); counters are [int]
    ([Z]; overflow needs more than 2^31 symbols and is not modelled). *)
From Verif Require Import Base FloatBase FloatModel ToolsModel.

(** ArithEnc.h 43-51. *)
Definition RANGE_MAX : Z := 1024.
Definition HALF : Z := 512.
Definition FIRST_QTR : Z := 256.
Definition THIRD_QTR : Z := 768.
Definition CONTEXT_SIZE : nat := 7.
Definition RESET_HALF : Z := 8.
Definition RESET_TOTAL : Z := 16.
Definition RESIZE_TOTAL : Z := 32.
(** 1024.0 and 32.0 *)
Definition f64_1024 : f64 := @B754_finite 53 1024 false 4503599627370496 (-42) eq_refl.
Definition f64_32 : f64 := @B754_finite 53 1024 false 4503599627370496 (-47) eq_refl.

(** The counters of the contexts: (counter, counter_total). *)
Definition counters := list (Z * Z).

(** [resetCounter]: ArithEnc.cpp 152-157, ArithDec.cpp 131-136 (also the initial values,
    ArithEnc.h 68-71, ArithDec.h 60-63). *)
Definition resetCounter : counters := repeat (RESET_TOTAL / 2, RESET_TOTAL) CONTEXT_SIZE.

(** [counter.at(c)], [counter_total.at(c)]: throws for a context out of range. *)
Definition counter_at (cs : counters) (c : Z) : outcome (Z * Z) :=
  if c <? 0 then Throw
  else match nth_error cs (Z.to_nat c) with Some p => Ok p | None => Throw end.
Fixpoint counter_set (cs : counters) (c : nat) (p : Z * Z) : counters :=
  match cs, c with
  | [], _ => []
  | _ :: cs', O => p :: cs'
  | x :: cs', S c' => x :: counter_set cs' c' p
  end.
(** ArithEnc.cpp 112-115, ArithDec.cpp 122-126: the counters after a symbol. *)
Definition count_symbol (cs : counters) (c : Z) (p : Z * Z) (symbol : Z) : counters :=
  counter_set cs (Z.to_nat c) (if symbol =? 0 then fst p + 1 else fst p, snd p + 1).

(** ArithEnc.cpp 60-69, ArithDec.cpp 63-72: the size of the part of the interval given to symbol 0. *)
Definition part0 (p : Z * Z) (range_diff : Z) : outcome Z :=
  let prob := fround (mul64 (div64 (f64_of_Z (fst p)) (f64_of_Z (snd p))) f64_1024) in
  do k <- int_of_float i32 (mul64 (f64_of_Z range_diff) prob);
  let range_add := Z.quot k RANGE_MAX in
  Ok (if range_add =? 0 then 1
      else if range_add =? range_diff then range_diff - 1
      else range_add).

(** [rescaleCounter]: ArithEnc.cpp 159-171. *)
Definition rescale1 (p : Z * Z) : outcome (Z * Z) :=
  do k <- int_of_float i32 (mul64 (div64 (f64_of_Z (fst p)) (f64_of_Z (snd p))) f64_32);
  let k := if k =? 0 then 1 else k in
  Ok (if k =? RESIZE_TOTAL then RESIZE_TOTAL - 1 else k, RESIZE_TOTAL).
Fixpoint rescaleCounter (cs : counters) : outcome counters :=
  match cs with
  | [] => Ok []
  | p :: cs' => do q <- rescale1 p; do r <- rescaleCounter cs'; Ok (q :: r)
  end.

(** The interval and the pending bits of the encoder. *)
Record enc_state := Enc { en_lower : Z; en_upper : Z; en_follow : nat; en_counters : counters }.

(** ArithEnc.cpp 78-109: the renormalisation loop; the state and the bits put out.  [fuel] bounds the
    number of iterations. *)
Fixpoint enc_renorm (fuel : nat) (lower upper : Z) (follow : nat) : outcome (Z * Z * nat * list Z) :=
  match fuel with
  | O => NoFuel
  | S fuel' =>
      if upper <=? HALF then
        do '(l, u, f, out) <- enc_renorm fuel' (2 * lower) (2 * upper) 0;
        Ok (l, u, f, 0 :: repeat 1 follow ++ out)
      else if HALF <=? lower then
        do '(l, u, f, out) <- enc_renorm fuel' (2 * (lower - HALF)) (2 * (upper - HALF)) 0;
        Ok (l, u, f, 1 :: repeat 0 follow ++ out)
      else if (FIRST_QTR <=? lower) && (upper <=? THIRD_QTR) then
        enc_renorm fuel' (2 * (lower - FIRST_QTR)) (2 * (upper - FIRST_QTR)) (S follow)
      else Ok (lower, upper, follow, [])
  end.

(** The iterations allowed to a renormalisation. *)
Definition RENORM : nat := 11.

(** ArithEnc.cpp 53-116: one symbol. *)
Definition enc_symbol (s : enc_state) (symbol c : Z) : outcome (enc_state * list Z) :=
  do p <- counter_at (en_counters s) c;
  do range_add <- part0 p (en_upper s - en_lower s);
  let '(lower, upper) :=
    if symbol =? 0 then (en_lower s, en_lower s + range_add)
    else (en_lower s + range_add, en_upper s) in
  do '(l, u, f, out) <- enc_renorm RENORM lower upper (en_follow s);
  Ok (Enc l u f (count_symbol (en_counters s) c p symbol), out).

(** ArithEnc.cpp 53-116: the symbols; [context.at(i)] throws when there are fewer contexts. *)
Fixpoint enc_symbols (s : enc_state) (symbols ctx : list Z) : outcome (enc_state * list Z) :=
  match symbols with
  | [] => Ok (s, [])
  | x :: symbols' =>
      match ctx with
      | [] => Throw
      | c :: ctx' =>
          do '(s1, out1) <- enc_symbol s x c;
          do '(s2, out2) <- enc_symbols s1 symbols' ctx';
          Ok (s2, out1 ++ out2)
      end
  end.

(** ArithEnc.cpp 131-150: remainder; [val] is halved at each turn of the loop. *)
Fixpoint remainder_loop (fuel : nat) (val lower upper : Z) : outcome (list Z) :=
  match fuel with
  | O => NoFuel
  | S fuel' =>
      if 0 <? lower then
        if val <? upper then
          do out <- remainder_loop fuel' (val / 2) (lower - val) (upper - val); Ok (1 :: out)
        else
          do out <- remainder_loop fuel' (val / 2) lower upper; Ok (0 :: out)
      else Ok []
  end.
Definition remainder (s : enc_state) : outcome (list Z) :=
  if (0 <? en_follow s)%nat then Ok [1]
  else remainder_loop RENORM HALF (en_lower s) (en_upper s).

(** ArithEnc.cpp 121-126: the zeros at the end are cut off; the loop condition reads the element
    before it tests the index, so that it throws when there is nothing but zeros. *)
Fixpoint cut_zeros (out : list Z) : list Z :=
  match out with
  | [] => []
  | x :: out' =>
      match cut_zeros out' with
      | [] => if x =? 0 then [] else [x]
      | r => x :: r
      end
  end.

(** ArithEnc.cpp 38-129: encode, from the counters [cs]; the bits and the counters afterwards. *)
Definition arith_encode (cs : counters) (symbols ctx : list Z) : outcome (list Z * counters) :=
  do '(s, out1) <- enc_symbols (Enc 0 RANGE_MAX 0 cs) symbols ctx;
  do out2 <- remainder s;
  match cut_zeros (out1 ++ out2) with
  | [] => Throw
  | out => do cs' <- rescaleCounter (en_counters s); Ok (out, cs')
  end.

(** ArithEnc.cpp 173-189: convert2bytes, least significant bit first. *)
Fixpoint byte_of (n : nat) (k : Z) (bs : list Z) : Z * list Z :=
  match n with
  | O => (0, bs)
  | S n' =>
      match bs with
      | [] => (0, [])
      | b :: bs' => let '(v, r) := byte_of n' (2 * k) bs' in ((if b =? 1 then k else 0) + v, r)
      end
  end.
Fixpoint bytes_from (n : nat) (bs : list Z) : list Z :=
  match n with
  | O => []
  | S n' => let '(v, r) := byte_of 8 1 bs in v :: bytes_from n' r
  end.
Definition convert2bytes (bs : list Z) : list Z := bytes_from ((length bs + 7) / 8) bs.

(** ArithDec.cpp 151-163: convert2bits. *)
Fixpoint bits_of_byte (n : nat) (v : Z) : list Z :=
  match n with
  | O => []
  | S n' => v mod 2 :: bits_of_byte n' (v / 2)
  end.
Definition convert2bits (bytes : list Z) : list Z := flat_map (bits_of_byte 8) bytes.

(** The decoder: interval, window ([in_leading]), bits not yet read, counters.  [range_diff] is
    [range_upper - range_lower] after [initDecoding] and after every [decode]. *)
Record dec_state := Dec { de_lower : Z; de_upper : Z; de_leading : Z; de_rest : list Z; de_counters : counters }.

(** ArithDec.cpp 38-59: initDecoding; [shift] goes down from 9. *)
Fixpoint leading (n : nat) (shift : Z) (bs : list Z) : Z * list Z :=
  match n with
  | O => (0, bs)
  | S n' =>
      match bs with
      | [] => (0, [])
      | b :: bs' => let '(v, r) := leading n' (shift - 1) bs' in (b * 2 ^ shift + v, r)
      end
  end.
Definition initDecoding (cs : counters) (bs : list Z) : dec_state :=
  let '(v, r) := leading 10 9 bs in Dec 0 RANGE_MAX v r cs.

(** ArithDec.cpp 85-118: the renormalisation loop; past the end of the stream zeros are shifted in. *)
Definition next_bit (bs : list Z) : Z := match bs with [] => 0 | b :: _ => b end.
Fixpoint dec_renorm (fuel : nat) (lower upper v : Z) (bs : list Z) : outcome (Z * Z * Z * list Z) :=
  match fuel with
  | O => NoFuel
  | S fuel' =>
      if upper <=? HALF then
        dec_renorm fuel' (2 * lower) (2 * upper) (2 * v + next_bit bs) (tl bs)
      else if HALF <=? lower then
        dec_renorm fuel' (2 * (lower - HALF)) (2 * (upper - HALF)) (2 * (v - HALF) + next_bit bs) (tl bs)
      else if (FIRST_QTR <=? lower) && (upper <=? THIRD_QTR) then
        dec_renorm fuel' (2 * (lower - FIRST_QTR)) (2 * (upper - FIRST_QTR))
          (2 * (v - FIRST_QTR) + next_bit bs) (tl bs)
      else Ok (lower, upper, v, bs)
  end.

(** ArithDec.cpp 61-129: decode. *)
Definition arith_decode (s : dec_state) (context : Z) : outcome (Z * dec_state) :=
  do p <- counter_at (de_counters s) context;
  do compare <- part0 p (de_upper s - de_lower s);
  let value := de_leading s - de_lower s in
  let '(symbol, lower, upper) :=
    if value <? compare then (0, de_lower s, de_lower s + compare)
    else (1, de_lower s + compare, de_upper s) in
  do '(l, u, v, bs) <- dec_renorm RENORM lower upper (de_leading s) (de_rest s);
  Ok (symbol, Dec l u v bs (count_symbol (de_counters s) context p symbol)).

(** The symbols obtained for a sequence of contexts. *)
Fixpoint decode_all (s : dec_state) (ctx : list Z) : outcome (list Z * dec_state) :=
  match ctx with
  | [] => Ok ([], s)
  | c :: ctx' =>
      do '(x, s1) <- arith_decode s c;
      do '(xs, s2) <- decode_all s1 ctx';
      Ok (x :: xs, s2)
  end.
