(** Set partitioning of wavelet blocks: source/Spiht/src/Spiht_Enc.cpp and Spiht_Dec.cpp.
    No proofs in this file.  Indices are [nat] (they are [int] or [size_t] smaller than twice the
    block length); coefficients are [int] values ([Z]). *)
From Verif Require Import Base FloatBase FloatModel ArithModel.

(** Spiht_Enc.h 49-64. *)
Definition WAVMAXLENGTH : nat := 8.
Definition FRACTIONBITS_0 : nat := 7.
Definition FRACTIONBITS_1 : nat := 3.
Definition INTEGERBITS_1 : nat := 4.
Definition MAXALLOCBITS_SIZE : nat := 4.

(** [instream[i]]: outside the vector the behaviour is undefined; [abs] is undefined for the smallest
    [int]. *)
Definition coef (x : list Z) (i : nat) : outcome Z :=
  match nth_error x i with Some v => Ok v | None => UB end.
Definition c_abs (v : Z) : outcome Z := if v =? - 2 ^ 31 then UB else Ok (Z.abs v).
Definition magnitude (x : list Z) (i : nat) : outcome Z := do v <- coef x i; c_abs v.

(** *** Maxima of the descendants: Spiht_Enc.cpp 205-278 *)
Fixpoint set_at {A} (l : list A) (i : nat) (v : A) : list A :=
  match l, i with
  | [], _ => []
  | _ :: l', O => v :: l'
  | x :: l', S i' => x :: set_at l' i' v
  end.
(** [v[i] = x] for a vector. *)
Definition store (l : list Z) (i : nat) (v : Z) : outcome (list Z) :=
  if (i <? length l)%nat then Ok (set_at l i v) else UB.
(** [vector::resize]. *)
Definition resize (l : list Z) (n : nat) : list Z := firstn n l ++ repeat 0 (n - length l).

(** 231-244: the maxima of the two children. *)
Fixpoint children_loop (n : nat) (signal md : list Z) (p1 p2 target : nat) : outcome (list Z) :=
  match n with
  | O => Ok md
  | S n' =>
      do v1 <- magnitude signal p1;
      do v2 <- magnitude signal p2;
      do md' <- store md target (if v2 <? v1 then v1 else v2);
      children_loop n' signal md' (p1 + 2) (p2 + 2) (target + 1)
  end.
(** 252-272: one level of the tree. *)
Fixpoint level_loop (n : nat) (signal md md1 : list Z) (p1 p2 target : nat) : outcome (list Z * list Z) :=
  match n with
  | O => Ok (md, md1)
  | S n' =>
      do v1 <- coef md p1;
      do v2 <- coef md p2;
      let m := if v2 <? v1 then v1 else v2 in
      do md1' <- store md1 target m;
      do v1 <- magnitude signal p1;
      do md' <- store md target (if m <? v1 then v1 else m);
      do w <- coef md' target;
      do v2 <- magnitude signal p2;
      do md'' <- (if w <? v2 then store md' target v2 else Ok md');
      level_loop n' signal md'' md1' (p1 + 2) (p2 + 2) (target + 1)
  end.
(** 246-277: the levels. *)
Fixpoint levels_loop (fuel : nat) (signal md md1 : list Z) (width : nat) : outcome (list Z * list Z) :=
  match fuel with
  | O => NoFuel
  | S fuel' =>
      let target := (width / 2)%nat in
      if (1 <? target)%nat then
        do '(md', md1') <- level_loop (width / 2) signal md md1 width (width + 1) target;
        levels_loop fuel' signal md' md1' (width / 2)
      else Ok (md, md1)
  end.
(** 219-278: initMaxDescendants; [md0], [md10] are the vectors left by an earlier block. *)
Definition initMaxDescendants (md0 md10 signal : list Z) : outcome (list Z * list Z) :=
  let start := (length signal / 2)%nat in
  let md := resize md0 start in
  let md1 := resize md10 (start / 2) in
  do md' <- children_loop (start / 2) signal md start (start + 1) (start / 2);
  levels_loop (S (length signal)) signal md' md1 (start / 2).
(** 205-217: maxDescendant; type 1 leaves the children out. *)
Definition maxDescendant (md md1 : list Z) (j type : nat) : Z :=
  if (type =? 1)%nat then nth j md1 0 else nth j md 0.

(** *** Encoder *)
(** A symbol and its context. *)
Definition sym := (Z * Z)%type.

(** 293-300: de2bi; [val % 2] is stored as an [unsigned char], [val >> 1] is an arithmetic shift. *)
Fixpoint de2bi (val : Z) (length : nat) : list Z :=
  match length with
  | O => []
  | S n => Z.rem val 2 mod 256 :: de2bi (val / 2) n
  end.
(** 302-309: bitget, for [bit = n + 1]. *)
Definition bitget (v n : Z) : Z := if 0 <? Z.land v (2 ^ n) then 1 else 0.

Definition f64_one : f64 := @B754_finite 53 1024 false 4503599627370496 (-52) eq_refl.
(** 128.0 and 8.0 *)
Definition f64_128 : f64 := @B754_finite 53 1024 false 4503599627370496 (-45) eq_refl.
Definition f64_8 : f64 := @B754_finite 53 1024 false 4503599627370496 (-49) eq_refl.
(** 280-290, 311-333: maximumWaveletCoefficient, getQuantMode, setBitwavmax.  For an infinite or NaN
    factor, or one that does not fit, the conversion to [int] is undefined. *)
Definition maximumWaveletCoefficient (qwavmax : f64) : outcome (list Z) :=
  if flt qwavmax f64_one then
    do v <- int_of_float i32 (mul64 (sub64 qwavmax (f64_of_Z 0)) f64_128);
    Ok (0 :: de2bi v FRACTIONBITS_0)
  else
    do v <- int_of_float i32 (mul64 (sub64 qwavmax (f64_of_Z 1)) f64_8);
    Ok (1 :: de2bi v (INTEGERBITS_1 + FRACTIONBITS_1)).

(** 45, 83: the size of the coarsest bands.  [log2] is taken to be exact for powers of two and
    [(int)log2(length) - level] is 2 for them and for every length of at least 4. *)
Definition bandsize (length : nat) : nat :=
  let log := Z.log2 (Z.of_nat length) in
  let level := log - 2 in
  Z.to_nat (2 * 2 ^ (log - level)).

(** The lists of indices; [LIS1] and [LIS2] are one list of pairs here. *)
Record lists := Lists { LIP : list nat; LIS : list (nat * nat); LSP : list nat }.
(** 84-95 and Spiht_Dec.cpp 73-87 (initLists). *)
Definition initLists (length : nat) : lists :=
  let b := bandsize length in
  Lists (seq 0 b) (map (fun i => (i, 0%nat)) (seq (b / 2) (b - b / 2))) [].

Definition sign_symbol (v : Z) : Z := if 0 <=? v then 1 else 0.
(** 105-115: the insignificant coefficients: symbols, coefficients that stay, significant ones. *)
Fixpoint enc_lip (x : list Z) (compare : Z) (lip : list nat) : outcome (list sym * list nat * list nat) :=
  match lip with
  | [] => Ok ([], [], [])
  | i :: lip' =>
      do a <- magnitude x i;
      do v <- coef x i;
      do '(out, stay, add) <- enc_lip x compare lip';
      if compare <=? a then Ok ((1, 2) :: (sign_symbol v, 1) :: out, stay, i :: add)
      else Ok ((0, 2) :: out, i :: stay, add)
  end.
(** 129-136, 138-145: one child: symbols, addition to LIP, addition to LSP. *)
Definition enc_child (x : list Z) (compare : Z) (index : nat) : outcome (list sym * list nat * list nat) :=
  do a <- magnitude x index;
  do v <- coef x index;
  if compare <=? a then Ok ([(1, 4); (sign_symbol v, 1)], [], [index])
  else Ok ([(0, 4)], [index], []).
(** 117-177: the sets, entries added at the end included; [q] is the part of the list from the
    iterators on.  Symbols, the entries that stay, LIP, LSP.  [fuel] bounds the iterations. *)
Fixpoint enc_lis (fuel : nat) (x md md1 : list Z) (compare : Z) (q : list (nat * nat)) (lip lsp : list nat)
  : outcome (list sym * list (nat * nat) * list nat * list nat) :=
  match fuel with
  | O => NoFuel
  | S fuel' =>
      match q with
      | [] => Ok ([], [], lip, lsp)
      | (y, t) :: q' =>
          let max_d := maxDescendant md md1 y t in
          if (t =? 0)%nat then
            if compare <=? max_d then
              do '(o1, lip1, lsp1) <- enc_child x compare (2 * y);
              do '(o2, lip2, lsp2) <- enc_child x compare (2 * y + 1);
              let more := if (4 * y + 3 <? length x)%nat then [(y, 1%nat)] else [] in
              do '(out, stay, lip', lsp') <- enc_lis fuel' x md md1 compare (q' ++ more)
                                              (lip ++ lip1 ++ lip2) (lsp ++ lsp1 ++ lsp2);
              Ok ((1, 3) :: o1 ++ o2 ++ out, stay, lip', lsp')
            else
              do '(out, stay, lip', lsp') <- enc_lis fuel' x md md1 compare q' lip lsp;
              Ok ((0, 3) :: out, (y, t) :: stay, lip', lsp')
          else
            if compare <=? max_d then
              do '(out, stay, lip', lsp') <- enc_lis fuel' x md md1 compare
                                              (q' ++ [(2 * y, 0); (2 * y + 1, 0)]%nat) lip lsp;
              Ok ((1, 5) :: out, stay, lip', lsp')
            else
              do '(out, stay, lip', lsp') <- enc_lis fuel' x md md1 compare q' lip lsp;
              Ok ((0, 5) :: out, (y, t) :: stay, lip', lsp')
      end
  end.
(** A bound on the iterations for an entry and for a list: the nodes below it, both types. *)
Definition entry_weight (length : nat) (e : nat * nat) : nat :=
  (Z.to_nat (2 ^ (Z.log2 (Z.of_nat length) + 1 - Z.log2 (Z.of_nat (fst e)))) - 2 - snd e)%nat.
Definition lis_fuel (length : nat) (q : list (nat * nat)) : nat := S (list_sum (map (entry_weight length) q)).
(** 184-197: refinementPass on the coefficients that were significant before. *)
Fixpoint enc_refine (x : list Z) (n : Z) (lsp : list nat) : outcome (list sym) :=
  match lsp with
  | [] => Ok []
  | i :: lsp' =>
      do a <- magnitude x i;
      do out <- enc_refine x n lsp';
      Ok ((bitget a n, 6) :: out)
  end.
(** 99-181: one bit plane. *)
Definition enc_plane (x md md1 : list Z) (n : Z) (l : lists) : outcome (list sym * lists) :=
  let compare := 2 ^ n in
  do '(o1, stay, add) <- enc_lip x compare (LIP l);
  do '(o2, lis, lip, lsp) <- enc_lis (lis_fuel (length x) (LIS l)) x md md1 compare (LIS l) stay (LSP l ++ add);
  do o3 <- enc_refine x n (firstn (length (LSP l)) lsp);
  Ok (o1 ++ o2 ++ o3, Lists lip lis lsp).
(** The planes [n - 1] down to 0. *)
Fixpoint enc_planes (x md md1 : list Z) (n : nat) (l : lists) : outcome (list sym) :=
  match n with
  | O => Ok []
  | S n' =>
      do '(o1, l1) <- enc_plane x md md1 (Z.of_nat n') l;
      do o2 <- enc_planes x md md1 n' l1;
      Ok (o1 ++ o2)
  end.
(** 66-182: encode; [maxallocbits] is not negative. *)
Definition spiht_encode (md0 md10 x bitwavmax : list Z) (maxallocbits : nat) : outcome (list sym) :=
  let header := de2bi (Z.of_nat maxallocbits) MAXALLOCBITS_SIZE ++ bitwavmax in
  do '(md, md1) <- initMaxDescendants md0 md10 x;
  do out <- enc_planes x md md1 (S maxallocbits) (initLists (length x));
  Ok (map (fun b => (b, 0)) header ++ out).
(** 38-64: encodeEffect; [cs]: the counters of the coder, [old]: the bytes in [outstream] before the
    call.  The bytes and the counters afterwards. *)
Definition encodeEffect (md0 md10 : list Z) (cs : counters) (block : list Z) (bits : nat) (scalar : f64) (old : list Z)
  : outcome (list Z * counters) :=
  if (bits =? 0)%nat then Ok (old, cs)
  else if forallb (fun v => v =? 0) block then Ok (old, cs)
  else
    do bitwavmax <- maximumWaveletCoefficient scalar;
    do syms <- spiht_encode md0 md10 block bitwavmax bits;
    do '(out, _) <- arith_encode cs (map fst syms) (map snd syms);
    Ok (convert2bytes out, resetCounter).

(** *** Decoder *)
(** Spiht_Dec.cpp 205-212 and 214-220: getBits and bi2de. *)
Fixpoint getBits (n : nat) (c : Z) (s : dec_state) : outcome (list Z * dec_state) :=
  match n with
  | O => Ok ([], s)
  | S n' => do '(b, s1) <- arith_decode s c; do '(bs, s2) <- getBits n' c s1; Ok (b :: bs, s2)
  end.
Fixpoint bi2de (bs : list Z) : Z :=
  match bs with [] => 0 | b :: bs' => b + 2 * bi2de bs' end.
(** 89-93: getMaxAllocBits. *)
Definition getMaxAllocBits (s : dec_state) : outcome (Z * dec_state) :=
  do '(bs, s1) <- getBits MAXALLOCBITS_SIZE 0 s; Ok (bi2de bs, s1).
(** 2^-7 and 2^-3 *)
Definition f64_2m7 : f64 := @B754_finite 53 1024 false 4503599627370496 (-59) eq_refl.
Definition f64_2m3 : f64 := @B754_finite 53 1024 false 4503599627370496 (-55) eq_refl.
(** 95-107: getWavmax. *)
Definition getWavmax (s : dec_state) : outcome (f64 * dec_state) :=
  do '(mode, s1) <- arith_decode s 0;
  do '(bs, s2) <- getBits (WAVMAXLENGTH - 1) 0 s1;
  let temp := f64_of_Z (bi2de bs) in
  Ok (if mode =? 0 then mul64 temp f64_2m7 else add64 (mul64 temp f64_2m3) (f64_of_Z 1), s2).

(** 110-123: the insignificant coefficients. *)
Fixpoint dec_lip (compare : Z) (lip : list nat) (s : dec_state) (out : list Z)
  : outcome (list nat * list nat * dec_state * list Z) :=
  match lip with
  | [] => Ok ([], [], s, out)
  | i :: lip' =>
      do '(b, s1) <- arith_decode s 2;
      if b =? 1 then
        do '(g, s2) <- arith_decode s1 1;
        do out1 <- store out i (if g =? 1 then compare else - compare);
        do '(stay, add, s3, out2) <- dec_lip compare lip' s2 out1;
        Ok (stay, i :: add, s3, out2)
      else
        do '(stay, add, s3, out2) <- dec_lip compare lip' s1 out;
        Ok (i :: stay, add, s3, out2)
  end.
(** 136-145, 148-157: one child. *)
Definition dec_child (compare : Z) (index : nat) (s : dec_state) (out : list Z)
  : outcome (list nat * list nat * dec_state * list Z) :=
  do '(b, s1) <- arith_decode s 4;
  if b =? 1 then
    do '(g, s2) <- arith_decode s1 1;
    do out1 <- store out index (if g =? 1 then compare else - compare);
    Ok ([], [index], s2, out1)
  else Ok ([index], [], s1, out).
(** 125-189: the sets. *)
Fixpoint dec_lis (fuel : nat) (origlength : nat) (compare : Z) (q : list (nat * nat)) (lip lsp : list nat)
  (s : dec_state) (out : list Z) : outcome (list (nat * nat) * list nat * list nat * dec_state * list Z) :=
  match fuel with
  | O => NoFuel
  | S fuel' =>
      match q with
      | [] => Ok ([], lip, lsp, s, out)
      | (y, t) :: q' =>
          if (t =? 0)%nat then
            do '(b, s1) <- arith_decode s 3;
            if b =? 1 then
              do '(lip1, lsp1, s2, out1) <- dec_child compare (2 * y) s1 out;
              do '(lip2, lsp2, s3, out2) <- dec_child compare (2 * y + 1) s2 out1;
              let more := if (4 * y + 3 <? origlength)%nat then [(y, 1%nat)] else [] in
              dec_lis fuel' origlength compare (q' ++ more) (lip ++ lip1 ++ lip2) (lsp ++ lsp1 ++ lsp2) s3 out2
            else
              do '(stay, lip', lsp', s2, out') <- dec_lis fuel' origlength compare q' lip lsp s1 out;
              Ok ((y, t) :: stay, lip', lsp', s2, out')
          else
            do '(b, s1) <- arith_decode s 5;
            if b =? 1 then
              dec_lis fuel' origlength compare (q' ++ [(2 * y, 0); (2 * y + 1, 0)]%nat) lip lsp s1 out
            else
              do '(stay, lip', lsp', s2, out') <- dec_lis fuel' origlength compare q' lip lsp s1 out;
              Ok ((y, t) :: stay, lip', lsp', s2, out')
      end
  end.
(** 192-202: refinementPass. *)
Fixpoint dec_refine (compare : Z) (lsp : list nat) (s : dec_state) (out : list Z) : outcome (dec_state * list Z) :=
  match lsp with
  | [] => Ok (s, out)
  | i :: lsp' =>
      do '(b, s1) <- arith_decode s 6;
      do out1 <- (if b =? 1 then do v <- coef out i; store out i (v + Z.sgn v * compare) else Ok out);
      dec_refine compare lsp' s1 out1
  end.
(** 59-68, 109-190: one bit plane. *)
Definition dec_plane (origlength : nat) (n : Z) (l : lists) (s : dec_state) (out : list Z)
  : outcome (lists * dec_state * list Z) :=
  let compare := 2 ^ n in
  do '(stay, add, s1, out1) <- dec_lip compare (LIP l) s out;
  do '(lis, lip, lsp, s2, out2) <-
    dec_lis (lis_fuel origlength (LIS l)) origlength compare (LIS l) stay (LSP l ++ add) s1 out1;
  do '(s3, out3) <- dec_refine compare (firstn (length (LSP l)) lsp) s2 out2;
  Ok (Lists lip lis lsp, s3, out3).
Fixpoint dec_planes (origlength : nat) (n : nat) (l : lists) (s : dec_state) (out : list Z)
  : outcome (dec_state * list Z) :=
  match n with
  | O => Ok (s, out)
  | S n' =>
      do '(l1, s1, out1) <- dec_plane origlength (Z.of_nat n') l s out;
      dec_planes origlength n' l1 s1 out1
  end.
(** 38-46, 48-71: decodeEffect and decode: coefficients, scale factor and bit count.  [cs]: the
    counters of the coder (reset at the end of every call), [old]: the vector [out] before the call. *)
Definition decodeEffect (cs : counters) (bytes old : list Z) (origlength : nat) : outcome (list Z * f64 * Z) :=
  let s := initDecoding cs (convert2bits bytes) in
  let out := resize old origlength in
  do '(n_real, s1) <- getMaxAllocBits s;
  do '(wavmax, s2) <- getWavmax s1;
  do '(_, out') <- dec_planes origlength (S (Z.to_nat n_real)) (initLists origlength) s2 out;
  Ok (out', wavmax, n_real).
