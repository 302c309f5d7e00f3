(** The tools: command-line options (source/Tools/src/InputParser.cpp), OHM metadata files
    (source/Tools/src/OHMData.cpp), 16-bit audio files (source/Tools/src/WavParser.cpp) and helpers
    of source/Tools/src/Tools.cpp.  No proofs in this file.  A [std::string] is the list of its
    bytes; files are lists of bytes (opening failures are a separate case of the model); the host is
    little-endian. *)
From Verif Require Import Base BitsModel FloatBase FloatModel TypesModel SemanticModel.

(** *** InputParser.cpp *)

(** [std::find] over the tokens: what stands after the first token equal to [opt]. *)
Fixpoint find_token (tokens : list str) (opt : str) : option (list str) :=
  match tokens with
  | [] => None
  | t :: ts => if str_eqb t opt then Some ts else find_token ts opt
  end.

(** InputParser.cpp 44-53: getCmdOption. *)
Definition getCmdOption (tokens : list str) (opt : str) : str :=
  match find_token tokens opt with
  | Some (v :: _) => v
  | _ => []
  end.

(** InputParser.cpp 55-57: cmdOptionExists. *)
Definition cmdOptionExists (tokens : list str) (opt : str) : bool :=
  match find_token tokens opt with Some _ => true | None => false end.

(** [filename.rfind('.')]: index of the last byte equal to [c]. *)
Fixpoint rfind (s : str) (c : Z) : option nat :=
  match s with
  | [] => None
  | x :: s' =>
      match rfind s' c with
      | Some i => Some (S i)
      | None => if x =? c then Some O else None
      end
  end.

(** InputParser.cpp 59-66: getFileExt ('.' is 46). *)
Definition getFileExt (filename : str) : str :=
  match rfind filename 46 with
  | Some i => firstn (length filename - i) (skipn (i + 1) filename)
  | None => []
  end.

(** *** Tools.cpp *)

(** Tools.cpp 428-434: isNumber ([std::isdigit] in the C locale). *)
Definition isdigit (c : Z) : bool := (48 <=? c) && (c <=? 57).
Fixpoint skip_digits (s : str) : str :=
  match s with
  | [] => []
  | c :: s' => if isdigit c then skip_digits s' else s
  end.
Definition isNumber (s : str) : bool :=
  negb (Nat.eqb (length s) 0) && Nat.eqb (length (skip_digits s)) 0.

(** Tools.cpp 436: isPowerOfTwo on [int]; [n - 1] overflows for the smallest [int]. *)
Definition isPowerOfTwo (n : Z) : outcome bool :=
  if n =? 0 then Ok false
  else if n - 1 <? - 2 ^ 31 then UB
  else Ok (Z.land n (n - 1) =? 0).

(** Tools.cpp 39-60: linearInterpolation; the times of the two points are [int], the time asked for
    and the amplitudes are [double]. *)
Definition linearInterpolation (a b : Z * f64) (x : f64) : f64 :=
  let start := f64_of_Z (fst a) in
  let stop := f64_of_Z (fst b) in
  let start_a := snd a in
  let end_a := snd b in
  if flt x start then start_a
  else if flt stop x then end_a
  else
    let '(start, stop, start_a, end_a) :=
      if fle stop start then (stop, start, end_a, start_a) else (start, stop, start_a, end_a) in
    div64 (add64 (mul64 start_a (sub64 stop x)) (mul64 end_a (sub64 x start))) (sub64 stop start).

(** *** OHMData.cpp *)

(** OHMData.h 40-112: the metadata (private members).  [k_gain] is the bit pattern of the [float]. *)
Record ohm_channel := OhmChannel { k_desc : str; k_gain : Z; k_mask : Z }.
Record ohm_element := OhmElement {
  l_file : str; l_desc : str; l_count : Z; l_channels : list ohm_channel }.
Record ohm := Ohm {
  o_header : str; o_version : Z; o_desc : str; o_elements : list ohm_element }.

Definition descriptionByteSize : nat := 32.
Definition fileNameByteSize : nat := 64.

(** A [short] copied to two bytes and reversed, and back: OHMData.cpp 73-83 and 151-162. *)
Definition short_bytes (v : Z) : list Z := let u := to_unsigned 16 v in [u / 256; u mod 256].
Definition bytes_short (bs : list Z) : Z :=
  match bs with
  | [b1; b0] => to_signed 16 (b1 * 256 + b0)
  | _ => 0
  end.

(** The four bytes of a 32-bit word in memory order, and back ([memcpy]). *)
Definition word_bytes (w : Z) : list Z :=
  [w mod 256; (w / 256) mod 256; (w / 65536) mod 256; (w / 16777216) mod 256].
Definition bytes_word (bs : list Z) : Z :=
  match bs with
  | [b0; b1; b2; b3] => b0 + 256 * b1 + 65536 * b2 + 16777216 * b3
  | _ => 0
  end.

(** OHMData.cpp 120-123: the body-part mask assembled with shifts of (signed) [char] and converted
    to the unsigned enumeration.  Shifting a negative value is undefined in C++17; it is modelled as
    what the common compilers (and C++20) do. *)
Definition bytes_mask (bs : list Z) : Z :=
  match bs with
  | [b0; b1; b2; b3] =>
      let c b := to_signed 8 b in
      let shl v k := to_signed 32 (Z.shiftl v k) in
      to_unsigned 32
        (Z.lor (Z.lor (Z.lor (shl (c b0) 24) (shl (c b1) 16)) (shl (c b2) 8)) (c b3))
  | _ => 0
  end.

(** [s.erase(s.find_last_not_of(NUL) + 1)]: OHMData.cpp 89, 96, 101, 112. *)
Fixpoint erase_nul (s : str) : str :=
  match s with
  | [] => []
  | c :: s' =>
      match erase_nul s' with
      | [] => if c =? 0 then [] else [c]
      | r => c :: r
      end
  end.

(** OHMData.cpp 135-140: fillString. *)
Definition fillString (text : str) (n : nat) : str :=
  let res := if (length text <=? n)%nat then text else firstn n text in
  res ++ repeat 0 (n - length res).

(** OHMData.cpp 106-126: the channels of an element; [n] channels remain. *)
Fixpoint load_channels (n : nat) (f : list Z) : list ohm_channel * list Z :=
  match n with
  | O => ([], f)
  | S n' =>
      let '(d, f1) := read_bytes descriptionByteSize f in
      let '(g, f2) := read_bytes 4 f1 in
      let '(m, f3) := read_bytes 4 f2 in
      let '(cs, f4) := load_channels n' f3 in
      (OhmChannel (erase_nul d) (bytes_word g) (bytes_mask m) :: cs, f4)
  end.

(** OHMData.cpp 91-128: the elements; [n] elements remain.  A negative count runs no iteration. *)
Fixpoint load_elements (n : nat) (f : list Z) : list ohm_element * list Z :=
  match n with
  | O => ([], f)
  | S n' =>
      let '(nm, f1) := read_bytes fileNameByteSize f in
      let '(d, f2) := read_bytes descriptionByteSize f1 in
      let '(c, f3) := read_bytes 2 f2 in
      let count := bytes_short c in
      let '(cs, f4) := load_channels (Z.to_nat count) f3 in
      let '(es, f5) := load_elements n' f4 in
      (OhmElement (erase_nul nm) (erase_nul d) count cs :: es, f5)
  end.

(** "OHM " *)
Definition OHM_HEADER : str := [79; 72; 77; 32].

(** OHMData.cpp 44-133: loadFile on the object [o]; [None] is a file that cannot be opened.  The
    result and the object afterwards. *)
Definition loadFile (o : ohm) (file : option (list Z)) : bool * ohm :=
  let o := Ohm (o_header o) 1 (o_desc o) (o_elements o) in
  match file with
  | None => (false, o)
  | Some [] => (false, o)
  | Some f =>
      let '(h, f1) := read_bytes 4 f in
      if str_eqb h OHM_HEADER then
        let '(v, f2) := read_bytes 2 f1 in
        let '(n, f3) := read_bytes 2 f2 in
        let '(d, f4) := read_bytes descriptionByteSize f3 in
        let '(es, _) := load_elements (Z.to_nat (bytes_short n)) f4 in
        (true, Ohm h (bytes_short v) (erase_nul d) (o_elements o ++ es))
      else (false, Ohm h (o_version o) (o_desc o) (o_elements o))
  end.

(** OHMData.cpp 142-201: writeFile.  [file.write(header.c_str(), 4)] reads the terminator of a
    header of three bytes, and past the end of a shorter one. *)
Definition channel_bytes (k : ohm_channel) : list Z :=
  fillString (k_desc k) descriptionByteSize ++ word_bytes (k_gain k) ++ rev (word_bytes (k_mask k)).
Definition element_bytes (l : ohm_element) : list Z :=
  fillString (l_file l) fileNameByteSize ++ fillString (l_desc l) descriptionByteSize ++
  short_bytes (l_count l) ++ flat_map channel_bytes (l_channels l).
Definition writeFile (o : ohm) : outcome (list Z) :=
  if (length (o_header o) <? 3)%nat then UB
  else
    Ok (firstn 4 (o_header o ++ [0]) ++ short_bytes (o_version o) ++
        short_bytes (Z.of_nat (length (o_elements o))) ++
        fillString (o_desc o) descriptionByteSize ++ flat_map element_bytes (o_elements o)).

(** *** WavParser.cpp *)

(** 32768.0, 32767.0 and -32768.0 *)
Definition SCALING : f64 := @B754_finite 53 1024 false 4503599627370496 (-37) eq_refl.
Definition SCALING_MAX : f64 := @B754_finite 53 1024 false 9006924376834048 (-38) eq_refl.
Definition SCALING_MIN : f64 := @B754_finite 53 1024 true 4503599627370496 (-37) eq_refl.

(** The C library's [round]: to the nearest integer, halves away from zero. *)
Definition fround (x : f64) : f64 := Bnearbyint mode_NA x.

(** WavParser.cpp 86-95 and 122-130: the 16-bit word stored for a sample.  [conv] is the conversion
    of a [double] to [uint16_t]. *)
Definition sample_word (conv : f64 -> outcome Z) (v : f64) : outcome Z :=
  let v_scaled := fround (mul64 v SCALING) in
  if flt SCALING_MAX v_scaled then Ok 32767
  else if flt v_scaled SCALING_MIN then Ok 32768
  else conv v_scaled.

(** The conversion of the language standard: undefined unless the truncated value fits. *)
Definition conv_std (x : f64) : outcome Z := int_of_float u16 x.
(** The conversion of the common processors: through a signed 32-bit integer, then modulo 2^16. *)
Definition conv_hw (x : f64) : outcome Z :=
  do z <- int_of_float i32 x; Ok (to_unsigned 16 z).

(** WavParser.cpp 74-101: the words handed over to the WAV library for one channel. *)
Fixpoint sample_words (conv : f64 -> outcome Z) (b : list f64) : outcome (list Z) :=
  match b with
  | [] => Ok []
  | v :: b' =>
      do w <- sample_word conv v;
      do ws <- sample_words conv b';
      Ok (w :: ws)
  end.
Definition saveMono (conv : f64 -> outcome Z) (b : list f64) : outcome (list Z) := sample_words conv b.

(** [b_int.at(k) = w]. *)
Fixpoint set_at (l : list Z) (k : nat) (w : Z) : outcome (list Z) :=
  match l, k with
  | [], _ => Throw
  | _ :: l', O => Ok (w :: l')
  | x :: l', S k' => do r <- set_at l' k' w; Ok (x :: r)
  end.

(** WavParser.cpp 121-131: the samples of channel [c] from index [i]; [n] channels. *)
Fixpoint save_samples (conv : f64 -> outcome Z) (n c i : nat) (b : list f64) (out : list Z)
  : outcome (list Z) :=
  match b with
  | [] => Ok out
  | v :: b' =>
      do w <- sample_word conv v;
      do out1 <- set_at out (i * n + c) w;
      save_samples conv n c (S i) b' out1
  end.
Fixpoint save_channels (conv : f64 -> outcome Z) (n c : nat) (buff : list (list f64)) (out : list Z)
  : outcome (list Z) :=
  match buff with
  | [] => Ok out
  | b :: buff' =>
      do out1 <- save_samples conv n c 0 b out;
      save_channels conv n (S c) buff' out1
  end.

(** WavParser.cpp 103-138: the words handed over for several channels; [None] is the refusal of
    channels of different sizes. *)
Definition saveFile (conv : f64 -> outcome Z) (buff : list (list f64)) : outcome (option (list Z)) :=
  match buff with
  | [] => Throw
  | b0 :: bs =>
      if forallb (fun b => Nat.eqb (length b) (length b0)) bs then
        do out <- save_channels conv (length buff) 0 buff (repeat 0 (length buff * length b0));
        Ok (Some out)
      else Ok None
  end.

(** [buffer.at(c).push_back(v)]. *)
Fixpoint push_at {A} (l : list (list A)) (c : nat) (v : A) : outcome (list (list A)) :=
  match l, c with
  | [], _ => Throw
  | b :: l', O => Ok ((b ++ [v]) :: l')
  | b :: l', S c' => do r <- push_at l' c' v; Ok (b :: r)
  end.

(** WavParser.cpp 58-68: the interleaved samples distributed over the channels ([k] is the index of
    the next sample).  With no channel the remainder is a division by zero. *)
Fixpoint distribute {A} (n k : nat) (samples : list A) (buffer : list (list A))
  : outcome (list (list A)) :=
  match samples with
  | [] => Ok buffer
  | v :: s' =>
      if Nat.eqb n 0 then UB
      else do b <- push_at buffer (Nat.modulo k n) v; distribute n (S k) s' b
  end.
Definition loadSamples {A} (numChannels : nat) (samples : list A) : outcome (list (list A)) :=
  distribute numChannels 0 samples (repeat [] numChannels).
