(** The binary file format: source/IOHaptics/src/IOBinary.cpp and the band part of IOBinaryBands.cpp
    (the writers of band effects are in BandModel.v).  No proofs in this file.

    Readers go from the state of the input to a value and the new state; those that can meet undefined
    behaviour or recurse return an [outcome].  Field widths: IOBinaryFields.h.  A conversion to an unsigned
    type before [writeNBits] of at most its width is absorbed by [writeNBits]. *)
From Verif Require Import Base BitsModel FloatBase FloatModel TypesModel MetaModel BandModel.

(** A loop that calls a reader [n] times. *)
Fixpoint readTimes {A} (r : rstate -> A * rstate) (n : nat) (st : rstate) : list A * rstate :=
  match n with
  | O => ([], st)
  | S m =>
      let '(x, st) := r st in
      let '(l, st) := readTimes r m st in
      (x :: l, st)
  end.
Fixpoint readTimesO {A} (r : rstate -> outcome (A * rstate)) (n : nat) (st : rstate) : outcome (list A * rstate) :=
  match n with
  | O => Ok ([], st)
  | S m =>
      do '(x, st) <- r st;
      do '(l, st) <- readTimesO r m st;
      Ok (x :: l, st)
  end.
(** [if (mask & bit) value = readNBits...]: an optional field. *)
Definition readIf {A} (present : bool) (r : rstate -> A * rstate) (st : rstate) : option A * rstate :=
  if present then let '(x, st) := r st in (Some x, st) else (None, st).

(** [unsigned short count = size; writeNBits<unsigned short, n>(count); for (i < count) ...]: the loop
    writes as many elements as the 16-bit count says, whatever the width [n] of the field. *)
Definition writeCountedN {A} (n : nat) (w : A -> outcome bits) (l : list A) : outcome bits :=
  let count := to_unsigned 16 (vec_size l) in
  do b <- writeMany w (firstn (Z.to_nat count) l);
  Ok (writeNBits n count ++ b).

(** *** Avatars *)

(** One avatar of writeAvatars: IOBinary.cpp 169-184. *)
Definition binWriteAvatar (a : avatar) : outcome bits :=
  Ok (writeNBits 8 (a_id a) ++ writeNBits 8 (a_lod a) ++ writeNBits 8 (a_type a)
      ++ (if a_type a =? 0 then writeString (value_or (a_mesh a) []) else [])).
(** One avatar of readAvatars: IOBinary.cpp 148-160. *)
Definition binReadAvatar (st : rstate) : avatar * rstate :=
  let '(id, st) := readNBits i16 8 st in
  let '(lod, st) := readNBits u8 8 st in
  let '(type, st) := readNBits u8 8 st in
  let '(mesh, st) := readIf (type =? 0) readString st in
  (Avatar id lod type mesh, st).
(** writeAvatars: IOBinary.cpp 165-186; readAvatars: 141-163 (the avatars read). *)
Definition binWriteAvatars (l : list avatar) : outcome bits := writeCountedN 8 binWriteAvatar l.
Definition binReadAvatars (st : rstate) : list avatar * rstate :=
  let '(n, st) := readNBits u16 8 st in
  readTimes binReadAvatar (Z.to_nat n) st.

(** *** Effect library *)

(** readLibraryEffect, one keyframe: IOBinary.cpp 287-302. *)
Definition binReadLibraryKeyframe (st : rstate) : keyframe * rstate :=
  let '(mask, st) := readNBits u8 3 st in
  let '(pos, st) := readIf (Z.testbit mask 0) (readNBits u16 16) st in
  let '(amp, st) := readIf (Z.testbit mask 1) (readFloatNBits u8 8 (Bopp MAX_AMPLITUDE) MAX_AMPLITUDE) st in
  let '(freq, st) := readIf (Z.testbit mask 2) (readNBits u16 16) st in
  (Keyframe pos amp freq, st).
(** readLibraryEffect: IOBinary.cpp 263-309.  [fuel] bounds the depth of the recursion. *)
Fixpoint binReadLibraryEffect (fuel : nat) (st : rstate) : outcome (effect * rstate) :=
  match fuel with
  | O => NoFuel
  | S fuel' =>
      let '(id, st) := readNBits i32 16 st in
      let '(pos, st) := readNBits i32 25 st in
      let '(type, st) := readNBits u8 2 st in
      let '(phase, st) := readIf (type =? 0) (readFloatNBits u16 16 f32_0 MAX_PHASE) st in
      let '(base, st) := readIf (type =? 0) (readNBits u8 4) st in
      let '(n, st) := readNBits u32 16 st in
      let '(kfs, st) := readTimes binReadLibraryKeyframe (Z.to_nat n) st in
      let '(count, st) := readNBits u16 16 st in
      do '(timeline, st) <- readTimesO (binReadLibraryEffect fuel') (Z.to_nat count) st;
      Ok (Effect id pos phase None kfs base type timeline [] [], st)
  end.
(** writeLibraryEffect: IOBinary.cpp 311-371 (the keyframes, 325-357, are written as in a stream:
    [writeLibraryKeyframe] of MetaModel.v).  The loop at line 366 fetches each effect of the timeline and
    then calls the function again with the same [libraryEffect]. *)
Fixpoint binWriteLibraryEffect (fuel : nat) (e : effect) : outcome bits :=
  match fuel with
  | O => NoFuel
  | S fuel' =>
      do basis <- (if e_type e =? BasisE
                   then do ph <- writeFloatNBits u16 16 (value_or (e_phase e) f32_0) f32_0 MAX_PHASE;
                        Ok (ph ++ writeNBits 4 (value_or (e_base e) 0))
                   else Ok []);
      do keyframes <- writeCounted writeLibraryKeyframe (e_kfs e);
      do timeline <- writeCounted (fun _ => binWriteLibraryEffect fuel' e) (e_timeline e);
      Ok (writeNBits 16 (e_id e) ++ writeNBits 25 (e_pos e) ++ writeNBits 2 (e_type e) ++ basis
          ++ keyframes ++ timeline)
  end.
(** writeLibrary: IOBinary.cpp 385-397; readLibrary: 373-383. *)
Definition binWriteLibrary (fuel : nat) (l : list effect) : outcome bits :=
  writeCounted (binWriteLibraryEffect fuel) l.
Definition binReadLibrary (fuel : nat) (st : rstate) : outcome (list effect * rstate) :=
  let '(n, st) := readNBits u16 16 st in
  readTimesO (binReadLibraryEffect fuel) (Z.to_nat n) st.

(** *** Reference devices *)

(** generateReferenceDeviceInformationMask: IOBinary.cpp 824-866; the values of the mask: IOBinary.h 42-57. *)
Definition device_mask_value (d : device) : Z :=
  (if has (d_maxf d) then 1 else 0) + (if has (d_minf d) then 2 else 0) + (if has (d_resf d) then 4 else 0)
  + (if has (d_maxa d) then 8 else 0) + (if has (d_imp d) then 16 else 0) + (if has (d_maxv d) then 32 else 0)
  + (if has (d_maxc d) then 64 else 0) + (if has (d_maxd d) then 128 else 0) + (if has (d_weight d) then 256 else 0)
  + (if has (d_size d) then 512 else 0) + (if has (d_custom d) then 1024 else 0) + (if has (d_type d) then 2048 else 0).
(** One device of writeReferenceDevices: IOBinary.cpp 500-583. *)
Definition binWriteDevice (d : device) : outcome bits :=
  do b1 <- writeOptFloat (d_maxf d) f32_0 MAX_FLOAT;
  do b2 <- writeOptFloat (d_minf d) f32_0 MAX_FLOAT;
  do b3 <- writeOptFloat (d_resf d) f32_0 MAX_FLOAT;
  do b4 <- writeOptFloat (d_maxa d) f32_0 MAX_FLOAT;
  do b5 <- writeOptFloat (d_imp d) f32_0 MAX_FLOAT;
  do b6 <- writeOptFloat (d_maxv d) f32_0 MAX_FLOAT;
  do b7 <- writeOptFloat (d_maxc d) f32_0 MAX_FLOAT;
  do b8 <- writeOptFloat (d_maxd d) f32_0 MAX_FLOAT;
  do b9 <- writeOptFloat (d_weight d) f32_0 MAX_FLOAT;
  do b10 <- writeOptFloat (d_size d) f32_0 MAX_FLOAT;
  do b11 <- writeOptFloat (d_custom d) (Bopp MAX_FLOAT) MAX_FLOAT;
  Ok (writeNBits 8 (d_id d) ++ writeString (d_name d) ++ writeNBits 32 (value_or (d_mask d) 0)
      ++ writeNBits 12 (device_mask_value d)
      ++ b1 ++ b2 ++ b3 ++ b4 ++ b5 ++ b6 ++ b7 ++ b8 ++ b9 ++ b10 ++ b11
      ++ match d_type d with Some t => writeNBits 4 t | None => [] end).
(** One device of readReferenceDevices: IOBinary.cpp 404-486. *)
Definition binReadDevice (st : rstate) : device * rstate :=
  let '(id, st) := readNBits i16 8 st in
  let '(name, st) := readString st in
  let '(body, st) := readNBits u32 32 st in
  let '(m, st) := readNBits u16 12 st in
  let number := readFloatNBits u32 32 f32_0 MAX_FLOAT in
  let '(v1, st) := readIf (Z.testbit m 0) number st in
  let '(v2, st) := readIf (Z.testbit m 1) number st in
  let '(v3, st) := readIf (Z.testbit m 2) number st in
  let '(v4, st) := readIf (Z.testbit m 3) number st in
  let '(v5, st) := readIf (Z.testbit m 4) number st in
  let '(v6, st) := readIf (Z.testbit m 5) number st in
  let '(v7, st) := readIf (Z.testbit m 6) number st in
  let '(v8, st) := readIf (Z.testbit m 7) number st in
  let '(v9, st) := readIf (Z.testbit m 8) number st in
  let '(v10, st) := readIf (Z.testbit m 9) number st in
  let '(v11, st) := readIf (Z.testbit m 10) (readFloatNBits u32 32 (Bopp MAX_FLOAT) MAX_FLOAT) st in
  let '(t, st) := readIf (Z.testbit m 11) (readNBits u8 4) st in
  (Device id name (Some body) v1 v2 v3 v4 v5 v6 v7 v8 v9 v10 v11 t, st).
(** writeReferenceDevices: IOBinary.cpp 491-587; readReferenceDevices: 399-489. *)
Definition binWriteDevices (l : list device) : outcome bits := writeCountedN 8 binWriteDevice l.
Definition binReadDevices (st : rstate) : list device * rstate :=
  let '(n, st) := readNBits u16 8 st in
  readTimes binReadDevice (Z.to_nat n) st.

(** *** Channels *)

(** [uint8_t count = size; writeNBits<uint8_t, 8>(count); for (i < count) ...]: IOBinary.cpp 704-721. *)
Definition writeCounted8 {A} (w : A -> bits) (l : list A) : bits :=
  let count := to_unsigned 8 (vec_size l) in
  writeNBits 8 count ++ flat_map w (firstn (Z.to_nat count) l).
Definition readCounted8 {A} (r : rstate -> A * rstate) (st : rstate) : list A * rstate :=
  let '(n, st) := readNBits u8 8 st in
  readTimes r (Z.to_nat n) st.
(** One channel of writeChannelsHeader: IOBinary.cpp 665-751.  All the vertices are written after their
    16-bit count. *)
Definition binWriteChannel (c : channel) : outcome bits :=
  do gain <- writeFloatNBits u32 32 (c_gain c) (Bopp MAX_FLOAT) MAX_FLOAT;
  do mix <- writeFloatNBits u32 32 (c_mix c) f32_0 MAX_FLOAT;
  let mask := (if has (c_res c) then 2 else 1) + (if has (c_dir c) then 4 else 0) in
  let freq := value_or (c_freq c) 0 in
  Ok (writeNBits 16 (c_id c) ++ writeString (c_desc c) ++ writeNBits 8 (value_or (c_device c) (-1))
      ++ gain ++ mix ++ writeNBits 8 mask
      ++ match c_res c with
         | Some r => writeVector r ++ writeCounted8 (writeNBits 8) (value_or (c_body c) [])
                     ++ writeCounted8 writeVector (value_or (c_target c) [])
         | None => writeNBits 32 (c_mask c)
         end
      ++ writeNBits 32 freq ++ (if freq =? 0 then [] else writeNBits 32 (value_or (c_count c) 0))
      ++ match c_dir c with Some d => writeVector d | None => [] end
      ++ writeNBits 16 (vec_size (c_vertices c)) ++ flat_map (writeNBits 32) (c_vertices c)
      ++ writeNBits 8 (vec_size (c_bands c))).
(** One channel of readChannelsHeader: IOBinary.cpp 594-655.  [band0]: a default constructed band. *)
Definition binReadChannel (st : rstate) : channel * rstate :=
  let '(id, st) := readNBits i16 16 st in
  let '(desc, st) := readString st in
  let '(device, st) := readNBits i16 8 st in
  let '(gain, st) := readFloatNBits u32 32 (Bopp MAX_FLOAT) MAX_FLOAT st in
  let '(mix, st) := readFloatNBits u32 32 f32_0 MAX_FLOAT st in
  let '(m, st) := readNBits u8 8 st in
  let targeted := negb (Z.testbit m 0) && Z.testbit m 1 in
  let '(body, st) := readIf (Z.testbit m 0) (readNBits u32 32) st in
  let '(res, st) := readIf targeted readVector st in
  let '(bodyTarget, st) := readIf targeted (readCounted8 (readNBits u8 8)) st in
  let '(target, st) := readIf targeted (readCounted8 readVector) st in
  let '(freq, st) := readNBits u32 32 st in
  let '(count, st) := readIf (negb (freq =? 0)) (readNBits u32 32) st in
  let '(dir, st) := readIf (Z.testbit m 2) readVector st in
  let '(nv, st) := readNBits i32 16 st in
  let '(vertices, st) := readTimes (readNBits i32 32) (Z.to_nat nv) st in
  let '(nb, st) := readNBits u16 8 st in
  (Channel id desc gain mix (value_or body 0) vertices (repeat band0 (Z.to_nat nb)) None (Some device)
     (if freq =? 0 then None else Some freq) count dir res bodyTarget target, st).
(** writeChannelsHeader: IOBinary.cpp 660-755; readChannelsHeader: 589-658. *)
Definition binWriteChannels (l : list channel) : outcome bits := writeCounted binWriteChannel l.
Definition binReadChannels (st : rstate) : list channel * rstate :=
  let '(n, st) := readNBits u16 16 st in
  readTimes binReadChannel (Z.to_nat n) st.

(** *** Perceptions and the header *)

(** One perception of writePerceptionsHeader: IOBinary.cpp 227-258. *)
Definition binWritePerception (fuel : nat) (p : perception) : outcome bits :=
  do library <- binWriteLibrary fuel (p_library p);
  do devices <- binWriteDevices (p_devices p);
  do channels <- binWriteChannels (p_channels p);
  Ok (writeNBits 8 (p_id p) ++ writeNBits 8 (p_modality p) ++ writeString (p_desc p) ++ writeNBits 8 (p_avatar p)
      ++ writeNBits 8 (value_or (p_uexp p) DEFAULT_UNIT_EXPONENT)
      ++ writeNBits 8 (value_or (p_puexp p) DEFAULT_PERCEPTION_UNIT_EXPONENT)
      ++ library ++ devices ++ channels).
(** One perception of readPerceptionsHeader: IOBinary.cpp 195-217. *)
Definition binReadPerception (fuel : nat) (st : rstate) : outcome (perception * rstate) :=
  let '(id, st) := readNBits i16 8 st in
  let '(modality, st) := readNBits u16 8 st in
  let '(desc, st) := readString st in
  let '(avatarId, st) := readNBits i32 8 st in
  let '(uexp, st) := readNBits i8 8 st in
  let '(puexp, st) := readNBits i8 8 st in
  do '(library, st) <- binReadLibrary fuel st;
  let '(devices, st) := binReadDevices st in
  let '(channels, st) := binReadChannels st in
  Ok (Perception id avatarId desc None None modality channels devices (Some uexp) (Some puexp) library, st).
(** writePerceptionsHeader: IOBinary.cpp 222-261; readPerceptionsHeader: 188-220. *)
Definition binWritePerceptions (fuel : nat) (l : list perception) : outcome bits :=
  writeCountedN 8 (binWritePerception fuel) l.
Definition binReadPerceptions (fuel : nat) (st : rstate) : outcome (list perception * rstate) :=
  let '(n, st) := readNBits u16 8 st in
  readTimesO (binReadPerception fuel) (Z.to_nat n) st.
(** writeFileHeader: IOBinary.cpp 120-139. *)
Definition writeFileHeader (fuel : nat) (h : haptics) : outcome bits :=
  do avatars <- binWriteAvatars (h_avatars h);
  do perceptions <- binWritePerceptions fuel (h_perceptions h);
  Ok (writeString (h_version h) ++ writeString (h_profile h) ++ writeNBits 8 (h_level h)
      ++ writeString (h_date h) ++ writeString (h_desc h) ++ avatars ++ perceptions).
(** readFileHeader: IOBinary.cpp 98-118: avatars and perceptions are added to those of [out]. *)
Definition readFileHeader (fuel : nat) (out : haptics) (st : rstate) : outcome (haptics * rstate) :=
  let '(version, st) := readString st in
  let '(profile, st) := readString st in
  let '(level, st) := readNBits u8 8 st in
  let '(date, st) := readString st in
  let '(desc, st) := readString st in
  let '(avatars, st) := binReadAvatars st in
  do '(perceptions, st) <- binReadPerceptions fuel st;
  Ok (Haptics version profile level date desc (h_perceptions out ++ perceptions) (h_avatars out ++ avatars)
        (h_timescale out) (h_syncs out), st).

(** *** Band headers *)

(** Haptics.cpp 116-118; Haptics.h 49. *)
Definition DEFAULT_TIMESCALE := 1000.
Definition timescaleOrDefault (h : haptics) : Z := value_or (h_timescale h) DEFAULT_TIMESCALE.

(** The block length in samples, then its code: IOBinaryBands.cpp 88-91.  [(int)log2(n)] of an [int] n > 0 is
    the integer logarithm (libm: the result of [log2] is exact for powers of two, and below 2^31 the logarithm of
    any other integer is further from an integer than one unit in the last place); for n <= 0 the conversion of
    -infinity or NaN to [int] is undefined. *)
Definition blockLengthSamples (block timescale up : Z) : outcome Z :=
  int_of_float i32 (mul64 (div64 (f64_of_Z block) (f64_of_Z timescale)) (f64_of_Z up)).
Definition blockLengthCode (block timescale up : Z) : outcome Z :=
  do n <- blockLengthSamples block timescale up;
  if 0 <? n then Ok (Z.log2 n - 4) else UB.
(** writeBandHeader: IOBinaryBands.cpp 80-109.  [getBlockLength().value()] throws when it is absent. *)
Definition writeBandHeader (timescale : Z) (b : band) : outcome bits :=
  do kind <- (if b_type b =? CurveB then Ok (writeNBits 4 (value_or (b_curve b) UnknownC))
              else if b_type b =? WaveletB then
                match b_block b with
                | Some bl => do code <- blockLengthCode bl timescale (b_up b); Ok (writeNBits 8 code)
                | None => Throw
                end
              else Ok []);
  Ok (writeNBits 3 (b_type b) ++ kind ++ writeNBits 16 (b_low b) ++ writeNBits 16 (b_up b)
      ++ writeNBits 16 (vec_size (b_effects b))).
(** The block length in ticks: IOBinaryBands.cpp 52-54 and 65-67.  [pow(2, code + 4)] is converted to [int];
    the product with the [unsigned int] timescale wraps at 2^32; a division by 0 is undefined. *)
Definition blockLengthTicks (code timescale up : Z) : outcome Z :=
  if 2 ^ (code + 4) <? 2 ^ 31 then
    if up =? 0 then UB else Ok (to_signed 32 (to_unsigned 32 (2 ^ (code + 4) * timescale) / up))
  else UB.
(** readBandHeader: IOBinaryBands.cpp 42-78, on the band [b]. *)
Definition readBandHeader (timescale : Z) (b : band) (st : rstate) : outcome (band * rstate) :=
  let '(type, st) := readNBits u8 3 st in
  let '(curve, st) := readIf (type =? CurveB) (readNBits u8 4) st in
  let '(code, st) := readIf (type =? WaveletB) (readNBits u8 8) st in
  let '(low, st) := readNBits u16 16 st in
  let '(up, st) := readNBits u16 16 st in
  do block <- match code with
              | Some c => do ticks <- blockLengthTicks c timescale up; Ok (Some ticks)
              | None => Ok (b_block b)
              end;
  let '(n, st) := readNBits u16 16 st in
  let b := Band type (match curve with Some c => Some c | None => b_curve b end) block low up (b_effects b) (b_prio b) in
  Ok (fold_left (fun b _ => addEffect effect0 b) (repeat tt (Z.to_nat n)) b, st).

(** *** Band bodies *)

Definition set_phase_base (ph : f32) (base : Z) (e : effect) : effect :=
  Effect (e_id e) (e_pos e) (Some ph) (e_semantic e) (e_kfs e) (Some base) (e_type e) (e_timeline e) (e_samples e) (e_wavelet e).
Definition set_timeline (l : list effect) (e : effect) : effect :=
  Effect (e_id e) (e_pos e) (e_phase e) (e_semantic e) (e_kfs e) (e_base e) (e_type e) l (e_samples e) (e_wavelet e).
Definition set_wavelet (l : list Z) (e : effect) : effect :=
  Effect (e_id e) (e_pos e) (e_phase e) (e_semantic e) (e_kfs e) (e_base e) (e_type e) (e_timeline e) (e_samples e) l.

Definition binReadAmplitude : rstate -> f32 * rstate := readFloatNBits u8 8 (Bopp MAX_AMPLITUDE) MAX_AMPLITUDE.
(** readTransientEffect: IOBinaryBands.cpp 208-222. *)
Definition readTransientKeyframe (st : rstate) : keyframe * rstate :=
  let '(a, st) := binReadAmplitude st in
  let '(p, st) := readNBits u16 16 st in
  let '(f, st) := readNBits u16 16 st in
  (Keyframe (Some p) (Some a) (Some f), st).
(** readCurveEffect: IOBinaryBands.cpp 255-267. *)
Definition readCurveKeyframe (st : rstate) : keyframe * rstate :=
  let '(a, st) := binReadAmplitude st in
  let '(p, st) := readNBits u16 16 st in
  (Keyframe (Some p) (Some a) None, st).
(** readVectorialEffect, one keyframe: IOBinaryBands.cpp 302-318. *)
Definition readVectorialKeyframe (st : rstate) : keyframe * rstate :=
  let '(m, st) := readNBits u8 3 st in
  let '(a, st) := readIf (Z.testbit m 0) binReadAmplitude st in
  let '(p, st) := readNBits u16 16 st in
  let '(f, st) := readIf (Z.testbit m 1) (readNBits u16 16) st in
  (Keyframe (Some p) a f, st).
(** The keyframes are added to those of the effect. *)
Definition readKeyframes (r : rstate -> keyframe * rstate) (e : effect) (st : rstate) : effect * rstate :=
  let '(n, st) := readNBits u16 16 st in
  let '(l, st) := readTimes r (Z.to_nat n) st in
  (set_kfs (e_kfs e ++ l) e, st).
(** readVectorialEffect: IOBinaryBands.cpp 293-321. *)
Definition readVectorialEffect (e : effect) (st : rstate) : effect * rstate :=
  let '(ph, st) := readFloatNBits u16 16 f32_0 MAX_PHASE st in
  let '(base, st) := readNBits u8 4 st in
  readKeyframes readVectorialKeyframe (set_phase_base ph base e) st.
(** readWaveletEffect: IOBinaryBands.cpp 362-372. *)
Definition binReadWaveletEffect (e : effect) (st : rstate) : effect * rstate :=
  let '(n, st) := readNBits u16 16 st in
  let '(l, st) := readTimes (readNBits u8 8) (Z.to_nat n) st in
  (set_wavelet l e, st).
(** The switch on the band type: IOBinaryBands.cpp 132-155 and 432-447.  [None]: another type. *)
Definition readBasisEffect (bandType : Z) : option (effect -> rstate -> effect * rstate) :=
  if bandType =? TransientB then Some (readKeyframes readTransientKeyframe)
  else if bandType =? CurveB then Some (readKeyframes readCurveKeyframe)
  else if bandType =? VectorialB then Some readVectorialEffect
  else if bandType =? WaveletB then Some binReadWaveletEffect
  else None.
(** readReferenceEffect: IOBinaryBands.cpp 394-399. *)
Definition readReferenceEffect (e : effect) (st : rstate) : effect * rstate :=
  let '(id, st) := readNBits u16 16 st in (set_id id e, st).
(** readTimelineEffect: IOBinaryBands.cpp 414-452: the effects added to the timeline.  With an unknown band type
    the function returns at the first basis effect; the callers ignore its result.  [fuel] bounds the depth. *)
Fixpoint readTimelineEffect (fuel : nat) (bandType : Z) (st : rstate) : outcome (list effect * rstate) :=
  match fuel with
  | O => NoFuel
  | S fuel' =>
      let '(count, st) := readNBits u16 16 st in
      (fix loop (n : nat) (st : rstate) : outcome (list effect * rstate) :=
         match n with
         | O => Ok ([], st)
         | S m =>
             let '(type, st) := readNBits u8 2 st in
             let '(pos, st) := readNBits u32 25 st in
             let e := set_pos (to_signed 32 pos) (set_type type effect0) in
             if type =? ReferenceE then
               let '(e, st) := readReferenceEffect e st in
               do '(l, st) <- loop m st; Ok (e :: l, st)
             else if type =? CompositeE then
               do '(t, st) <- readTimelineEffect fuel' bandType st;
               do '(l, st) <- loop m st; Ok (set_timeline t e :: l, st)
             else match readBasisEffect bandType with
                  | Some r => let '(e, st) := r e st in do '(l, st) <- loop m st; Ok (e :: l, st)
                  | None => Ok ([], st)
                  end
         end) (Z.to_nat count) st
  end.

(** Multiplication and division of [int]s: overflow and division by 0 are undefined. *)
Definition int_mul (a b : Z) : outcome Z := if (- 2 ^ 31 <=? a * b) && (a * b <? 2 ^ 31) then Ok (a * b) else UB.
Definition int_div (a b : Z) : outcome Z :=
  if b =? 0 then UB else if (a =? - 2 ^ 31) && (b =? -1) then UB else Ok (Z.quot a b).
(** One effect of readBandBody: IOBinaryBands.cpp 115-158, at [index] in band [b] (whose type, block length and
    upper frequency are used).  [None]: the function returns false. *)
Definition readBandEffect (fuel : nat) (timescale : Z) (b : band) (index : Z) (e : effect) (st : rstate)
  : outcome (option effect * rstate) :=
  let '(type, st) := readNBits u8 2 st in
  let e := set_type type e in
  do '(pos, st) <- (if (type =? BasisE) && (b_type b =? WaveletB) then
                      do x <- int_mul index (value_or (b_block b) 0);
                      do y <- int_mul x (to_signed 32 timescale);
                      do z <- int_div y (b_up b);
                      Ok (z, st)
                    else let '(p, st) := readNBits u32 25 st in Ok (to_signed 32 p, st));
  if type =? ReferenceE then
    let '(e, st) := readReferenceEffect e st in Ok (Some (set_pos pos e), st)
  else if type =? CompositeE then
    do '(t, st) <- readTimelineEffect fuel (b_type b) st;
    Ok (Some (set_pos pos (set_timeline (e_timeline e ++ t) e)), st)
  else match readBasisEffect (b_type b) with
       | Some r => let '(e, st) := r e st in Ok (Some (set_pos pos e), st)
       | None => Ok (None, st)
       end.
Fixpoint readBandEffects (fuel : nat) (timescale : Z) (b : band) (index : Z) (l : list effect) (st : rstate)
  : outcome (option (list effect) * rstate) :=
  match l with
  | [] => Ok (Some [], st)
  | e :: r =>
      do '(x, st) <- readBandEffect fuel timescale b index e st;
      match x with
      | None => Ok (None, st)
      | Some x =>
          do '(y, st) <- readBandEffects fuel timescale b (index + 1) r st;
          Ok (option_map (cons x) y, st)
      end
  end.
(** readBandBody: IOBinaryBands.cpp 111-161. *)
Definition readBandBody (fuel : nat) (timescale : Z) (b : band) (st : rstate) : outcome (option band * rstate) :=
  do '(l, st) <- readBandEffects fuel timescale b 0 (b_effects b) st;
  Ok (option_map (fun l => set_effects l b) l, st).

(** *** The body and the file *)

(** The loops of writeFileBody: IOBinary.cpp 793-822 ([unsigned short] indices and bounds). *)
Definition short_loop {A} (w : A -> outcome bits) (l : list A) : outcome bits :=
  writeMany w (firstn (Z.to_nat (to_unsigned 16 (vec_size l))) l).
Definition writeFileBand (fuel : nat) (timescale : Z) (b : band) : outcome bits :=
  do head <- writeBandHeader timescale b;
  do body <- writeBandBody fuel b;
  Ok (head ++ body).
Definition writeFileBody (fuel : nat) (h : haptics) : outcome bits :=
  short_loop (fun p => short_loop (fun c => short_loop (writeFileBand fuel (timescaleOrDefault h)) (c_bands c))
    (p_channels p)) (h_perceptions h).

(** The loops of readFileBody: IOBinary.cpp 757-791.  They work on copies that are stored back at the end of each
    loop; when readBandBody fails the function returns and the current perception is left as it was.  [None]: the
    function has returned. *)
Fixpoint readAll {A} (r : A -> rstate -> outcome (option A * rstate)) (l : list A) (st : rstate)
  : outcome (option (list A) * rstate) :=
  match l with
  | [] => Ok (Some [], st)
  | x :: l =>
      do '(y, st) <- r x st;
      match y with
      | None => Ok (None, st)
      | Some y => do '(m, st) <- readAll r l st; Ok (option_map (cons y) m, st)
      end
  end.
Definition readFileBand (fuel : nat) (timescale : Z) (b : band) (st : rstate) : outcome (option band * rstate) :=
  do '(b, st) <- readBandHeader timescale b st;
  readBandBody fuel timescale b st.
Definition readFileChannel (fuel : nat) (timescale : Z) (c : channel) (st : rstate) : outcome (option channel * rstate) :=
  do '(l, st) <- readAll (readFileBand fuel timescale) (c_bands c) st;
  Ok (option_map (fun l => set_bands l c) l, st).
Definition readFilePerception (fuel : nat) (timescale : Z) (p : perception) (st : rstate)
  : outcome (option perception * rstate) :=
  do '(l, st) <- readAll (readFileChannel fuel timescale) (p_channels p) st;
  Ok (option_map (fun l => set_channels l p) l, st).
Fixpoint readFilePerceptions (fuel : nat) (timescale : Z) (l : list perception) (st : rstate) : outcome (list perception) :=
  match l with
  | [] => Ok []
  | p :: r =>
      do '(q, st) <- readFilePerception fuel timescale p st;
      match q with
      | None => Ok (p :: r)
      | Some q => do m <- readFilePerceptions fuel timescale r st; Ok (q :: m)
      end
  end.
Definition readFileBody (fuel : nat) (h : haptics) (st : rstate) : outcome haptics :=
  do l <- readFilePerceptions fuel (timescaleOrDefault h) (h_perceptions h) st;
  Ok (set_perceptions l h).

(** writeFile: IOBinary.cpp 80-96, for a file that can be opened: its bytes. *)
Definition writeFile (fuel : nat) (h : haptics) : outcome (list Z) :=
  do header <- writeFileHeader fuel h;
  do body <- writeFileBody fuel h;
  Ok (writeBitset (fillBitset (header ++ body))).
(** loadFile: IOBinary.cpp 54-78 (and loadMemory, 43-52, for a non-empty buffer): the file holds [bytes], the
    experience [out] is extended.  The result of readFileBody is ignored.  The size of the file is assumed to be below 2^32. *)
Definition loadFile (fuel : nat) (bytes : list Z) (out : haptics) : outcome (bool * haptics) :=
  match bytes with
  | [] => Ok (false, out)
  | _ =>
      do '(h, st) <- readFileHeader fuel out (RS bytes []);
      do h <- readFileBody fuel h st;
      Ok (true, h)
  end.
(** A default constructed experience: Haptics.h 93-101. *)
Definition haptics0 : haptics :=
  Haptics [] [77; 97; 105; 110] 1 [] [] [] [] (Some DEFAULT_TIMESCALE) [].
