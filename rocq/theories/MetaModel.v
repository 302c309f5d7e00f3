(** The metadata packets of a stream (source/IOHaptics/src/IOStream.cpp 793-1838): payload writers and
    readers.  No proofs in this file.

    Writers return the bits appended to the payload; [std::bitset<n>(v).to_string()] followed by
    [writeStrBits] is [writeNBits n v].  Readers work on a bit vector and an index and return the
    value with the new index.  Where the code copies the tail of the vector, reads it from index 0 and
    then adds the length read (readListObject), the model reads the same bits at the absolute index. *)
From Verif Require Import Base BitsModel FloatBase FloatModel TypesModel SemanticModel.

(** A size byte followed by the characters: IOStream.cpp 857-864, 866-873, 879-895, 962-972, 1002-1011,
    1318-1326, 1553-1561 and 1034-1041 (all with 8-bit sizes). *)
Definition writeSized (s : str) : bits := writeNBits 8 (vec_size s) ++ flat_map byte_bits s.
(** The matching reads: [readUInt] of 8 bits, then [readString]. *)
Definition readSized (bs : bits) (i : nat) : outcome (str * nat) :=
  do '(n, i) <- readUInt bs i 8;
  readStringBits bs i (Z.to_nat n).

(** A loop that calls a reader [n] times. *)
Fixpoint readMany {A} (r : bits -> nat -> outcome (A * nat)) (n : nat) (bs : bits) (i : nat)
  : outcome (list A * nat) :=
  match n with
  | O => Ok ([], i)
  | S m =>
      do '(x, i) <- r bs i;
      do '(l, i) <- readMany r m bs i;
      Ok (x :: l, i)
  end.
(** A loop that appends what a writer produces for each element. *)
Fixpoint writeMany {A} (w : A -> outcome bits) (l : list A) : outcome bits :=
  match l with
  | [] => Ok []
  | x :: r => do a <- w x; do b <- writeMany w r; Ok (a ++ b)
  end.

(** An optional float field: [if (x.has_value()) writeFloatNBits(...)]. *)
Definition writeOptFloat (o : option f32) (mn mx : f32) : outcome bits :=
  match o with Some v => writeFloatNBits u32 32 v mn mx | None => Ok [] end.
Definition readOptFloat (present : bool) (mn mx : f32) (bs : bits) (i : nat) : outcome (option f32 * nat) :=
  if present then do '(v, i) <- readFloatBits bs i 32 mn mx; Ok (Some v, i) else Ok (None, i).
Definition has {A} (o : option A) : bool := match o with Some _ => true | None => false end.

(** *** Avatars and the experience *)

(** writeAvatar: IOStream.cpp 947-973.  [getMesh().value()] throws when a custom avatar has no mesh. *)
Definition writeAvatar (a : avatar) : outcome bits :=
  let head := writeNBits 8 (a_id a) ++ writeNBits 8 (a_lod a) ++ writeNBits 8 (a_type a) in
  if a_type a =? 0 then
    match a_mesh a with
    | Some mesh => Ok (head ++ writeSized mesh)
    | None => Throw
    end
  else Ok head.
(** readAvatar: IOStream.cpp 974-990. *)
Definition readAvatar (bs : bits) (i : nat) : outcome (avatar * nat) :=
  do '(id, i) <- readUInt bs i 8;
  do '(lod, i) <- readUInt bs i 8;
  do '(type, i) <- readUInt bs i 8;
  if type =? 0 then
    do '(mesh, i) <- readSized bs i;
    Ok (Avatar id lod type (Some mesh), i)
  else Ok (Avatar id lod type None, i).

(** writeMetadataHaptics: IOStream.cpp 856-911. *)
Definition writeMetadataHaptics (h : haptics) : outcome bits :=
  do avatars <- writeMany writeAvatar (h_avatars h);
  Ok (writeSized (h_version h) ++ writeSized (h_profile h) ++ writeNBits 8 (h_level h)
      ++ writeSized (h_date h) ++ writeSized (h_desc h)
      ++ writeNBits 8 (vec_size (h_perceptions h)) ++ writeNBits 8 (vec_size (h_avatars h)) ++ avatars).
(** readMetadataHaptics: IOStream.cpp 912-945: the fields of the experience are overwritten, the avatars
    are appended to those it has.  [setLevel] takes a uint8_t. *)
Definition readMetadataHaptics (h : haptics) (bs : bits) : outcome haptics :=
  do '(version, i) <- readSized bs 0;
  do '(profile, i) <- readSized bs i;
  do '(level, i) <- readUInt bs i 8;
  do '(date, i) <- readSized bs i;
  do '(desc, i) <- readSized bs i;
  do '(_, i) <- readUInt bs i 8;
  do '(avatarCount, i) <- readUInt bs i 8;
  do '(avatars, i) <- readMany readAvatar (Z.to_nat avatarCount) bs i;
  Ok (Haptics version profile (to_unsigned 8 level) date desc (h_perceptions h) (h_avatars h ++ avatars)
        (h_timescale h) (h_syncs h)).

(** *** Reference devices *)

(** generateReferenceDeviceInformationMask: IOStream.cpp 1407-1471. *)
Definition device_mask (d : device) : bits :=
  [has (d_maxf d); has (d_minf d); has (d_resf d); has (d_maxa d); has (d_imp d); has (d_maxv d);
   has (d_maxc d); has (d_maxd d); has (d_weight d); has (d_size d); has (d_custom d); has (d_type d)].
(** writeReferenceDevice: IOStream.cpp 1310-1406 (MAX_FREQUENCY = MAX_FLOAT = 10000). *)
Definition writeReferenceDevice (d : device) : outcome bits :=
  do b1 <- writeOptFloat (d_maxf d) f32_0 MAX_FLOAT;
  do b2 <- writeOptFloat (d_minf d) f32_0 MAX_FLOAT;
  do b3 <- writeOptFloat (d_resf d) f32_0 MAX_FLOAT;
  do b4 <- writeOptFloat (d_maxa d) f32_0 MAX_FLOAT;
  do b5 <- writeOptFloat (d_imp d) f32_0 MAX_FLOAT;
  do b6 <- writeOptFloat (d_maxv d) f32_0 MAX_FLOAT;
  do b7 <- writeOptFloat (d_maxc d) f32_0 MAX_FLOAT;
  do b8 <- writeOptFloat (d_maxd d) f32_0 MAX_FLOAT;
  do b9 <- writeOptFloat (d_weight d) f32_0 MAX_FLOAT;
  do b10 <- writeOptFloat (d_size d) f32_0 MAX_FLOAT;
  do b11 <- writeOptFloat (d_custom d) (Bopp MAX_FLOAT) MAX_FLOAT;
  Ok (writeNBits 8 (d_id d) ++ writeSized (d_name d) ++ writeNBits 32 (value_or (d_mask d) 0) ++ device_mask d
      ++ b1 ++ b2 ++ b3 ++ b4 ++ b5 ++ b6 ++ b7 ++ b8 ++ b9 ++ b10 ++ b11
      ++ match d_type d with Some t => writeNBits 4 t | None => [] end).
(** readReferenceDevice: IOStream.cpp 1472-1538. *)
Definition readReferenceDevice (bs : bits) (i : nat) : outcome (device * nat) :=
  do '(id, i) <- readUInt bs i 8;
  do '(name, i) <- readSized bs i;
  do '(mask, i) <- readUInt bs i 32;
  do m <- slice bs i 12;
  let i := (i + 12)%nat in
  match m with
  | [m1; m2; m3; m4; m5; m6; m7; m8; m9; m10; m11; m12] =>
      do '(v1, i) <- readOptFloat m1 f32_0 MAX_FLOAT bs i;
      do '(v2, i) <- readOptFloat m2 f32_0 MAX_FLOAT bs i;
      do '(v3, i) <- readOptFloat m3 f32_0 MAX_FLOAT bs i;
      do '(v4, i) <- readOptFloat m4 f32_0 MAX_FLOAT bs i;
      do '(v5, i) <- readOptFloat m5 f32_0 MAX_FLOAT bs i;
      do '(v6, i) <- readOptFloat m6 f32_0 MAX_FLOAT bs i;
      do '(v7, i) <- readOptFloat m7 f32_0 MAX_FLOAT bs i;
      do '(v8, i) <- readOptFloat m8 f32_0 MAX_FLOAT bs i;
      do '(v9, i) <- readOptFloat m9 f32_0 MAX_FLOAT bs i;
      do '(v10, i) <- readOptFloat m10 f32_0 MAX_FLOAT bs i;
      do '(v11, i) <- readOptFloat m11 (Bopp MAX_FLOAT) MAX_FLOAT bs i;
      do '(t, i) <- (if m12 then do '(t, i) <- readUInt bs i 4; Ok (Some t, i) else Ok (None, i));
      Ok (Device id name (Some (to_unsigned 32 mask)) v1 v2 v3 v4 v5 v6 v7 v8 v9 v10 v11 t, i)
  | _ => UB
  end.

(** *** Perceptions *)

(** writeMetadataPerception: IOStream.cpp 992-1069. *)
Definition writeMetadataPerception (p : perception) : outcome bits :=
  do devices <- writeMany writeReferenceDevice (p_devices p);
  Ok (writeNBits 8 (p_id p) ++ writeNBits 8 (value_or (p_prio p) 0) ++ writeSized (p_desc p)
      ++ writeNBits 8 (p_modality p) ++ writeNBits 8 (p_avatar p) ++ writeNBits 16 (vec_size (p_library p))
      ++ match p_scheme p with
         | Some s => writeNBits 1 1 ++ writeSized s
         | None => writeNBits 1 0
         end
      ++ writeNBits 8 (value_or (p_uexp p) DEFAULT_UNIT_EXPONENT)
      ++ writeNBits 8 (value_or (p_puexp p) DEFAULT_PERCEPTION_UNIT_EXPONENT)
      ++ writeNBits 8 (vec_size (p_devices p)) ++ devices ++ writeNBits 16 (vec_size (p_channels p))).
(** readMetadataPerception: IOStream.cpp 1070-1120: the perception stored in [sreader.perception].
    The exponents are converted to int8_t. *)
Definition readMetadataPerception (bs : bits) : outcome perception :=
  do '(id, i) <- readUInt bs 0 8;
  do '(priority, i) <- readUInt bs i 8;
  do '(desc, i) <- readSized bs i;
  do '(modality, i) <- readUInt bs i 8;
  do '(avatarId, i) <- readUInt bs i 8;
  do '(_, i) <- readUInt bs i 16;
  do '(flagScheme, i) <- readUInt bs i 1;
  do '(scheme, i) <- (if flagScheme =? 1 then do '(s, i) <- readSized bs i; Ok (Some s, i) else Ok (None, i));
  do '(unitExp, i) <- readUInt bs i 8;
  do '(perceUnitExp, i) <- readUInt bs i 8;
  do '(refDevCount, i) <- readUInt bs i 8;
  do '(devices, i) <- readMany readReferenceDevice (Z.to_nat refDevCount) bs i;
  do '(_, i) <- readUInt bs i 16;
  Ok (Perception id avatarId desc (if priority =? 0 then None else Some priority) scheme modality [] devices
        (Some (to_signed 8 unitExp)) (Some (to_signed 8 perceUnitExp)) []).

(** *** Effect library *)

(** The semantic of an effect: a flag bit and, if set, 12 bits.  IOStream.cpp 1228-1246 (also 2066-2086
    and 2107-2121). *)
Definition writeSemantic (s : option str) : outcome bits :=
  match s with
  | Some name => do code <- semantic_code name; Ok (writeNBits 1 1 ++ writeNBits 12 code)
  | None => Ok (writeNBits 1 0)
  end.
(** IOStream.cpp 1166-1173 (also 2401-2408 and 2434-2441). *)
Definition readSemantic (bs : bits) (i : nat) : outcome (option str * nat) :=
  do '(flag, i) <- readUInt bs i 1;
  if flag =? 1 then
    do '(code, i) <- readUInt bs i 12;
    do name <- semantic_name code;
    Ok (Some name, i)
  else Ok (None, i).

(** The keyframes of a library effect: IOStream.cpp 1264-1295 and 1186-1205.  KeyframeMask: IOBinary.h
    60-66 (position 1, amplitude 2, frequency 4). *)
Definition writeLibraryKeyframe (k : keyframe) : outcome bits :=
  let mask := (if has (k_pos k) then 1 else 0) + (if has (k_amp k) then 2 else 0)
              + (if has (k_freq k) then 4 else 0) in
  do amp <- match k_amp k with
            | Some a => writeFloatNBits u8 8 a (Bopp MAX_AMPLITUDE) MAX_AMPLITUDE
            | None => Ok []
            end;
  Ok (writeNBits 3 mask
      ++ match k_pos k with Some p => writeNBits 16 p | None => [] end
      ++ amp
      ++ match k_freq k with Some f => writeNBits 16 f | None => [] end).
Definition readLibraryKeyframe (bs : bits) (i : nat) : outcome (keyframe * nat) :=
  do '(mask, i) <- readUInt bs i 3;
  do '(pos, i) <- (if Z.testbit mask 0 then do '(v, i) <- readUInt bs i 16; Ok (Some v, i) else Ok (None, i));
  do '(amp, i) <- (if Z.testbit mask 1
                   then do '(v, i) <- readFloatBits bs i 8 (Bopp MAX_AMPLITUDE) MAX_AMPLITUDE; Ok (Some v, i)
                   else Ok (None, i));
  do '(freq, i) <- (if Z.testbit mask 2 then do '(v, i) <- readUInt bs i 16; Ok (Some v, i) else Ok (None, i));
  Ok (Keyframe pos amp freq, i).

(** writeLibraryEffect: IOStream.cpp 1218-1308.  DEFAULT_PHASE = 0, DEFAULT_BASE_SIGNAL = Sine = 0
    (Effect.h 135-136).  At most [size mod 2^16] effects of the timeline are written (1296-1306). *)
Fixpoint writeLibraryEffect (e : effect) : outcome bits :=
  match e with
  | Effect id pos phase semantic kfs base type timeline _ _ =>
      do sem <- writeSemantic semantic;
      do basis <- (if type =? BasisE
                   then do ph <- writeFloatNBits u32 16 (value_or phase f32_0) f32_0 MAX_PHASE;
                        Ok (ph ++ writeNBits 4 (value_or base 0))
                   else Ok []);
      do keyframes <- writeMany writeLibraryKeyframe kfs;
      let count := to_unsigned 16 (vec_size timeline) in
      do tl <- (fix go (n : nat) (l : list effect) {struct l} : outcome bits :=
                  match l, n with
                  | x :: r, S n' => do a <- writeLibraryEffect x; do b <- go n' r; Ok (a ++ b)
                  | _, _ => Ok []
                  end) (Z.to_nat count) timeline;
      Ok (writeNBits 16 id ++ writeNBits 2 type ++ sem ++ writeNBits 25 pos ++ basis
          ++ writeNBits 16 (vec_size kfs) ++ keyframes ++ writeNBits 16 count ++ tl)
  end.

(** readLibraryEffect: IOStream.cpp 1158-1217.  [fuel] bounds the depth of nesting. *)
Fixpoint readLibraryEffect (fuel : nat) (bs : bits) (i : nat) : outcome (effect * nat) :=
  match fuel with
  | O => NoFuel
  | S fuel' =>
      do '(id, i) <- readUInt bs i 16;
      do '(type, i) <- readUInt bs i 2;
      do '(semantic, i) <- readSemantic bs i;
      do '(pos, i) <- readUInt bs i 25;
      do '((phase, base), i) <- (if type =? 0
           then do '(ph, i) <- readFloatBits bs i 16 f32_0 MAX_PHASE;
                do '(b, i) <- readUInt bs i 4;
                Ok ((Some ph, Some b), i)
           else Ok ((None, None), i));
      do '(kfCount, i) <- readUInt bs i 16;
      do '(kfs, i) <- readMany readLibraryKeyframe (Z.to_nat kfCount) bs i;
      do '(count, i) <- readUInt bs i 16;
      do '(timeline, i) <- readMany (readLibraryEffect fuel') (Z.to_nat count) bs i;
      Ok (Effect id pos phase semantic kfs base type timeline [] [], i)
  end.

(** writeLibrary: IOStream.cpp 1122-1138. *)
Definition writeLibrary (p : perception) : outcome bits :=
  do effects <- writeMany writeLibraryEffect (p_library p);
  Ok (writeNBits 8 (p_id p) ++ writeNBits 16 (vec_size (p_library p)) ++ effects).

(** *** Channels *)

(** writeMetadataChannel: IOStream.cpp 1540-1659; [perceptionId] is [swriter.perception.getId()].  The
    targets are written up to their size modulo 2^8. *)
Definition writeMetadataChannel (perceptionId : Z) (c : channel) : outcome bits :=
  do gain <- writeFloatNBits u32 32 (c_gain c) (Bopp MAX_FLOAT) MAX_FLOAT;
  do mix <- writeFloatNBits u32 32 (c_mix c) f32_0 MAX_FLOAT;
  let mask := (if has (c_res c) then 2 else 1) + (if has (c_dir c) then 4 else 0) in
  let body :=
    match c_res c with
    | None => writeNBits 32 (c_mask c)
    | Some res =>
        let parts := value_or (c_body c) [] in
        let nparts := to_unsigned 8 (vec_size parts) in
        let targets := value_or (c_target c) [] in
        let ntargets := to_unsigned 8 (vec_size targets) in
        writeVector res ++ writeNBits 8 nparts ++ flat_map (writeNBits 8) (firstn (Z.to_nat nparts) parts)
        ++ writeNBits 8 ntargets ++ flat_map writeVector (firstn (Z.to_nat ntargets) targets)
    end in
  let freqSampling := to_signed 32 (value_or (c_freq c) 0) in
  Ok (writeNBits 16 (c_id c) ++ writeNBits 8 perceptionId ++ writeNBits 8 (value_or (c_prio c) 0)
      ++ writeSized (c_desc c) ++ writeNBits 8 (value_or (c_device c) (-1)) ++ gain ++ mix
      ++ writeNBits 8 mask ++ body ++ writeNBits 32 freqSampling
      ++ (if freqSampling >? 0 then writeNBits 32 (value_or (c_count c) 0) else [])
      ++ match c_dir c with Some d => writeVector d | None => [] end
      ++ writeNBits 16 (vec_size (c_vertices c)) ++ flat_map (writeNBits 32) (c_vertices c)
      ++ writeNBits 8 (vec_size (c_bands c))).

(** Three [static_cast<int8_t>(readUInt(..., 8))]: IOStream.cpp 1699-1702, 1718-1721, 1734-1740. *)
Definition readVectorBits (bs : bits) (i : nat) : outcome (vector * nat) :=
  do '(x, i) <- readUInt bs i 8;
  do '(y, i) <- readUInt bs i 8;
  do '(z, i) <- readUInt bs i 8;
  Ok (Vec (to_signed 8 x) (to_signed 8 y) (to_signed 8 z), i).

(** [searchPerceptionInHaptic]: IOStream.cpp 2624-2631 (the index, or -1). *)
Fixpoint index_of {A} (f : A -> bool) (l : list A) (k : Z) : Z :=
  match l with
  | [] => -1
  | x :: r => if f x then k else index_of f r (k + 1)
  end.
Definition searchPerceptionInHaptic (h : haptics) (id : Z) : Z :=
  index_of (fun p => id =? p_id p) (h_perceptions h) 0.
(** [searchChannelInHaptic]: IOStream.cpp 2632-2642: the index of the channel inside the first perception
    that has a channel with the id; that perception is not reported. *)
Fixpoint searchChannel (ps : list perception) (id : Z) : Z :=
  match ps with
  | [] => -1
  | p :: r =>
      let j := index_of (fun c => id =? c_id c) (p_channels p) 0 in
      if j =? -1 then searchChannel r id else j
  end.
Definition searchChannelInHaptic (h : haptics) (id : Z) : Z := searchChannel (h_perceptions h) id.

(** [v.at(index)]: throws when the index is not valid. *)
Definition vec_at {A} (l : list A) (index : Z) : outcome A :=
  if index <? 0 then Throw
  else match nth_error l (Z.to_nat index) with Some x => Ok x | None => Throw end.

(** readMetadataChannel: IOStream.cpp 1660-1753.  Returns [None] (false) when the perception is unknown,
    otherwise the perception and the channel stored in the reader.  The body-part mask, the sampling
    frequency and the sample count are converted to uint32_t. *)
Definition readMetadataChannel (h : haptics) (bs : bits) : outcome (option (perception * channel)) :=
  do '(id, i) <- readUInt bs 0 16;
  do '(perceId, i) <- readUInt bs i 8;
  let perceIndex := searchPerceptionInHaptic h perceId in
  if perceIndex =? -1 then Ok None
  else
    do p <- vec_at (h_perceptions h) perceIndex;
    do '(priority, i) <- readUInt bs i 8;
    do '(desc, i) <- readSized bs i;
    do '(deviceId, i) <- readUInt bs i 8;
    do '(gain, i) <- readFloatBits bs i 32 (Bopp MAX_FLOAT) MAX_FLOAT;
    do '(mix, i) <- readFloatBits bs i 32 f32_0 MAX_FLOAT;
    do '(mask, i) <- readUInt bs i 8;
    do '(((bodyMask, res), (body, target)), i) <-
      (if Z.testbit mask 0 then
         do '(m, i) <- readUInt bs i 32;
         Ok (((to_unsigned 32 m, None), (None, None)), i)
       else if Z.testbit mask 1 then
         do '(r, i) <- readVectorBits bs i;
         do '(n, i) <- readUInt bs i 8;
         do '(parts, i) <- readMany (fun bs i => readUInt bs i 8) (Z.to_nat n) bs i;
         do '(k, i) <- readUInt bs i 8;
         do '(targets, i) <- readMany readVectorBits (Z.to_nat k) bs i;
         Ok (((0, Some r), (Some parts, Some targets)), i)
       else Ok (((0, None), (None, None)), i));
    do '(freq0, i) <- readUInt bs i 32;
    let freq := to_unsigned 32 freq0 in
    do '((freqs, count), i) <-
      (if freq >? 0 then do '(n, i) <- readUInt bs i 32; Ok ((Some freq, Some (to_unsigned 32 n)), i)
       else Ok ((None, None), i));
    do '(dir, i) <- (if Z.testbit mask 2 then do '(d, i) <- readVectorBits bs i; Ok (Some d, i) else Ok (None, i));
    do '(nv, i) <- readUInt bs i 16;
    do '(vertices, i) <- readMany (fun bs i => readUInt bs i 32) (Z.to_nat nv) bs i;
    do '(_, i) <- readUInt bs i 8;
    Ok (Some (p, Channel id desc gain mix bodyMask vertices [] (if priority =? 0 then None else Some priority)
                   (if deviceId <? 255 then Some deviceId else None) freqs count dir res body target)).

(** *** Bands *)

(** writeMetadataBand: IOStream.cpp 1755-1798; [bandId] is [swriter.bandStream.id].  The block length is
    converted to uint8_t. *)
Definition writeMetadataBand (perceptionId channelId bandId : Z) (b : band) : bits :=
  writeNBits 8 bandId ++ writeNBits 8 perceptionId ++ writeNBits 16 channelId
  ++ writeNBits 8 (value_or (b_prio b) 0) ++ writeNBits 3 (b_type b)
  ++ (if b_type b =? CurveB then writeNBits 4 (value_or (b_curve b) UnknownC)
      else if b_type b =? WaveletB then writeNBits 8 (to_unsigned 8 (value_or (b_block b) 0))
      else [])
  ++ writeNBits 16 (b_low b) ++ writeNBits 16 (b_up b) ++ writeNBits 16 (vec_size (b_effects b)).

(** The band stored in [sreader.bandStream] with its id and index (struct BandStream, IOStream.h 75-79). *)
Record bandstream := BandStream { bs_id : Z; bs_band : band; bs_index : Z }.
(** Band.h 104-116: the default constructed band. *)
Definition band0 : band := Band VectorialB None (Some 0) 0 0 [] None.

(** readMetadataBand: IOStream.cpp 1799-1838.  [None] (false) when the perception or the channel is
    unknown; otherwise the perception, the channel and the band stream stored in the reader. *)
Definition readMetadataBand (h : haptics) (bs : bits) : outcome (option (perception * channel * bandstream)) :=
  do '(bandId, i) <- readUInt bs 0 8;
  do '(perceId, i) <- readUInt bs i 8;
  let perceIndex := searchPerceptionInHaptic h perceId in
  if perceIndex =? -1 then Ok None
  else
    do p <- vec_at (h_perceptions h) perceIndex;
    do '(channelId, i) <- readUInt bs i 16;
    let channelIndex := searchChannelInHaptic h channelId in
    if channelIndex =? -1 then Ok None
    else
      do c <- vec_at (p_channels p) channelIndex;
      do '(priority, i) <- readUInt bs i 8;
      do '(type, i) <- readUInt bs i 3;
      do '((curve, block), i) <-
        (if type =? CurveB then do '(c, i) <- readUInt bs i 4; Ok ((Some c, Some 0), i)
         else if type =? WaveletB then do '(w, i) <- readUInt bs i 8; Ok ((None, Some w), i)
         else Ok ((None, Some 0), i));
      do '(low, i) <- readUInt bs i 16;
      do '(up, i) <- readUInt bs i 16;
      do '(_, i) <- readUInt bs i 16;
      Ok (Some (p, c, BandStream bandId
                        (Band type curve block low up [] (if priority =? 0 then None else Some priority)) (-1))).
