(** Packets, units and files of a stream (source/IOHaptics/src/IOStream.cpp 41-854, 1139-1157, 2201-2254 and
    2624-2651).  No proofs in this file.

    [int] arithmetic on times is not wrapped (times are below 2^30); vectors are shorter than 2^31. *)
From Verif Require Import Base BitsModel FloatBase FloatModel TypesModel SemanticModel MetaModel BandModel
  DataModel CrcModel.

(** IOStream.h 49-69. *)
Definition InitializationU := 0.
Definition TemporalU := 1.
Definition SpatialU := 2.
Definition SilentU := 3.
Definition TimingP := 0.
Definition MetadataHapticsP := 1.
Definition MetadataPerceptionP := 2.
Definition MetadataChannelP := 3.
Definition MetadataBandP := 4.
Definition DataP := 5.
Definition EffectLibraryP := 6.
Definition CRC32P := 7.
Definition CRC16P := 8.
Definition GlobalCRC16P := 9.
Definition GlobalCRC32P := 10.
Definition InitializationTimingP := 11.

(** *** checkHapticComponent *)

(** The innermost loop of checkHapticComponent (IOStream.cpp 633-640): erasing the element at the loop
    index makes the next iteration skip the element that took its place. *)
Fixpoint check_loop {A} (drop : A -> bool) (l : list A) (skip : bool) : list A :=
  match l with
  | [] => []
  | x :: r => if skip then x :: check_loop drop r false
              else if drop x then check_loop drop r true
              else x :: check_loop drop r false
  end.
(** The other loops also rewrite the elements they visit before testing them. *)
Fixpoint check_map {A} (f : A -> A) (drop : A -> bool) (l : list A) (skip : bool) : list A :=
  match l with
  | [] => []
  | x :: r => if skip then x :: check_map f drop r false
              else if drop (f x) then check_map f drop r true
              else f x :: check_map f drop r false
  end.
Definition is_nil {A} (l : list A) : bool := match l with [] => true | _ => false end.
Definition empty_basis (bandType : Z) (e : effect) : bool :=
  negb (bandType =? WaveletB) && (e_type e =? BasisE) && is_nil (e_kfs e).
Definition check_band (b : band) : band := set_effects (check_loop (empty_basis (b_type b)) (b_effects b) false) b.
Definition check_channel (c : channel) : channel :=
  set_bands (check_map check_band (fun b => is_nil (b_effects b)) (c_bands c) false) c.
Definition check_perception (p : perception) : perception :=
  set_channels (check_map check_channel (fun c => is_nil (c_bands c)) (p_channels p) false) p.
(** checkHapticComponent: IOStream.cpp 625-653. *)
Definition checkHapticComponent (h : haptics) : haptics :=
  set_perceptions (check_map check_perception (fun p => is_nil (p_channels p)) (h_perceptions h) false) h.

(** *** Writing packets *)

(** The writer (struct StreamWriter, IOStream.h 90-109), without the fields that are constant ([layer] = 0,
    [nominalDuration] = 128, [durationDeviation] = 0, [overlapping] = false) or local to a function.
    [packetDuration] is a parameter [pd] of the functions: an [int] converted to [unsigned] and
    back. *)
Record swriter := SWriter { sw_haptic : haptics; sw_time : Z; sw_timescale : Z }.

(** padToByteBoundary: IOStream.cpp 2795-2803: the same function as fillBitset. *)
Definition padToByteBoundary (bs : bits) : bits := fillBitset bs.
(** writeMIHSPacketHeader: IOStream.cpp 655-672, for a payload of [size] bits. *)
Definition writeMIHSPacketHeader (type size : Z) : bits :=
  let missing := if size mod 8 =? 0 then 0 else 8 - size mod 8 in
  let bytes := (size + missing) / 8 in
  writeNBits 6 type ++ writeNBits 17 (if type =? DataP then bytes - 4 else bytes) ++ writeNBits 1 0.
(** A packet: header, payload, padding (e.g. IOStream.cpp 474-482). *)
Definition packet (type : Z) (payload : bits) : bits :=
  padToByteBoundary (writeMIHSPacketHeader type (vec_size payload) ++ payload).

(** writeInitializationTiming: IOStream.cpp 811-834. *)
Definition writeInitializationTiming (w : swriter) : bits :=
  writeNBits 32 (sw_time w) ++ writeNBits 32 (sw_timescale w) ++ writeNBits 24 128 ++ writeNBits 24 0 ++ writeNBits 1 0.

(** writeAllBands: IOStream.cpp 598-623: the payloads.  The payload is padded before its header is
    written. *)
Fixpoint mapi_bands (f : Z -> band -> bits) (id : Z) (l : list band) : list bits :=
  match l with [] => [] | b :: r => f id b :: mapi_bands f (id + 1) r end.
Fixpoint allBands_channels (pid id : Z) (l : list channel) : list bits * Z :=
  match l with
  | [] => ([], id)
  | c :: r =>
      let here := mapi_bands (fun i b => padToByteBoundary (writeMetadataBand pid (c_id c) i b)) id (c_bands c) in
      let '(rest, id') := allBands_channels pid (id + vec_size (c_bands c)) r in
      (here ++ rest, id')
  end.
Fixpoint allBands_perceptions (id : Z) (l : list perception) : list bits * Z :=
  match l with
  | [] => ([], id)
  | p :: r =>
      let '(here, id') := allBands_channels (p_id p) id (p_channels p) in
      let '(rest, id'') := allBands_perceptions id' r in
      (here ++ rest, id'')
  end.

(** The packets appended by writeMIHSPacket for each type of packet (IOStream.cpp 467-572).  Every call first
    runs checkHapticComponent on the writer's experience. *)
Fixpoint mapOut {A B} (f : A -> outcome B) (l : list A) : outcome (list B) :=
  match l with
  | [] => Ok []
  | x :: r => do a <- f x; do b <- mapOut f r; Ok (a :: b)
  end.
Definition packets_haptics (h : haptics) : outcome (list bits) :=
  do b <- writeMetadataHaptics h; Ok [packet MetadataHapticsP b].
Definition packets_perceptions (h : haptics) : outcome (list bits) :=
  mapOut (fun p => do b <- writeMetadataPerception p; Ok (packet MetadataPerceptionP b)) (h_perceptions h).
Definition packets_library (h : haptics) : outcome (list bits) :=
  mapOut (fun p => do b <- writeLibrary p; Ok (packet EffectLibraryP b))
         (filter (fun p => negb (is_nil (p_library p))) (h_perceptions h)).
Definition packets_channels (h : haptics) : outcome (list bits) :=
  omap (@concat bits) (mapOut (fun p => mapOut (fun c => do b <- writeMetadataChannel (p_id p) c; Ok (packet MetadataChannelP b))
                                     (p_channels p)) (h_perceptions h)).
Definition packets_bands (h : haptics) : list bits :=
  map (packet MetadataBandP) (fst (allBands_perceptions 0 (h_perceptions h))).
Definition packets_data (fuel : nat) (pd : Z) (h : haptics) : outcome (list bits) :=
  do l <- writeData fuel pd h; Ok (map (packet DataP) l).
Definition check_writer (w : swriter) : swriter :=
  SWriter (checkHapticComponent (sw_haptic w)) (sw_time w) (sw_timescale w).
Definition set_time (t : Z) (w : swriter) : swriter := SWriter (sw_haptic w) t (sw_timescale w).

(** The five calls of IOStream.cpp 133-137. *)
Definition writeInitPackets (w : swriter) : outcome (list bits * swriter) :=
  let w := check_writer w in
  do a <- packets_haptics (sw_haptic w);
  let w := check_writer w in
  do b <- packets_perceptions (sw_haptic w);
  let w := check_writer w in
  do c <- packets_library (sw_haptic w);
  let w := check_writer w in
  do d <- packets_channels (sw_haptic w);
  let w := check_writer w in
  Ok (a ++ b ++ c ++ d ++ packets_bands (sw_haptic w), w).

(** *** Writing units *)

(** The 72-bit header of a unit: UNIT_TYPE, UNIT_SYNC, UNIT_LAYER, UNIT_DURATION, UNIT_LENGTH, UNIT_RESERVED. *)
Definition unit_header (type sync duration length : Z) : bits :=
  writeNBits 6 type ++ writeNBits 2 sync ++ writeNBits 4 0 ++ writeNBits 24 duration
  ++ writeNBits 32 length ++ writeNBits 4 0.

(** writeMIHSUnit with writeMIHSUnitInitialization: IOStream.cpp 269-322. *)
Definition writeUnitInitialization (packets : list bits) (w : swriter) : bits * swriter :=
  let w := check_writer w in
  let payload := packet InitializationTimingP (writeInitializationTiming w) ++ concat packets in
  (unit_header InitializationU 0 0 (vec_size payload / 8) ++ payload, w).

(** The time of a data packet: [readPacketTS] of the payload of the packet. *)
Definition packetTS (p : bits) : outcome Z :=
  if (24 <=? length p)%nat then readPacketTS (skipn 24 p) else UB.
(** The packet without its time stamp: IOStream.cpp 332. *)
Definition strip_time (p : bits) : outcome bits :=
  if (56 <=? length p)%nat then Ok (firstn 24 p ++ skipn 56 p) else UB.
(** The loop of writeMIHSUnitTemporal (IOStream.cpp 328-341), for packets of type Data (the only ones writeUnits
    passes).  Returns the payload, [sync] and the time of the last packet. *)
Fixpoint temporal_payload (packets : list bits) (sync : bool) (time : Z) : outcome (bits * bool * Z) :=
  match packets with
  | [] => Ok ([], sync, time)
  | p :: r =>
      do b <- strip_time p;
      do first <- match nth_error b 24 with Some x => Ok x | None => UB end;
      do t <- packetTS p;
      do '(rest, s, tm) <- temporal_payload r (sync && negb first) t;
      Ok (b ++ rest, s, tm)
  end.
(** writeMIHSUnitTemporal: IOStream.cpp 323-366. *)
Definition writeUnitTemporal (pd : Z) (packets : list bits) (w : swriter) : outcome (bits * swriter) :=
  do '(payload, sync, time) <- temporal_payload packets true (sw_time w);
  let duration := match packets with [] => 0 | _ => pd end in
  Ok (unit_header TemporalU (if sync then 0 else 1) duration (vec_size payload / 8) ++ payload,
      set_time (time + duration) w).

(** The duration of a silent unit rounded to a multiple of the packet duration: IOStream.cpp 414-417 and 441-443.
    [duration % swriter.packetDuration] is an unsigned operation. *)
Definition round_duration (pd duration : Z) : outcome Z :=
  if to_unsigned 32 pd =? 0 then UB
  else Ok (if to_unsigned 32 duration mod to_unsigned 32 pd =? 0 then duration else duration - Z.rem duration pd).
(** writeMIHSUnitSilent: IOStream.cpp 401-458, with one packet ([None]: only the unit type is written) and
    with two packets. *)
Definition writeUnitSilentFirst (pd : Z) (first : bits) (w : swriter) : outcome (option bits * swriter) :=
  do tFirst <- packetTS first;
  if tFirst >=? pd then
    do duration <- round_duration pd tFirst;
    Ok (Some (unit_header SilentU 0 duration 0), set_time (sw_time w + duration) w)
  else Ok (None, w).
Definition writeUnitSilent (pd : Z) (next : bits) (w : swriter) : outcome (bits * swriter) :=
  do tEnd <- packetTS next;
  do duration <- round_duration pd (tEnd - sw_time w);
  Ok (unit_header SilentU 0 duration 0, set_time (sw_time w + duration) w).

(** getNextSync: IOStream.cpp 2805-2818: the new [sync] and [idx]. *)
Definition getNextSync (syncs : list sync) (s : sync) (idx : Z) : sync * Z :=
  if idx >=? vec_size syncs - 1 then (s, -1)
  else match nth_error syncs (Z.to_nat (idx + 1)) with
       | Some s' => (s', idx + 1)
       | None => (s, -1)
       end.

(** The state of the loop of writeUnits. *)
Record ustate := UState { us_writer : swriter; us_sync : sync; us_idx : Z }.
(** IOStream.cpp 177-182 (and 188-193, 205-210): an initialization unit at a synchronisation point. *)
Definition sync_unit (syncs : list sync) (initPackets : list bits) (st : ustate) : list bits * ustate :=
  if negb (us_idx st =? -1) && (sw_time (us_writer st) =? s_time (us_sync st)) then
    let '(u, w) := writeUnitInitialization initPackets (us_writer st) in
    let '(s, i) := getNextSync syncs (us_sync st) (us_idx st) in
    ([u], UState w s i)
  else ([], st).

(** One packet in the loop of writeUnits, when [bufUnit] is not empty and the packet has another time:
    IOStream.cpp 174-197. *)
Definition flush_unit (pd : Z) (syncs : list sync) (initPackets buf : list bits) (next : bits) (ts : Z) (st : ustate)
  : outcome (list bits * ustate) :=
  do '(u, w) <- writeUnitTemporal pd buf (us_writer st);
  let '(s1, st) := sync_unit syncs initPackets (UState w (us_sync st) (us_idx st)) in
  if sw_time (us_writer st) =? ts then Ok (u :: s1, st)
  else
    do '(v, w) <- writeUnitSilent pd next (us_writer st);
    let '(s2, st) := sync_unit syncs initPackets (UState w (us_sync st) (us_idx st)) in
    Ok (u :: s1 ++ v :: s2, st).
(** The loop of writeUnits (IOStream.cpp 150-201) after the first packet; [buf] is [bufUnit] (not empty).
    Ends with the last unit (202-210). *)
Fixpoint units_loop (pd : Z) (syncs : list sync) (initPackets : list bits) (packets buf : list bits) (st : ustate)
  : outcome (list bits) :=
  match packets with
  | [] =>
      do '(u, w) <- writeUnitTemporal pd buf (us_writer st);
      let '(s1, _) := sync_unit syncs initPackets (UState w (us_sync st) (us_idx st)) in
      Ok (u :: s1)
  | p :: r =>
      do tLast <- packetTS (last buf []);
      do ts <- packetTS p;
      if tLast =? ts then units_loop pd syncs initPackets r (buf ++ [p]) st
      else
        do '(us, st) <- flush_unit pd syncs initPackets buf p ts st;
        do rest <- units_loop pd syncs initPackets r [p] st;
        Ok (us ++ rest)
  end.

(** silentUnitSyncFlag: IOStream.cpp 214-240.  The sync bits (6 and 7) of a silent unit that is not the last
    unit become those of the next unit of type Temporal or Initialization. *)
Definition unit_type (u : bits) : outcome Z := do '(t, _) <- readUInt u 0 6; Ok t.
Fixpoint next_sync_bits (us : list bits) : outcome (option bits) :=
  match us with
  | [] => Ok None
  | u :: r =>
      do t <- unit_type u;
      if (t =? TemporalU) || (t =? InitializationU) then do s <- slice u 6 2; Ok (Some s)
      else next_sync_bits r
  end.
Fixpoint silentUnitSyncFlag (us : list bits) : outcome (list bits) :=
  match us with
  | [] => Ok []
  | u :: r =>
      do t <- unit_type u;
      do u' <- (if t =? SilentU then
                  do o <- next_sync_bits r;
                  match o with
                  | Some s => if (8 <=? length u)%nat then Ok (firstn 6 u ++ s ++ skipn 8 u) else UB
                  | None => Ok u
                  end
                else Ok u);
      do r' <- silentUnitSyncFlag r;
      Ok (u' :: r')
  end.

(** writeUnits: IOStream.cpp 126-212.  Haptics.h 96: DEFAULT_TIMESCALE = 1000. *)
Definition writeUnits (fuel : nat) (pd : Z) (h : haptics) : outcome (list bits) :=
  do '(initPackets, w) <- writeInitPackets (SWriter h 0 (value_or (h_timescale h) 1000));
  let '(initUnit, w) := writeUnitInitialization initPackets w in
  let '(s, idx) := getNextSync (h_syncs h) (Sync (-1) (Some 1000)) 0 in
  let w := check_writer w in
  do data <- packets_data fuel pd (sw_haptic w);
  let w := set_time 0 w in
  match data with
  | [] => silentUnitSyncFlag [initUnit]
  | p :: r =>
      do '(o, w) <- writeUnitSilentFirst pd p w;
      let silent := match o with Some u => [u] | None => [] end in
      do us <- units_loop pd (h_syncs h) initPackets r [p] (UState w s idx);
      silentUnitSyncFlag (initUnit :: silent ++ us)
  end.
(** writeFile: IOStream.cpp 41-61: the bytes of the file. *)
Definition writeStream (fuel : nat) (pd : Z) (h : haptics) : outcome (list Z) :=
  do us <- writeUnits fuel pd h; Ok (writeBitset (concat us)).

(** *** Reading packets *)

(** The reader (struct StreamReader, IOStream.h 111-132), without the fields that are never read or that are
    always set before they are read.  [sr_bands] is [bandStreamsHaptic]: ids and indices. *)
Record sreader := SReader {
  sr_haptic : haptics;
  sr_bands : list (Z * Z);
  sr_time : Z;
  sr_timescale : Z;
  sr_duration : Z;     (* packetDuration *)
  sr_wait : bool       (* waitSync *)
}.
Definition set_haptic (h : haptics) (r : sreader) : sreader :=
  SReader h (sr_bands r) (sr_time r) (sr_timescale r) (sr_duration r) (sr_wait r).
Definition set_wait (b : bool) (r : sreader) : sreader :=
  SReader (sr_haptic r) (sr_bands r) (sr_time r) (sr_timescale r) (sr_duration r) b.
Definition addSync (s : sync) (h : haptics) : haptics :=
  Haptics (h_version h) (h_profile h) (h_level h) (h_date h) (h_desc h) (h_perceptions h) (h_avatars h)
    (h_timescale h) (h_syncs h ++ [s]).
Definition set_timescale (t : Z) (h : haptics) : haptics :=
  Haptics (h_version h) (h_profile h) (h_level h) (h_date h) (h_desc h) (h_perceptions h) (h_avatars h)
    (Some t) (h_syncs h).

(** readTiming and the case Timing: IOStream.cpp 800-810 and 680-684. *)
Definition readTiming (r : sreader) (bs : bits) : outcome sreader :=
  do '(timestamp, _) <- readUInt bs 0 32;
  if sr_timescale r =? 0 then UB
  else
    let time := to_unsigned 32 (to_unsigned 32 timestamp * 1000) / sr_timescale r in
    Ok (SReader (addSync (Sync timestamp (Some 1000)) (sr_haptic r)) (sr_bands r) time (sr_timescale r)
          (sr_duration r) (sr_wait r)).
(** readInitializationTiming: IOStream.cpp 836-854. *)
Definition readInitializationTiming (r : sreader) (bs : bits) : outcome sreader :=
  do '(timestamp, i) <- readUInt bs 0 32;
  do '(timescale, i) <- readUInt bs i 32;
  do '(_, i) <- readUInt bs i 24;
  do '(_, i) <- readUInt bs i 24;
  do '(_, i) <- readUInt bs i 1;
  Ok (SReader (addSync (Sync timestamp (Some (to_unsigned 32 timescale))) (sr_haptic r)) (sr_bands r)
        (to_unsigned 32 timestamp) (to_unsigned 32 timescale) (sr_duration r) (sr_wait r)).

(** Changing the perception at an index, its channel, its band (through the references returned by
    [getPerceptionAt], [getChannelAt], [getBandAt], which throw on an invalid index). *)
Definition update_at {A} (l : list A) (index : Z) (f : A -> outcome A) : outcome (list A) :=
  do x <- vec_at l index; do y <- f x; Ok (vec_set l (Z.to_nat index) y).
Definition update_perception (h : haptics) (pi : Z) (f : perception -> outcome perception) : outcome haptics :=
  do l <- update_at (h_perceptions h) pi f; Ok (set_perceptions l h).
Definition update_channel (h : haptics) (pi ci : Z) (f : channel -> outcome channel) : outcome haptics :=
  update_perception h pi (fun p => do l <- update_at (p_channels p) ci f; Ok (set_channels l p)).
Definition update_band (h : haptics) (pi ci bi : Z) (f : band -> outcome band) : outcome haptics :=
  update_channel h pi ci (fun c => do l <- update_at (c_bands c) bi f; Ok (set_bands l c)).

(** The case MetadataPerception: IOStream.cpp 688-700. *)
Definition receivePerception (h : haptics) (p : perception) : haptics :=
  let i := searchPerceptionInHaptic h (p_id p) in
  if i =? -1 then addPerception p h else snd (replacePerceptionMetadataAt i p h).
(** readLibrary: IOStream.cpp 1139-1157 ([None]: false). *)
Definition readLibrary (fuel : nat) (h : haptics) (bs : bits) : outcome (option haptics) :=
  do '(perceId, i) <- readUInt bs 0 8;
  let perceIndex := searchPerceptionInHaptic h perceId in
  if perceIndex =? -1 then Ok None
  else
    do p <- vec_at (h_perceptions h) perceIndex;
    do '(count, i) <- readUInt bs i 16;
    do '(effects, _) <- readMany (readLibraryEffect fuel) (Z.to_nat count) bs i;
    Ok (Some (snd (replacePerceptionAt perceIndex (set_library (p_library p ++ effects) p) h))).
(** The case MetadataChannel: IOStream.cpp 704-717. *)
Definition receiveChannel (h : haptics) (p : perception) (c : channel) : outcome haptics :=
  let pi := searchPerceptionInHaptic h (p_id p) in
  let ci := searchChannelInHaptic h (c_id c) in
  update_perception h pi (fun q =>
    Ok (if ci =? -1 then addChannel c q else snd (replaceChannelMetadataAt ci c q))).
(** searchBandInHaptic: IOStream.cpp 2644-2651. *)
Fixpoint searchBand (l : list (Z * Z)) (id : Z) : Z :=
  match l with
  | [] => -1
  | (i, index) :: r => if i =? id then index else searchBand r id
  end.
(** The case MetadataBand: IOStream.cpp 718-745. *)
Definition receiveBand (r : sreader) (p : perception) (c : channel) (bs : bandstream) : outcome sreader :=
  let h := sr_haptic r in
  let pi := searchPerceptionInHaptic h (p_id p) in
  let ci := searchChannelInHaptic h (c_id c) in
  let bi := searchBand (sr_bands r) (bs_id bs) in
  do q <- vec_at (h_perceptions h) pi;
  do d <- vec_at (p_channels q) ci;
  let n := vec_size (c_bands d) in
  if (bi =? -1) || (n =? 0) || (n <? bi) then
    do h' <- update_channel h pi ci (fun d => Ok (addBand (bs_band bs) d));
    Ok (SReader h' (sr_bands r ++ [(bs_id bs, n)]) (sr_time r) (sr_timescale r) (sr_duration r) (sr_wait r))
  else
    do h' <- update_channel h pi ci (fun d => Ok (snd (replaceBandMetadataAt bi (bs_band bs) d)));
    Ok (set_haptic h' r).

(** readData: IOStream.cpp 2201-2254.  The boolean is the result. *)
Definition readData (r : sreader) (bs : bits) : outcome (bool * sreader) :=
  do '(au, i) <- readUInt bs 0 1;
  if sr_wait r && (au =? DAU) then Ok (false, r)
  else
    let r := set_wait false r in
    let h := sr_haptic r in
    do '(perceptionId, i) <- readUInt bs i 8;
    let pi := searchPerceptionInHaptic h perceptionId in
    if pi =? -1 then Ok (false, r)
    else
      do p <- vec_at (h_perceptions h) pi;
      do '(channelId, i) <- readUInt bs i 16;
      let ci := searchChannelInHaptic h channelId in
      if ci =? -1 then Ok (false, r)
      else
        do c <- vec_at (p_channels p) ci;
        do '(bandId, i) <- readUInt bs i 8;
        let bi := searchBand (sr_bands r) bandId in
        if bi =? -1 then Ok (false, r)
        else
          do b <- vec_at (c_bands c) bi;
          do '(fxCount, i) <- readUInt bs i 16;
          if fxCount >? 0 then
            do '(effects, _) <-
              (if negb (b_type b =? WaveletB) then
                 do '(l, i) <- readEffects (b_type b) (Z.to_nat fxCount) bs i;
                 Ok (match l with
                     | Some l => Some (addTimestampEffect (to_signed 32 (sr_time r)) l)
                     | None => None
                     end, i)
               else
                 do '(e, i) <- readWaveletEffect (sr_timescale r) b bs i;
                 Ok (Some [e], i));
            match effects with
            | None => Ok (false, r)
            | Some l =>
                do h' <- update_band h pi ci bi (fun b => Ok (addEffectsToBand l b));
                Ok (true, set_haptic h' r)
            end
          else Ok (true, r).

(** readMIHSPacket: IOStream.cpp 673-758.  [bs] is the rest of the unit.  Returns the result, the reader, the
    checksum state and [sreader.packetLength].  [fuel] bounds the nesting of library effects. *)
Definition readMIHSPacket (fuel : nat) (bs : bits) (r : sreader) (crc : crc_t)
  : outcome (bool * sreader * crc_t * Z) :=
  do '(type, _) <- readUInt bs 0 6;
  do '(len, _) <- readUInt bs 6 17;
  let length := len * 8 in
  if (List.length bs <? 24)%nat then UB
  else
    let payload := skipn 24 bs in
    let h := sr_haptic r in
    if type =? TimingP then do r' <- readTiming r payload; Ok (true, r', crc, length)
    else if type =? MetadataHapticsP then
      do h' <- readMetadataHaptics h payload; Ok (true, set_haptic h' r, crc, length)
    else if type =? MetadataPerceptionP then
      do p <- readMetadataPerception payload; Ok (true, set_haptic (receivePerception h p) r, crc, length)
    else if type =? EffectLibraryP then
      do o <- readLibrary fuel h payload;
      match o with Some h' => Ok (true, set_haptic h' r, crc, length) | None => Ok (false, r, crc, length) end
    else if type =? MetadataChannelP then
      do o <- readMetadataChannel h payload;
      match o with
      | Some (p, c) => do h' <- receiveChannel h p c; Ok (true, set_haptic h' r, crc, length)
      | None => Ok (false, r, crc, length)
      end
    else if type =? MetadataBandP then
      do o <- readMetadataBand h payload;
      match o with
      | Some (p, c, b) => do r' <- receiveBand r p c b; Ok (true, r', crc, length)
      | None => Ok (false, r, crc, length)
      end
    else if type =? DataP then do '(ok, r') <- readData r payload; Ok (ok, r', crc, length)
    else if type =? CRC16P then do c <- readCRC payload PCRC16; Ok (true, r, c, length)
    else if type =? CRC32P then do c <- readCRC payload PCRC32; Ok (true, r, c, length)
    else if type =? GlobalCRC16P then do c <- readCRC payload PGlobalCRC16; Ok (true, r, c, length)
    else if type =? GlobalCRC32P then do c <- readCRC payload PGlobalCRC32; Ok (true, r, c, length)
    else if type =? InitializationTimingP then
      do r' <- readInitializationTiming r payload; Ok (true, r', crc, length)
    else Ok (false, r, crc, length).

(** The loop of readMIHSUnit: IOStream.cpp 258-264.  [index] and [unitLength] are in bits.  Copying from
    beyond the end of the unit is undefined behaviour.  A packet that fails makes the function return
    EXIT_FAILURE, which is 1: the boolean tells whether the loop ended normally. *)
Fixpoint readPackets (n fuel : nat) (unit : bits) (index unitLength : Z) (r : sreader) (crc : crc_t)
  : outcome (bool * sreader * crc_t) :=
  match n with
  | O => NoFuel
  | S n' =>
      if index <? unitLength then
        do '(ok, r, crc, len) <- readMIHSPacket fuel (skipn (Z.to_nat index) unit) r crc;
        if ok then
          let index := index + len + 24 in
          if vec_size unit <? index then UB else readPackets n' fuel unit index unitLength r crc
        else Ok (false, r, crc)
      else Ok (true, r, crc)
  end.
(** readMIHSUnit: IOStream.cpp 242-267.  Always returns true (EXIT_FAILURE converts to true); the boolean
    returned here is false when the unit was abandoned because a packet failed.  [LENGTH * 8] is an
    [int] product: overflow is undefined behaviour.  Each packet takes at least 24 bits, so the fuel of
    the loop suffices. *)
Definition readMIHSUnit (fuel : nat) (unit : bits) (r : sreader) (crc : crc_t) : outcome (bool * sreader * crc_t) :=
  do '(_, i) <- readUInt unit 0 6;
  do '(sync, i) <- readUInt unit i 2;
  let wait := if sr_wait r && (sync =? 0) then false else sr_wait r in
  do '(_, i) <- readUInt unit i 4;
  do '(duration, i) <- readUInt unit i 24;
  do '(len, i) <- readUInt unit i 32;
  if (len * 8 >=? 2 ^ 31) || (len * 8 <? - 2 ^ 31) || (length unit <? 72)%nat then UB
  else
    let r := SReader (sr_haptic r) (sr_bands r) (sr_time r) (sr_timescale r) duration wait in
    do '(ok, r, crc) <- readPackets (S (length unit)) fuel unit 72 (len * 8) r crc;
    if ok then
      Ok (true, SReader (sr_haptic r) (sr_bands r) (to_unsigned 32 (sr_time r + sr_duration r)) (sr_timescale r)
                  (sr_duration r) (sr_wait r), crc)
    else Ok (false, r, crc).

(** *** Reading files *)

(** loadFile: IOStream.cpp 85-124: the units of a file.  [byteCount] is an [unsigned int].  A negative
    number of bytes to read makes [std::vector<char>(n)] throw.  Each iteration adds at least 9 (modulo
    2^32) to [byteCount]; [fuel] bounds the number of iterations. *)
Fixpoint loadUnits (fuel : nat) (file : list Z) (byteCount length : Z) : outcome (list bits) :=
  match fuel with
  | O => NoFuel
  | S fuel' =>
      if byteCount <? length then
        let '(header, file) := readNBytes file 9 in
        do '(bytesToRead, _) <- readUInt header 36 32;
        if bytesToRead <? 0 then Throw
        else
          let '(payload, file) := readNBytes file (Z.to_nat bytesToRead) in
          do rest <- loadUnits fuel' file (to_unsigned 32 (byteCount + 9 + bytesToRead)) length;
          Ok ((header ++ payload) :: rest)
      else Ok []
  end.
Definition loadFile (file : list Z) : outcome (list bits) :=
  loadUnits (S (length file)) file 0 (Z.of_nat (length file)).

(** Types/include/Haptics.h 93-101: the default constructed experience; "Main" is the profile. *)
Definition haptics0 : haptics := Haptics [] [77; 97; 105; 110] 1 [] [] [] [] (Some 1000) [].
(** initializeStream: IOStream.cpp 459-465. *)
Definition initializeStream : sreader := SReader haptics0 [] 0 1000 0 false.
(** The loop of readFile: IOStream.cpp 69-79; [all] is the whole [bitstream]. *)
Fixpoint readUnits (fuel : nat) (all us : list bits) (r : sreader) (crc : crc_t) : outcome sreader :=
  match us with
  | [] => Ok r
  | u :: rest =>
      do '(_, r, crc) <- readMIHSUnit fuel u r crc;
      if negb (nbPackets crc =? 0) then
        do '(ok, crc) <- checkCRC all crc;
        readUnits fuel all rest (if ok then r else set_wait true r) crc
      else readUnits fuel all rest r crc
  end.
(** readFile: IOStream.cpp 63-83: the experience read; the function always returns true. *)
Definition readStream (fuel : nat) (file : list Z) : outcome haptics :=
  do us <- loadFile file;
  do r <- readUnits fuel us us initializeStream (Crc 0 0 0);
  Ok (set_timescale (sr_timescale r) (sr_haptic r)).
(** The result and the experience of readFile: IOStream.cpp 63-83.  [None]: the file cannot be opened; the
    result of loadFile is not looked at.  Line 71 cannot be taken: readMIHSUnit always returns true. *)
Definition readFile (fuel : nat) (file : option (list Z)) : outcome (bool * haptics) :=
  do us <- match file with Some f => loadFile f | None => Ok [] end;
  do r <- readUnits fuel us us initializeStream (Crc 0 0 0);
  Ok (true, set_timescale (sr_timescale r) (sr_haptic r)).
