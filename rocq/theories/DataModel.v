(** Data packets of a stream (source/IOHaptics/src/IOStream.cpp 1854-2254 and 2391-2793): cutting bands into
    packets, and reading the packets back.  No proofs in this file.

    [int] additions of times and positions are not wrapped (no signed overflow: times and positions
    are below 2^30). *)
From Verif Require Import Base BitsModel FloatBase FloatModel TypesModel SemanticModel MetaModel BandModel.

Definition RAU := 0.
Definition DAU := 1.

(** *** Flattening of composite effects *)

(** linearizeTimelineEffect: IOStream.cpp 1901-1911: the effects appended to [effects]. *)
Fixpoint linearizeTimelineEffect (e : effect) : list effect :=
  match e with
  | Effect _ _ _ _ _ _ _ timeline _ _ =>
      (fix go (l : list effect) : list effect :=
         match l with
         | [] => []
         | x :: r => (if e_type x =? CompositeE then linearizeTimelineEffect x else [x]) ++ go r
         end) timeline
  end.
(** linearizeTimeline: IOStream.cpp 1883-1900. *)
Definition linearizeTimeline (b : band) : band :=
  let effects := flat_map (fun e => if e_type e =? CompositeE then linearizeTimelineEffect e else [e])
                          (b_effects b) in
  fold_left (fun b e => addEffect e b) effects (set_effects [] b).

(** *** Effect ids *)

(** getEffectsId: IOStream.cpp 2758-2776. *)
Definition getEffectsId (h : haptics) : list Z :=
  flat_map (fun p => flat_map (fun c => flat_map (fun b =>
     filter (fun i => negb (i =? -1)) (map e_id (b_effects b))) (c_bands c)) (p_channels p)) (h_perceptions h).
(** [*max_element(...)] of a non-empty vector. *)
Fixpoint max_element (x : Z) (l : list Z) : Z :=
  match l with [] => x | y :: r => max_element (if x <? y then y else x) r end.
(** getNextEffectId: IOStream.cpp 2786-2793 (and 1982-1986). *)
Definition nextEffectId (ids : list Z) : Z :=
  match ids with [] => 0 | x :: r => max_element x r + 1 end.

(** *** Keyframes *)

(** writeTransient: IOStream.cpp 2525-2539.  [value()] throws when the optional is empty. *)
Definition writeTransient (k : keyframe) : outcome bits :=
  match k_amp k, k_pos k, k_freq k with
  | Some a, Some p, Some f =>
      do x <- writeAmplitude a; Ok (x ++ writeNBits 16 p ++ writeNBits 16 f)
  | _, _, _ => Throw
  end.
(** writeCurve: IOStream.cpp 2554-2563. *)
Definition writeCurve (k : keyframe) : outcome bits :=
  match k_amp k, k_pos k with
  | Some a, Some p => do x <- writeAmplitude a; Ok (x ++ writeNBits 16 p)
  | _, _ => Throw
  end.
(** writeVectorial: IOStream.cpp 2576-2600. *)
Definition writeVectorial (k : keyframe) : outcome bits :=
  let mask := (if has (k_amp k) then 1 else 0) + (if has (k_freq k) then 2 else 0) in
  do x <- match k_amp k with Some a => writeAmplitude a | None => Ok [] end;
  match k_pos k with
  | None => Throw
  | Some p => Ok (writeNBits 2 mask ++ x ++ writeNBits 16 p
                  ++ match k_freq k with Some f => writeNBits 16 f | None => [] end)
  end.
(** writeKeyframe: IOStream.cpp 2499-2510 (the result is ignored by the caller). *)
Definition writeKeyframe (bandType : Z) (k : keyframe) : outcome bits :=
  if bandType =? TransientB then writeTransient k
  else if bandType =? CurveB then writeCurve k
  else if bandType =? VectorialB then writeVectorial k
  else Ok [].

Definition readAmplitude (bs : bits) (i : nat) : outcome (f32 * nat) :=
  readFloatBits bs i 8 (Bopp MAX_AMPLITUDE) MAX_AMPLITUDE.
(** readTransient: IOStream.cpp 2540-2553. *)
Definition readTransient (bs : bits) (i : nat) : outcome (keyframe * nat) :=
  do '(a, i) <- readAmplitude bs i;
  do '(p, i) <- readUInt bs i 16;
  do '(f, i) <- readUInt bs i 16;
  Ok (Keyframe (Some p) (Some a) (Some f), i).
(** readCurve: IOStream.cpp 2564-2574. *)
Definition readCurve (bs : bits) (i : nat) : outcome (keyframe * nat) :=
  do '(a, i) <- readAmplitude bs i;
  do '(p, i) <- readUInt bs i 16;
  Ok (Keyframe (Some p) (Some a) None, i).
(** readVectorial: IOStream.cpp 2602-2622. *)
Definition readVectorial (bs : bits) (i : nat) : outcome (keyframe * nat) :=
  do '(mask, i) <- readUInt bs i 2;
  do '(a, i) <- (if Z.testbit mask 0 then do '(a, i) <- readAmplitude bs i; Ok (Some a, i) else Ok (None, i));
  do '(p, i) <- readUInt bs i 16;
  do '(f, i) <- (if Z.testbit mask 1 then do '(f, i) <- readUInt bs i 16; Ok (Some f, i) else Ok (None, i));
  Ok (Keyframe (Some p) a f, i).
(** readKeyframe: IOStream.cpp 2511-2523 ([None]: false, another band type). *)
Definition readKeyframe (bandType : Z) : option (bits -> nat -> outcome (keyframe * nat)) :=
  if bandType =? TransientB then Some readTransient
  else if bandType =? CurveB then Some readCurve
  else if bandType =? VectorialB then Some readVectorial
  else None.

(** *** Cutting a band into packets *)

(** writeEffectBasis: IOStream.cpp 2451-2476: the loop over the keyframes, [j] is the index and [first] is
    [firstKf].  Returns the result, the number of keyframes written, [rau] and the bits.  (The test
    on the last index in the first branch returns what the end of the loop returns.) *)
Fixpoint writeEffectBasis_loop (bandType time pd tsFX : Z) (kfs : list keyframe) (j : nat) (first rau : bool)
  : outcome (bool * Z * bool * bits) :=
  match kfs with
  | [] => Ok (true, 0, rau, [])
  | k :: r =>
      match k_pos k with
      | None => Throw
      | Some p =>
          let currentTime := p + tsFX in
          if (currentTime <? time + pd) && (currentTime >=? time) then
            let rau' := if first then (if Nat.eqb j 0 then rau else false) else rau in
            do b <- writeKeyframe bandType k;
            do '(res, n, ra, bs) <- writeEffectBasis_loop bandType time pd tsFX r (S j) false rau';
            Ok (res, n + 1, ra, b ++ bs)
          else if currentTime >=? time + pd then Ok (false, 0, rau, [])
          else writeEffectBasis_loop bandType time pd tsFX r (S j) first rau
      end
  end.
Definition writeEffectBasis (bandType time pd : Z) (e : effect) : outcome (bool * Z * bool * bits) :=
  writeEffectBasis_loop bandType time pd (e_pos e) (e_kfs e) 0 true true.

(** An effect of the packet under construction: the effect (swriter.effects), its number of keyframes
    (swriter.keyframesCount) and its keyframe bits (bufPacketBitstream). *)
Record fragment := Fragment { fr_effect : effect; fr_count : Z; fr_bits : bits }.

(** createPayloadPacket: IOStream.cpp 1974-2027.  Returns the result, the fragments of the packet,
    [swriter.auType], [swriter.effectsId] and the effects of the band (ids are assigned in place). *)
Fixpoint createPayloadPacket (bandType time pd : Z) (l : list effect) (ids : list Z) (au : Z)
  : outcome (bool * list fragment * Z * list Z * list effect) :=
  match l with
  | [] => Ok (true, [], au, ids, [])
  | e0 :: r =>
      let '(e, ids) := if e_id e0 =? -1
                       then let i := nextEffectId ids in (set_id i e0, ids ++ [i])
                       else (e0, ids) in
      if e_type e =? BasisE then
        do '(endEffect, count, isRAU, b) <- writeEffectBasis bandType time pd e;
        let frs := if count >? 0 then [Fragment e count b] else [] in
        let au := if count >? 0 then (if isRAU then RAU else DAU) else au in
        if endEffect then
          do '(res, frs', au, ids, r') <- createPayloadPacket bandType time pd r ids au;
          Ok (res, frs ++ frs', au, ids, e :: r')
        else Ok (false, frs, au, ids, e :: r)
      else if e_type e =? ReferenceE then
        if (e_pos e >=? time) && (e_pos e <? time + pd) then
          do '(res, frs', au, ids, r') <- createPayloadPacket bandType time pd r ids RAU;
          Ok (res, Fragment e 0 [] :: frs', au, ids, e :: r')
        else if e_pos e >? time + pd then Ok (false, [], au, ids, e :: r)
        else
          do '(res, frs', au, ids, r') <- createPayloadPacket bandType time pd r ids au;
          Ok (res, frs', au, ids, e :: r')
      else
        do '(res, frs', au, ids, r') <- createPayloadPacket bandType time pd r ids au;
        Ok (res, frs', au, ids, e :: r')
  end.

(** The ids a data packet carries: swriter.perception, swriter.channel and swriter.bandStream. *)
Record address := Address { ad_perception : Z; ad_channel : Z; ad_band : Z }.

(** writeEffectHeader: IOStream.cpp 2029-2050. *)
Definition writeEffectHeader (time au : Z) (ad : address) : bits :=
  writeNBits 32 time ++ writeNBits 1 au ++ writeNBits 8 (ad_perception ad) ++ writeNBits 16 (ad_channel ad)
  ++ writeNBits 8 (ad_band ad).

(** One effect of writePayloadPacket: IOStream.cpp 2098-2142. *)
Definition writeFragment (bandType time : Z) (fr : fragment) : outcome bits :=
  let e := fr_effect fr in
  do basis <- (if e_type e =? BasisE then
                 do sem <- writeSemantic (e_semantic e);
                 do ph <- (if bandType =? VectorialB then
                             do p <- writeFloatNBits u16 16 (value_or (e_phase e) f32_0) f32_0 MAX_PHASE;
                             Ok (p ++ writeNBits 4 (value_or (e_base e) 0))
                           else Ok []);
                 Ok (sem ++ writeNBits 16 (fr_count fr) ++ ph)
               else Ok []);
  Ok (writeNBits 16 (e_id e) ++ writeNBits 2 (e_type e) ++ writeNBits 25 (e_pos e - time) ++ basis ++ fr_bits fr).
(** writePayloadPacket: IOStream.cpp 2091-2145. *)
Definition writePayloadPacket (bandType time : Z) (frs : list fragment) : outcome bits :=
  do b <- writeMany (writeFragment bandType time) frs;
  Ok (writeNBits 16 (vec_size frs) ++ b).

(** The packet pushed by packetizeBand for the fragments, if there are any: IOStream.cpp 1934-1938 and
    1945-1949. *)
Definition emitPacket (bandType time au : Z) (ad : address) (frs : list fragment) : outcome (list bits) :=
  match frs with
  | [] => Ok []
  | _ => do b <- writePayloadPacket bandType time frs; Ok [writeEffectHeader time au ad ++ b]
  end.

(** The loop of packetizeBand: IOStream.cpp 1932-1949.  Returns the packets, [swriter.auType] and
    [swriter.effectsId].  [fuel] bounds the number of iterations. *)
Fixpoint packetizeLoop (fuel : nat) (bandType pd : Z) (ad : address) (time : Z) (effects : list effect)
    (ids : list Z) (au : Z) : outcome (list bits * Z * list Z) :=
  match fuel with
  | O => NoFuel
  | S fuel' =>
      do '(res, frs, au, ids, effects) <- createPayloadPacket bandType time pd effects ids au;
      do out <- emitPacket bandType time au ad frs;
      if res then Ok (out, au, ids)
      else
        do '(rest, au, ids) <- packetizeLoop fuel' bandType pd ad (time + pd) effects ids au;
        Ok (out ++ rest, au, ids)
  end.

(** createWaveletPayload: IOStream.cpp 1953-1973.  [getEffectAt] throws on an invalid index. *)
Fixpoint createWaveletLoop (fuel : nat) (effects : list effect) (nbWaveBlock i : Z) : outcome (list bits) :=
  match fuel with
  | O => NoFuel
  | S fuel' =>
      if i <? vec_size effects then
        do e <- vec_at effects i;
        let overflow := vec_size effects - (i + nbWaveBlock) in
        let nb := if overflow <? 0 then vec_size effects - i else nbWaveBlock in
        do rest <- createWaveletLoop fuel' effects nb (i + nb);
        Ok (writeWaveletEffect e :: rest)
      else Ok []
  end.
Definition createWaveletPayload (fuel : nat) (pd : Z) (b : band) : outcome (list bits) :=
  match b_block b with
  | None => Ok []
  | Some bl => if bl =? 0 then UB else createWaveletLoop fuel (b_effects b) (Z.quot pd bl) 0
  end.
(** writeWaveletPayloadPacket: IOStream.cpp 2052-2089, with the id given. *)
Definition writeWaveletPayloadPacket (id : Z) (semantic : option str) (b : bits) : outcome bits :=
  do sem <- writeSemantic semantic;
  Ok (writeNBits 16 1 ++ writeNBits 16 id ++ writeNBits 2 BasisE ++ sem ++ b).
(** The loop of IOStream.cpp 1923-1930. *)
Fixpoint waveletPackets (ad : address) (b : band) (bufs : list bits) (time : Z) (ids : list Z)
  : outcome (list bits * list Z) :=
  match bufs with
  | [] => Ok ([], ids)
  | x :: r =>
      let id := nextEffectId ids in
      do e <- vec_at (b_effects b) 0;
      do p <- writeWaveletPayloadPacket id (e_semantic e) x;
      do '(rest, ids') <- waveletPackets ad b r (time + value_or (b_block b) 0) (ids ++ [id]);
      Ok ((writeEffectHeader time RAU ad ++ p) :: rest, ids')
  end.

(** packetizeBand: IOStream.cpp 1913-1951.  Returns the packets, [swriter.auType], [swriter.effectsId]. *)
Definition packetizeBand (fuel : nat) (pd : Z) (ad : address) (b : band) (ids : list Z) (au : Z)
  : outcome (list bits * Z * list Z) :=
  if b_type b =? WaveletB then
    do bufs <- createWaveletPayload fuel pd b;
    do '(out, ids) <- waveletPackets ad b bufs 0 ids;
    Ok (out, (match bufs with [] => au | _ => RAU end), ids)
  else packetizeLoop fuel (b_type b) pd ad 0 (b_effects b) ids au.

(** writeSpatialData: IOStream.cpp 2147-2161: the packet appended. *)
Definition writeSpatialData (fuel : nat) (ad : address) (b : band) : outcome bits :=
  do body <- writeBandBody fuel b;
  Ok (writeEffectHeader 0 RAU ad ++ writeNBits 16 (vec_size (b_effects b)) ++ body).

(** Types/include/Perception.h 46-61: the modalities of IOStream.cpp 2173-2175. *)
Definition VibrotactileTextureM := 10.
Definition StiffnessM := 11.
Definition FrictionM := 12.
Definition is_spatial (modality : Z) : bool :=
  (modality =? VibrotactileTextureM) || (modality =? StiffnessM) || (modality =? FrictionM).

(** writeData: IOStream.cpp 2162-2196, the three loops over the bands.  The state is [bandBitstream] (not
    cleared after a spatial band), [bandId], [swriter.effectsId] and [swriter.auType]; the result is
    [expBitstream]. *)
Record dstate := DState { ds_buf : list bits; ds_band : Z; ds_ids : list Z; ds_au : Z }.
Definition writeBandData (fuel : nat) (pd : Z) (spatial : bool) (perceptionId channelId : Z) (b : band) (st : dstate)
  : outcome (list bits * dstate) :=
  let ad := Address perceptionId channelId (ds_band st) in
  if spatial then
    do p <- writeSpatialData fuel ad b;
    let buf := ds_buf st ++ [p] in
    Ok (buf, DState buf (ds_band st + 1) (ds_ids st) RAU)
  else
    do '(out, au, ids) <- packetizeBand fuel pd ad (linearizeTimeline b) (ds_ids st) (ds_au st);
    Ok (ds_buf st ++ out, DState [] (ds_band st + 1) ids au).
(** A loop threading a state and collecting results. *)
Fixpoint foldOut {A B S} (f : A -> S -> outcome (list B * S)) (l : list A) (st : S) : outcome (list B * S) :=
  match l with
  | [] => Ok ([], st)
  | x :: r =>
      do '(a, st) <- f x st;
      do '(b, st) <- foldOut f r st;
      Ok (a ++ b, st)
  end.
Definition writeAllData (fuel : nat) (pd : Z) (h : haptics) : outcome (list (list bits)) :=
  do '(out, _) <- foldOut (fun p st => foldOut (fun c st => foldOut (fun b st =>
       do '(x, st) <- writeBandData fuel pd (is_spatial (p_modality p)) (p_id p) (c_id c) b st; Ok ([x], st))
         (c_bands c) st) (p_channels p) st) (h_perceptions h) (DState [] 0 (getEffectsId h) RAU);
  Ok out.

(** readPacketTS: IOStream.cpp 760-770.  [std::stoi] throws when the value does not fit an [int]. *)
Definition readPacketTS (bs : bits) : outcome Z :=
  do s <- slice bs 0 32;
  let v := bits_val s in
  if 2 ^ 31 <=? v then Throw else Ok v.

(** sortPacket: IOStream.cpp 1854-1882.  The time of the inserted packet is read in each iteration; an
    insertion into an empty list reads no time. *)
Fixpoint insertPacket (p : bits) (out : list bits) : outcome (list bits) :=
  match out with
  | [] => Ok [p]
  | q :: r =>
      do tq <- readPacketTS q;
      do tp <- readPacketTS p;
      if tq >? tp then Ok (p :: q :: r)
      else do r' <- insertPacket p r; Ok (q :: r')
  end.
Fixpoint insertPackets (l : list bits) (out : list bits) : outcome (list bits) :=
  match l with
  | [] => Ok out
  | p :: r => do out <- insertPacket p out; insertPackets r out
  end.
Definition sortPacket (bands : list (list bits)) (output : list bits) : outcome (list bits) :=
  insertPackets (concat bands) output.

(** writeData: IOStream.cpp 2162-2199. *)
Definition writeData (fuel : nat) (pd : Z) (h : haptics) : outcome (list bits) :=
  do exp <- writeAllData fuel pd h;
  sortPacket exp [].

(** *** Reading *)

(** readEffectBasis: IOStream.cpp 2478-2497, and the part of readEffect for basis effects (2431-2446).
    [None]: false.  The keyframes are read even for an unknown band type only if there are some. *)
Definition readEffectBasis (bandType id type pos : Z) (bs : bits) (i : nat) : outcome (option effect * nat) :=
  do '(semantic, i) <- readSemantic bs i;
  do '(kfCount, i) <- readUInt bs i 16;
  do '((phase, base), i) <-
    (if bandType =? VectorialB then
       do '(ph, i) <- readFloatBits bs i 16 f32_0 MAX_PHASE;
       do '(b, i) <- readUInt bs i 4;
       Ok ((Some ph, Some b), i)
     else Ok ((None, None), i));
  match readKeyframe bandType with
  | Some r =>
      do '(kfs, i) <- readMany r (Z.to_nat kfCount) bs i;
      Ok (Some (Effect id pos phase semantic kfs base type [] [] []), i)
  | None => if kfCount >? 0 then Ok (None, i) else Ok (Some (Effect id pos phase semantic [] base type [] [] []), i)
  end.
(** readEffect: IOStream.cpp 2419-2449. *)
Definition readEffect (bandType : Z) (bs : bits) (i : nat) : outcome (option effect * nat) :=
  do '(id, i) <- readUInt bs i 16;
  do '(type, i) <- readUInt bs i 2;
  do '(pos, i) <- readInt bs i 25;
  if type =? BasisE then readEffectBasis bandType id type pos bs i
  else Ok (Some (Effect id pos None None [] None type [] [] []), i).
(** readListObject for effects: IOStream.cpp 2692-2705. *)
Fixpoint readEffects (bandType : Z) (n : nat) (bs : bits) (i : nat) : outcome (option (list effect) * nat) :=
  match n with
  | O => Ok (Some [], i)
  | S n' =>
      do '(e, i) <- readEffect bandType bs i;
      match e with
      | None => Ok (None, i)
      | Some e =>
          do '(l, i) <- readEffects bandType n' bs i;
          Ok (match l with Some l => Some (e :: l) | None => None end, i)
      end
  end.
(** addTimestampEffect: IOStream.cpp 2750-2756. *)
Definition addTimestampEffect (time : Z) (l : list effect) : list effect :=
  map (fun e => set_pos (e_pos e + time) e) l.

(** IOBinaryBands::readWaveletEffect on a bit vector (IOBinaryBands.cpp 371-382) and readWaveletEffect of
    IOStream.cpp 2391-2417.  [band.getBlockLength().value()] throws when absent; a division by an upper
    limit of 0 is undefined; the product is an [int] product (no overflow assumed). *)
Definition readWaveletEffect (timescale : Z) (b : band) (bs : bits) (i : nat) : outcome (effect * nat) :=
  do '(id, i) <- readUInt bs i 16;
  do '(type, i) <- readUInt bs i 2;
  do '(semantic, i) <- readSemantic bs i;
  match b_block b with
  | None => Throw
  | Some bl =>
      if b_up b =? 0 then UB
      else
        let pos := Z.quot (to_signed 32 timescale * bl * vec_size (b_effects b)) (b_up b) in
        do '(size, i) <- readUInt bs i 16;
        do '(bytes, i) <- readMany (fun bs i => readUInt bs i 8) (Z.to_nat size) bs i;
        Ok (Effect id pos None semantic [] None type [] [] bytes, i)
  end.

(** addEffectToHaptic: IOStream.cpp 2719-2749, on the band addressed. *)
Fixpoint append_to_id (e : effect) (l : list effect) : option (list effect) :=
  match l with
  | [] => None
  | x :: r =>
      if e_id e =? e_id x then Some (set_kfs (e_kfs x ++ e_kfs e) x :: r)
      else match append_to_id e r with Some r' => Some (x :: r') | None => None end
  end.
Definition addEffectToBand (e : effect) (b : band) : band :=
  if e_type e =? BasisE then
    match append_to_id e (b_effects b) with
    | Some l => set_effects l b
    | None => addEffect e b
    end
  else addEffect e b.
Definition addEffectsToBand (l : list effect) (b : band) : band :=
  fold_left (fun b e => addEffectToBand e b) l b.
