(** Effects of a band in the binary file format (source/IOHaptics/src/IOBinaryBands.cpp 163-490).
    No proofs in this file.  [uint16_t] conversions before a 16-bit field are absorbed by
    [writeNBits 16]. *)
From Verif Require Import Base BitsModel FloatBase FloatModel TypesModel SemanticModel MetaModel.

(** The amplitude and the position of the keyframes: IOBinaryBands.cpp 231-243, 275-286.  Absent values
    are written as 0. *)
Definition writeAmplitude (a : f32) : outcome bits := writeFloatNBits u8 8 a (Bopp MAX_AMPLITUDE) MAX_AMPLITUDE.

(** One keyframe of writeTransientEffect: IOBinaryBands.cpp 229-249. *)
Definition writeTransientKeyframe (k : keyframe) : outcome bits :=
  do a <- writeAmplitude (value_or (k_amp k) f32_0);
  Ok (a ++ writeNBits 16 (value_or (k_pos k) 0) ++ writeNBits 16 (value_or (k_freq k) 0)).
(** One keyframe of writeCurveEffect: IOBinaryBands.cpp 273-287. *)
Definition writeCurveKeyframe (k : keyframe) : outcome bits :=
  do a <- writeAmplitude (value_or (k_amp k) f32_0);
  Ok (a ++ writeNBits 16 (value_or (k_pos k) 0)).
(** One keyframe of writeVectorialEffect: IOBinaryBands.cpp 332-356 (KEYFRAME_MASK = 3 bits).  Throws when
    the position is absent. *)
Definition writeVectorialKeyframe (k : keyframe) : outcome bits :=
  let mask := (if has (k_amp k) then 1 else 0) + (if has (k_freq k) then 2 else 0) in
  do a <- match k_amp k with Some a => writeAmplitude a | None => Ok [] end;
  match k_pos k with
  | None => Throw
  | Some p => Ok (writeNBits 3 mask ++ a ++ writeNBits 16 p
                  ++ match k_freq k with Some f => writeNBits 16 f | None => [] end)
  end.

(** The first [n] elements written one after the other (a loop up to a 16-bit count). *)
Definition writeCounted {A} (w : A -> outcome bits) (l : list A) : outcome bits :=
  let n := to_unsigned 16 (vec_size l) in
  do b <- writeMany w (firstn (Z.to_nat n) l);
  Ok (writeNBits 16 n ++ b).

(** writeTransientEffect: IOBinaryBands.cpp 224-253. *)
Definition writeTransientEffect (e : effect) : outcome bits := writeCounted writeTransientKeyframe (e_kfs e).
(** writeCurveEffect: IOBinaryBands.cpp 269-291. *)
Definition writeCurveEffect (e : effect) : outcome bits := writeCounted writeCurveKeyframe (e_kfs e).
(** writeVectorialEffect: IOBinaryBands.cpp 323-360. *)
Definition writeVectorialEffect (e : effect) : outcome bits :=
  do ph <- writeFloatNBits u16 16 (value_or (e_phase e) f32_0) f32_0 MAX_PHASE;
  do kfs <- writeCounted writeVectorialKeyframe (e_kfs e);
  Ok (ph ++ writeNBits 4 (value_or (e_base e) 0) ++ kfs).
(** writeWaveletEffect: IOBinaryBands.cpp 384-392: the 16-bit size, then all the bytes. *)
Definition writeWaveletEffect (e : effect) : bits :=
  writeNBits 16 (vec_size (e_wavelet e)) ++ flat_map byte_bits (e_wavelet e).
(** writeReferenceEffect: IOBinaryBands.cpp 408-412. *)
Definition writeReferenceEffect (e : effect) : bits := writeNBits 16 (e_id e).

(** The switch on the band type: IOBinaryBands.cpp 180-203 and 467-486.  [None]: another type. *)
Definition writeBasisEffect (bandType : Z) (e : effect) : option (outcome bits) :=
  if bandType =? TransientB then Some (writeTransientEffect e)
  else if bandType =? CurveB then Some (writeCurveEffect e)
  else if bandType =? VectorialB then Some (writeVectorialEffect e)
  else if bandType =? WaveletB then Some (Ok (writeWaveletEffect e))
  else None.

(** writeTimelineEffect: IOBinaryBands.cpp 454-490.  Inside the loop the code dispatches on, and passes
    on, [effect] (the composite effect) instead of [timelineEffect]: it calls itself with the same
    arguments.  [fuel] bounds the depth of the recursion; [loop] is the loop over the timeline.  The
    function is only called for composite effects, so only the branch of line 464 is taken. *)
Fixpoint writeTimelineEffect (fuel : nat) (e : effect) : outcome bits :=
  match fuel with
  | O => NoFuel
  | S fuel' =>
      let count := to_unsigned 16 (vec_size (e_timeline e)) in
      do b <- writeMany (fun te =>
                do inner <- writeTimelineEffect fuel' e;
                Ok (writeNBits 2 (e_type te) ++ writeNBits 25 (e_pos te) ++ inner))
              (firstn (Z.to_nat count) (e_timeline e));
      Ok (writeNBits 16 count ++ b)
  end.

(** One effect of writeBandBody: IOBinaryBands.cpp 164-203.  The boolean is false when the function
    returns (an unknown band type). *)
Definition writeBandEffect (fuel : nat) (b : band) (e : effect) : outcome (bits * bool) :=
  let head := writeNBits 2 (e_type e)
              ++ (if negb (e_type e =? BasisE) || negb (b_type b =? WaveletB)
                  then writeNBits 25 (e_pos e) else []) in
  if e_type e =? ReferenceE then Ok (head ++ writeReferenceEffect e, true)
  else if e_type e =? CompositeE then do t <- writeTimelineEffect fuel e; Ok (head ++ t, true)
  else match writeBasisEffect (b_type b) e with
       | Some m => do t <- m; Ok (head ++ t, true)
       | None => Ok (head, false)
       end.
Fixpoint writeBandEffects (fuel : nat) (b : band) (l : list effect) : outcome bits :=
  match l with
  | [] => Ok []
  | e :: r =>
      do '(x, continue) <- writeBandEffect fuel b e;
      if continue then do y <- writeBandEffects fuel b r; Ok (x ++ y) else Ok x
  end.
(** writeBandBody: IOBinaryBands.cpp 163-206. *)
Definition writeBandBody (fuel : nat) (b : band) : outcome bits := writeBandEffects fuel b (b_effects b).
