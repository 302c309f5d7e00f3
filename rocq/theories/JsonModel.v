(** Interchange files (.hjif): IOHaptics/src/IOJson.cpp 623-1801 and IOJsonPrimitives.cpp.  No proofs in this file.
    Simplifications: the text of the file is represented by the JSON tree it contains (writing and parsing of text is
    rapidjson); the JSON schema is a parameter (its files are not part of the repository); messages to [std::cerr] are
    dropped.  All [load...] functions return [true] whatever they meet, so that [loadingSuccess] is always [true] and
    no [&&] skips anything: the flag is dropped. *)
From Coq Require Import String.
From Verif Require Import Base BitsModel FloatBase FloatModel TypesModel SemanticModel ConformModel.
Local Open Scope Z_scope.
Notation "x +++ y" := (@List.app _ x y) (at level 60, right associativity).

(** *** JSON values, as in rapidjson *)
Inductive json : Type :=
| JInt (z : Z)               (* a number without fraction and exponent *)
| JDouble (d : f64)          (* any other number *)
| JString (s : str)
| JArr (l : list json)
| JObj (m : list (string * json))
| JOther.                    (* null, true, false *)

(** [FindMember]: the first member with the name. *)
Fixpoint find (k : string) (m : list (string * json)) : option json :=
  match m with [] => None | (k', j) :: m' => if String.eqb k k' then Some j else find k m' end.
(** [operator[]]: a missing member is an assertion failure, and undefined behaviour where assertions are off. *)
Definition member (k : string) (m : list (string * json)) : outcome json :=
  match find k m with Some j => Ok j | None => UB end.
Definition has (k : string) (m : list (string * json)) : bool := is_some (find k m).
(** [IsInt], [IsUint]. *)
Definition int_of (j : json) : option Z :=
  match j with JInt z => if (- 2 ^ 31 <=? z) && (z <? 2 ^ 31) then Some z else None | _ => None end.
Definition uint_of (j : json) : option Z :=
  match j with JInt z => if (0 <=? z) && (z <? 2 ^ 32) then Some z else None | _ => None end.
(** [IsNumber], and [GetFloat], which goes through [double]. *)
Definition float_of (j : json) : option f32 :=
  match j with JInt z => Some (f32_of_f64 (f64_of_Z z)) | JDouble d => Some (f32_of_f64 d) | _ => None end.
(** A [std::string] made from a [const char *] ends before the first null character. *)
Fixpoint cstr (s : str) : str := match s with [] => [] | c :: s' => if c =? 0 then [] else c :: cstr s' end.
Definition text_of (j : json) : option str := match j with JString s => Some (cstr s) | _ => None end.
Definition array_of (j : json) : option (list json) := match j with JArr l => Some l | _ => None end.
(** [GetInt] and the like on a value of another type: as for [operator[]]. *)
Definition get {A} (o : option A) : outcome A := match o with Some x => Ok x | None => UB end.
(** [HasMember(k) && object[k].IsInt()] and then the value; likewise for the others. *)
Definition look {A} (f : json -> option A) (k : string) (m : list (string * json)) : option A :=
  match find k m with Some j => f j | None => None end.

(** *** Names of enumerators: pairs of [std::map]s *)
(** [at]. *)
Fixpoint value_named (t : list (string * Z)) (s : str) : outcome Z :=
  match t with [] => Throw | (n, v) :: t' => if str_eqb s (bytes_of n) then Ok v else value_named t' s end.
Fixpoint name_of (t : list (string * Z)) (v : Z) : outcome str :=
  match t with [] => Throw | (n, v') :: t' => if v =? v' then Ok (bytes_of n) else name_of t' v end.
Definition named (t : list (string * Z)) (o : option str) : outcome (option Z) :=
  match o with Some s => do v <- value_named t s; Ok (Some v) | None => Ok None end.

(** Effect.h 49-74. *)
Definition base_signals : list (string * Z) := [("Sine", 0); ("Square", 1); ("Triangle", 2); ("SawToothUp", 3); ("SawToothDown", 4)]%string.
Definition effect_types : list (string * Z) := [("Basis", 0); ("Reference", 1); ("Composite", 2)]%string.
(** Avatar.h 42-58. *)
Definition avatar_types : list (string * Z) := [("Vibration", 1); ("Pressure", 2); ("Temperature", 3); ("Custom", 0)]%string.
(** Perception.h 46-95: to text, and from text with more names. *)
Definition modalities : list (string * Z) :=
  [("Other", 0); ("Pressure", 1); ("Acceleration", 2); ("Velocity", 3); ("Position", 4); ("Temperature", 5); ("Vibrotactile", 6);
   ("Water", 7); ("Wind", 8); ("Force", 9); ("Vibrotactile Texture", 10); ("Stiffness", 11); ("Friction", 12);
   ("Electrotactile", 13)]%string.
Definition modalities_read : list (string * Z) :=
  [("Other", 0); ("Pressure", 1); ("Acceleration", 2); ("Velocity", 3); ("Position", 4); ("Temperature", 5); ("Vibration", 6);
   ("Vibrotactile", 6); ("Water", 7); ("Wind", 8); ("Kinesthetic", 9); ("Force", 9); ("Vibrotactile Texture", 10);
   ("Texture", 10); ("Stiffness", 11); ("Friction", 12); ("Electrotactile", 13)]%string.
(** ReferenceDevice.h 43-56. *)
Definition actuator_types : list (string * Z) := [("Unknown", 0); ("LRA", 1); ("VCA", 2); ("ERM", 3); ("Piezo", 4)]%string.
(** BandType.h and CurveType.h. *)
Definition band_types : list (string * Z) := [("Transient", 0); ("Curve", 1); ("VectorialWave", 2); ("WaveletWave", 3)]%string.
Definition curve_types : list (string * Z) := [("Unknown", 0); ("Cubic", 1); ("Linear", 2); ("Akima", 3); ("Bezier", 4); ("Bspline", 5)]%string.
(** BodyPartTarget.h 42-173. *)
Definition body_parts : list (string * Z) :=
  [("Unknown", 0); ("All", 1); ("Top", 10); ("Down", 11); ("Right", 12); ("Left", 13); ("Front", 14); ("Back", 15); ("Arm", 20);
   ("Head", 21); ("Chest", 22); ("Waist", 23); ("Leg", 24); ("Upper-arm", 30); ("Forearm", 31); ("Hand", 32); ("Crane", 33);
   ("Neck", 34); ("Thigh", 35); ("Calf", 36); ("Foot", 37); ("Palm", 40); ("Finger", 41); ("Sole", 42); ("Toe", 43);
   ("Thumb", 50); ("Index", 51); ("Middle", 52); ("Ring", 53); ("Pinky", 54); ("Hallux", 55); ("Index-toe", 56);
   ("Middle-toe", 57); ("Ring-toe", 58); ("Pinky-toe", 59); ("First Phalanx", 60); ("Second Phalanx", 61);
   ("Third Phalanx", 62); ("Minus", 254); ("Plus", 255)]%string.

(** *** Base 64 *)
(** [bitset<8>]: the lowest bit first. *)
Definition byte_bits (v : Z) : list Z := map (fun j => if Z.testbit v (Z.of_nat j) then 1 else 0) (seq 0 8).
(** The loop that drops zeros at the end (1694-1700, 1750-1756): it reads [at(-1)] when there is nothing else. *)
Fixpoint drop_zeros (rev : list Z) : list Z := match rev with 0 :: r => drop_zeros r | _ => rev end.
Definition trim (bits : list Z) : outcome (list Z) :=
  match bits with
  | [] => Ok []
  | _ :: _ => match drop_zeros (rev bits) with [] => Throw | r => Ok (rev r) end
  end.
(** 1682-1701: bytes2bits. *)
Definition bytes2bits (bytes : list Z) : outcome (list Z) := trim (flat_map byte_bits bytes).
(** 1703-1719: bits2bytes. *)
Fixpoint bits_byte (bits : list Z) : Z := match bits with [] => 0 | b :: bits' => (if b =? 1 then 1 else 0) + 2 * bits_byte bits' end.
Fixpoint bits2bytes_loop (n : nat) (bits : list Z) : list Z :=
  match n with O => [] | S n' => bits_byte (firstn 8 bits) :: bits2bytes_loop n' (skipn 8 bits) end.
Definition bits2bytes (bits : list Z) : list Z := bits2bytes_loop (Nat.div (length bits + 7) 8) bits.
(** 1738-1748: six bits, the highest first. *)
Fixpoint six_bits (n : nat) (compare temp : Z) : list Z :=
  match n with
  | O => []
  | S n' => if compare <=? temp then 1 :: six_bits n' (Z.shiftr compare 1) (temp - compare) else 0 :: six_bits n' (Z.shiftr compare 1) temp
  end.
Definition value64 (c : Z) : Z :=
  if (65 <=? c) && (c <=? 90) then c - 65 else if (97 <=? c) && (c <=? 122) then c - 71
  else if (48 <=? c) && (c <=? 57) then c + 4 else if c =? 43 then 62 else 63.
(** 1721-1757: base642bits. *)
Definition base642bits (s : str) : outcome (list Z) := trim (flat_map (fun c => six_bits 6 32 (value64 c)) s).
Definition char64 (v : Z) : Z :=
  if (0 <=? v) && (v <=? 25) then v + 65 else if (26 <=? v) && (v <=? 51) then v + 71
  else if (52 <=? v) && (v <=? 61) then v - 4 else if v =? 62 then 43 else 47.
(** 1759-1799: bits2base64; [compare] and [temp] of the current character. *)
Fixpoint bits2base64 (compare temp : Z) (bits : list Z) : str :=
  match bits with
  | [] => if 0 <? temp then [char64 temp] else []
  | b :: bits' =>
      let temp := if b =? 1 then temp + compare else temp in
      let compare := Z.shiftr compare 1 in
      if compare =? 0 then char64 temp :: bits2base64 32 0 bits' else bits2base64 compare temp bits'
  end.

(** *** Reading *)
(** The loop over the elements of an array; an element may be skipped ([continue]). *)
Fixpoint load_all {A B} (load : B -> outcome (option A)) (l : list B) : outcome (list A) :=
  match l with
  | [] => Ok []
  | j :: l' => do x <- load j; do r <- load_all load l'; Ok (match x with Some a => a :: r | None => r end)
  end.

(** 1167-1193: loadKeyframes, one keyframe. *)
Definition loadKeyframe (j : json) : outcome (option keyframe) :=
  match j with
  | JObj m => Ok (Some (Keyframe (look int_of "relative_position" m) (look float_of "amplitude_modulation" m) (look int_of "frequency_modulation" m)))
  | _ => Ok None
  end.
(** 1195-1207: loadBitstream.  The text is taken with its length. *)
Definition loadBitstream (j : json) : outcome (list Z) :=
  match j with
  | JString s => do bits <- base642bits s; Ok (bits2bytes bits)
  | _ => UB
  end.
(** 1209-1220: loadVector; IOJsonPrimitives.cpp 77-91: getVector does the same. *)
Definition loadVector (j : json) : option vector :=
  match j with
  | JObj m =>
      match look int_of "X" m, look int_of "Y" m, look int_of "Z" m with
      | Some x, Some y, Some z => Some (Vec (cast i8 x) (cast i8 y) (cast i8 z))
      | _, _, _ => None
      end
  | _ => None
  end.
Fixpoint filter_map {A B} (f : A -> option B) (l : list A) : list B :=
  match l with [] => [] | x :: l' => match f x with Some y => y :: filter_map f l' | None => filter_map f l' end end.

(** 775-831: loadLibrary, one effect.  For basis and composite effects the id is read without a check. *)
Definition loadLibraryEffect (j : json) : outcome (option effect) :=
  match j with
  | JObj m =>
      match look text_of "effect_type" m with
      | None => Ok None
      | Some ts =>
          do t <- value_named effect_types ts;
          if (t =? ReferenceE) && negb (is_some (look int_of "id" m)) then Ok None
          else if ((t =? ReferenceE) || (t =? BasisE)) && negb (is_some (look int_of "position" m)) then Ok None
          else
            do id <- get (look int_of "id" m);
            do position <- get (look int_of "position" m);
            do base <- named base_signals (look text_of "base_signal" m);
            do kfs <- match find "keyframes" m with
                      | Some k => do l <- get (array_of k); load_all loadKeyframe l
                      | None => Ok []
                      end;
            Ok (Some (Effect id position (look float_of "phase" m) (look text_of "semantic_keywords" m) kfs base t [] [] []))
      end
  | _ => Ok None
  end.
(** 991-1055: loadEffects, one effect; [bt]: the type of the band. *)
Definition loadEffect (bt : Z) (j : json) : outcome (option effect) :=
  match j with
  | JObj m =>
      match look text_of "effect_type" m with
      | None => Ok None
      | Some ts =>
          do t <- value_named effect_types ts;
          if (t =? ReferenceE) && negb (is_some (look int_of "id" m)) then Ok None
          else if ((t =? ReferenceE) || (t =? BasisE)) && negb (is_some (look int_of "position" m)) then Ok None
          else if (t =? BasisE) && (bt =? WaveletB) && negb (has "wavelet_stream" m) then Ok None
          else
            do position <- get (look int_of "position" m);
            do base <- named base_signals (look text_of "base_signal" m);
            do kfs <- match look array_of "keyframes" m with Some l => load_all loadKeyframe l | None => Ok [] end;
            do stream <- match find "wavelet_stream" m with Some s => loadBitstream s | None => Ok [] end;
            Ok (Some (Effect (value_or (look int_of "id" m) (-1)) position (look float_of "phase" m) (look text_of "semantic_keywords" m) kfs
                        base t [] [] stream))
      end
  | _ => Ok None
  end.
(** 933-989: loadBands, one band.  [Band]'s constructor leaves the block length at 0 (Band.h 111). *)
Definition loadBand (j : json) : outcome (option band) :=
  match j with
  | JObj m =>
      match find "band_type" m with
      | Some (JString raw) =>
          if str_eqb raw (bytes_of "WaveletWave") && negb (is_some (look int_of "block_length" m)) then Ok None
          else
            match look int_of "lower_frequency_limit" m, look int_of "upper_frequency_limit" m, look array_of "effects" m with
            | Some low, Some up, Some es =>
                do t <- value_named band_types (cstr raw);
                do curve <- named curve_types (look text_of "curve_type" m);
                let block := if t =? WaveletB then Some (value_or (look int_of "block_length" m) 0) else Some 0 in
                do effects <- load_all (loadEffect t) es;
                Ok (Some (fold_left (fun b e => addEffect e b) effects (Band t curve block low up [] (look int_of "priority" m))))
            | _, _, _ => Ok None
            end
      | _ => Ok None
      end
  | _ => Ok None
  end.
(** 833-931: loadChannels, one channel.  The mask is checked to be a number and read as [unsigned int]. *)
Definition loadChannel (j : json) : outcome (option channel) :=
  match j with
  | JObj m =>
      match look int_of "id" m, look text_of "description" m, look float_of "gain" m, look float_of "mixing_coefficient" m,
            look float_of "body_part_mask" m, look array_of "bands" m with
      | Some id, Some description, Some gain, Some mixing, Some _, Some bs =>
          do mask <- get (look uint_of "body_part_mask" m);
          do body <- match look array_of "body_part_target" m with
                     | Some l => do vs <- load_all (fun s => do v <- value_named body_parts s; Ok (Some v)) (filter_map text_of l); Ok (Some vs)
                     | None => Ok None
                     end;
          do bands <- load_all loadBand bs;
          Ok (Some (Channel id description gain mixing mask
                      (match look array_of "vertices" m with Some l => filter_map int_of l | None => [] end) bands
                      (look int_of "priority" m) (look int_of "reference_device_id" m) (look uint_of "frequency_sampling" m)
                      (look uint_of "sample_count" m)
                      (match find "direction" m with Some v => loadVector v | None => None end)
                      (match find "actuator_resolution" m with Some v => loadVector v | None => None end)
                      body
                      (match look array_of "actuator_target" m with Some l => Some (filter_map loadVector l) | None => None end)))
      | _, _, _, _, _, _ => Ok None
      end
  | _ => Ok None
  end.
(** 1092-1165: loadReferenceDevices, one device. *)
Definition loadDevice (j : json) : outcome (option device) :=
  match j with
  | JObj m =>
      match look int_of "id" m, look text_of "name" m with
      | Some id, Some name =>
          do t <- named actuator_types (look text_of "type" m);
          Ok (Some (Device id name (look uint_of "body_part_mask" m) (look float_of "maximum_frequency" m) (look float_of "minimum_frequency" m)
                      (look float_of "resonance_frequency" m) (look float_of "maximum_amplitude" m) (look float_of "impedance" m)
                      (look float_of "maximum_voltage" m) (look float_of "maximum_current" m) (look float_of "maximum_displacement" m)
                      (look float_of "weight" m) (look float_of "size" m) (look float_of "custom" m) t))
      | _, _ => Ok None
      end
  | _ => Ok None
  end.
(** 1057-1089: loadAvatars, one avatar. *)
Definition loadAvatar (j : json) : outcome (option avatar) :=
  match j with
  | JObj m =>
      match look int_of "id" m, look int_of "lod" m, look text_of "type" m with
      | Some id, Some lod, Some ts =>
          do t <- value_named avatar_types ts;
          Ok (Some (Avatar id lod t (look text_of "mesh" m)))
      | _, _, _ => Ok None
      end
  | _ => Ok None
  end.
(** 746-773: loadSyncs, one synchronisation mark.  The constructor sets the timescale to 1000 (Sync.h 43). *)
Definition loadSync (j : json) : outcome (option sync) :=
  match j with
  | JObj m =>
      match look int_of "timestamp" m with
      | Some t => Ok (Some (Sync t (Some (value_or (look uint_of "timescale" m) 1000))))
      | None => Ok None
      end
  | _ => Ok None
  end.
(** 673-744: loadPerceptions, one perception.  The unit exponents are narrowed to [int8_t]. *)
Definition loadPerception (j : json) : outcome (option perception) :=
  match j with
  | JObj m =>
      match look int_of "id" m, look int_of "avatar_id" m, look text_of "description" m, look text_of "perception_modality" m,
            look array_of "channels" m, look array_of "effect_library" m with
      | Some id, Some avatar, Some description, Some modality, Some cs, Some es =>
          do md <- value_named modalities_read modality;
          do library <- load_all loadLibraryEffect es;
          do channels <- load_all loadChannel cs;
          do devices <- match look array_of "reference_devices" m with Some l => load_all loadDevice l | None => Ok [] end;
          Ok (Some (Perception id avatar description (look int_of "priority" m) (look text_of "effect_semantic_scheme" m) md channels devices
                      (option_map (cast i8) (look int_of "unit_exponent" m)) (option_map (cast i8) (look int_of "perception_unit_exponent" m))
                      library))
      | _, _, _, _, _, _ => Ok None
      end
  | _ => Ok None
  end.
(** 623-671: loadFile.  [None]: the text is not JSON.  [schema]: the check against the schema. *)
Definition loadFile (schema : json -> bool) (file : option json) (h : haptics) : outcome (bool * haptics) :=
  match file with
  | Some (JObj m) =>
      if negb (schema (JObj m)) then Ok (false, h)
      else
        match find "version" m, find "profile" m, find "level" m, find "date" m, find "description" m, find "timescale" m,
              look array_of "perceptions" m, look array_of "avatars" m, look array_of "syncs" m with
        | Some jversion, Some jprofile, Some jlevel, Some jdate, Some jdescription, Some jtimescale, Some ps, Some avs, Some ss =>
            do version <- get (text_of jversion);
            do profile <- get (text_of jprofile);
            do level <- get (uint_of jlevel);
            do date <- get (text_of jdate);
            do description <- get (text_of jdescription);
            let timescale := match uint_of jtimescale with Some t => Some t | None => h_timescale h end in
            do avatars <- load_all loadAvatar avs;
            do perceptions <- load_all loadPerception ps;
            do syncs <- load_all loadSync ss;
            let h' := Haptics version profile (cast u8 level) date description (h_perceptions h +++ perceptions) (h_avatars h +++ avatars)
                        timescale (h_syncs h +++ syncs) in
            do conformant <- checkExperience h';
            Ok (conformant, h')
        | _, _, _, _, _, _, _, _, _ => Ok (false, h)
        end
  | _ => Ok (false, h)
  end.

(** *** Writing *)
Definition opt {A} (k : string) (f : A -> json) (o : option A) : list (string * json) :=
  match o with Some x => [(k, f x)] | None => [] end.
(** [rapidjson::Value(s.c_str(), allocator)]. *)
Definition JText (s : str) : json := JString (cstr s).
Definition JFloat (x : f32) : json := JDouble (f64_of_f32 x).
Fixpoint write_all {A} (f : A -> outcome json) (l : list A) : outcome (list json) :=
  match l with [] => Ok [] | x :: l' => do j <- f x; do r <- write_all f l'; Ok (j :: r) end.
(** [AddMember(k, Value(table.at(x).c_str()))] for an optional enumerator. *)
Definition opt_name (k : string) (t : list (string * Z)) (o : option Z) : outcome (list (string * json)) :=
  match o with Some v => do s <- name_of t v; Ok [(k, JText s)] | None => Ok [] end.

(** 1371-1387, 1567-1585: a keyframe. *)
Definition jsonKeyframe (k : keyframe) : json :=
  JObj (opt "relative_position" JInt (k_pos k) +++ opt "amplitude_modulation" JFloat (k_amp k) +++ opt "frequency_modulation" JInt (k_freq k)).
(** 1674-1680: extractVector. *)
Definition jsonVector (v : vector) : json := JObj [("X", JInt (vx v)); ("Y", JInt (vy v)); ("Z", JInt (vz v))]%string.
(** 1339-1391: extractLibrary, one effect. *)
Definition jsonLibraryEffect (e : effect) : outcome json :=
  do t <- name_of effect_types (e_type e);
  do base <- opt_name "base_signal" base_signals (e_base e);
  Ok (JObj ([("effect_type", JText t); ("id", JInt (e_id e)); ("position", JInt (e_pos e))]%string +++
            opt "phase" JFloat (e_phase e) +++ base +++ opt "semantic_keywords" JText (e_semantic e) +++
            [("keyframes"%string, JArr (map jsonKeyframe (e_kfs e)))])).
(** 1520-1590: an effect of a band; [bt]: the type of the band. *)
Definition jsonEffect (bt : Z) (e : effect) : outcome json :=
  do t <- name_of effect_types (e_type e);
  do more <-
    (if e_type e =? ReferenceE then Ok [("id"%string, JInt (e_id e))]
     else if e_type e =? BasisE then
       do signal <-
         (if (bt =? TransientB) || (bt =? VectorialB) then
            do base <- opt_name "base_signal" base_signals (e_base e);
            Ok (opt "phase" JFloat (e_phase e) +++ base)
          else Ok []);
       do data <-
         (if bt =? WaveletB then
            do bits <- bytes2bits (e_wavelet e);
            Ok [("wavelet_stream"%string, JText (bits2base64 32 0 bits))]
          else Ok [("keyframes"%string, JArr (map jsonKeyframe (e_kfs e)))]);
       Ok (signal +++ data)
     else Ok []);
  Ok (JObj ([("effect_type", JText t); ("position", JInt (e_pos e))]%string +++ opt "semantic_keywords" JText (e_semantic e) +++ more)).
(** 1491-1594: extractBands, one band. *)
Definition jsonBand (b : band) : outcome json :=
  do t <- name_of band_types (b_type b);
  do curve <- (if b_type b =? CurveB then opt_name "curve_type" curve_types (b_curve b) else Ok []);
  do effects <- write_all (jsonEffect (b_type b)) (b_effects b);
  Ok (JObj ([("band_type"%string, JText t)] +++ opt "priority" JInt (b_prio b) +++ curve +++
            (if b_type b =? WaveletB then [("block_length"%string, JInt (value_or (b_block b) 0))] else []) +++
            [("lower_frequency_limit", JInt (b_low b)); ("upper_frequency_limit", JInt (b_up b)); ("effects", JArr effects)]%string)).
(** 1414-1489: extractChannels, one channel. *)
Definition jsonChannel (c : channel) : outcome json :=
  do body <- match c_body c with
             | Some l => do names <- write_all (fun v => do s <- name_of body_parts v; Ok (JText s)) l; Ok [("body_part_target"%string, JArr names)]
             | None => Ok []
             end;
  do bands <- write_all jsonBand (c_bands c);
  Ok (JObj ([("id", JInt (c_id c)); ("description", JText (c_desc c)); ("gain", JFloat (c_gain c));
             ("mixing_coefficient", JFloat (c_mix c)); ("body_part_mask", JInt (c_mask c))]%string +++
            opt "priority" JInt (c_prio c) +++ opt "reference_device_id" JInt (c_device c) +++ opt "frequency_sampling" JInt (c_freq c) +++
            opt "sample_count" JInt (c_count c) +++ opt "direction" jsonVector (c_dir c) +++ opt "actuator_resolution" jsonVector (c_res c) +++
            body +++ opt "actuator_target" (fun l => JArr (map jsonVector l)) (c_target c) +++
            (match c_vertices c with [] => [] | l => [("vertices"%string, JArr (map JInt l))] end) +++
            [("bands"%string, JArr bands)])).
(** 1596-1672: extractReferenceDevices, one device. *)
Definition jsonDevice (d : device) : outcome json :=
  do t <- opt_name "type" actuator_types (d_type d);
  Ok (JObj ([("id", JInt (d_id d)); ("name", JText (d_name d))]%string +++ opt "body_part_mask" JInt (d_mask d) +++
            opt "maximum_frequency" JFloat (d_maxf d) +++ opt "minimum_frequency" JFloat (d_minf d) +++ opt "resonance_frequency" JFloat (d_resf d) +++
            opt "maximum_amplitude" JFloat (d_maxa d) +++ opt "impedance" JFloat (d_imp d) +++ opt "maximum_voltage" JFloat (d_maxv d) +++
            opt "maximum_current" JFloat (d_maxc d) +++ opt "maximum_displacement" JFloat (d_maxd d) +++ opt "weight" JFloat (d_weight d) +++
            opt "size" JFloat (d_size d) +++ opt "custom" JFloat (d_custom d) +++ t)).
(** 1393-1412: extractAvatars, one avatar. *)
Definition jsonAvatar (a : avatar) : outcome json :=
  do t <- name_of avatar_types (a_type a);
  Ok (JObj ([("id", JInt (a_id a)); ("lod", JInt (a_lod a)); ("type", JText t)]%string +++
            (if a_type a =? 0 then opt "mesh" JText (a_mesh a) else []))).
(** 1324-1337: extractSyncs, one mark. *)
Definition jsonSync (s : sync) : json :=
  JObj ([("timestamp"%string, JInt (s_time s))] +++ opt "timescale" JInt (s_scale s)).
(** 1270-1322: extractPerceptions, one perception. *)
Definition jsonPerception (p : perception) : outcome json :=
  do modality <- name_of modalities (p_modality p);
  do devices <- write_all jsonDevice (p_devices p);
  do library <- write_all jsonLibraryEffect (p_library p);
  do channels <- write_all jsonChannel (p_channels p);
  Ok (JObj ([("id", JInt (p_id p)); ("avatar_id", JInt (p_avatar p)); ("description", JText (p_desc p));
             ("perception_modality", JText modality)]%string +++
            opt "priority" JInt (p_prio p) +++ opt "unit_exponent" JInt (p_uexp p) +++ opt "perception_unit_exponent" JInt (p_puexp p) +++
            [("reference_devices", JArr devices); ("effect_library", JArr library)]%string +++
            opt "effect_semantic_scheme" JText (p_scheme p) +++ [("channels"%string, JArr channels)])).
(** 1222-1268: writeFile, the tree; [now]: the current date. *)
Definition jsonFile (now : str) (h : haptics) : outcome json :=
  do avatars <- write_all jsonAvatar (h_avatars h);
  do perceptions <- write_all jsonPerception (h_perceptions h);
  Ok (JObj ([("version"%string, JText (if versionCheck (h_version h) then h_version h else bytes_of "2023"));
             ("profile"%string, JText (h_profile h)); ("level"%string, JInt (h_level h));
             ("date"%string, JText (if dateCheck (h_date h) then h_date h else now)); ("description"%string, JText (h_desc h))] +++
            opt "timescale" JInt (h_timescale h) +++
            [("avatars", JArr avatars); ("perceptions", JArr perceptions); ("syncs", JArr (map jsonSync (h_syncs h)))]%string)).
(** The writer of rapidjson stops at a number that is infinite or not a number: what is in the file is then not JSON. *)
Fixpoint writable (j : json) : bool :=
  match j with
  | JDouble d => is_finite d
  | JArr l => forallb writable l
  | JObj m => forallb (fun x => writable (snd x)) m
  | _ => true
  end.
Definition writeFile (now : str) (h : haptics) : outcome (option json) :=
  do j <- jsonFile now h; Ok (if writable j then Some j else None).
