(** The data types of an haptic experience and their container operations
    (source/Types/include/*.h, source/Types/src/*.cpp).  No proofs in this file.

    Conventions: an [int], [uint32_t], [int8_t]... field is a [Z]; an enum is its numeric code (the
    code converts integers to enums without a check); a [std::string] is the list of its bytes;
    [std::vector] is [list]; [std::optional] is [option].  An object changed in place becomes a
    function returning the new object.  Vector sizes are assumed to be below 2^31, so that the
    conversion of [size()] to [int] is exact. *)
From Verif Require Import Base BitsModel FloatBase.

Definition str := list Z.

(** Types/include/Keyframe.h 62-66. *)
Record keyframe := Keyframe {
  k_pos : option Z;        (* relativePosition *)
  k_amp : option f32;      (* amplitudeModulation *)
  k_freq : option Z        (* frequencyModulation *)
}.

(** Types/include/Effect.h 137-146.  The timeline of a composite effect holds effects. *)
Inductive effect : Type := Effect {
  e_id : Z;
  e_pos : Z;
  e_phase : option f32;
  e_semantic : option str;
  e_kfs : list keyframe;
  e_base : option Z;
  e_type : Z;
  e_timeline : list effect;
  e_samples : list f64;    (* waveletSamples *)
  e_wavelet : list Z       (* waveletBitstream *)
}.

(** Types/include/Effect.h 49-51. *)
Definition BasisE := 0.
Definition ReferenceE := 1.
Definition CompositeE := 2.

(** Types/include/BandType.h 42-47. *)
Definition TransientB := 0.
Definition CurveB := 1.
Definition VectorialB := 2.
Definition WaveletB := 3.

(** Types/include/CurveType.h 42-49. *)
Definition UnknownC := 0.
Definition CubicC := 1.
Definition LinearC := 2.

(** Types/include/Effect.h 137-146: the default constructed effect. *)
Definition effect0 : effect := Effect (-1) 0 None None [] None BasisE [] [] [].

(** Types/include/Band.h 109-116. *)
Record band := Band {
  b_type : Z;
  b_curve : option Z;
  b_block : option Z;      (* blockLength *)
  b_low : Z;
  b_up : Z;
  b_effects : list effect;
  b_prio : option Z
}.

(** Types/include/Channel.h 125-139. *)
Record channel := Channel {
  c_id : Z;
  c_desc : str;
  c_gain : f32;
  c_mix : f32;
  c_mask : Z;
  c_vertices : list Z;
  c_bands : list band;
  c_prio : option Z;
  c_device : option Z;
  c_freq : option Z;       (* frequencySampling *)
  c_count : option Z;      (* sampleCount *)
  c_dir : option vector;
  c_res : option vector;   (* actuatorResolution *)
  c_body : option (list Z);(* bodyPartTarget *)
  c_target : option (list vector)  (* actuatorTarget *)
}.

(** Types/include/ReferenceDevice.h 95-109. *)
Record device := Device {
  d_id : Z;
  d_name : str;
  d_mask : option Z;
  d_maxf : option f32;
  d_minf : option f32;
  d_resf : option f32;
  d_maxa : option f32;
  d_imp : option f32;
  d_maxv : option f32;
  d_maxc : option f32;
  d_maxd : option f32;
  d_weight : option f32;
  d_size : option f32;
  d_custom : option f32;
  d_type : option Z
}.

(** Types/include/Perception.h 166-176. *)
Record perception := Perception {
  p_id : Z;
  p_avatar : Z;
  p_desc : str;
  p_prio : option Z;
  p_scheme : option str;
  p_modality : Z;
  p_channels : list channel;
  p_devices : list device;
  p_uexp : option Z;
  p_puexp : option Z;
  p_library : list effect
}.

(** Types/include/Avatar.h 76-79. *)
Record avatar := Avatar { a_id : Z; a_lod : Z; a_type : Z; a_mesh : option str }.

(** Types/include/Sync.h 55-56. *)
Record sync := Sync { s_time : Z; s_scale : option Z }.

(** Types/include/Haptics.h 93-101. *)
Record haptics := Haptics {
  h_version : str;
  h_profile : str;
  h_level : Z;
  h_date : str;
  h_desc : str;
  h_perceptions : list perception;
  h_avatars : list avatar;
  h_timescale : option Z;
  h_syncs : list sync
}.

(** Setters used below (Effect.cpp 43-76, Band.cpp, Channel.cpp, Perception.cpp). *)
Definition set_id (i : Z) (e : effect) : effect :=
  Effect i (e_pos e) (e_phase e) (e_semantic e) (e_kfs e) (e_base e) (e_type e) (e_timeline e) (e_samples e) (e_wavelet e).
Definition set_pos (p : Z) (e : effect) : effect :=
  Effect (e_id e) p (e_phase e) (e_semantic e) (e_kfs e) (e_base e) (e_type e) (e_timeline e) (e_samples e) (e_wavelet e).
Definition set_kfs (l : list keyframe) (e : effect) : effect :=
  Effect (e_id e) (e_pos e) (e_phase e) (e_semantic e) l (e_base e) (e_type e) (e_timeline e) (e_samples e) (e_wavelet e).
Definition set_type (t : Z) (e : effect) : effect :=
  Effect (e_id e) (e_pos e) (e_phase e) (e_semantic e) (e_kfs e) (e_base e) t (e_timeline e) (e_samples e) (e_wavelet e).
Definition set_effects (l : list effect) (b : band) : band :=
  Band (b_type b) (b_curve b) (b_block b) (b_low b) (b_up b) l (b_prio b).
Definition set_bands (l : list band) (c : channel) : channel :=
  Channel (c_id c) (c_desc c) (c_gain c) (c_mix c) (c_mask c) (c_vertices c) l (c_prio c) (c_device c)
    (c_freq c) (c_count c) (c_dir c) (c_res c) (c_body c) (c_target c).
Definition set_channels (l : list channel) (p : perception) : perception :=
  Perception (p_id p) (p_avatar p) (p_desc p) (p_prio p) (p_scheme p) (p_modality p) l (p_devices p)
    (p_uexp p) (p_puexp p) (p_library p).
Definition set_library (l : list effect) (p : perception) : perception :=
  Perception (p_id p) (p_avatar p) (p_desc p) (p_prio p) (p_scheme p) (p_modality p) (p_channels p) (p_devices p)
    (p_uexp p) (p_puexp p) l.
Definition set_perceptions (l : list perception) (h : haptics) : haptics :=
  Haptics (h_version h) (h_profile h) (h_level h) (h_date h) (h_desc h) l (h_avatars h) (h_timescale h) (h_syncs h).

(** [v[index] = x] and [v.erase(v.begin() + index)] on a vector, for an index inside the vector
    (callers check the index first; outside, the C++ is undefined behaviour). *)
Fixpoint vec_set {A} (l : list A) (i : nat) (x : A) : list A :=
  match l, i with
  | [], _ => []
  | _ :: r, O => x :: r
  | y :: r, S j => y :: vec_set r j x
  end.
Fixpoint vec_erase {A} (l : list A) (i : nat) : list A :=
  match l, i with
  | [], _ => []
  | _ :: r, O => r
  | y :: r, S j => y :: vec_erase r j
  end.
Definition vec_size {A} (l : list A) : Z := Z.of_nat (length l).

(** Effect.cpp 82-89. *)
Definition replaceKeyframeAt (index : Z) (k : keyframe) (e : effect) : bool * effect :=
  if (index <? 0) || (index >=? vec_size (e_kfs e)) then (false, e)
  else (true, set_kfs (vec_set (e_kfs e) (Z.to_nat index) k) e).

(** Effect.cpp 91-98. *)
Definition removeKeyframeAt (index : Z) (e : effect) : bool * effect :=
  if (index <? 0) || (index >=? vec_size (e_kfs e)) then (false, e)
  else (true, set_kfs (vec_erase (e_kfs e) (Z.to_nat index)) e).

(** Effect.cpp 100-102. *)
Definition addKeyframe (k : keyframe) (e : effect) : effect := set_kfs (e_kfs e ++ [k]) e.

(** [k.getRelativePosition() >= position] and [== position], comparing an [optional<int>] with an
    [int]: an empty optional is smaller than every value. *)
Definition opt_ge (o : option Z) (position : Z) : bool :=
  match o with Some p => p >=? position | None => false end.
Definition opt_is (o : option Z) (position : Z) : bool :=
  match o with Some p => p =? position | None => false end.

(** Effect.cpp 104-134: [addAmplitudeAt] on the keyframe vector ([find_if], then push back,
    overwrite, insert after or insert before). *)
Fixpoint kfs_addAmplitudeAt (a : option f32) (position : Z) (overrideIfAlreadyExists : bool)
    (l : list keyframe) : list keyframe :=
  match l with
  | [] => [Keyframe (Some position) a None]
  | k :: r =>
      if opt_ge (k_pos k) position then
        if opt_is (k_pos k) position then
          if overrideIfAlreadyExists then Keyframe (k_pos k) a (k_freq k) :: r
          else k :: Keyframe (Some position) a None :: r
        else Keyframe (Some position) a None :: k :: r
      else k :: kfs_addAmplitudeAt a position overrideIfAlreadyExists r
  end.
Definition addAmplitudeAt (a : option f32) (position : Z) (ov : bool) (e : effect) : effect :=
  set_kfs (kfs_addAmplitudeAt a position ov (e_kfs e)) e.

(** Effect.cpp 136-156. *)
Fixpoint kfs_addFrequencyAt (f : option Z) (position : Z) (l : list keyframe) : list keyframe :=
  match l with
  | [] => [Keyframe (Some position) None f]
  | k :: r =>
      if opt_ge (k_pos k) position then
        if opt_is (k_pos k) position then Keyframe (k_pos k) (k_amp k) f :: r
        else Keyframe (Some position) None f :: k :: r
      else k :: kfs_addFrequencyAt f position r
  end.
Definition addFrequencyAt (f : option Z) (position : Z) (e : effect) : effect :=
  set_kfs (kfs_addFrequencyAt f position (e_kfs e)) e.

(** Keyframe.cpp 62-66. *)
Definition keyframe_eqb (a b : keyframe) : bool :=
  opt_eqb Z.eqb (k_pos a) (k_pos b) && opt_eqb feq (k_amp a) (k_amp b) && opt_eqb Z.eqb (k_freq a) (k_freq b).

(** Effect.cpp 164-181 (the size test, then the loop over the keyframes). *)
Fixpoint keyframes_eqb (a b : list keyframe) : bool :=
  match a, b with
  | x :: a', y :: b' => keyframe_eqb x y && keyframes_eqb a' b'
  | _, _ => true
  end.
Definition isEquivalent (e1 e2 : effect) : bool :=
  if negb (e_type e1 =? BasisE) || negb (e_type e2 =? BasisE)
     || negb (opt_eqb feq (e_phase e1) (e_phase e2)) || negb (opt_eqb Z.eqb (e_base e1) (e_base e2))
  then false
  else if negb (Nat.eqb (length (e_kfs e1)) (length (e_kfs e2))) then false
  else keyframes_eqb (e_kfs e1) (e_kfs e2).

(** Band.cpp 89-95: insert before the first effect that starts later. *)
Fixpoint insert_effect (x : effect) (l : list effect) : list effect :=
  match l with
  | [] => [x]
  | e :: r => if e_pos e >? e_pos x then x :: e :: r else e :: insert_effect x r
  end.
Definition addEffect (x : effect) (b : band) : band := set_effects (insert_effect x (b_effects b)) b.

(** Band.cpp 97-103 and 105-111. *)
Definition replaceEffectAt (index : Z) (x : effect) (b : band) : bool * band :=
  if (index <? 0) || (index >=? vec_size (b_effects b)) then (false, b)
  else (true, set_effects (vec_set (b_effects b) (Z.to_nat index) x) b).
Definition removeEffectAt (index : Z) (b : band) : bool * band :=
  if (index <? 0) || (index >=? vec_size (b_effects b)) then (false, b)
  else (true, set_effects (vec_erase (b_effects b) (Z.to_nat index)) b).

(** Channel.cpp 84-92, 111-117. *)
Definition addBand (x : band) (c : channel) : channel := set_bands (c_bands c ++ [x]) c.
Definition replaceBandAt (index : Z) (x : band) (c : channel) : bool * channel :=
  if (index <? 0) || (index >=? vec_size (c_bands c)) then (false, c)
  else (true, set_bands (vec_set (c_bands c) (Z.to_nat index) x) c).
Definition removeBandAt (index : Z) (c : channel) : bool * channel :=
  if (index <? 0) || (index >=? vec_size (c_bands c)) then (false, c)
  else (true, set_bands (vec_erase (c_bands c) (Z.to_nat index)) c).

(** [v[index]] for an index the caller has checked. *)
Definition upd_at {A} (l : list A) (i : nat) (f : A -> A) : list A :=
  match nth_error l i with Some x => vec_set l i (f x) | None => l end.

(** Channel.cpp 94-109 ([getCurveTypeOrDefault] and [getBlockLengthOrDefault]: Band.cpp 52-67). *)
Definition band_metadata (b n : band) : band :=
  let t := b_type n in
  Band t
    (if t =? CurveB then Some (match b_curve n with Some c => c | None => UnknownC end) else b_curve b)
    (if t =? WaveletB then Some (match b_block n with Some c => c | None => 0 end) else b_block b)
    (b_low n) (b_up n) (b_effects b) (b_prio b).
Definition replaceBandMetadataAt (index : Z) (n : band) (c : channel) : bool * channel :=
  if (index <? 0) || (index >=? vec_size (c_bands c)) then (false, c)
  else (true, set_bands (upd_at (c_bands c) (Z.to_nat index) (fun b => band_metadata b n)) c).

(** Perception.cpp 113-119, 147-157. *)
Definition addChannel (x : channel) (p : perception) : perception := set_channels (p_channels p ++ [x]) p.
Definition replaceChannelAt (index : Z) (x : channel) (p : perception) : bool * perception :=
  if (index <? 0) || (index >=? vec_size (p_channels p)) then (false, p)
  else (true, set_channels (vec_set (p_channels p) (Z.to_nat index) x) p).
Definition removeChannelAt (index : Z) (p : perception) : bool * perception :=
  if (index <? 0) || (index >=? vec_size (p_channels p)) then (false, p)
  else (true, set_channels (vec_erase (p_channels p) (Z.to_nat index)) p).

(** Perception.cpp 121-145: the metadata of the stored channel, except priority and bands. *)
Definition channel_metadata (c n : channel) : channel :=
  Channel (c_id n) (c_desc n) (c_gain n) (c_mix n) (c_mask n) (c_vertices n) (c_bands c) (c_prio c)
    (match c_device n with Some d => Some d | None => c_device c end)
    (c_freq n) (c_count n) (c_dir n) (c_res n) (c_body n) (c_target n).
Definition replaceChannelMetadataAt (index : Z) (n : channel) (p : perception) : bool * perception :=
  if (index <? 0) || (index >=? vec_size (p_channels p)) then (false, p)
  else (true, set_channels (upd_at (p_channels p) (Z.to_nat index) (fun c => channel_metadata c n)) p).

(** Perception.h 161-164: "urn:mpeg:mpegi:haptics:effectsemantic:2023". *)
Definition DEFAULT_SEMANTIC_SCHEME : str :=
  [117;114;110;58;109;112;101;103;58;109;112;101;103;105;58;104;97;112;116;105;99;115;58;101;102;102;101;99;116;115;101;109;97;110;116;105;99;58;50;48;50;51].
Definition DEFAULT_UNIT_EXPONENT := -3.
Definition DEFAULT_PERCEPTION_UNIT_EXPONENT := 0.
Definition value_or {A} (o : option A) (d : A) : A := match o with Some x => x | None => d end.

(** Haptics.cpp 64-71, 97-108. *)
Definition addPerception (x : perception) (h : haptics) : haptics := set_perceptions (h_perceptions h ++ [x]) h.
Definition replacePerceptionAt (index : Z) (x : perception) (h : haptics) : bool * haptics :=
  if (index <? 0) || (index >=? vec_size (h_perceptions h)) then (false, h)
  else (true, set_perceptions (vec_set (h_perceptions h) (Z.to_nat index) x) h).
Definition removePerceptionAt (index : Z) (h : haptics) : bool * haptics :=
  if (index <? 0) || (index >=? vec_size (h_perceptions h)) then (false, h)
  else (true, set_perceptions (vec_erase (h_perceptions h) (Z.to_nat index)) h).

(** Haptics.cpp 73-95.  Line 78 passes [newPerception.getId()] to [setAvatarId]. *)
Definition perception_metadata (p n : perception) : perception :=
  Perception (p_id n) (p_id n) (p_desc n) (p_prio p)
    (Some (value_or (p_scheme n) DEFAULT_SEMANTIC_SCHEME)) (p_modality n) (p_channels p) (p_devices n)
    (Some (value_or (p_uexp n) DEFAULT_UNIT_EXPONENT))
    (Some (value_or (p_puexp n) DEFAULT_PERCEPTION_UNIT_EXPONENT)) (p_library n).
Definition replacePerceptionMetadataAt (index : Z) (n : perception) (h : haptics) : bool * haptics :=
  if (index <? 0) || (index >=? vec_size (h_perceptions h)) then (false, h)
  else (true, set_perceptions (upd_at (h_perceptions h) (Z.to_nat index) (fun p => perception_metadata p n)) h).

(** Perception.cpp 296-303: the first library effect with the id. *)
Definition getEffectById (id : Z) (lib : list effect) : option effect :=
  find (fun e => e_id e =? id) lib.

(** Perception.cpp 305-327: every reference with a library effect is replaced by a copy of it; each
    slot is visited once and only depends on itself and the library, so the triple loop is a map.
    The library is then cleared. *)
Definition expand_effect (lib : list effect) (e : effect) : effect :=
  if e_type e =? ReferenceE then
    match getEffectById (e_id e) lib with
    | Some r => set_id (-1) (set_pos (e_pos e) r)
    | None => e
    end
  else e.
Definition linearizeLibrary (p : perception) : perception :=
  set_library []
    (set_channels (map (fun c => set_bands (map (fun b => set_effects (map (expand_effect (p_library p)) (b_effects b)) b)
                                              (c_bands c)) c) (p_channels p)) p).

(** Haptics.cpp 183-187. *)
Definition linearize (h : haptics) : haptics := set_perceptions (map linearizeLibrary (h_perceptions h)) h.
