(** What the binary file format can store, and what is read back. *)
From Coq Require Import Reals.
From Verif Require Import Base BitsModel FloatBase FloatModel TypesModel MetaSpec.
Local Open Scope Z_scope.

(** Amplitudes are stored in 8 bits, phases in 16, the other real numbers in 32. *)
Definition near_amplitude := near 8 (Bopp MAX_AMPLITUDE) MAX_AMPLITUDE.
Definition near_phase := near 16 f32_0 MAX_PHASE.
Definition near_number := near 32 f32_0 MAX_FLOAT.
Definition near_signed := near 32 (Bopp MAX_FLOAT) MAX_FLOAT.

(** *** Avatars: a custom avatar has a mesh (an absent one becomes the empty text), the others have none. *)
Definition avatar_storable (a : avatar) : Prop :=
  nbits 8 (a_id a) /\ nbits 8 (a_lod a) /\ nbits 8 (a_type a) /\ opt_all text (a_mesh a).
Definition avatar_stored (a a' : avatar) : Prop :=
  a_id a' = a_id a /\ a_lod a' = a_lod a /\ a_type a' = a_type a /\
  a_mesh a' = if a_type a =? 0 then Some (value_or (a_mesh a) []) else None.

(** *** Devices: an absent body-part mask becomes 0. *)
Definition device_storable (d : device) : Prop :=
  nbits 8 (d_id d) /\ text (d_name d) /\ opt_all (nbits 32) (d_mask d) /\
  opt_all finite (d_maxf d) /\ opt_all finite (d_minf d) /\ opt_all finite (d_resf d) /\ opt_all finite (d_maxa d) /\
  opt_all finite (d_imp d) /\ opt_all finite (d_maxv d) /\ opt_all finite (d_maxc d) /\ opt_all finite (d_maxd d) /\
  opt_all finite (d_weight d) /\ opt_all finite (d_size d) /\ opt_all finite (d_custom d) /\
  opt_all (nbits 4) (d_type d).
Definition device_stored (d d' : device) : Prop :=
  let q := opt_rel near_number in
  d_id d' = d_id d /\ d_name d' = d_name d /\ d_mask d' = Some (value_or (d_mask d) 0) /\ d_type d' = d_type d /\
  q (d_maxf d) (d_maxf d') /\ q (d_minf d) (d_minf d') /\ q (d_resf d) (d_resf d') /\ q (d_maxa d) (d_maxa d') /\
  q (d_imp d) (d_imp d') /\ q (d_maxv d) (d_maxv d') /\ q (d_maxc d) (d_maxc d') /\ q (d_maxd d) (d_maxd d') /\
  q (d_weight d) (d_weight d') /\ q (d_size d) (d_size d') /\ opt_rel near_signed (d_custom d) (d_custom d').

(** *** Library effects without timeline (their semantic is not stored).  Basis effects get a phase and a base
    signal (defaults 0 and Sine). *)
Definition library_effect_storable (e : effect) : Prop :=
  nbits 16 (e_id e) /\ nbits 25 (e_pos e) /\ nbits 2 (e_type e) /\
  opt_all finite (e_phase e) /\ opt_all (nbits 4) (e_base e) /\
  Forall kf_ok (e_kfs e) /\ vec_size (e_kfs e) < 65536 /\ e_timeline e = [].
Definition phase_stored (e e' : effect) : Prop :=
  (exists w, e_phase e' = Some w /\ near_phase (value_or (e_phase e) f32_0) w) /\
  e_base e' = Some (value_or (e_base e) 0).
Definition no_phase (e' : effect) : Prop := e_phase e' = None /\ e_base e' = None.
Definition library_effect_stored (e e' : effect) : Prop :=
  e_id e' = e_id e /\ e_pos e' = e_pos e /\ e_type e' = e_type e /\
  (if e_type e =? BasisE then phase_stored e e' else no_phase e') /\
  Forall2 kf_sent (e_kfs e) (e_kfs e') /\
  e_semantic e' = None /\ e_timeline e' = [] /\ e_samples e' = [] /\ e_wavelet e' = [].

(** *** Effects of a band *)

(** Keyframes.  Transient and curve bands store every field (0 if absent; a curve has no frequency); vectorial bands
    need a position. *)
Definition kf_storable (bandType : Z) (k : keyframe) : Prop :=
  kf_ok k /\ (bandType = VectorialB -> k_pos k <> None).
Definition kf_stored (bandType : Z) (k k' : keyframe) : Prop :=
  k_pos k' = Some (value_or (k_pos k) 0) /\
  if bandType =? VectorialB then
    k_freq k' = k_freq k /\ opt_rel near_amplitude (k_amp k) (k_amp k')
  else
    k_freq k' = (if bandType =? TransientB then Some (value_or (k_freq k) 0) else None) /\
    exists w, k_amp k' = Some w /\ near_amplitude (value_or (k_amp k) f32_0) w.

(** An effect is a reference, a composite effect without timeline, or a basis effect. *)
Definition effect_storable (bandType : Z) (e : effect) : Prop :=
  nbits 25 (e_pos e) /\
  (e_type e = ReferenceE /\ nbits 16 (e_id e) \/
   e_type e = CompositeE /\ e_timeline e = [] \/
   e_type e = BasisE /\
     if bandType =? WaveletB then Forall is_byte (e_wavelet e) /\ vec_size (e_wavelet e) < 65536
     else Forall (kf_storable bandType) (e_kfs e) /\ vec_size (e_kfs e) < 65536 /\
          (bandType = VectorialB -> opt_all finite (e_phase e) /\ opt_all (nbits 4) (e_base e))).
(** Only references keep their id.  The effects of a wavelet band are placed by their index: the [index]-th effect is
    put at [index * block * 1000 / upper frequency]. *)
Definition effect_stored (b : band) (index : Z) (e e' : effect) : Prop :=
  e_type e' = e_type e /\ e_semantic e' = None /\ e_timeline e' = [] /\ e_samples e' = [] /\
  e_id e' = (if e_type e =? ReferenceE then e_id e else -1) /\
  e_pos e' = (if (e_type e =? BasisE) && (b_type b =? WaveletB)
              then index * value_or (b_block b) 0 * 1000 / b_up b else e_pos e) /\
  if e_type e =? BasisE then
    if b_type b =? WaveletB then e_wavelet e' = e_wavelet e /\ e_kfs e' = [] /\ no_phase e'
    else e_wavelet e' = [] /\ Forall2 (kf_stored (b_type b)) (e_kfs e) (e_kfs e') /\
         (if b_type b =? VectorialB then phase_stored e e' else no_phase e')
  else e_wavelet e' = [] /\ e_kfs e' = [] /\ no_phase e'.

(** *** Bands.  The block length of a wavelet band must be a number of samples that is a power of two. *)
Definition block_storable (timescale : Z) (b : band) : Prop :=
  timescale = 1000 /\ 0 < b_up b /\
  exists block k, b_block b = Some block /\ block < 2 ^ 31 /\ 4 <= k <= 22 /\ block * b_up b = 1000 * 2 ^ k /\
    vec_size (b_effects b) * block * 1000 < 2 ^ 31.
Definition band_storable (timescale : Z) (b : band) : Prop :=
  0 <= b_type b <= 3 /\ nbits 16 (b_low b) /\ nbits 16 (b_up b) /\
  (b_type b = CurveB -> opt_all (nbits 4) (b_curve b)) /\
  (b_type b = WaveletB -> block_storable timescale b) /\
  Forall (effect_storable (b_type b)) (b_effects b) /\ vec_size (b_effects b) < 65536.
Definition band_stored (b b' : band) : Prop :=
  b_type b' = b_type b /\ b_low b' = b_low b /\ b_up b' = b_up b /\ b_prio b' = None /\
  b_curve b' = (if b_type b =? CurveB then Some (value_or (b_curve b) UnknownC) else None) /\
  b_block b' = (if b_type b =? WaveletB then b_block b else Some 0) /\
  length (b_effects b') = length (b_effects b) /\
  forall i e e', nth_error (b_effects b) i = Some e -> nth_error (b_effects b') i = Some e' ->
    effect_stored b (Z.of_nat i) e e'.

(** *** Channels.  A channel has either a body-part mask or an actuator resolution with targets; an absent
    device id becomes 255; a sample count is only kept with a sampling frequency. *)
Definition channel_fields (c : channel) : Prop :=
  - 2 ^ 15 <= c_id c < 2 ^ 15 /\ text (c_desc c) /\ finite (c_gain c) /\ finite (c_mix c) /\
  opt_all (nbits 8) (c_device c) /\ nbits 32 (c_mask c) /\ opt_all vec8 (c_res c) /\
  opt_all (fun l => Forall (nbits 8) l /\ (length l <= 255)%nat) (c_body c) /\
  opt_all (fun l => Forall vec8 l /\ (length l <= 255)%nat) (c_target c) /\
  opt_all (nbits 32) (c_freq c) /\ opt_all (nbits 32) (c_count c) /\ opt_all vec8 (c_dir c) /\
  Forall (fun v => - 2 ^ 31 <= v < 2 ^ 31) (c_vertices c) /\ vec_size (c_vertices c) < 65536.
Definition channel_storable (timescale : Z) (c : channel) : Prop :=
  channel_fields c /\ Forall (band_storable timescale) (c_bands c) /\ (length (c_bands c) <= 255)%nat.
Definition channel_stored (c c' : channel) : Prop :=
  c_id c' = c_id c /\ c_desc c' = c_desc c /\ near_signed (c_gain c) (c_gain c') /\ near_number (c_mix c) (c_mix c') /\
  c_prio c' = None /\ c_device c' = Some (value_or (c_device c) 255) /\
  c_res c' = c_res c /\
  (match c_res c with
   | Some _ => c_mask c' = 0 /\ c_body c' = Some (value_or (c_body c) []) /\ c_target c' = Some (value_or (c_target c) [])
   | None => c_mask c' = c_mask c /\ c_body c' = None /\ c_target c' = None
   end) /\
  (let sampled := negb (value_or (c_freq c) 0 =? 0) in
   c_freq c' = (if sampled then c_freq c else None) /\
   c_count c' = (if sampled then Some (value_or (c_count c) 0) else None)) /\
  c_dir c' = c_dir c /\ c_vertices c' = c_vertices c /\ Forall2 band_stored (c_bands c) (c_bands c').

(** *** Perceptions and experiences.  Priorities, the semantic scheme, the timescale and the sync points are not
    stored. *)
Definition perception_fields (p : perception) : Prop :=
  nbits 8 (p_id p) /\ nbits 8 (p_avatar p) /\ text (p_desc p) /\ nbits 8 (p_modality p) /\
  opt_all int8 (p_uexp p) /\ opt_all int8 (p_puexp p) /\
  Forall library_effect_storable (p_library p) /\ vec_size (p_library p) < 65536.
Definition perception_storable (timescale : Z) (p : perception) : Prop :=
  perception_fields p /\
  Forall device_storable (p_devices p) /\ (length (p_devices p) <= 255)%nat /\
  Forall (channel_storable timescale) (p_channels p) /\ vec_size (p_channels p) < 65536.
Definition perception_stored (p p' : perception) : Prop :=
  p_id p' = p_id p /\ p_avatar p' = p_avatar p /\ p_desc p' = p_desc p /\ p_modality p' = p_modality p /\
  p_prio p' = None /\ p_scheme p' = None /\
  p_uexp p' = Some (value_or (p_uexp p) (-3)) /\ p_puexp p' = Some (value_or (p_puexp p) 0) /\
  Forall2 library_effect_stored (p_library p) (p_library p') /\
  Forall2 device_stored (p_devices p) (p_devices p') /\
  Forall2 channel_stored (p_channels p) (p_channels p').
Definition header_storable (h : haptics) : Prop :=
  text (h_version h) /\ text (h_profile h) /\ nbits 8 (h_level h) /\ text (h_date h) /\ text (h_desc h).
Definition experience_storable (h : haptics) : Prop :=
  header_storable h /\
  Forall avatar_storable (h_avatars h) /\ (length (h_avatars h) <= 255)%nat /\
  Forall (perception_storable (value_or (h_timescale h) 1000)) (h_perceptions h) /\ (length (h_perceptions h) <= 255)%nat.
Definition experience_stored (h h' : haptics) : Prop :=
  h_version h' = h_version h /\ h_profile h' = h_profile h /\ h_level h' = h_level h /\ h_date h' = h_date h /\
  h_desc h' = h_desc h /\ h_timescale h' = Some 1000 /\ h_syncs h' = [] /\
  Forall2 avatar_stored (h_avatars h) (h_avatars h') /\
  Forall2 perception_stored (h_perceptions h) (h_perceptions h').

(** The same without any condition on the bands: the header of the file can be stored. *)
Definition experience_fields (h : haptics) : Prop :=
  header_storable h /\
  Forall avatar_storable (h_avatars h) /\ (length (h_avatars h) <= 255)%nat /\
  Forall (fun p => perception_fields p /\ Forall device_storable (p_devices p) /\ (length (p_devices p) <= 255)%nat /\
                   Forall channel_fields (p_channels p) /\ vec_size (p_channels p) < 65536) (h_perceptions h) /\
  (length (h_perceptions h) <= 255)%nat.

(** Composite effects with a timeline, anywhere in the experience. *)
Definition has_timeline (e : effect) : Prop := 0 < vec_size (e_timeline e) < 65536.
Definition composite_in_library (h : haptics) : Prop :=
  exists p e, In p (h_perceptions h) /\ In e (p_library p) /\ has_timeline e.
Definition composite_in_band (h : haptics) : Prop :=
  exists p c b e, In p (h_perceptions h) /\ In c (p_channels p) /\ In b (c_bands c) /\ 0 <= b_type b <= 3 /\ In e (b_effects b) /\
    e_type e = CompositeE /\ has_timeline e.
(** Collections below 65536 elements (the indices of the loops are 16-bit). *)
Definition small_collections (h : haptics) : Prop :=
  vec_size (h_perceptions h) < 65536 /\
  forall p, In p (h_perceptions h) -> vec_size (p_library p) < 65536 /\ vec_size (p_channels p) < 65536 /\
    forall c, In c (p_channels p) -> vec_size (c_bands c) < 65536.
