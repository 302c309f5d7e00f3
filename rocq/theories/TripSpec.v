(** What a receiver has after a whole stream, and the experiences for which this is proved. *)
From Coq Require Import Sorting.Sorted Reals.
From Verif Require Import Base BitsModel FloatBase FloatModel TypesModel TypesSpec MetaModel DataModel CrcModel StreamModel MetaSpec
  DataSpec StreamSpec.
Local Open Scope Z_scope.
Local Open Scope list_scope.


(** *** What is restored *)

(** A band: its own fields, and its effects: those without id have received one; their reals are quantised. *)
Definition band_back (b b' : band) : Prop :=
  b_type b' = b_type b /\ b_curve b' = b_curve b /\ b_block b' = b_block b /\ b_low b' = b_low b /\ b_up b' = b_up b /\
  b_prio b' = b_prio b /\
  exists L, only_ids_added (b_effects b) L /\ NoDup (map e_id L) /\ Forall2 (data_sent (b_type b)) L (b_effects b').
Definition channel_back (c c' : channel) : Prop :=
  c_id c' = c_id c /\ c_desc c' = c_desc c /\
  near 32 (Bopp MAX_FLOAT) MAX_FLOAT (c_gain c) (c_gain c') /\ near 32 f32_0 MAX_FLOAT (c_mix c) (c_mix c') /\
  c_mask c' = c_mask c /\ c_vertices c' = c_vertices c /\ c_prio c' = c_prio c /\ c_device c' = c_device c /\
  c_freq c' = c_freq c /\ c_count c' = c_count c /\ c_dir c' = c_dir c /\ c_res c' = c_res c /\ c_body c' = c_body c /\
  c_target c' = c_target c /\ Forall2 band_back (c_bands c) (c_bands c').
(** Exponents that are absent become the default ones. *)
Definition perception_back (p p' : perception) : Prop :=
  p_id p' = p_id p /\ p_avatar p' = p_avatar p /\ p_desc p' = p_desc p /\ p_prio p' = p_prio p /\ p_scheme p' = p_scheme p /\
  p_modality p' = p_modality p /\ p_uexp p' = Some (value_or (p_uexp p) (-3)) /\ p_puexp p' = Some (value_or (p_puexp p) 0) /\
  Forall2 device_sent (p_devices p) (p_devices p') /\ Forall2 effect_sent (p_library p) (p_library p') /\
  Forall2 channel_back (p_channels p) (p_channels p').
(** The whole experience.  Its only synchronisation point is the start of the stream. *)
Definition back (h h' : haptics) : Prop :=
  let ts := value_or (h_timescale h) 1000 in
  h_version h' = h_version h /\ h_profile h' = h_profile h /\ h_level h' = h_level h /\ h_date h' = h_date h /\
  h_desc h' = h_desc h /\ h_avatars h' = h_avatars h /\ h_timescale h' = Some ts /\ h_syncs h' = [Sync 0 (Some ts)] /\
  Forall2 perception_back (h_perceptions h) (h_perceptions h').

(** *** For which experiences *)

Definition all_effects (h : haptics) : list effect := flat_map (fun x => b_effects (snd x)) (bands_of h).
(** [known] are the semantic keywords of the standard.  A band of curves, vectorial effects or transients.  Its effects are in order, flat, and do not overlap; the ids
    they come with are distinct. *)
Definition band_streamable (known : str -> Prop) (pd : Z) (b : band) : Prop :=
  band_ok b /\ data_band (b_type b) /\ b_effects b <> [] /\ Forall (effect_data_ok known (b_type b)) (b_effects b) /\
  sorted_by_position (b_effects b) /\ in_sequence (b_effects b) /\ not_ending_on_boundary pd (b_effects b) /\
  NoDup (given_ids (b_effects b)).
Definition channel_streamable (known : str -> Prop) (pd : Z) (c : channel) : Prop :=
  channel_ok c /\ c_bands c <> [] /\ Forall (band_streamable known pd) (c_bands c).
Definition perception_streamable (known : str -> Prop) (pd : Z) (p : perception) : Prop :=
  perception_ok p /\ Forall (effect_ok known) (p_library p) /\ vec_size (p_library p) < 65536 /\
  is_spatial (p_modality p) = false /\ p_channels p <> [] /\ Forall (channel_streamable known pd) (p_channels p).
(** The ids of perceptions are distinct, the ids of all channels are distinct; there are at most 256 bands and 65535 effects;
    effect ids leave room for those to be given; the times are below 2^24 ticks; at most one synchronisation point. *)
Definition streamable (known : str -> Prop) (pd : Z) (h : haptics) : Prop :=
  text (h_version h) /\ text (h_profile h) /\ nbits 8 (h_level h) /\ text (h_date h) /\ text (h_desc h) /\
  Forall avatar_ok (h_avatars h) /\ (List.length (h_avatars h) <= 255)%nat /\
  nbits 32 (value_or (h_timescale h) 1000) /\ (List.length (h_syncs h) <= 1)%nat /\
  h_perceptions h <> [] /\ Forall (perception_streamable known pd) (h_perceptions h) /\
  NoDup (map p_id (h_perceptions h)) /\ NoDup (map c_id (flat_map p_channels (h_perceptions h))) /\
  vec_size (bands_of h) <= 256 /\ vec_size (all_effects h) < 65536 /\
  Forall (fun e => -1 <= e_id e < 65536 - vec_size (all_effects h)) (all_effects h) /\
  Forall (fun t => t < 2 ^ 24) (flat_map events (all_effects h)).
(** The packets are short enough: each has at most 2^17 bytes of payload, and the units at most 2^27 bytes. *)
Definition fits (fuel : nat) (pd : Z) (h : haptics) : Prop :=
  (forall init w, writeInitPackets (SWriter h 0 (value_or (h_timescale h) 1000)) = Ok (init, w) ->
     Forall (fun p => vec_size p < 2 ^ 20) init /\ vec_size (concat init) < 2 ^ 30) /\
  (forall ds, writeData fuel pd h = Ok ds -> Forall (fun p => vec_size p <= 2 ^ 20) ds /\ vec_size (concat ds) < 2 ^ 30).
