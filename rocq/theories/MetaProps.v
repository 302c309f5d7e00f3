(** Properties C27, C28, C54: metadata and library packets. *)
From Coq Require Import Reals String.
From Verif Require Import Base BitsModel FloatBase FloatModel FloatSpec TypesModel SemanticModel MetaModel
  StreamModel MetaSpec MetaProof ExampleTac.
Local Open Scope Z_scope.
Local Open Scope list_scope.

(** ** C28 *)
(** Each metadata packet is written without error, and read back, whatever follows it in the unit. *)

(** The experience: its texts, profile, level and avatars (added to those known). *)
Theorem C28_experience :
  forall h : haptics,
  text (h_version h) -> text (h_profile h) -> nbits 8 (h_level h) -> text (h_date h) -> text (h_desc h) ->
  Forall avatar_ok (h_avatars h) -> (List.length (h_avatars h) <= 255)%nat ->
  exists b, writeMetadataHaptics h = Ok b /\ forall h0 rest,
    readMetadataHaptics h0 (b ++ rest)
    = Ok (Haptics (h_version h) (h_profile h) (h_level h) (h_date h) (h_desc h) (h_perceptions h0)
            (h_avatars h0 ++ h_avatars h) (h_timescale h0) (h_syncs h0)).
Proof. exact metadata_haptics. Qed.
Print Assumptions C28_experience.

(** A perception: all fields, with its reference devices; absent exponents become the defaults. *)
Theorem C28_perception :
  forall p, perception_ok p ->
  exists b devices, writeMetadataPerception p = Ok b /\ Forall2 device_sent (p_devices p) devices /\
    forall rest, readMetadataPerception (b ++ rest)
      = Ok (Perception (p_id p) (p_avatar p) (p_desc p) (p_prio p) (p_scheme p) (p_modality p) [] devices
              (Some (value_or (p_uexp p) (-3))) (Some (value_or (p_puexp p) 0)) []).
Proof. exact metadata_perception. Qed.
Print Assumptions C28_perception.

(** A channel: all fields, delivered to the first perception with the id; refused if there is none. *)
Theorem C28_channel :
  forall (c : channel) (pid : Z), channel_ok c -> nbits 8 pid ->
  exists b gain mix, writeMetadataChannel pid c = Ok b /\
    near 32 (Bopp MAX_FLOAT) MAX_FLOAT (c_gain c) gain /\ near 32 f32_0 MAX_FLOAT (c_mix c) mix /\
    forall h rest,
      (forall n p, nth_error (h_perceptions h) n = Some p -> p_id p = pid ->
        (forall m q, (m < n)%nat -> nth_error (h_perceptions h) m = Some q -> p_id q <> pid) ->
        readMetadataChannel h (b ++ rest)
        = Ok (Some (p, Channel (c_id c) (c_desc c) gain mix (c_mask c) (c_vertices c) [] (c_prio c) (c_device c)
                         (c_freq c) (c_count c) (c_dir c) (c_res c) (c_body c) (c_target c)))) /\
      (Forall (fun p => p_id p <> pid) (h_perceptions h) -> readMetadataChannel h (b ++ rest) = Ok None).
Proof. exact metadata_channel. Qed.
Print Assumptions C28_channel.

(** A band: all fields, with the perception and the channel it belongs to (when no earlier perception
    has a channel with the id). *)
Theorem C28_band :
  forall (b : band) (pid cid bid : Z) h rest n p k c,
  band_ok b -> nbits 8 pid -> nbits 16 cid -> nbits 8 bid ->
  first_at (fun p => p_id p = pid) (h_perceptions h) n p ->
  first_at (fun c => c_id c = cid) (p_channels p) k c ->
  (forall m q, (m < n)%nat -> nth_error (h_perceptions h) m = Some q -> Forall (fun c => c_id c <> cid) (p_channels q)) ->
  readMetadataBand h (writeMetadataBand pid cid bid b ++ rest)
  = Ok (Some (p, c, BandStream bid (Band (b_type b) (b_curve b) (b_block b) (b_low b) (b_up b) [] (b_prio b)) (-1))).
Proof. exact metadata_band_ids. Qed.
Print Assumptions C28_band.

(** Without the conditions on optional fields C28 is false: a priority of 0 and a reference device 255 are
    read back as absent, and an absent body-part mask of a device as 0. *)
Theorem C28_priority_zero_refuted :
  exists c : channel, c_prio c = Some 0 /\ c_device c = Some 255 /\
    forall b, writeMetadataChannel 1 c = Ok b ->
      match readMetadataChannel (Haptics [] [] 1 [] [] [Perception 1 0 [] None None 6 [] [] None None []] [] None []) b with
      | Ok (Some (_, c')) => c_prio c' = None /\ c_device c' = None
      | _ => False
      end.
Proof.
  exists (Channel 1 [] f32_0 f32_0 1 [] [] (Some 0) (Some 255) None None None None None None).
  split; [reflexivity|]. split; [reflexivity|]. intros b Hb.
  assert (E : exists b', b = b' /\ match readMetadataChannel (Haptics [] [] 1 [] [] [Perception 1 0 [] None None 6 [] [] None None []] [] None []) b' with
      | Ok (Some (_, c')) => has (c_prio c') || has (c_device c') = false
      | _ => False
      end).
  { eexists. split; [revert Hb; vm_compute; intros Hb; injection Hb; exact (fun x => eq_sym x)|vm_compute; reflexivity]. }
  destruct E as (b' & -> & E).
  destruct (readMetadataChannel _ b') as [[[q c']|]| | |]; try contradiction.
  destruct (c_prio c'), (c_device c'); try discriminate E. auto.
Qed.
Print Assumptions C28_priority_zero_refuted.

(** ** C27 *)
(** The library of a perception, with timelines nested to any depth, is appended to the library of the
    perception with the same id (the fuel of the model bounds the depth only). *)
Theorem C27_library :
  forall p, nbits 8 (p_id p) -> Forall (effect_ok known_semantic) (p_library p) ->
  vec_size (p_library p) < 65536 ->
  exists b, writeLibrary p = Ok b /\ forall fuel, (library_depth (p_library p) <= fuel)%nat ->
    exists lib, Forall2 effect_sent (p_library p) lib /\ forall h n q rest,
      first_at (fun q => p_id q = p_id p) (h_perceptions h) n q ->
      readLibrary fuel h (b ++ rest)
      = Ok (Some (set_perceptions (map_nth (fun q => set_library (p_library q ++ lib) q) n (h_perceptions h)) h)).
Proof. exact library_packet. Qed.
Print Assumptions C27_library.

(** ** C54 *)
(** The tables of semantic keywords and codes are inverse to each other; every keyword of the standard
    has a code that fits its 12-bit field. *)
Theorem C54_inverse : forall s c, semantic_code s = Ok c <-> semantic_name c = Ok s.
Proof. exact semantic_maps. Qed.
Print Assumptions C54_inverse.
Theorem C54_fits : forall s, known_semantic s -> exists c, semantic_code s = Ok c /\ 0 <= c < 4096.
Proof. intros s H. destruct (semantic_known s H) as (c & H1 & H2 & _). exists c. split; [exact H1|exact H2]. Qed.
Print Assumptions C54_fits.
(** An effect whose semantic is any other text cannot be streamed: writing throws. *)
Theorem C54_unknown_throws : forall s, ~ known_semantic s -> writeSemantic (Some s) = Throw.
Proof. exact unknown_semantic. Qed.
Print Assumptions C54_unknown_throws.

(** Concrete cases. *)
Definition ex_f : f32 := @B754_finite 24 128 false 12582912 (-24) eq_refl. (* 0.75 *)
Definition ex_avatar : avatar := Avatar 7 2 0 (Some [109; 101; 115; 104]).
Definition ex_device : device :=
  Device 3 [103; 108; 111; 118; 101] (Some 4294967295) (Some ex_f) None (Some ex_f) None None None (Some ex_f) None None
    None (Some ex_f) (Some 2).
Definition ex_lib_perception : perception :=
  Perception 5 7 [97] (Some 9) (Some [117; 114; 110]) 6 [] [ex_device; ex_device] (Some (-6)) None
    [Effect 1 10 None None [] None CompositeE
       [Effect 2 (2 ^ 25 - 1) (Some ex_f) (Some (bytes_of "Vehicle/Brake"%string)) [Keyframe (Some 65535) (Some ex_f) None] (Some 3) BasisE [] [] [];
        Effect 3 0 None None [] None CompositeE [Effect 65535 1 None None [] None ReferenceE [] [] []] [] []] [] []].
Definition ex_channel : channel :=
  Channel 65535 [98] ex_f ex_f 0 [-5; 2147483647] [] None (Some 254) (Some 8000) (Some 4294967295)
    (Some (Vec (-128) 127 0)) (Some (Vec 1 2 3)) (Some [1; 255]) (Some [Vec 0 (-1) 5]).
Example C28_hyps :
  avatar_ok ex_avatar /\ perception_ok ex_lib_perception /\ channel_ok ex_channel /\
  band_ok (Band CurveB (Some 3) (Some 0) 0 65535 [] (Some 255)) /\ band_ok (Band WaveletB None (Some 16) 0 1000 [] None).
Proof. unfold ex_avatar, ex_lib_perception, ex_channel, ex_device, avatar_ok, perception_ok, channel_ok, location_ok, band_ok. cbn. small. Qed.
Example C27_hyps : Forall (effect_ok known_semantic) (p_library ex_lib_perception) /\ library_depth (p_library ex_lib_perception) = 3%nat.
Proof. small. Qed.
Example C27_first : first_at (fun q => p_id q = 5) [Perception 4 0 [] None None 6 [] [] None None []; ex_lib_perception] 1 ex_lib_perception.
Proof.
  split; [reflexivity|]. split; [reflexivity|]. intros [|m] y Hm Hy; [|lia]. injection Hy as <-. discriminate.
Qed.
