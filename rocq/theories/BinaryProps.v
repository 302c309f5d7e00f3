(** Properties C16, C17, C18 and C62-C66: the binary file format. *)
From Coq Require Import Reals.
From Verif Require Import Base BitsModel BitsProof FloatBase FloatModel FloatSpec TypesModel MetaModel BandModel MetaSpec
  ExampleTac BinaryModel BinarySpec BinaryReads BinaryProof BinaryLimits BinaryBlock.
Local Open Scope Z_scope.

(** ** C16 *)
(** A storable experience is written without error; loading the file gives what [experience_stored] says: every
    component, with real numbers within one quantisation step. *)
Theorem C16_round_trip :
  forall fuel wfuel h, experience_storable h ->
  exists bytes h', writeFile (S wfuel) h = Ok bytes /\ loadFile (S fuel) bytes haptics0 = Ok (true, h') /\
    experience_stored h h'.
Proof. exact rfile. Qed.
Print Assumptions C16_round_trip.

(** ** C17 *)
(** With a composite effect in a library, or in a band, no file is ever completed: no depth of recursion is enough. *)
Theorem C17_library_refuted :
  forall h fuel bytes, small_collections h -> composite_in_library h -> writeFile fuel h <> Ok bytes.
Proof. exact file_library_composite. Qed.
Print Assumptions C17_library_refuted.
Theorem C17_band_refuted :
  forall h fuel bytes, small_collections h -> composite_in_band h -> writeFile fuel h <> Ok bytes.
Proof. exact file_band_composite. Qed.
Print Assumptions C17_band_refuted.
(** It is not an error: the recursion has no end, even if all the other fields can be stored. *)
Theorem C17_endless_refuted :
  forall fuel e, has_timeline e ->
  (library_effect_storable (set_timeline [] e) -> binWriteLibraryEffect fuel e = NoFuel) /\
  writeTimelineEffect fuel e = NoFuel.
Proof. intros fuel e H. split; [exact (library_composite_endless fuel e H)|exact (timeline_endless fuel e H)]. Qed.
Print Assumptions C17_endless_refuted.

(** ** C18 *)
(** Whatever is loaded from the file has at most 255 avatars, perceptions, devices or bands. *)
Theorem C18_avatars_refuted :
  forall fuel wfuel h bytes ok h', header_storable h -> 255 < vec_size (h_avatars h) ->
  writeFile wfuel h = Ok bytes -> loadFile fuel bytes haptics0 = Ok (ok, h') ->
  vec_size (h_avatars h') = vec_size (h_avatars h) mod 256 /\ vec_size (h_avatars h') < vec_size (h_avatars h).
Proof.
  intros fuel wfuel h bytes ok h' H Hn Hw Hl. rewrite (load_avatars _ _ _ _ _ _ H Hw Hl).
  pose proof (Z.mod_pos_bound (vec_size (h_avatars h)) 256). lia.
Qed.
Print Assumptions C18_avatars_refuted.
Theorem C18_perceptions_refuted :
  forall fuel wfuel h bytes ok h', header_storable h ->
  Forall avatar_storable (h_avatars h) -> (length (h_avatars h) <= 255)%nat -> 255 < vec_size (h_perceptions h) ->
  writeFile wfuel h = Ok bytes -> loadFile fuel bytes haptics0 = Ok (ok, h') ->
  vec_size (h_perceptions h') = vec_size (h_perceptions h) mod 256 /\
  vec_size (h_perceptions h') < vec_size (h_perceptions h).
Proof.
  intros fuel wfuel h bytes ok h' H Ha Hal Hn Hw Hl. rewrite (load_perceptions _ _ _ _ _ _ H Ha Hal Hw Hl).
  pose proof (Z.mod_pos_bound (vec_size (h_perceptions h)) 256). lia.
Qed.
Print Assumptions C18_perceptions_refuted.
Theorem C18_devices_refuted :
  forall fuel wfuel h bytes ok h' p ps, header_storable h ->
  Forall avatar_storable (h_avatars h) -> (length (h_avatars h) <= 255)%nat ->
  h_perceptions h = p :: ps -> vec_size (h_perceptions h) mod 256 <> 0 -> perception_fields p ->
  255 < vec_size (p_devices p) ->
  writeFile (S wfuel) h = Ok bytes -> loadFile (S fuel) bytes haptics0 = Ok (ok, h') ->
  exists p' ps', h_perceptions h' = p' :: ps' /\ vec_size (p_devices p') = vec_size (p_devices p) mod 256 /\
    vec_size (p_devices p') < vec_size (p_devices p).
Proof.
  intros fuel wfuel h bytes ok h' p ps H Ha Hal Ep Hn Hp Hd Hw Hl.
  destruct (load_devices _ _ _ _ _ _ _ _ H Ha Hal Ep Hn Hp Hw Hl) as (p' & ps' & E1 & E2). exists p', ps'.
  pose proof (Z.mod_pos_bound (vec_size (p_devices p)) 256). repeat split; [exact E1|exact E2|lia].
Qed.
Print Assumptions C18_devices_refuted.
Theorem C18_bands_refuted :
  forall fuel wfuel h bytes ok h', experience_fields h ->
  writeFile (S wfuel) h = Ok bytes -> loadFile (S fuel) bytes haptics0 = Ok (ok, h') ->
  Forall2 (fun p p' =>
    Forall2 (fun c c' => vec_size (c_bands c') = vec_size (c_bands c) mod 256 /\
                         (255 < vec_size (c_bands c) -> vec_size (c_bands c') < vec_size (c_bands c)))
      (p_channels p) (p_channels p'))
    (h_perceptions h) (h_perceptions h').
Proof.
  intros fuel wfuel h bytes ok h' H Hw Hl. eapply Forall2_weaken; [|exact (load_bands _ _ _ _ _ _ H Hw Hl)].
  intros p p' Hp. cbv beta in Hp. eapply Forall2_weaken; [|exact Hp]. intros c c' Hc. cbv beta in Hc.
  pose proof (Z.mod_pos_bound (vec_size (c_bands c)) 256). split; [exact Hc|lia].
Qed.
Print Assumptions C18_bands_refuted.

(** ** C62 *)
(** The block length of a wavelet band is read back if and only if it is a power-of-two number of samples. *)
Theorem C62_block_length :
  forall b block bits b' st' rest st,
  b_type b = WaveletB -> b_block b = Some block -> 0 < block < 2 ^ 31 -> nbits 16 (b_low b) -> 0 < b_up b < 65536 ->
  writeBandHeader 1000 b = Ok bits -> rs_ok st -> stream st = bits ++ rest ->
  readBandHeader 1000 band0 st = Ok (b', st') ->
  (b_block b' = Some block <-> exists k, 4 <= k <= 22 /\ block * b_up b = 1000 * 2 ^ k).
Proof. exact block_survives. Qed.
Print Assumptions C62_block_length.
(** It never becomes longer. *)
Theorem C62_not_longer :
  forall b block bits b' st' rest st,
  b_type b = WaveletB -> b_block b = Some block -> 0 < block < 2 ^ 31 -> nbits 16 (b_low b) -> 0 < b_up b < 65536 ->
  writeBandHeader 1000 b = Ok bits -> rs_ok st -> stream st = bits ++ rest ->
  readBandHeader 1000 band0 st = Ok (b', st') -> exists t, b_block b' = Some t /\ t <= block.
Proof. exact block_shrinks. Qed.
Print Assumptions C62_not_longer.
(** Blocks of 512 samples at 44100 Hz: the encoder stores 512 * 1000 / 44100 = 11 ticks, 5 are read back. *)
Definition ex_44100 : band := Band WaveletB None (Some (512 * 1000 / 44100)) 0 44100 [] None.
Definition block_read (b : band) : outcome (option Z) :=
  do bits <- writeBandHeader 1000 b;
  do '(b', _) <- readBandHeader 1000 band0 (RS (writeBitset (fillBitset bits)) []);
  Ok (b_block b').
Theorem C62_halved_refuted : b_block ex_44100 = Some 11 /\ block_read ex_44100 = Ok (Some 5).
Proof. vm_compute. auto. Qed.
Print Assumptions C62_halved_refuted.

(** ** C63 *)
(** The effects of a wavelet band are moved towards the beginning when the upper frequency exceeds 1000. *)
Theorem C63_positions_refuted :
  forall fuel wfuel h bytes ok h' i j k n p p' c c' b b' e e' block,
  experience_storable h -> writeFile (S wfuel) h = Ok bytes -> loadFile (S fuel) bytes haptics0 = Ok (ok, h') ->
  nth_error (h_perceptions h) i = Some p -> nth_error (h_perceptions h') i = Some p' ->
  nth_error (p_channels p) j = Some c -> nth_error (p_channels p') j = Some c' ->
  nth_error (c_bands c) k = Some b -> nth_error (c_bands c') k = Some b' ->
  nth_error (b_effects b) n = Some e -> nth_error (b_effects b') n = Some e' ->
  b_type b = WaveletB -> e_type e = BasisE -> b_block b = Some block -> 0 < block ->
  1000 < b_up b -> (0 < n)%nat -> e_pos e = Z.of_nat n * block ->
  e_pos e' = e_pos e * 1000 / b_up b /\ e_pos e' < e_pos e.
Proof.
  intros fuel wfuel h bytes ok h' i j k n p p' c c' b b' e e' block H Hw Hl Hp Hp' Hc Hc' Hb Hb' He He' Tb Te Hbl Hpos Hup Hn Hat.
  rewrite (load_positions _ _ _ _ _ _ _ _ _ _ _ _ _ _ _ _ _ _ _ H Hw Hl Hp Hp' Hc Hc' Hb Hb' He He' Tb Te Hbl), Hat.
  split; [reflexivity|]. apply Z.div_lt_upper_bound; nia.
Qed.
Print Assumptions C63_positions_refuted.

(** ** C64 *)
(** The timescale is not stored: it is always 1000 ticks per second after loading. *)
Theorem C64_timescale_refuted :
  forall fuel bytes ok h', loadFile fuel bytes haptics0 = Ok (ok, h') -> h_timescale h' = Some 1000.
Proof. exact load_timescale. Qed.
Print Assumptions C64_timescale_refuted.

(** ** C65 *)
(** A file whose first band is a wavelet band with upper frequency 0, or with a block length code above 26, makes
    the loader divide by zero or convert a number that does not fit. *)
Theorem C65_undefined_refuted :
  forall fuel wfuel h hb bytes p ps c cs low up code rest, experience_fields h ->
  h_perceptions h = p :: ps -> p_channels p = c :: cs -> vec_size (c_bands c) mod 256 <> 0 ->
  writeFileHeader (S wfuel) h = Ok hb -> nbits 16 low -> nbits 16 up -> nbits 8 code -> (up = 0 \/ 27 <= code) ->
  stream (RS bytes []) = hb ++ writeNBits 3 WaveletB ++ writeNBits 8 code ++ writeNBits 16 low ++ writeNBits 16 up ++ rest ->
  loadFile (S fuel) bytes haptics0 = UB.
Proof. exact load_undefined. Qed.
Print Assumptions C65_undefined_refuted.

(** ** C66 *)
(** Loading terminates whatever the bytes: the nesting is at most the number of bits. *)
Theorem C66_terminates :
  forall fuel bytes out, (8 * length bytes < fuel)%nat -> loadFile fuel bytes out <> NoFuel.
Proof. exact load_terminates. Qed.
Print Assumptions C66_terminates.

(** Concrete cases. *)
Definition bx_f : f32 := @B754_finite 24 128 false 12582912 (-24) eq_refl. (* 0.75 *)
Definition bx_device : device :=
  Device 3 [103; 108; 111; 118; 101] (Some 4294967295) (Some bx_f) None (Some bx_f) None None None (Some bx_f) None None
    None (Some bx_f) (Some 2).
Definition bx_kf : keyframe := Keyframe (Some 20) (Some bx_f) (Some 65535).
Definition bx_bands : list band :=
  [Band TransientB None None 0 1000 [Effect 9 5 None None [bx_kf; Keyframe None None None] None BasisE [] [] []] None;
   Band CurveB (Some 3) None 0 80 [Effect 9 5 None None [bx_kf] None BasisE [] [] []] (Some 3);
   Band VectorialB None None 65 300 [Effect 9 5 (Some bx_f) None [bx_kf; Keyframe (Some 0) None None] (Some 2) BasisE [] [] [];
                                     Effect 4 (2 ^ 25 - 1) None None [] None ReferenceE [] [] [];
                                     Effect 4 0 None None [] None CompositeE [] [] []] None;
   Band WaveletB None (Some 64) 0 8000 [Effect 1 0 None None [] None BasisE [] [] [17; 255]; Effect 2 64 None None [] None BasisE [] [] [0]] None].
Definition bx_channel : channel :=
  Channel 12 [98] bx_f bx_f 0 [-5; 2147483647] bx_bands None (Some 254) (Some 8000) (Some 4294967295)
    (Some (Vec (-128) 127 0)) (Some (Vec 1 2 3)) (Some [1; 255]) (Some [Vec 0 (-1) 5]).
Definition bx_library : list effect := [Effect 4 10 (Some bx_f) None [bx_kf; Keyframe None None None] (Some 3) BasisE [] [] []].
Definition bx_perception : perception :=
  Perception 5 7 [97] (Some 9) None 6 [bx_channel; bx_channel] [bx_device; bx_device] (Some (-6)) None bx_library.
Definition bx_experience : haptics :=
  Haptics [50; 48] [77] 2 [50] [] [bx_perception] [Avatar 7 2 0 (Some [109; 101; 115; 104]); Avatar 8 2 1 None] None [].

Lemma bx_bands_storable : Forall (band_storable 1000) bx_bands.
Proof.
  unfold bx_bands. apply Forall_cons; [|apply Forall_cons; [|apply Forall_cons; [|apply Forall_cons; [|apply Forall_nil]]]];
    unfold band_storable, TransientB, CurveB, VectorialB, WaveletB; cbn [b_type b_low b_up b_curve b_block b_effects];
    (split; [lia|]); (split; [small|]); (split; [small|]); (split; [intros E; try discriminate E; small|]).
  1-3: (split; [intros E; discriminate E|]); (split; [|cbn; lia]);
    repeat (apply Forall_cons; [|]); try apply Forall_nil;
    (split; [small|]); cbn [e_type e_id e_timeline];
    first [right; right; split; [reflexivity|]; cbn [Z.eqb Pos.eqb WaveletB e_kfs e_phase e_base];
             (split; [repeat (apply Forall_cons; [split; [unfold bx_kf; small|first [discriminate|intros E; discriminate E]]|]); apply Forall_nil
                     |split; [cbn; lia|intros E; first [discriminate E|small]]])
          |left; split; [reflexivity|small]
          |right; left; split; reflexivity].
  split.
  - intros _. split; [reflexivity|]. split; [cbn; lia|]. exists 64, 9. cbn. repeat split; lia.
  - split; [|cbn; lia]. repeat (apply Forall_cons; [split; [small|right; right; split; [reflexivity|]; cbn [Z.eqb Pos.eqb WaveletB e_wavelet]; split; [repeat (apply Forall_cons; [unfold is_byte; lia|]); apply Forall_nil|cbn; lia]]|]). apply Forall_nil.
Qed.
Lemma bx_channel_fields : channel_fields bx_channel.
Proof. unfold channel_fields, bx_channel. cbn [c_id c_desc c_gain c_mix c_mask c_vertices c_bands c_prio c_device c_freq c_count c_dir c_res c_body c_target]. small. Qed.
Lemma bx_device_storable : device_storable bx_device.
Proof. unfold device_storable, bx_device. cbn. small. Qed.
Lemma bx_perception_fields : perception_fields bx_perception.
Proof.
  unfold perception_fields, bx_perception. cbn [p_id p_avatar p_desc p_modality p_uexp p_puexp p_library]. small.
  unfold bx_library, library_effect_storable, bx_kf. cbn [e_id e_pos e_phase e_semantic e_kfs e_base e_type e_timeline]. small.
Qed.
Lemma bx_channel_storable : channel_storable 1000 bx_channel.
Proof. split; [exact bx_channel_fields|]. split; [exact bx_bands_storable|cbn; lia]. Qed.
Example C16_hyps : experience_storable bx_experience.
Proof.
  unfold experience_storable, bx_experience, header_storable.
  cbn [h_version h_profile h_level h_date h_desc h_avatars h_perceptions h_timescale value_or].
  split; [small|]. split; [repeat (apply Forall_cons; [unfold avatar_storable; cbn; small|]); apply Forall_nil|]. split; [cbn; lia|].
  split; [|cbn; lia]. apply Forall_cons; [|apply Forall_nil]. split; [exact bx_perception_fields|].
  unfold bx_perception. cbn [p_devices p_channels].
  split; [repeat (apply Forall_cons; [exact bx_device_storable|]); apply Forall_nil|]. split; [cbn; lia|].
  split; [repeat (apply Forall_cons; [exact bx_channel_storable|]); apply Forall_nil|cbn; lia].
Qed.
(** The file of this experience has 371 bytes and is loaded. *)
Example C16_bytes : exists bytes h', writeFile 1 bx_experience = Ok bytes /\ loadFile 1 bytes haptics0 = Ok (true, h').
Proof. destruct (C16_round_trip 0 0 _ C16_hyps) as (bytes & h' & H1 & H2 & _). exists bytes, h'. auto. Qed.
(** C63: in the wavelet band of this experience (8000 Hz, blocks of 64 ticks), the second effect is at 64. *)
Example C63_hyps : exists e, nth_error (b_effects (nth 3 bx_bands band0)) 1 = Some e /\ e_pos e = 1 * 64 /\ 1000 < b_up (nth 3 bx_bands band0).
Proof. eexists. split; [reflexivity|]. cbn. lia. Qed.
(** C17 *)
Definition bx_composite : effect := Effect 1 0 None None [] None CompositeE [Effect 2 0 None None [] None ReferenceE [] [] []] [] [].
Definition bx_h (ps : list perception) (avs : list avatar) : haptics := Haptics [] [] 1 [] [] ps avs None [].
Definition bx_p (lib : list effect) (devs : list device) (chs : list channel) : perception :=
  Perception 1 1 [] None None 1 chs devs None None lib.
Definition bx_c (bands : list band) : channel :=
  Channel 1 [] bx_f bx_f 0 [] bands None None None None None None None None.
Example C17_hyps :
  composite_in_library (bx_h [bx_p [bx_composite] [] []] []) /\ small_collections (bx_h [bx_p [bx_composite] [] []] []) /\
  composite_in_band (bx_h [bx_p [] [] [bx_c [Band VectorialB None None 0 0 [bx_composite] None]]] []) /\
  small_collections (bx_h [bx_p [] [] [bx_c [Band VectorialB None None 0 0 [bx_composite] None]]] []) /\
  library_effect_storable (set_timeline [] bx_composite).
Proof.
  assert (Ht : has_timeline bx_composite) by (unfold has_timeline, vec_size; cbn; lia).
  split; [exists (bx_p [bx_composite] [] []), bx_composite; split; [left; reflexivity|]; split; [left; reflexivity|exact Ht]|].
  split; [split; [reflexivity|]; intros p [<-|[]]; split; [reflexivity|]; split; [reflexivity|]; intros c []|].
  split; [eexists (bx_p _ _ _), (bx_c _), (Band _ _ _ _ _ _ _), bx_composite; split; [left; reflexivity|]; split; [left; reflexivity|]; split; [left; reflexivity|]; split; [split; cbv; congruence|]; split; [left; reflexivity|]; split; [reflexivity|exact Ht]|].
  split; [split; [reflexivity|]; intros p [<-|[]]; split; [reflexivity|]; split; [reflexivity|]; intros c [<-|[]]; reflexivity|].
  unfold library_effect_storable, set_timeline, bx_composite. cbn [e_id e_pos e_phase e_semantic e_kfs e_base e_type e_timeline]. small.
Qed.
(** C18: 256 avatars, perceptions, devices or bands: none is loaded. *)
Definition loaded (h : haptics) : outcome haptics := do bytes <- writeFile 1 h; do '(_, h') <- loadFile 1 bytes haptics0; Ok h'.
Example C18_hyps :
  (do h <- loaded (bx_h [] (repeat (Avatar 0 0 1 None) 256)); Ok (vec_size (h_avatars h))) = Ok 0 /\
  (do h <- loaded (bx_h (repeat (bx_p [] [] []) 256) []); Ok (vec_size (h_perceptions h))) = Ok 0 /\
  (do h <- loaded (bx_h [bx_p [] (repeat (Device 0 [] None None None None None None None None None None None None None) 256) []] []);
   Ok (map (fun p => vec_size (p_devices p)) (h_perceptions h))) = Ok [0] /\
  (do h <- loaded (bx_h [bx_p [] [] [bx_c (repeat (Band TransientB None None 0 0 [] None) 257)]] []);
   Ok (map (fun p => map (fun c => vec_size (c_bands c)) (p_channels p)) (h_perceptions h))) = Ok [[1]].
Proof. vm_compute. repeat split. Qed.
(** C62: 8000 Hz and 64 ticks are 512 samples; 3000 Hz and 170 ticks are 510 samples, read back as 85 ticks. *)
Example C62_values :
  block_read (nth 3 bx_bands band0) = Ok (Some 64) /\ block_read (Band WaveletB None (Some 170) 0 3000 [] None) = Ok (Some 85).
Proof. vm_compute. auto. Qed.
(** C65 *)
Definition bx_evil (code up : Z) : outcome (list Z) :=
  do head <- writeFileHeader 1 (bx_h [bx_p [] [] [bx_c [band0]]] []);
  Ok (writeBitset (fillBitset (head ++ writeNBits 3 WaveletB ++ writeNBits 8 code ++ writeNBits 16 0 ++ writeNBits 16 up))).
Example C65_bytes :
  (do bytes <- bx_evil 5 0; loadFile 5 bytes haptics0) = UB /\ (do bytes <- bx_evil 27 1000; loadFile 5 bytes haptics0) = UB.
Proof. vm_compute. auto. Qed.
