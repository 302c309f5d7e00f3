(** Properties of whole streams: C29, C30, C44, C45, C50, C51, C53, C58, C59. *)
From Coq Require Import Sorting.Sorted Sorting.Permutation.
From Verif Require Import Base BitsModel FloatBase FloatModel TypesModel TypesSpec SemanticModel MetaModel BandModel DataModel CrcModel
  StreamModel MetaSpec MetaProof DataSpec DataProof MergeProof DataTop ExampleTac DataProps UnitSpec UnitProof UnitProps StreamSpec StreamProof.
Local Open Scope Z_scope.
Local Open Scope list_scope.

(** ** C29 *)
(** Cleaning keeps every effect that has data where it is, and all it does is remove. *)
Theorem C29_kept : forall h, contents has_data (checkHapticComponent h) = contents has_data h.
Proof. exact check_keeps. Qed.
Print Assumptions C29_kept.
Theorem C29_only_removes : forall h, sublist (contents (fun _ _ => true) (checkHapticComponent h)) (contents (fun _ _ => true) h).
Proof. exact check_only. Qed.
Print Assumptions C29_only_removes.
(** Every effect without data is removed from a band if no two of them are adjacent. *)
Theorem C29_removed : forall b, no_two_adjacent (fun e => negb (has_data b e)) (b_effects b) ->
  b_effects (check_band b) = filter (has_data b) (b_effects b).
Proof. exact check_band_exact. Qed.
Print Assumptions C29_removed.
Example C29_hyps : let b := Band CurveB None None 0 0 [ex_e 1 0 []; ex_e 2 0 [0]; ex_e 3 0 []] None in
  no_two_adjacent (fun e => negb (has_data b e)) (b_effects b) /\ map e_id (filter (has_data b) (b_effects b)) = [2].
Proof. cbn. repeat split; congruence. Qed.
(** Otherwise one can remain: the second of two. *)
Theorem C29_refuted : exists h, contents has_data h = [] /\ contents (fun _ _ => true) (checkHapticComponent h) <> [].
Proof.
  exists (ex_h [ex_e 1 0 []; ex_e 2 0 []]). split; [reflexivity|]. vm_compute. discriminate.
Qed.
Print Assumptions C29_refuted.

(** ** C44 *)
(** When a block lasts more than half a packet and not more than a packet, each block is written once, in order. *)
Theorem C44_complete : forall fuel pd b bl, b_block b = Some bl -> 0 < bl <= pd -> pd < 2 * bl -> (length (b_effects b) < fuel)%nat ->
  createWaveletPayload fuel pd b = Ok (map writeWaveletEffect (b_effects b)).
Proof. exact wavelet_payload. Qed.
Print Assumptions C44_complete.
Definition ex_block (x : Z) : effect := Effect 7 0 None None [] None BasisE [] [] [x; 2].
Example C44_hyps : let b := Band WaveletB None (Some 80) 0 1000 (map ex_block [1; 2; 3]) None in
  b_block b = Some 80 /\ length (b_effects b) = 3%nat /\ 0 < 80 <= 100 /\ 100 < 2 * 80.
Proof. cbn. repeat split; lia. Qed.
(** With two blocks in a packet duration the second is never written: the output does not depend on it. *)
Theorem C44_lost_refuted : exists b, forall x, exists l,
  createWaveletPayload 10 100 (set_effects [ex_block 1; ex_block x; ex_block 3] b) = Ok l /\
  createWaveletPayload 10 100 (set_effects [ex_block 1; ex_block 2; ex_block 3] b) = Ok l.
Proof. exists (Band WaveletB None (Some 50) 0 1000 [] None). intros x. eexists. split; reflexivity. Qed.
Print Assumptions C44_lost_refuted.
(** A block longer than the packet duration is written forever; a block length of 0 is undefined behaviour. *)
Theorem C44_loop_refuted : exists b, forall fuel, createWaveletPayload fuel 100 b = NoFuel.
Proof. exists (Band WaveletB None (Some 200) 0 1000 [ex_block 1] None). intros fuel. exact (wavelet_loops fuel _ []). Qed.
Print Assumptions C44_loop_refuted.
Theorem C44_zero_refuted : exists b, b_block b = Some 0 /\ forall fuel, createWaveletPayload fuel 100 b = UB.
Proof. exists (Band WaveletB None (Some 0) 0 1000 [] None). split; reflexivity. Qed.
Print Assumptions C44_zero_refuted.

(** ** C51 *)
(** Without spatial perceptions: the data packets of the stream are, in another order, the packets of each band
    (flattened), with the id of the band. *)
Theorem C51_once : forall fuel pd h, Forall (fun p => is_spatial (p_modality p) = false) (h_perceptions h) ->
  (forall out, writeAllData fuel pd h = Ok out <-> by_band fuel pd 0 (getEffectsId h) RAU (bands_of h) out) /\
  (forall out, by_band fuel pd 0 (getEffectsId h) RAU (bands_of h) out -> length out = length (bands_of h)).
Proof. intros fuel pd h H. split; [exact (all_data_by_band fuel pd h H)|]. intros out. exact (by_band_length fuel pd _ _ _ _ out). Qed.
Print Assumptions C51_once.
Definition ex_channel (id : Z) (es : list effect) : channel :=
  Channel id [] ex_one ex_one 1 [] [Band CurveB None None 0 0 es None] None None None None None None None None.
Definition ex_perception (id modality : Z) (lib : list effect) (cs : list channel) : perception :=
  Perception id 3 [] None None modality cs [] None None lib.
Definition ex_experience (ps : list perception) : haptics := Haptics [] [] 1 [] [] ps [Avatar 3 0 1 None] None [].
Example C51_hyps : let h := ex_experience [ex_perception 1 6 [] [ex_channel 2 [ex_e 4 0 [0]]; ex_channel 3 [ex_e 5 0 [0]]]] in
  Forall (fun p => is_spatial (p_modality p) = false) (h_perceptions h) /\ length (bands_of h) = 2%nat /\
  match writeAllData 10 100 h with Ok out => map (@length bits) out = [1; 1]%nat | _ => False end.
Proof. cbv zeta. split; [repeat constructor|]. split; [reflexivity|]. vm_compute. reflexivity. Qed.
(** With two spatial bands the packet of the first is sent twice. *)
Theorem C51_refuted : exists h, length (bands_of h) = 2%nat /\
  match writeData 10 100 h with
  | Ok [a; b; c] => a = b /\ map (fun p => field 57 8 p) [a; b; c] = [0; 0; 1]
  | _ => False
  end.
Proof.
  exists (ex_experience [ex_perception 1 10 [] [ex_channel 2 [ex_e 4 0 [0]]; ex_channel 3 [ex_e 5 0 [0]]]]).
  split; [reflexivity|]. vm_compute. split; reflexivity.
Qed.
Print Assumptions C51_refuted.

(** ** Streams written and read back *)
Definition ex_read (h : haptics) (f : list bits -> list bits) : outcome sreader :=
  do us <- writeUnits 20 100 h; readUnits 5 (f us) (f us) initializeStream (Crc 0 0 0).

(** ** C50 *)
(** The data of a spatial perception crashes the reader; that of the same perception with another modality is read. *)
Theorem C50_refuted : let h m := ex_experience [ex_perception 1 m [] [ex_channel 2 [ex_e 4 0 [0; 150]]]] in
  ex_read (h VibrotactileTextureM) (fun us => us) = Throw /\ ex_positions (ex_read (h 6) (fun us => us)) = Some [0].
Proof. cbv zeta. split; vm_compute; reflexivity. Qed.
Print Assumptions C50_refuted.

(** ** C45 *)
(** Two perceptions whose channels have the same id crash the reader; with different ids they are read. *)
Theorem C45_refuted : let h i := ex_experience [ex_perception 1 6 [] [ex_channel 2 [ex_e 4 0 [0]]]; ex_perception 2 6 [] [ex_channel i [ex_e 5 10 [0]]]] in
  ex_read (h 2) (fun us => us) = Throw /\ ex_positions (ex_read (h 3) (fun us => us)) = Some [0; 10].
Proof. cbv zeta. split; vm_compute; reflexivity. Qed.
Print Assumptions C45_refuted.

(** ** C30 *)
(** Avatars, synchronisation points, and for each perception the avatar it refers to and the numbers of its library
    effects and channels. *)
Definition ex_summary (o : outcome sreader) : list Z :=
  match o with
  | Ok r => let h := sr_haptic r in
      [vec_size (h_avatars h); vec_size (h_syncs h)] ++
      flat_map (fun p => [p_avatar p; vec_size (p_library p); vec_size (p_channels p)]) (h_perceptions h)
  | _ => []
  end.
(** Reading the initialization unit again duplicates the avatar and the synchronisation point and changes the avatar
    of the perception from 3 to 1. *)
Theorem C30_refuted : let h := ex_experience [ex_perception 1 6 [ex_e 9 0 [0]] [ex_channel 2 [ex_e 4 0 [0]]]] in
  ex_summary (ex_read h (fun us => firstn 1 us)) = [1; 1; 3; 1; 1] /\
  ex_summary (ex_read h (fun us => firstn 1 us ++ firstn 1 us)) = [2; 2; 1; 1; 1].
Proof. cbv zeta. split; vm_compute; reflexivity. Qed.
Print Assumptions C30_refuted.

(** ** C58 *)
(** A packet marked as random access (0) contains the continuation of effect 4, which began in the packet before. *)
Theorem C58_refuted : exists b, band_data_ok known_semantic 100 [4; 5] b /\
  match packetizeBand 10 100 (Address 1 2 0) b [4; 5] RAU with
  | Ok ([p; q], _, _) => map e_id (effects_in CurveB p) = [4] /\
      map stamp [p; q] = [0; 100] /\ field 32 1 q = RAU /\ map e_id (effects_in CurveB q) = [4; 5]
  | _ => False
  end.
Proof.
  exists (Band CurveB None None 0 1000 [ex_e 4 0 [0; 150]; ex_e 5 160 [0]] None). split; [|vm_compute; repeat split].
  unfold band_data_ok, data_band. cbn [b_type b_effects].
  split; [auto|]. split; [lia|]. split; [repeat (apply Forall_cons; [ex_effect_ok|]); apply Forall_nil|].
  split; [reflexivity|]. split; [repeat (constructor; [cbn; lia|]); constructor|].
  split; [repeat (constructor; [cbn; lia|]); constructor|]. split.
  - unfold in_sequence. cbn. repeat (constructor; [|repeat (constructor; try lia)]). constructor.
  - intros a e Ea Hty. destruct a as [|x [|y a]]; try discriminate Ea.
    + injection Ea as _ <-. discriminate Hty.
    + injection Ea as _ _ Ea. destruct a; discriminate Ea.
Qed.
Print Assumptions C58_refuted.

(** ** C53 *)
Definition ex_packets (es : list effect) : list bits :=
  match writeData 10 100 (ex_h es) with
  | Ok ps => map (fun p => match strip_time (packet DataP p) with Ok q => q | _ => [] end) ps
  | _ => []
  end.
Definition ex_crc (u : bits) : Z :=
  match computeCRC u (poly_bits 16 CRC16_POLYNOMIAL) with Ok c => bits_val (firstn 16 c) | _ => 0 end.
Definition ex_crc_packet (v : Z) : bits := writeNBits 6 CRC16P ++ writeNBits 17 2 ++ writeNBits 1 0 ++ writeNBits 16 v.
(** A unit whose effects began earlier is marked with 1, as the writer does. *)
Definition ex_later (q : bits) : bits := unit_header TemporalU 1 100 (vec_size q / 8) ++ q.
(** Four units, with and without a checksum of the first unit in the second; the effect has keyframes in the first,
    third and fourth unit. *)
Definition ex_units (crc : bool) : list bits :=
  match ex_packets [ex_e 4 0 [0; 250; 350]] with
  | [p; q; q'] => let u := ex_unit [p] in [u; ex_unit ((if crc then [ex_crc_packet (ex_crc u)] else []) ++ [ex_data 1 0]); ex_later q; ex_later q']
  | _ => []
  end.
Definition ex_keyframes (o : outcome sreader) : option (list nat) :=
  match o with
  | Ok r => Some (flat_map (fun p => flat_map (fun c => flat_map (fun b => map (fun e => length (e_kfs e)) (b_effects b)) (c_bands c)) (p_channels p))
                           (h_perceptions (sr_haptic r)))
  | _ => None
  end.
(** The checksum is accepted, but one of the keyframes sent after it is lost. *)
Theorem C53_refuted :
  match ex_units true with
  | u :: _ => match checkCRC (ex_units true) (Crc 1 (ex_crc u) 0) with Ok (ok, _) => ok = true | _ => False end
  | _ => False
  end /\
  let r := SReader (ex_h []) [(0, 0)] 0 1000 0 false in
  ex_keyframes (readUnits 1 (ex_units false) (ex_units false) r (Crc 0 0 0)) = Some [3%nat] /\
  ex_keyframes (readUnits 1 (ex_units true) (ex_units true) r (Crc 0 0 0)) = Some [2%nat].
Proof. split; [vm_compute; reflexivity|]. cbv zeta. split; vm_compute; reflexivity. Qed.
Print Assumptions C53_refuted.

(** ** C59 *)
(** A packet: the length stated in its header is that of the payload in bytes, modulo 2^17; the payload follows. *)
Theorem C59_length : forall ty payload, ty <> DataP -> 0 <= ty < 64 ->
  field 0 6 (packet ty payload) = ty /\ field 6 17 (packet ty payload) = bytes_for (vec_size payload) mod 2 ^ 17 /\
  vec_size (packet ty payload) = 24 + 8 * bytes_for (vec_size payload) /\
  firstn (length payload) (skipn 24 (packet ty payload)) = payload.
Proof. exact packet_shape. Qed.
Print Assumptions C59_length.
Example C59_case : MetadataHapticsP <> DataP /\ 0 <= MetadataHapticsP < 64 /\ bytes_for 17 mod 2 ^ 17 = 3.
Proof. split; [discriminate|]. split; [unfold MetadataHapticsP; lia|reflexivity]. Qed.
(** So a packet of 128 KiB is not well-formed: it states the length 0. *)
Theorem C59_refuted : exists payload, ~ framed_packet (packet EffectLibraryP payload) /\
  field 6 17 (packet EffectLibraryP payload) = 0 /\ vec_size (packet EffectLibraryP payload) > 2 ^ 20.
Proof. exact long_packet. Qed.
Print Assumptions C59_refuted.
