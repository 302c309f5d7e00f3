(** Properties of units and files of a stream: C19, C20, C21, C43, C55, C56. *)
From Coq Require Import Sorting.Sorted Sorting.Permutation.
From Verif Require Import Base BitsModel FloatBase FloatModel TypesModel TypesSpec MetaModel BandModel DataModel CrcModel
  StreamModel MetaSpec MetaProof DataSpec DataProof MergeProof DataTop DataProps UnitSpec UnitProof.
Local Open Scope Z_scope.
Local Open Scope list_scope.

(** ** C19 *)
(** The packets of a unit are given to the packet decoder in order, each once, until one fails; those that start
    9 bytes or less before the end of the unit are not; then the clock advances. *)
Theorem C19_exact : forall fuel hd ps r crc, let u := hd ++ concat ps in
  length hd = 72%nat -> framed_unit u -> Forall framed_packet ps ->
  readMIHSUnit fuel u r crc
  = do '(ok, r', crc') <- hand_over fuel (firstn (reached ps) ps) (concat (skipn (reached ps) ps)) (enter u r) crc;
    Ok (ok, (if ok then tick r' else r'), crc').
Proof. exact read_unit. Qed.
Print Assumptions C19_exact.
(** If the last packet has more than 9 bytes, every packet is processed. *)
Theorem C19_all : forall fuel hd ps r crc, let u := hd ++ concat ps in
  length hd = 72%nat -> framed_unit u -> Forall framed_packet ps -> ps <> [] -> (72 < length (last ps []))%nat ->
  readMIHSUnit fuel u r crc
  = do '(ok, r', crc') <- hand_over fuel ps [] (enter u r) crc; Ok (ok, (if ok then tick r' else r'), crc').
Proof. exact read_unit_all. Qed.
Print Assumptions C19_all.
(** A unit with two data packets. *)
Definition ex_data (perception band : Z) : bits :=
  writeNBits 6 DataP ++ writeNBits 17 7 ++ writeNBits 1 0
  ++ writeNBits 1 0 ++ writeNBits 8 perception ++ writeNBits 16 2 ++ writeNBits 8 band ++ writeNBits 16 0 ++ writeNBits 7 0.
Definition ex_unit (ps : list bits) : bits := unit_header TemporalU 0 100 (vec_size (concat ps) / 8) ++ concat ps.
Example C19_hyps : let ps := [ex_data 1 3; ex_data 1 8] in
  length (unit_header TemporalU 0 100 (vec_size (concat ps) / 8)) = 72%nat /\ framed_unit (ex_unit ps) /\
  Forall framed_packet ps /\ (72 < length (last ps []))%nat.
Proof.
  cbv zeta. split; [reflexivity|]. split; [split; vm_compute; reflexivity|].
  split; [repeat (apply Forall_cons; [vm_compute; reflexivity|]); apply Forall_nil|apply Nat.ltb_lt; vm_compute; reflexivity].
Qed.
(** A checksum packet at the end of a unit is not processed. *)
Theorem C19_refuted : exists p, framed_packet p /\ framed_unit (ex_unit [ex_data 1 0; p]) /\
  let r := SReader (ex_h []) [(0, 0)] 300 1000 0 false in
  hand_over 1 [ex_data 1 0; p] [] r (Crc 0 0 0) = Ok (true, r, Crc 1 4660 0) /\
  readMIHSUnit 1 (ex_unit [ex_data 1 0; p]) r (Crc 0 0 0)
  = Ok (true, SReader (ex_h []) [(0, 0)] 400 1000 100 false, Crc 0 0 0).
Proof.
  exists (writeNBits 6 CRC16P ++ writeNBits 17 2 ++ writeNBits 1 0 ++ writeNBits 16 4660).
  split; [vm_compute; reflexivity|]. split; [split; vm_compute; reflexivity|]. cbv zeta. split; vm_compute; reflexivity.
Qed.
Print Assumptions C19_refuted.

(** ** C20 *)
(** Reading a stream never reports a failure: not when the file cannot be opened, and not when packets cannot
    be decoded. *)
Theorem C20_refuted :
  (forall fuel file ok h, readFile fuel file = Ok (ok, h) -> ok = true) /\
  (forall fuel, exists h, readFile fuel None = Ok (true, h)) /\
  (exists u, framed_unit u /\ (forall fuel, exists r crc, readMIHSUnit fuel u initializeStream (Crc 0 0 0) = Ok (false, r, crc)) /\
     forall fuel, exists h, readFile fuel (Some (writeBitset u)) = Ok (true, h)).
Proof.
  split; [exact never_false|]. split; [intros fuel; eexists; reflexivity|].
  exists (ex_unit [ex_data 77 0]). split; [split; vm_compute; reflexivity|].
  split; [intros fuel; eexists _, _; vm_compute; reflexivity|]. intros fuel. eexists. vm_compute. reflexivity.
Qed.
Print Assumptions C20_refuted.

(** ** C56 *)
(** A unit that cannot be decoded shifts what follows: its duration is not added to the clock.  The effect of the
    second unit is at position 100 when the first unit is silent, at 0 when its packet cannot be decoded. *)
Definition ex_effect_unit : bits :=
  match writeData 10 100 (ex_h [ex_e 4 0 [0]]) with
  | Ok [p] => match strip_time (packet DataP p) with Ok q => ex_unit [q] | _ => [] end
  | _ => []
  end.
Definition ex_positions (o : outcome sreader) : option (list Z) :=
  match o with
  | Ok r => Some (flat_map (fun p => flat_map (fun c => flat_map (fun b => map e_pos (b_effects b)) (c_bands c)) (p_channels p))
                           (h_perceptions (sr_haptic r)))
  | _ => None
  end.
Theorem C56_refuted : exists silent bad, field 12 24 silent = 100 /\ field 12 24 bad = 100 /\ framed_unit silent /\ framed_unit bad /\
  let r := SReader (ex_h []) [(0, 0)] 0 1000 0 false in
  ex_positions (readUnits 1 [] [silent; ex_effect_unit] r (Crc 0 0 0)) = Some [100] /\
  ex_positions (readUnits 1 [] [bad; ex_effect_unit] r (Crc 0 0 0)) = Some [0].
Proof.
  exists (unit_header SilentU 0 100 0), (ex_unit [ex_data 77 0]).
  split; [vm_compute; reflexivity|]. split; [vm_compute; reflexivity|].
  split; [split; vm_compute; reflexivity|]. split; [split; vm_compute; reflexivity|].
  cbv zeta. split; vm_compute; reflexivity.
Qed.
Print Assumptions C56_refuted.

(** ** C21 *)
(** The writer: after an initialization unit the data packets are sent in temporal units such that the clock shows
    the time of a packet when its unit begins. *)
Theorem C21_writer : forall fuel pd h init w ds, 0 < pd < 2 ^ 24 ->
  writeInitPackets (SWriter h 0 (value_or (h_timescale h) 1000)) = Ok (init, w) ->
  writeData fuel pd (checkHapticComponent (checkHapticComponent (sw_haptic w))) = Ok ds ->
  Forall sendable ds -> Forall (fun p => stamp p mod pd = 0) ds -> no_long_gap 0 ds -> unit_payload_ok ds ->
  exists us, writeUnits fuel pd h = Ok (fst (writeUnitInitialization init w) :: us) /\ timeline pd init 0 ds us.
Proof. exact write_units. Qed.
Print Assumptions C21_writer.
(** An experience whose packets have the times 0, 100 and 400. *)
Example C21_hyps : match writeInitPackets (SWriter (ex_h [ex_e 4 0 [0; 150; 410]]) 0 1000) with
  | Ok (_, w) => match writeData 10 100 (checkHapticComponent (checkHapticComponent (sw_haptic w))) with
                 | Ok ds => Forall sendable ds /\ Forall (fun p => stamp p mod 100 = 0) ds /\ no_long_gap 0 ds /\ unit_payload_ok ds /\
                            map stamp ds = [0; 100; 400]
                 | _ => False
                 end
  | _ => False
  end.
Proof.
  assert (H : match writeInitPackets (SWriter (ex_h [ex_e 4 0 [0; 150; 410]]) 0 1000) with
    | Ok (_, w) => match writeData 10 100 (checkHapticComponent (checkHapticComponent (sw_haptic w))) with
                   | Ok ds => forallb sendable_b ds = true /\ (unit_payload_ok ds /\ map stamp ds = [0; 100; 400])
                   | _ => False
                   end
    | _ => False
    end) by (vm_compute; auto).
  destruct (writeInitPackets _) as [[i w]| | |]; try contradiction. destruct (writeData _ _ _) as [ds| | |]; try contradiction.
  destruct H as (H1 & H2 & H3). split; [exact (sendable_check ds H1)|]. exact (times_100 ds H2 H3).
Qed.
(** The reader: a unit without time packets that is decoded advances the clock by its duration; an initialization
    unit sets it. *)
Theorem C21_reader : forall fuel hd ps r crc r' crc', let u := hd ++ concat ps in length hd = 72%nat -> framed_unit u ->
  Forall (fun p => framed_packet p /\ field 0 6 p <> TimingP /\ field 0 6 p <> InitializationTimingP) ps ->
  readMIHSUnit fuel u r crc = Ok (true, r', crc') -> sr_time r' = (sr_time r + field 12 24 u) mod 2 ^ 32.
Proof. exact unit_clock. Qed.
Print Assumptions C21_reader.
Theorem C21_reader_init : forall fuel hd q ps r crc r' crc', let u := hd ++ concat (q :: ps) in length hd = 72%nat -> framed_unit u ->
  framed_packet q -> field 0 6 q = InitializationTimingP -> (56 <= length q)%nat -> (72 < length (concat (q :: ps)))%nat ->
  Forall (fun p => framed_packet p /\ field 0 6 p <> TimingP /\ field 0 6 p <> InitializationTimingP) ps ->
  readMIHSUnit fuel u r crc = Ok (true, r', crc') -> sr_time r' = (field 96 32 u + field 12 24 u) mod 2 ^ 32.
Proof. exact init_unit_clock. Qed.
Print Assumptions C21_reader_init.
Definition ex_timing : bits := packet InitializationTimingP (writeInitializationTiming (SWriter (ex_h []) 700 1000)).
Example C21_reader_hyps : let ps := [ex_data 1 0] in framed_unit (ex_unit ps) /\
  Forall (fun p => framed_packet p /\ field 0 6 p <> TimingP /\ field 0 6 p <> InitializationTimingP) ps /\
  (exists r' crc', readMIHSUnit 1 (ex_unit ps) (SReader (ex_h []) [(0, 0)] 300 1000 0 false) (Crc 0 0 0) = Ok (true, r', crc') /\
    sr_time r' = 400) /\
  framed_packet ex_timing /\ field 0 6 ex_timing = InitializationTimingP /\ (72 < length ex_timing)%nat /\
  (exists r' crc', readMIHSUnit 1 (ex_unit [ex_timing]) initializeStream (Crc 0 0 0) = Ok (true, r', crc') /\ sr_time r' = 800).
Proof.
  cbv zeta. split; [split; vm_compute; reflexivity|]. split.
  { apply Forall_cons; [|apply Forall_nil]. split; [vm_compute; reflexivity|]. split; vm_compute; discriminate. }
  split; [eexists _, _; split; [vm_compute; reflexivity|reflexivity]|].
  split; [vm_compute; reflexivity|]. split; [vm_compute; reflexivity|]. split; [apply Nat.ltb_lt; vm_compute; reflexivity|].
  eexists _, _; split; [vm_compute; reflexivity|reflexivity].
Qed.
(** With a wavelet band whose blocks last half a packet duration, the second packet is at time 50, but the clock
    shows 100 when its unit begins. *)
Definition ex_wavelet (bl : Z) : haptics :=
  Haptics [] [] 1 [] [] [Perception 1 0 [] None None 6 [Channel 2 [] ex_one ex_one 1 []
    [Band WaveletB None (Some bl) 0 1000 (map (fun i => Effect 7 (i * bl) None None [] None BasisE [] [] [1; 2]) [0; 1; 2]) None]
    None None None None None None None None] [] None None []] [] None [].
Theorem C21_wavelet_refuted : exists h, match writeData 10 100 h, writeUnits 10 100 h with
  | Ok ds, Ok us => map stamp ds = [0; 50] /\
      map (field 0 6) us = [InitializationU; TemporalU; SilentU; TemporalU] /\ fold_left clock (firstn 3 us) 0 = 100
  | _, _ => False
  end.
Proof. exists (ex_wavelet 50). vm_compute. repeat split. Qed.
Print Assumptions C21_wavelet_refuted.

(** ** C43 *)
(** A silent unit before a packet that is not in the past has a duration that is a multiple of the packet duration;
    it does not extend past the packet and leaves less than the packet duration. *)
Theorem C43_silent : forall pd next w, 0 < pd < 2 ^ 31 -> sendable next -> 0 <= sw_time w <= stamp next ->
  exists d, writeUnitSilent pd (packet DataP next) w = Ok (unit_header SilentU 0 d 0, set_time (sw_time w + d) w) /\
    0 <= d /\ d mod pd = 0 /\ sw_time w + d <= stamp next < sw_time w + d + pd.
Proof. exact silent_unit. Qed.
Print Assumptions C43_silent.
(** In the stream of an experience (see C21_writer for the hypotheses) every silent unit has as duration the whole gap
    between the clock and the next packet; the durations are multiples of the packet duration. *)
Theorem C43_stream : forall pd init t ds us, timeline pd init t ds us ->
  forall a u b, us = a ++ u :: b -> field 0 6 u = SilentU ->
  field 12 24 u mod pd = 0 /\ exists p, In p ds /\ fold_left clock a t + field 12 24 u = stamp p.
Proof. exact silent_in_stream. Qed.
Print Assumptions C43_stream.
Example C43_hyps : sendable (writeNBits 32 950 ++ [true]) /\ stamp (writeNBits 32 950 ++ [true]) = 950.
Proof. split; [apply sendable_one|]; vm_compute; reflexivity. Qed.
(** With wavelet blocks of 2 ticks and packets of 3 ticks the gap is negative, and is written as 16777215. *)
Theorem C43_wavelet_refuted : exists h, match writeUnits 10 3 h with
  | Ok us => map (field 0 6) (firstn 3 us) = [InitializationU; TemporalU; SilentU] /\
             map (field 12 24) (firstn 3 us) = [0; 3; 16777215]
  | _ => False
  end.
Proof. exists (ex_wavelet 2). vm_compute. repeat split. Qed.
Print Assumptions C43_wavelet_refuted.

(** ** C55 *)
(** A file splits into the units it was written from. *)
Theorem C55_split : forall us, Forall framed_unit us -> vec_size (concat us) < 2 ^ 35 -> loadFile (writeBitset (concat us)) = Ok us.
Proof. exact load_file. Qed.
Print Assumptions C55_split.
Example C55_hyps : Forall framed_unit [ex_unit [ex_timing]; unit_header SilentU 0 100 0; ex_unit [ex_data 1 3; ex_data 1 8]] /\
  vec_size (concat [ex_unit [ex_timing]; unit_header SilentU 0 100 0; ex_unit [ex_data 1 3; ex_data 1 8]]) < 2 ^ 35.
Proof.
  split; [repeat (apply Forall_cons; [split; vm_compute; reflexivity|]); apply Forall_nil|vm_compute; reflexivity].
Qed.
