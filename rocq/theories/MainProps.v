(** Properties of the three programs (Encoder, Decoder, Synthesizer). *)
From Coq Require Import Strings.String Reals Psatz.
From Flocq Require Import Core.Core.
From Verif Require Import Base FloatBase FloatModel TypesModel SemanticModel ToolsModel ToolsSpec RefactorModel SynthModel SynthProof PcmModel PcmSpec StreamModel
  MainModel MainSpec MainProof MainEncode MainOhm MainSynth MainAudio.
Local Open Scope Z_scope.
Local Open Scope list_scope.

(** A world: the folder has the files a.ahap, b.ivs, c.wav, d.hjif, e.ohm, notes.txt; the encoders add a channel. *)
Definition x_channel : channel := Channel 0 (bytes_of "palm") f32_1 f32_1 4 [] [] None None None None None None None None.
Definition x_add (f : str) (ts : Z) (p : perception) : outcome (Z * perception) := Ok (0, set_channels (p_channels p ++ [x_channel]) p).
Definition x_ohm : ohm :=
  Ohm OHM_HEADER 3 (bytes_of "vest")
    [OhmElement (bytes_of "a.ahap") (bytes_of "Texture") 1 [OhmChannel (bytes_of "c0") 1065353216 4];
     OhmElement (bytes_of "c.wav") (bytes_of "Force effect") 0 []].
Definition x_ohm_text : ohm := Ohm OHM_HEADER 3 [] [OhmElement (bytes_of "notes.txt") (bytes_of "Texture") 0 []].
Definition x_files : list str := map bytes_of ["a.ahap"; "b.ivs"; "c.wav"; "d.hjif"; "e.ohm"; "t.ohm"; "notes.txt"]%string.
Definition x_bytes (o : ohm) : option (list Z) := match ToolsModel.writeFile o with Ok f => Some f | _ => None end.
Definition x_experience : haptics := with_perceptions 48000 [Perception 0 0 [] None None 6 [x_channel] [] None None []].
Definition x_world : world :=
  World (fun f => existsb (str_eqb f) x_files) (fun _ => true)
    (fun f => if str_eqb f (bytes_of "e.ohm") then x_bytes x_ohm else if str_eqb f (bytes_of "t.ohm") then x_bytes x_ohm_text else None)
    x_add x_add (fun f _ => x_add f) (fun _ _ => Ok (true, x_experience)) (bytes_of "today") (fun _ => Ok f64_0) (fun x => x) (fun x => x)
    (fun _ f => f) (fun c n fs pad ts => EvaluateChannel (fun x => x) (fun x _ => x) (fun _ => Throw) (fun _ => Throw) (fun _ => Throw) 9 c n fs pad ts)
    (fun _ => f64_1) conv_hw (fun f => f) (fun _ => bytes_of "out.ohm").
Definition arguments (l : list string) : list str := map bytes_of l.
Ltac given := first [apply has2_not; vm_compute; reflexivity | apply has2_either; vm_compute; reflexivity | apply has_not; vm_compute; reflexivity
  | apply chosen_option; split; [discriminate|vm_compute; reflexivity] | apply unchosen_option; vm_compute; reflexivity].
Ltac input := split; [given|split; [given|vm_compute; reflexivity]].
Ltac settings := apply settings_iff; vm_compute; reflexivity.
Lemma x_answers : answers x_world.
Proof. intros f p c q ts [H|[H|(s & H)]]; injection H as <- _; left; reflexivity. Qed.
Lemma x_full : full_length x_world.
Proof. intros c n fs pad ts l H. exact (proj1 (channel_bounds _ _ _ _ _ _ _ _ _ _ _ _ H)). Qed.

(** *** C130: the status of the encoder *)
Theorem C130_status : forall w args f code out name, answers w -> input w args f -> output args name -> encoder_main w args = Ok (code, out) ->
  (code = 1 /\ out = []) \/
  ((code = 0 \/ code = -1 /\ extension f "hjif") /\ exists c, out = if w_writable w name then [(name, c)] else []).
Proof. exact status. Qed.
Print Assumptions C130_status.
Example C130_status_ex : let args := arguments ["-f"; "a.ahap"; "-o"; "x.hjif"]%string in
  answers x_world /\ input x_world args (bytes_of "a.ahap") /\ output args (bytes_of "x.hjif") /\
  exists c, encoder_main x_world args = Ok (0, [(bytes_of "x.hjif", c)]).
Proof. cbv zeta. split; [exact x_answers|]. split; [input|]. split; [left; given|]. eexists. vm_compute. reflexivity. Qed.
(** An interchange file: the status is -1 although the file is written. *)
Theorem C130_hjif_refuted : forall w args f code out, input w args f -> extension f "hjif" -> encoder_main w args = Ok (code, out) -> code = -1.
Proof. exact hjif_status. Qed.
Print Assumptions C130_hjif_refuted.
Example C130_hjif_refuted_ex : let args := arguments ["-f"; "d.hjif"; "-b"; "-o"; "x.hmpg"]%string in
  input x_world args (bytes_of "d.hjif") /\ extension (bytes_of "d.hjif") "hjif" /\
  encoder_main x_world args = Ok (-1, [(bytes_of "x.hmpg", Stream x_experience 128)]).
Proof. cbv zeta. split; [input|]. split; [exists (bytes_of "d"); reflexivity|vm_compute; reflexivity]. Qed.
(** A file that cannot be written: the status is the same as if it had been written. *)
Theorem C130_unwritable_refuted : forall w args code out, encoder_main w args = Ok (code, out) -> encoder_main (read_only w) args = Ok (code, []).
Proof. exact unwritable. Qed.
Print Assumptions C130_unwritable_refuted.
Example C130_unwritable_refuted_ex : encoder_main (read_only x_world) (arguments ["-f"; "a.ahap"; "-o"; "/x"]%string) = Ok (0, []).
Proof. vm_compute. reflexivity. Qed.

(** *** C131: one file *)
Theorem C131_encoded : forall w args f cfg ts q h c name, input w args f -> settings w args cfg -> timescale_asked args ts ->
  converts w cfg ts f blank_perception 0 q -> finished args (with_perceptions ts [q]) h -> written_as args h c -> output args name ->
  encoder_main w args = Ok (0, if w_writable w name then [(name, c)] else []).
Proof. exact one_file. Qed.
Print Assumptions C131_encoded.
Example C131_encoded_ex : let args := arguments ["-b"; "--file"; "c.wav"; "-kb"; " 16"; "-ts"; "48000"; "--packet_duration"; "64"]%string in
  let q := set_channels [x_channel] blank_perception in
  exists cfg, input x_world args (bytes_of "c.wav") /\ settings x_world args cfg /\ timescale_asked args 48000 /\
  converts x_world cfg 48000 (bytes_of "c.wav") blank_perception 0 q /\ finished args (with_perceptions 48000 [q]) (with_perceptions 48000 [q]) /\
  written_as args (with_perceptions 48000 [q]) (Stream (with_perceptions 48000 [q]) 64) /\ output args (bytes_of "out.hmpg").
Proof.
  cbv zeta. eexists. split; [input|]. split; [apply settings_iff; unfold encoder_config; cbn [obind]; vm_compute; reflexivity|].
  split; [exists (Some 48000); split; [apply option_int_iff; vm_compute; reflexivity|reflexivity]|].
  split; [eapply ConvWav; [exists (bytes_of "c"); reflexivity|reflexivity|reflexivity]|].
  split; [apply finished_iff; vm_compute; reflexivity|]. split; [apply written_iff; vm_compute; reflexivity|apply output_iff; vm_compute; reflexivity].
Qed.
Theorem C131_refused : forall w args f cfg ts, input w args f -> settings w args cfg -> timescale_asked args ts ->
  (exists q, converts w cfg ts f blank_perception 1 q) \/ (unknown_kind f /\ ~ extension f "ohm" /\ ~ extension f "hjif") ->
  encoder_main w args = Ok (1, []).
Proof. exact (fun w args f cfg ts I S T H => match H with or_introl (ex_intro _ q C) => one_refused w args f cfg ts q I S T C | or_intror (conj U (conj N1 N2)) => one_unknown w args f cfg ts I S T U N1 N2 end). Qed.
Print Assumptions C131_refused.
Example C131_refused_ex : let args := arguments ["-f"; "notes.txt"]%string in
  exists cfg, input x_world args (bytes_of "notes.txt") /\ settings x_world args cfg /\ timescale_asked args 1000 /\
  unknown_kind (bytes_of "notes.txt") /\ ~ extension (bytes_of "notes.txt") "ohm" /\ ~ extension (bytes_of "notes.txt") "hjif".
Proof.
  cbv zeta. eexists. split; [input|]. split; [settings|]. split; [exists None; split; [given|reflexivity]|].
  split; [repeat constructor; ext; discriminate|split; ext; discriminate].
Qed.
Theorem C131_no_input : forall w args, ~ helped args -> (unchosen args "-f" "--file" \/ exists f, chosen args "-f" "--file" f /\ w_regular w f = false) ->
  encoder_main w args = Ok (1, []).
Proof. exact no_input. Qed.
Print Assumptions C131_no_input.
Example C131_no_input_ex : let args := arguments ["-f"; "missing.wav"]%string in ~ helped args /\ chosen args "-f" "--file" (bytes_of "missing.wav") /\ w_regular x_world (bytes_of "missing.wav") = false.
Proof. cbv zeta. split; [given|split; [given|vm_compute; reflexivity]]. Qed.

(** *** C132: the options of the help text *)
(** --bitrate and its value: the program does the same without them. *)
Theorem C132_bitrate_refuted : forall w before n after,
  Forall (fun o => n <> bytes_of o /\ forall b, before <> b ++ [bytes_of o]) encoder_options ->
  encoder_main w (before ++ bytes_of "--bitrate" :: n :: after) = encoder_main w (before ++ after).
Proof. exact ignored_bitrate. Qed.
Print Assumptions C132_bitrate_refuted.
Example C132_bitrate_refuted_ex :
  Forall (fun o => bytes_of "16" <> bytes_of o /\ forall b, arguments ["-f"; "c.wav"]%string <> b ++ [bytes_of o]) encoder_options.
Proof. apply plain_arguments. vm_compute. reflexivity. Qed.
(** The short name is used: the settings are those for the bitrate. *)
Theorem C132_short : forall w args r b, number_given args "-kb" (Some r) -> settings w args b ->
  exists blocklength cutoff wavelet vectorial,
    b = choose_config (w_cube w) (w_square w) (Some r) None blocklength cutoff wavelet vectorial.
Proof. exact bitrate_used. Qed.
Print Assumptions C132_short.
Example C132_short_ex : number_given (arguments ["-kb"; "16"]%string) "-kb" (Some 16).
Proof. apply option_int_iff. vm_compute. reflexivity. Qed.

(** *** C133: OHM files *)
Theorem C133_encoded : forall w args f cfg ts o qs h c name, input w args f -> settings w args cfg -> timescale_asked args ts -> extension f "ohm" -> ohm_file w f o ->
  Forall described (o_elements o) -> elements_encoded w cfg ts f 0 (o_elements o) qs ->
  finished args (ohm_experience w o ts qs) h -> written_as args h c -> output args name ->
  encoder_main w args = Ok (0, if w_writable w name then [(name, c)] else []).
Proof. exact (fun w args f cfg ts o qs h c name I S T E F D P => ohm_done w args f cfg ts o qs h c name I S T E F D (encoded_processed w cfg ts f 0 (o_elements o) qs P)). Qed.
Print Assumptions C133_encoded.
Example C133_encoded_ex : let args := arguments ["-f"; "e.ohm"]%string in
  exists cfg qs, input x_world args (bytes_of "e.ohm") /\ settings x_world args cfg /\ timescale_asked args 1000 /\ extension (bytes_of "e.ohm") "ohm" /\
  ohm_file x_world (bytes_of "e.ohm") x_ohm /\ Forall described (o_elements x_ohm) /\ elements_encoded x_world cfg 1000 (bytes_of "e.ohm") 0 (o_elements x_ohm) qs /\
  map p_modality qs = [10; 9].
Proof.
  cbv zeta. do 2 eexists. split; [input|]. split; [settings|]. split; [exists None; split; [given|reflexivity]|].
  split; [exists (bytes_of "e"); reflexivity|]. split; [vm_compute; reflexivity|].
  split; [repeat constructor; discriminate|]. split.
  - eapply EncodedCons; [vm_compute; reflexivity|exists 10; eexists; split; [apply modality_iff; [discriminate|vm_compute; reflexivity]|split; [repeat econstructor|reflexivity]]| |].
    + apply ConvAhap; [right; exists (bytes_of "a"); reflexivity|reflexivity].
    + eapply EncodedCons; [vm_compute; reflexivity|exists 9; eexists; split; [apply modality_iff; [discriminate|vm_compute; reflexivity]|split; [repeat econstructor|reflexivity]]| |apply EncodedNil].
      eapply ConvWav; [exists (bytes_of "c"); reflexivity|reflexivity|reflexivity].
  - reflexivity.
Qed.
Theorem C133_failed : forall w args f cfg ts o ls1 l ls2 qs, input w args f -> settings w args cfg -> timescale_asked args ts -> extension f "ohm" -> ohm_file w f o ->
  Forall described (o_elements o) -> o_elements o = ls1 ++ l :: ls2 -> elements_encoded w cfg ts f 0 ls1 qs ->
  element_fails w cfg ts f (Z.of_nat (List.length ls1)) l -> encoder_main w args = Ok (1, []).
Proof. exact (fun w args f cfg ts o ls1 l ls2 qs I S T E F D Eo P X => ohm_failed w args f cfg ts o ls1 l ls2 qs I S T E F D Eo (encoded_processed w cfg ts f 0 ls1 qs P) X). Qed.
Print Assumptions C133_failed.
Theorem C133_unreadable : forall w args f cfg ts o, input w args f -> settings w args cfg -> timescale_asked args ts -> extension f "ohm" ->
  ToolsModel.loadFile (Ohm [] 0 [] []) (w_bytes w f) = (false, o) -> encoder_main w args = Ok (1, []).
Proof. exact ohm_unreadable. Qed.
Print Assumptions C133_unreadable.
Example C133_failed_ex : element_fails x_world (Ok (generateDefaultConfig true true)) 1000 (bytes_of "e.ohm") 2 (OhmElement (bytes_of "gone.wav") [] 0 []) /\
  fst (ToolsModel.loadFile (Ohm [] 0 [] []) (Some (bytes_of "not an OHM file"))) = false.
Proof. split; [left; vm_compute; reflexivity|vm_compute; reflexivity]. Qed.
(** Elements of an unknown kind are left out, and the status is success. *)
Theorem C133_unknown_refuted : forall w args f cfg ts o qs h c name, input w args f -> settings w args cfg -> timescale_asked args ts -> extension f "ohm" -> ohm_file w f o ->
  Forall described (o_elements o) -> elements_processed w cfg ts f 0 (o_elements o) qs ->
  finished args (ohm_experience w o ts qs) h -> written_as args h c -> output args name ->
  encoder_main w args = Ok (0, if w_writable w name then [(name, c)] else []).
Proof. exact ohm_done. Qed.
Print Assumptions C133_unknown_refuted.
Example C133_unknown_refuted_ex : let args := arguments ["-f"; "t.ohm"]%string in
  let q := Perception 0 0 (bytes_of "Texture") None None 10 [] [] None None [] in
  elements_processed x_world (Ok (generateDefaultConfig true true)) 1000 (bytes_of "t.ohm") 0 (o_elements x_ohm_text) [q] /\
  encoder_main x_world args = Ok (0, [(bytes_of "out.hjif", Interchange (ohm_experience x_world x_ohm_text 1000 [q]))]).
Proof.
  cbv zeta. split; [|vm_compute; reflexivity]. apply ProcessedSkip; [vm_compute; reflexivity| |repeat constructor; ext; discriminate|apply ProcessedNil].
  exists 10. eexists. split; [apply modality_iff; [discriminate|vm_compute; reflexivity]|split; [constructor|reflexivity]].
Qed.

(** *** C134: metadata *)
Theorem C134_back : forall now o h f, ohm_good o -> h_perceptions h = [] ->
  exists h', loadMetadataFromOHM now o h = Ok h' /\ extractMetadataToOHM f h' = Ok (Ohm OHM_HEADER (o_version o) (o_desc o) (map (renamed f) (o_elements o))).
Proof. exact metadata_back. Qed.
Print Assumptions C134_back.
Example C134_back_ex : ohm_good x_ohm.
Proof. split; [cbn; lia|]. repeat constructor; cbn; try lia; try discriminate. Qed.
Theorem C134_version_refuted : forall f h, h_version h <> [] -> (forall z, ~ numeral (h_version h) z) -> extractMetadataToOHM f h = Throw.
Proof. exact version_throws. Qed.
Print Assumptions C134_version_refuted.
Example C134_version_refuted_ex : bytes_of "RM1" <> [] /\ forall z, ~ numeral (bytes_of "RM1") z.
Proof. split; [discriminate|]. apply stoi_throw. vm_compute. reflexivity. Qed.

(** *** C135: modalities *)
Theorem C135_names : forall s m, s <> electrotactile -> (modality_of s m <-> convertToModality s = m).
Proof. exact modality_iff. Qed.
Print Assumptions C135_names.
Example C135_names_ex : names (bytes_of "Vibrotactile Texture effect") 10 /\ convertToModality (bytes_of "something") = 0.
Proof. split; [|vm_compute; reflexivity]. exists "Vibrotactile Texture"%string. split; [repeat ((left; reflexivity) || right)|right; reflexivity]. Qed.
Theorem C135_electrotactile_refuted : modality_of electrotactile 13 /\ convertToModality electrotactile = 0.
Proof. exact electro_missing. Qed.
Print Assumptions C135_electrotactile_refuted.

(** *** C136: the padding *)
Theorem C136_milliseconds : forall fuel w args f h fs pad name code out T len, full_length w -> input w args f -> loaded fuel w args f h ->
  synth_frequency args fs -> synth_padding args pad -> audio_output args name -> synth_main fuel w args = Ok (code, out) ->
  h_timescale h = Some 1000 -> getTimeLength (linearize h) = Ok T -> normal T len fs pad 1000 ->
  exists n words, List.length words = (List.length (channels_of h) * Z.to_nat n)%nat /\ audio_written w args name words out /\
  0 <= n /\ (Rabs (IZR n - samples_for (IZR len) fs pad 1000) <= / 2 + / 1000)%R.
Proof. exact synth_ms. Qed.
Print Assumptions C136_milliseconds.
Theorem C136_ticks : forall fuel w args f h fs pad name code out ts T len, full_length w -> input w args f -> loaded fuel w args f h ->
  synth_frequency args fs -> synth_padding args pad -> audio_output args name -> synth_main fuel w args = Ok (code, out) ->
  h_timescale h = Some ts -> getTimeLength (linearize h) = Ok T -> normal T len fs pad ts ->
  exists n words, List.length words = (List.length (channels_of h) * Z.to_nat n)%nat /\ audio_written w args name words out /\
  0 <= n /\ (Rabs (IZR n - IZR fs * (IZR len + 2 * IZR pad) / IZR ts) <= / 2 + / 1000)%R.
Proof. exact synth_count. Qed.
Print Assumptions C136_ticks.
(** With a finer timescale the audio is too short. *)
Theorem C136_timescale_refuted : forall fuel w args f h fs pad name code out ts T len, full_length w -> input w args f -> loaded fuel w args f h ->
  synth_frequency args fs -> synth_padding args pad -> audio_output args name -> synth_main fuel w args = Ok (code, out) ->
  h_timescale h = Some ts -> getTimeLength (linearize h) = Ok T -> normal T len fs pad ts -> 2000 <= ts -> (2000 <= IZR fs * IZR pad)%R ->
  exists n words, List.length words = (List.length (channels_of h) * Z.to_nat n)%nat /\ audio_written w args name words out /\
  (IZR n + 1 < samples_for (IZR len) fs pad ts)%R.
Proof. exact synth_short. Qed.
Print Assumptions C136_timescale_refuted.
Example C136_timescale_refuted_ex : let args := arguments ["-f"; "d.hjif"; "--pad"; "24"; "-fs"; "1000"]%string in
  input x_world args (bytes_of "d.hjif") /\ loaded 0 x_world args (bytes_of "d.hjif") x_experience /\ synth_frequency args 1000 /\ synth_padding args 24 /\
  audio_output args (bytes_of "out.wav") /\ getTimeLength (linearize x_experience) = Ok f64_0 /\ normal f64_0 0 1000 24 48000 /\
  synth_main 0 x_world args = Ok (0, [(bytes_of "out.wav", Audio [0])]).
Proof.
  cbv zeta. split; [input|]. split; [apply loaded_iff; vm_compute; reflexivity|]. split; [apply synth_fs_iff; vm_compute; reflexivity|].
  split; [apply synth_pad_iff; vm_compute; reflexivity|]. split; [apply audio_iff; vm_compute; reflexivity|]. split; [vm_compute; reflexivity|].
  split; [|vm_compute; reflexivity]. unfold normal. repeat split; try lia; lra.
Qed.

(** *** C137: the audio *)
Theorem C137_audio : forall fuel w args f h fs pad name code out, full_length w -> input w args f -> loaded fuel w args f h ->
  synth_frequency args fs -> synth_padding args pad -> audio_output args name -> synth_main fuel w args = Ok (code, out) ->
  code = 0 /\ exists ts n signals words, h_timescale h = Some ts /\
    Forall2 (fun pc s => signal w n fs pad ts (fst pc) (snd pc) s) (parts (linearize h)) signals /\
    Forall (fun s => List.length s = Z.to_nat n) signals /\
    interleaved (w_conv w) signals (Z.to_nat n) words /\ audio_written w args name words out.
Proof. exact synth_audio. Qed.
Print Assumptions C137_audio.
Example C137_audio_ex : full_length x_world /\ exists c, synth_main 0 x_world (arguments ["-f"; "d.hjif"; "-o"; "x.wav"; "--pad"; "-4"]%string) = Ok (0, [(bytes_of "x.wav", c)]).
Proof. split; [exact x_full|]. eexists. vm_compute. reflexivity. Qed.
Theorem C137_frequency : forall fuel w args f s z, input w args f -> chosen args "-fs" "--sampling_frequency" s -> numeral s z -> z <= 0 -> synth_main fuel w args = Ok (1, []).
Proof. exact synth_refused. Qed.
Print Assumptions C137_frequency.
Example C137_frequency_ex : let args := arguments ["-f"; "d.hjif"; "-fs"; "-8"]%string in
  input x_world args (bytes_of "d.hjif") /\ chosen args "-fs" "--sampling_frequency" (bytes_of "-8") /\ numeral (bytes_of "-8") (-8).
Proof. cbv zeta. split; [input|]. split; [given|]. apply stoi_iff. vm_compute. reflexivity. Qed.
(** A file without a perception, for example one that cannot be loaded: an exception leaves the program. *)
Theorem C137_empty_refuted : forall fuel w args f h fs pad, input w args f -> loaded fuel w args f h ->
  synth_frequency args fs -> synth_padding args pad -> h_perceptions h = [] -> synth_main fuel w args = Throw.
Proof. exact synth_empty. Qed.
Print Assumptions C137_empty_refuted.
Example C137_empty_refuted_ex : let args := arguments ["-f"; "notes.txt"; "-b"]%string in
  input x_world args (bytes_of "notes.txt") /\ loaded 0 x_world args (bytes_of "notes.txt") (with_perceptions 1000 []) /\ synth_frequency args 8000 /\ synth_padding args 0.
Proof.
  cbv zeta. split; [input|]. split; [apply loaded_iff; vm_compute; reflexivity|]. split; [apply synth_fs_iff; vm_compute; reflexivity|apply synth_pad_iff; vm_compute; reflexivity].
Qed.

(** *** C138: the decoder *)
Theorem C138_decoded : forall fuel w args f o h, ~ helped args -> chosen args "-f" "--file" f -> chosen args "-o" "--output" o ->
  readFile fuel (w_bytes w f) = Ok (true, h) -> decoder_main fuel w args = Ok (0, if w_writable w o then [(o, Interchange h)] else []).
Proof. exact decoder_done. Qed.
Print Assumptions C138_decoded.
Theorem C138_unasked : forall fuel w args, ~ helped args -> (unchosen args "-f" "--file" \/ unchosen args "-o" "--output") -> decoder_main fuel w args = Ok (1, []).
Proof. exact decoder_unasked. Qed.
Print Assumptions C138_unasked.
(** The decoder never reports a failure to read: the status is 0, and for a file that cannot be opened an empty experience is written. *)
Theorem C138_status_refuted : forall fuel w args f o code out, ~ helped args -> chosen args "-f" "--file" f -> chosen args "-o" "--output" o ->
  decoder_main fuel w args = Ok (code, out) -> code = 0.
Proof. exact decoder_status. Qed.
Print Assumptions C138_status_refuted.
Theorem C138_missing_refuted : forall fuel w args f o, ~ helped args -> chosen args "-f" "--file" f -> chosen args "-o" "--output" o -> w_bytes w f = None ->
  decoder_main fuel w args = Ok (0, if w_writable w o then [(o, Interchange (with_perceptions 1000 []))] else []).
Proof. exact decoder_missing. Qed.
Print Assumptions C138_missing_refuted.
Example C138_ex : let args := arguments ["-f"; "missing.hmpg"; "--output"; "x.hjif"]%string in
  ~ helped args /\ chosen args "-f" "--file" (bytes_of "missing.hmpg") /\ chosen args "-o" "--output" (bytes_of "x.hjif") /\ w_bytes x_world (bytes_of "missing.hmpg") = None /\
  unchosen (arguments ["-f"; "a.hmpg"]%string) "-o" "--output".
Proof. cbv zeta. split; [given|]. split; [given|]. split; [given|]. split; [vm_compute; reflexivity|given]. Qed.

(** *** C139: numbers in options and versions *)
Theorem C139_number : forall s z, stoi s = Ok z <-> numeral s z.
Proof. exact stoi_iff. Qed.
Print Assumptions C139_number.
Theorem C139_no_number : forall s, stoi s = Throw <-> forall z, ~ numeral s z.
Proof. exact stoi_throw. Qed.
Print Assumptions C139_no_number.
Theorem C139_written : forall z, - 2 ^ 31 <= z < 2 ^ 31 -> numeral (to_string z) z.
Proof. exact to_string_numeral. Qed.
Print Assumptions C139_written.
Example C139_ex : stoi (bytes_of "  -12ms") = Ok (-12) /\ stoi (bytes_of "2147483648") = Throw /\ stoi (bytes_of "ms") = Throw /\ to_string (-2147483648) = bytes_of "-2147483648".
Proof. repeat split; vm_compute; reflexivity. Qed.

(** *** C140: the metadata written with the audio *)
Theorem C140_metadata : forall fuel w args f h fs pad name code out v, full_length w -> input w args f -> loaded fuel w args f h ->
  synth_frequency args fs -> synth_padding args pad -> audio_output args name -> given args "--generate_ohm" -> w_writable w (w_ohm_path w name) = true ->
  (h_version h = [] /\ v = 0 \/ numeral (h_version h) v) -> - 2 ^ 15 <= v < 2 ^ 15 ->
  Forall (fun p => Z.of_nat (List.length (p_channels p)) < 2 ^ 15 /\ Forall (fun c => 0 <= c_mask c < 2 ^ 32) (p_channels p)) (h_perceptions h) ->
  synth_main fuel w args = Ok (code, out) ->
  exists o, In (w_ohm_path w name, Metadata o) out /\ o_version o = v /\ o_desc o = h_desc h /\
    Forall2 (described_by (w_filename w name)) (h_perceptions h) (o_elements o).
Proof. exact synth_metadata. Qed.
Print Assumptions C140_metadata.
Example C140_metadata_ex : let args := arguments ["-f"; "d.hjif"; "--generate_ohm"; "-o"; "x.wav"]%string in
  input x_world args (bytes_of "d.hjif") /\ loaded 0 x_world args (bytes_of "d.hjif") x_experience /\ given args "--generate_ohm" /\ h_version x_experience = [] /\
  exists words, synth_main 0 x_world args = Ok (0, [(bytes_of "x.wav", Audio words); (bytes_of "out.ohm", Metadata (Ohm OHM_HEADER 0 []
    [OhmElement (bytes_of "x.wav") [] 1 [OhmChannel (bytes_of "palm") 1065353216 4]]))]).
Proof.
  cbv zeta. split; [input|]. split; [apply loaded_iff; vm_compute; reflexivity|]. split; [right; right; left; reflexivity|]. split; [reflexivity|]. eexists. vm_compute. reflexivity.
Qed.
(** A version that is not a number: the program does not end normally although the audio could be written. *)
Theorem C140_version_refuted : forall fuel w args f h fs pad, full_length w -> input w args f -> loaded fuel w args f h ->
  synth_frequency args fs -> synth_padding args pad -> given args "--generate_ohm" -> h_version h <> [] -> (forall v, ~ numeral (h_version h) v) ->
  forall code out, synth_main fuel w args <> Ok (code, out).
Proof. exact synth_version. Qed.
Print Assumptions C140_version_refuted.
Example C140_version_refuted_ex : forall v, ~ numeral (bytes_of "v1") v.
Proof. intros v H. apply stoi_iff in H. discriminate H. Qed.

(** *** C141: the audio and the metadata encoded again *)
(** Encoding the audio as an element of the metadata asks for: every perception gets the channels of all perceptions. *)
Theorem C141_channels_refuted : forall fsin fpow akima bezier bspline log10 pow2 getSMR LP mds name h p l k q0 wv cfg ts q,
  In p (h_perceptions h) -> described_by name p l -> perception_from k l q0 ->
  List.length (w_channels wv) = List.length (channels_of h) -> Forall (fun s => Z.of_nat (List.length s) < 2 ^ 32) (w_channels wv) ->
  pcm_encode fsin fpow akima bezier bspline log10 pow2 getSMR LP mds (Some wv) cfg ts q0 = Ok (Some q) ->
  List.length (p_channels q) = List.length (channels_of h).
Proof. exact again_channels. Qed.
Print Assumptions C141_channels_refuted.
(** And every channel the gain that the samples have been multiplied with already (C137). *)
Theorem C141_gain_refuted : forall fsin fpow akima bezier bspline log10 pow2 getSMR LP mds name p l k q0 wv cfg ts q,
  described_by name p l -> perception_from k l q0 -> Forall (fun s => Z.of_nat (List.length s) < 2 ^ 32) (w_channels wv) ->
  pcm_encode fsin fpow akima bezier bspline log10 pow2 getSMR LP mds (Some wv) cfg ts q0 = Ok (Some q) ->
  forall i c, nth_error (p_channels p) i = Some c -> exists c', nth_error (p_channels q) i = Some c' /\ c_gain c' = c_gain c.
Proof. exact again_gain. Qed.
Print Assumptions C141_gain_refuted.
Definition x_two : haptics := with_perceptions 1000 (map (fun i => Perception i 0 [] None None 6 [x_channel] [] None None []) [0; 1]).
Definition x_element : ohm_element := OhmElement (bytes_of "x.wav") [] 1 [OhmChannel (bytes_of "palm") 1065353216 4].
Definition x_from : perception :=
  Perception 0 0 [] None None 0 [Channel 0 (bytes_of "palm") (f32_of_bits 1065353216) f32_1 4 [] [] None None None None None None None None] [] None None [].
Lemma x_gain : f32_of_bits 1065353216 = f32_1.
Proof. assert (E : bits_of_f32 f32_1 = 1065353216) by (vm_compute; reflexivity). rewrite <- E. apply gain_bits. Qed.
Example C141_ex : let p := Perception 0 0 [] None None 6 [x_channel] [] None None [] in
  In p (h_perceptions x_two) /\ perception_from 0 x_element x_from /\ described_by (bytes_of "x.wav") p x_element /\ List.length (channels_of x_two) = 2%nat /\
  exists q, pcm_encode (fun x => x) (fun x _ => x) (fun _ => Throw) (fun _ => Throw) (fun _ => Throw) (fun x => x) (fun x => x) (fun _ _ => (f64_0, f64_0)) (fun _ s _ => s) (fun _ _ => ([], []))
    (Some (Wav 8000 [[f64_0]; [f64_1]])) (Config f64_0 1024 16 false false) 1000 x_from = Ok (Some q).
Proof.
  cbv zeta. split; [left; reflexivity|]. split.
  - eexists. eexists. split; [|split; [|reflexivity]].
    + apply modality_iff; [discriminate|vm_compute; reflexivity].
    + constructor; [reflexivity|constructor].
  - split; [|split; [reflexivity|eexists; reflexivity]]. unfold described_by. split; [reflexivity|]. split; [reflexivity|]. split; [reflexivity|].
    constructor; [|constructor]. split; [reflexivity|]. split; [exact x_gain|reflexivity].
Qed.
