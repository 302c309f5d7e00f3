(** Vocabulary for the statements about the three programs. *)
From Coq Require Import Strings.String Reals.
From Verif Require Import Base FloatBase FloatModel TypesModel SemanticModel ToolsModel ToolsSpec RefactorModel PcmModel WaveletModel StreamModel MainModel.
Local Open Scope Z_scope.
Local Open Scope list_scope.

(** *** Options *)

(** [name] is one of the arguments; [v] stands behind the first [name] (and is not empty). *)
Definition given (args : list str) (name : string) : Prop := In (bytes_of name) args.
Definition follows (args : list str) (name : string) (v : str) : Prop :=
  exists pre post, args = pre ++ bytes_of name :: v :: post /\ ~ In (bytes_of name) pre.
Definition value (args : list str) (name : string) (v : str) : Prop := v <> [] /\ follows args name v.
(** The value of an option with a short and a long name. *)
Definition chosen (args : list str) (short long : string) (v : str) : Prop :=
  value args short v \/ (forall u, ~ value args short u) /\ value args long v.
Definition unchosen (args : list str) (short long : string) : Prop :=
  forall u, ~ value args short u /\ ~ value args long u.
Definition either (args : list str) (short long : string) : Prop := given args short \/ given args long.
Definition helped (args : list str) : Prop := either args "-h" "--help".
Definition binary (args : list str) : Prop := either args "-b" "--binary".

(** *** Numbers *)

Definition digit (c : Z) : Prop := 48 <= c <= 57.
Definition space (c : Z) : Prop := c = 32 \/ 9 <= c <= 13.
(** The number written with the digits [ds]. *)
Definition number (ds : str) : Z := fold_left (fun n c => 10 * n + (c - 48)) ds 0.
Inductive sign : str -> Z -> Prop := SignNone : sign [] 1 | SignPlus : sign [43] 1 | SignMinus : sign [45] (-1).
(** [s] begins with the number [z]: spaces, a sign, digits, anything else. *)
Definition numeral (s : str) (z : Z) : Prop :=
  exists blank sg k ds rest,
    s = blank ++ sg ++ ds ++ rest /\ Forall space blank /\ sign sg k /\ ds <> [] /\ Forall digit ds /\
    (forall c r, rest = c :: r -> ~ digit c) /\ z = k * number ds /\ - 2 ^ 31 <= z < 2 ^ 31.
(** The number given with an option, if it is given. *)
Definition number_given (args : list str) (name : string) (z : option Z) : Prop :=
  match z with
  | None => ~ given args name
  | Some n => exists s, follows args name s /\ numeral s n
  end.
Definition or_else (z : option Z) (d : Z) : Z := match z with Some n => n | None => d end.

(** *** The encoder *)

Definition extension (f : str) (e : string) : Prop := exists base, f = base ++ 46 :: bytes_of e.
(** The input: the file given, if there is one. *)
Definition input (w : world) (args : list str) (f : str) : Prop := ~ helped args /\ chosen args "-f" "--file" f /\ w_regular w f = true.
(** The output: its name and what is written for the experience [h]. *)
Definition output (args : list str) (f : str) : Prop :=
  chosen args "-o" "--output" f \/
  unchosen args "-o" "--output" /\
  (binary args /\ f = bytes_of "out.hmpg" \/ ~ binary args /\ f = bytes_of "out.hjif").
Definition written_as (args : list str) (h : haptics) (c : contents) : Prop :=
  binary args /\ (exists d, number_given args "--packet_duration" d /\ c = Stream h (or_else d 128)) \/
  ~ binary args /\ c = Interchange h.
(** The settings for audio files. *)
Definition cutoff_given (w : world) (args : list str) (x : option f64) : Prop :=
  match x with
  | None => ~ given args "-cf"
  | Some v => given args "-cf" /\ w_stod w (getCmdOption args (bytes_of "-cf")) = Ok v
  end.
Definition settings (w : world) (args : list str) (cfg : outcome config) : Prop :=
  exists bitrate budget blocklength cutoff wavelet vectorial,
    number_given args "-kb" bitrate /\ number_given args "-bu" budget /\ number_given args "-bl" blocklength /\
    cutoff_given w args cutoff /\ (wavelet = true <-> ~ given args "--disable-wavelet") /\
    (vectorial = true <-> ~ given args "--disable-vectorial") /\
    cfg = choose_config (w_cube w) (w_square w) bitrate budget blocklength cutoff wavelet vectorial.
(** The timescale asked for (in 32 bits). *)
Definition timescale_asked (args : list str) (ts : Z) : Prop :=
  exists z, number_given args "-ts" z /\ ts = or_else z 1000 mod 2 ^ 32.

(** A file of a known kind is handed to its encoder, with the result [c] and the perception [q]. *)
Inductive converts (w : world) (cfg : outcome config) (ts : Z) (f : str) (p : perception) (c : Z) (q : perception) : Prop :=
| ConvAhap : extension f "json" \/ extension f "ahap" -> w_ahap w f ts p = Ok (c, q) -> converts w cfg ts f p c q
| ConvIvs : extension f "xml" \/ extension f "ivs" -> w_ivs w f ts p = Ok (c, q) -> converts w cfg ts f p c q
| ConvWav s : extension f "wav" -> cfg = Ok s -> w_wav w f s ts p = Ok (c, q) -> converts w cfg ts f p c q.
Definition unknown_kind (f : str) : Prop :=
  Forall (fun e => ~ extension f e) ["json"; "ahap"; "xml"; "ivs"; "wav"]%string.
(** The encoders answer 0 or 1. *)
Definition answers (w : world) : Prop :=
  forall f p c q ts,
    (w_ahap w f ts p = Ok (c, q) \/ w_ivs w f ts p = Ok (c, q) \/ (exists s, w_wav w f s ts p = Ok (c, q))) -> c = 0 \/ c = 1.

(** An experience with nothing in it, and one with the given perceptions. *)
Definition with_perceptions (ts : Z) (ps : list perception) : haptics :=
  Haptics [] (bytes_of "Main") 1 [] [] ps [] (Some ts) [].
Definition blank_perception : perception := Perception 0 0 [] None None 0 [] [] None None [].
(** What -r and -l do to it. *)
Definition finished (args : list str) (h h' : haptics) : Prop :=
  exists h1,
    (either args "-r" "--refactor" /\ h1 = set_perceptions (map refactorEffects (h_perceptions h)) h \/
     ~ either args "-r" "--refactor" /\ h1 = h) /\
    (either args "-l" "--linearize" /\ h' = linearize h1 \/ ~ either args "-l" "--linearize" /\ h' = h1).
(** What happens to a world in which no file can be written. *)
Definition read_only (w : world) : world :=
  World (w_regular w) (fun _ => false) (w_bytes w) (w_ahap w) (w_ivs w) (w_wav w) (w_hjif w) (w_now w) (w_stod w) (w_cube w) (w_square w)
    (w_sibling w) (w_evaluate w) (w_pow10 w) (w_conv w) (w_filename w) (w_ohm_path w).

(** The arguments that are looked for. *)
Definition encoder_options : list string :=
  ["-h"; "--help"; "-f"; "--file"; "-o"; "--output"; "-b"; "--binary"; "-kb"; "-bu"; "-bl"; "-cf"; "--disable-wavelet";
   "--disable-vectorial"; "-ts"; "-r"; "--refactor"; "-l"; "--linearize"; "--packet_duration"]%string.

(** *** OHM files *)

(** The modality a description names, with or without the word effect. *)
Definition modality_names : list (string * Z) :=
  [("Other", 0); ("Pressure", 1); ("Acceleration", 2); ("Velocity", 3); ("Position", 4); ("Temperature", 5); ("Vibration", 6);
   ("Vibrotactile", 6); ("Water", 7); ("Wind", 8); ("Kinesthetic", 9); ("Force", 9); ("Vibrotactile Texture", 10); ("Texture", 10);
   ("Stiffness", 11); ("Friction", 12); ("Electrotactile", 13)]%string.
Definition names (s : str) (m : Z) : Prop :=
  exists n, In (n, m) modality_names /\ (s = bytes_of n \/ s = bytes_of n ++ bytes_of " effect").
Definition modality_of (s : str) (m : Z) : Prop := names s m \/ (forall k, ~ names s k) /\ m = 0.

(** An element whose count is right and whose description is not the one that is not understood (see C135). *)
Definition electrotactile : str := bytes_of "Electrotactile effect".
Definition described (l : ohm_element) : Prop := counted (l_count l) (l_channels l) /\ l_desc l <> electrotactile.

(** A bit pattern of a [float] that is a number (or infinite). *)
Definition not_nan (g : Z) : Prop := (g / 2 ^ 23) mod 2 ^ 8 = 255 -> g mod 2 ^ 23 = 0.
(** The metadata are those of a file. *)
Definition ohm_channel_good (k : ohm_channel) : Prop := word (k_gain k) /\ not_nan (k_gain k) /\ word (k_mask k).
Definition ohm_element_good (l : ohm_element) : Prop := counted (l_count l) (l_channels l) /\ Forall ohm_channel_good (l_channels l).
Definition ohm_good (o : ohm) : Prop := - 2 ^ 15 <= o_version o < 2 ^ 15 /\ Forall ohm_element_good (o_elements o).
(** The same metadata with another file name. *)
Definition renamed (f : str) (l : ohm_element) : ohm_element := OhmElement f (l_desc l) (l_count l) (l_channels l).

(** The perception made from the metadata of element number [i]. *)
Definition channel_from (j : Z) (k : ohm_channel) (c : channel) : Prop :=
  c = Channel j (k_desc k) (f32_of_bits (k_gain k)) f32_1 (k_mask k) [] [] None None None None None None None None.
Inductive channels_from : Z -> list ohm_channel -> list channel -> Prop :=
| ChannelsNil j : channels_from j [] []
| ChannelsCons j k ks c cs : channel_from j k c -> channels_from (j + 1) ks cs -> channels_from j (k :: ks) (c :: cs).
Definition perception_from (i : Z) (l : ohm_element) (p : perception) : Prop :=
  exists m cs, modality_of (l_desc l) m /\ channels_from 0 (l_channels l) cs /\
    p = Perception i 0 (l_desc l) None None m cs [] None None [].
(** The elements from number [i] on are encoded into [qs]. *)
Inductive elements_encoded (w : world) (cfg : outcome config) (ts : Z) (ohmfile : str) : Z -> list ohm_element -> list perception -> Prop :=
| EncodedNil i : elements_encoded w cfg ts ohmfile i [] []
| EncodedCons i l ls p q qs :
    w_regular w (w_sibling w ohmfile (l_file l)) = true -> perception_from i l p ->
    converts w cfg ts (w_sibling w ohmfile (l_file l)) p 0 q ->
    elements_encoded w cfg ts ohmfile (i + 1) ls qs -> elements_encoded w cfg ts ohmfile i (l :: ls) (q :: qs).

(** The same when elements of an unknown kind are left as they are. *)
Inductive elements_processed (w : world) (cfg : outcome config) (ts : Z) (ohmfile : str) : Z -> list ohm_element -> list perception -> Prop :=
| ProcessedNil i : elements_processed w cfg ts ohmfile i [] []
| ProcessedCons i l ls p q qs :
    w_regular w (w_sibling w ohmfile (l_file l)) = true -> perception_from i l p ->
    converts w cfg ts (w_sibling w ohmfile (l_file l)) p 0 q ->
    elements_processed w cfg ts ohmfile (i + 1) ls qs -> elements_processed w cfg ts ohmfile i (l :: ls) (q :: qs)
| ProcessedSkip i l ls p qs :
    w_regular w (w_sibling w ohmfile (l_file l)) = true -> perception_from i l p -> unknown_kind (w_sibling w ohmfile (l_file l)) ->
    elements_processed w cfg ts ohmfile (i + 1) ls qs -> elements_processed w cfg ts ohmfile i (l :: ls) (p :: qs).
(** The element [l] with number [i] cannot be encoded. *)
Definition element_fails (w : world) (cfg : outcome config) (ts : Z) (ohmfile : str) (i : Z) (l : ohm_element) : Prop :=
  w_regular w (w_sibling w ohmfile (l_file l)) = false \/
  w_regular w (w_sibling w ohmfile (l_file l)) = true /\
  exists p q, perception_from i l p /\ converts w cfg ts (w_sibling w ohmfile (l_file l)) p 1 q.
(** The metadata read from an OHM file. *)
Definition ohm_file (w : world) (f : str) (o : ohm) : Prop := ToolsModel.loadFile (Ohm [] 0 [] []) (w_bytes w f) = (true, o).
Definition ohm_experience (w : world) (o : ohm) (ts : Z) (ps : list perception) : haptics :=
  Haptics (to_string (o_version o)) (bytes_of "Main") 1 (w_now w) (o_desc o) ps [] (Some ts) [].

(** *** The synthesizer *)

(** The frequency and the padding asked for. *)
Definition synth_frequency (args : list str) (fs : Z) : Prop :=
  (exists s, chosen args "-fs" "--sampling_frequency" s /\ numeral s fs /\ 0 < fs) \/
  unchosen args "-fs" "--sampling_frequency" /\ fs = 8000.
Definition synth_padding (args : list str) (pad : Z) : Prop :=
  (exists s z, value args "--pad" s /\ numeral s z /\ pad = Z.max z 0) \/ (forall s, ~ value args "--pad" s) /\ pad = 0.
(** What is read: a binary file or an interchange file. *)
Definition loaded (fuel : nat) (w : world) (args : list str) (f : str) (h : haptics) : Prop :=
  binary args /\ readFile fuel (w_bytes w f) = Ok (true, h) \/
  ~ binary args /\ exists b, w_hjif w f (with_perceptions 1000 []) = Ok (b, h).
Definition audio_output (args : list str) (f : str) : Prop :=
  chosen args "-o" "--output" f \/ unchosen args "-o" "--output" /\ f = bytes_of "out.wav".
(** All channels. *)
Definition channels_of (h : haptics) : list channel := concat (map p_channels (h_perceptions h)).
(** Every channel is synthesized with the number of samples asked for. *)
Definition full_length (w : world) : Prop :=
  forall c n fs pad ts l, w_evaluate w c n fs pad ts = Ok l -> length l = Z.to_nat n.
(** The duration in samples of [ticks] with [pad] milliseconds at both ends. *)
Definition samples_for (ticks : R) (fs pad ts : Z) : R := (IZR fs * (ticks / IZR ts + 2 * IZR pad / 1000))%R.
(** The duration [T] is [len] ticks, and nothing overflows. *)
Definition normal (T : f64) (len fs pad ts : Z) : Prop :=
  is_finite T = true /\ B2R T = IZR len /\ 0 <= len < 2 ^ 32 /\ fs < 2 ^ 31 /\ pad < 2 ^ 30 /\ 0 < ts < 2 ^ 32 /\
  (IZR fs * (IZR len + 2 * IZR pad) / IZR ts <= 4294967294)%R.
(** What is written: the audio, and something else only if metadata are asked for. *)
Definition audio_written (w : world) (args : list str) (name : str) (words : list Z) (out : list (str * contents)) : Prop :=
  exists more, out = (if w_writable w name then [(name, Audio words)] else []) ++ more /\ (~ given args "--generate_ohm" -> more = []).
(** The channels with their perceptions. *)
Definition parts (h : haptics) : list (perception * channel) :=
  flat_map (fun p => map (pair p) (p_channels p)) (h_perceptions h).
(** [d] is the channel [c] with its wavelet bands decoded. *)
Definition decoded (ts : Z) (c d : channel) : Prop :=
  exists bs, d = set_bands bs c /\
    Forall2 (fun b b' => b_type b = WaveletB /\ transformBand b ts = Ok b' \/ b_type b <> WaveletB /\ b' = b) (c_bands c) bs.
(** [s] is the signal of the channel [c] of the perception [p], [n] samples from [pad] before the start on: what is synthesized
    times the gain and the unit of the perception. *)
Definition signal (w : world) (n fs pad ts : Z) (p : perception) (c : channel) (s : list f64) : Prop :=
  exists d amp, decoded ts c d /\ w_evaluate w d n fs pad ts = Ok amp /\
    s = map (fun x => mul64 (mul64 x (f64_of_f32 (c_gain c))) (w_pow10 w (or_else (p_puexp p) 0))) amp.
(** The samples in [words]: sample by sample, the signals in turn. *)
Definition interleaved (conv : f64 -> outcome Z) (signals : list (list f64)) (n : nat) (words : list Z) : Prop :=
  length words = (length signals * n)%nat /\
  forall c k s v, nth_error signals c = Some s -> nth_error s k = Some v ->
    exists x, nth_error words (k * length signals + c) = Some x /\ sample_word conv v = Ok x.
(** The element of the metadata for the perception [p], in the file [name]. *)
Definition described_by (name : str) (p : perception) (l : ohm_element) : Prop :=
  l_file l = name /\ l_desc l = p_desc p /\ l_count l = Z.of_nat (length (p_channels p)) /\
  Forall2 (fun c k => k_desc k = c_desc c /\ f32_of_bits (k_gain k) = c_gain c /\ k_mask k = c_mask c) (p_channels p) (l_channels l).
