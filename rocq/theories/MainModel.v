(** The three programs: source/Encoder/src/main.cpp, source/Decoder/src/main.cpp and source/Synthesizer/src/main.cpp, with
    Helper::playFile (source/Synthesizer/src/Helper.cpp 79-114), the exchange of metadata with OHM files
    (source/Types/src/Haptics.cpp 134-182) and Perception::convertToModality (source/Types/src/Perception.cpp 249-294).
    No proofs in this file.  What the programs print is left out.  [Throw] is an exception that leaves [main]. *)
From Coq Require Import Strings.String.
From Flocq Require IEEE754.Binary IEEE754.Bits.
From Verif Require Import Base FloatBase FloatModel TypesModel SemanticModel ToolsModel RefactorModel SynthModel JsonModel WaveletModel PcmModel StreamModel.
Local Open Scope Z_scope.
Local Open Scope list_scope.

(** *** Numbers in decimal *)

(** std::isspace and std::isdigit in the C locale. *)
Definition is_space (c : Z) : bool := (c =? 32) || (9 <=? c) && (c <=? 13).
Definition is_digit (c : Z) : bool := (48 <=? c) && (c <=? 57).
Fixpoint skip_spaces (s : str) : str :=
  match s with c :: r => if is_space c then skip_spaces r else s | [] => [] end.
(** The value of the digits at the front; [None] if there is none. *)
Fixpoint digits_value (acc : Z) (s : str) : Z :=
  match s with c :: r => if is_digit c then digits_value (10 * acc + (c - 48)) r else acc | [] => acc end.
Definition number_at (s : str) : option Z :=
  match s with c :: _ => if is_digit c then Some (digits_value 0 s) else None | [] => None end.
(** std::stoi: spaces, a sign and digits; the rest is ignored.  Without digits or outside of [int] it throws. *)
Definition stoi (s : str) : outcome Z :=
  let v := match skip_spaces s with
           | 45 :: r => option_map Z.opp (number_at r)
           | 43 :: r => number_at r
           | r => number_at r
           end in
  match v with Some z => if z =? cast i32 z then Ok z else Throw | None => Throw end.
(** std::to_string of an [int]; [n] bounds the number of digits. *)
Fixpoint digits (n : nat) (z : Z) : str :=
  match n with O => [] | S n' => if z <? 10 then [48 + z] else digits n' (z / 10) ++ [48 + z mod 10] end.
Definition to_string (z : Z) : str := if z <? 0 then 45 :: digits 10 (- z) else digits 10 z.

(** *** Metadata of OHM files *)

(** The bit pattern of a [float] and back (a NaN has one pattern here). *)
Definition f32_of_bits (w : Z) : f32 := Binary.B2BSN 24 128 (Bits.b32_of_bits w).
Definition bits_of_f32 (x : f32) : Z := Bits.bits_of_b32 (Binary.BSN2B 24 128 (exist _ (Binary.B754_nan 24 128 false 1 eq_refl) eq_refl) x).

(** Perception::convertToModality: Perception.cpp 249-294. *)
Definition effect_names : list (string * Z) :=
  [("Pressure effect", 1); ("Acceleration effect", 2); ("Velocity effect", 3); ("Position effect", 4); ("Temperature effect", 5);
   ("Vibration effect", 6); ("Vibrotactile effect", 6); ("Water effect", 7); ("Wind effect", 8); ("Velocity effect", 3);
   ("Kinesthetic effect", 9); ("Force effect", 9); ("Vibrotactile Texture effect", 10); ("Texture effect", 10);
   ("Stiffness effect", 11); ("Friction effect", 12)]%string.
Definition convertToModality (s : str) : Z :=
  match List.find (fun p : string * Z => str_eqb (bytes_of (fst p)) s) (app modalities_read effect_names) with Some p => snd p | None => 0 end.

(** Haptics::loadMetadataFromOHM: Haptics.cpp 134-154.  [now] is what [ctime] gives.  [channelsMetadata[j]] past the end
    is undefined. *)
Definition ohm_to_channel (j : Z) (k : ohm_channel) : channel :=
  Channel j (k_desc k) (f32_of_bits (k_gain k)) f32_1 (k_mask k) [] [] None None None None None None None None.
Fixpoint ohm_to_channels (n : nat) (j : Z) (ks : list ohm_channel) : outcome (list channel) :=
  match n with
  | O => Ok []
  | S n' =>
      match ks with
      | [] => UB
      | k :: ks' => do cs <- ohm_to_channels n' (j + 1) ks'; Ok (ohm_to_channel j k :: cs)
      end
  end.
Fixpoint ohm_to_perceptions (i : Z) (ls : list ohm_element) : outcome (list perception) :=
  match ls with
  | [] => Ok []
  | l :: ls' =>
      do cs <- ohm_to_channels (Z.to_nat (l_count l)) 0 (l_channels l);
      do ps <- ohm_to_perceptions (i + 1) ls';
      Ok (Perception i 0 (l_desc l) None None (convertToModality (l_desc l)) cs [] None None [] :: ps)
  end.
Definition loadMetadataFromOHM (now : str) (o : ohm) (h : haptics) : outcome haptics :=
  do ps <- ohm_to_perceptions 0 (o_elements o);
  Ok (Haptics (to_string (o_version o)) (h_profile h) (h_level h) now (o_desc o) (h_perceptions h ++ ps) (h_avatars h) (h_timescale h) (h_syncs h)).

(** Haptics::extractMetadataToOHM: Haptics.cpp 156-182 ([short] conversions). *)
Definition channel_to_ohm (c : channel) : ohm_channel := OhmChannel (c_desc c) (bits_of_f32 (c_gain c)) (cast u32 (c_mask c)).
Definition perception_to_ohm (filename : str) (p : perception) : ohm_element :=
  let n := cast i16 (Z.of_nat (List.length (p_channels p))) in
  OhmElement filename (p_desc p) n (map channel_to_ohm (firstn (Z.to_nat n) (p_channels p))).
Definition extractMetadataToOHM (filename : str) (h : haptics) : outcome ohm :=
  do v <- match h_version h with [] => Ok 0 | s => stoi s end;
  Ok (Ohm OHM_HEADER (cast i16 v) (h_desc h) (map (perception_to_ohm filename) (h_perceptions h))).

(** *** Helper::playFile *)

(** The number of samples: Helper.cpp 102 ([2 * pad] is an [int]). *)
Definition play_count (timeLength : f64) (fs pad timescale : Z) : outcome Z :=
  if negb (2 * pad =? cast i32 (2 * pad)) then UB else int_of_float u32 (fround (div64 (mul64 (f64_of_Z fs) (add64 timeLength (f64_of_Z (2 * pad)))) (f64_of_Z timescale))).
(** Helper.cpp 82-95: the wavelet bands are decoded first. *)
Definition decode_band (timescale : Z) (b : band) : outcome band := if b_type b =? WaveletB then transformBand b timescale else Ok b.
Definition decode_bands (timescale : Z) (c : channel) : outcome channel :=
  do bs <- map_o (decode_band timescale) (c_bands c); Ok (set_bands bs c).
(** Helper.cpp 79-114.  [evaluate] is Channel::EvaluateChannel ([SynthModel.v]; with its mathematical functions), [pow10]
    the power of ten, [conv] the conversion of [WavParser].  The result: the words of the audio file, or [None]. *)
Definition play_channel (evaluate : channel -> Z -> Z -> Z -> Z -> outcome (list f64)) (pow10 : Z -> f64) (timeLength : f64) (fs pad timescale : Z)
    (p : perception) (c : channel) : outcome (list f64) :=
  do n <- play_count timeLength fs pad timescale;
  do amp <- evaluate c n fs pad timescale;
  Ok (map (fun x => mul64 (mul64 x (f64_of_f32 (c_gain c))) (pow10 (value_or (p_puexp p) DEFAULT_PERCEPTION_UNIT_EXPONENT))) amp).
Definition play_perception evaluate pow10 timeLength fs pad timescale (p : perception) : outcome (list (list f64)) :=
  map_o (play_channel evaluate pow10 timeLength fs pad timescale p) (p_channels p).
Definition decode_perception (timescale : Z) (p : perception) : outcome perception :=
  do cs <- map_o (decode_bands timescale) (p_channels p); Ok (set_channels cs p).
Definition play_signals evaluate pow10 (h : haptics) (timeLength : f64) (fs pad : Z) : outcome (list (list f64)) :=
  do ps <- map_o (decode_perception (match h_timescale h with Some t => t | None => 1000 end)) (h_perceptions h);
  match h_timescale h with
  | None => Throw
  | Some timescale => do l <- map_o (play_perception evaluate pow10 timeLength fs pad timescale) ps; Ok (concat l)
  end.
Definition playFile evaluate pow10 conv (h : haptics) (timeLength : f64) (fs pad : Z) : outcome (option (list Z)) :=
  do signals <- play_signals evaluate pow10 h timeLength fs pad; saveFile conv signals.

(** *** The programs *)

(** What the programs use: the file system, the encoders (result and perception afterwards), the loaders, [ctime], [std::stod],
    the powers in the settings, path concatenation, the synthesis, [filename()] and [replace_extension(".ohm")] of a path. *)
Record world := World {
  w_regular : str -> bool;
  w_writable : str -> bool;
  w_bytes : str -> option (list Z);
  w_ahap : str -> Z -> perception -> outcome (Z * perception);
  w_ivs : str -> Z -> perception -> outcome (Z * perception);
  w_wav : str -> config -> Z -> perception -> outcome (Z * perception);
  w_hjif : str -> haptics -> outcome (bool * haptics);
  w_now : str;
  w_stod : str -> outcome f64;
  w_cube : f64 -> f64;
  w_square : f64 -> f64;
  w_sibling : str -> str -> str;
  w_evaluate : channel -> Z -> Z -> Z -> Z -> outcome (list f64);
  w_pow10 : Z -> f64;
  w_conv : f64 -> outcome Z;
  w_filename : str -> str;
  w_ohm_path : str -> str
}.
(** What is written: the file and its contents. *)
Inductive contents := Stream (h : haptics) (packetDuration : Z) | Interchange (h : haptics) | Audio (words : list Z) | Metadata (o : ohm).
Definition written (w : world) (path : str) (c : contents) : list (str * contents) := if w_writable w path then [(path, c)] else [].
Definition EXIT_SUCCESS : Z := 0.
Definition EXIT_FAILURE : Z := 1.

(** Looking up an option under two names. *)
Definition option2 (args : list str) (a b : string) : str :=
  match getCmdOption args (bytes_of a) with [] => getCmdOption args (bytes_of b) | s => s end.
Definition has2 (args : list str) (a b : string) : bool := cmdOptionExists args (bytes_of a) || cmdOptionExists args (bytes_of b).
Definition option_int (args : list str) (a : string) : outcome (option Z) :=
  if cmdOptionExists args (bytes_of a) then do z <- stoi (getCmdOption args (bytes_of a)); Ok (Some z) else Ok None.

(** The settings given by the options: Encoder main.cpp 134-157. *)
Definition encoder_config (w : world) (args : list str) : outcome (outcome config) :=
  do bitrate <- option_int args "-kb";
  do budget <- option_int args "-bu";
  do blocklength <- option_int args "-bl";
  do cutoff <- (if cmdOptionExists args (bytes_of "-cf") then do x <- w_stod w (getCmdOption args (bytes_of "-cf")); Ok (Some x) else Ok None);
  Ok (choose_config (w_cube w) (w_square w) bitrate budget blocklength cutoff
        (negb (cmdOptionExists args (bytes_of "--disable-wavelet"))) (negb (cmdOptionExists args (bytes_of "--disable-vectorial")))).
(** main.cpp 121-131: the output. *)
Definition encoder_output (args : list str) : str :=
  match option2 args "-o" "--output" with
  | [] => if has2 args "-b" "--binary" then bytes_of "out.hmpg" else bytes_of "out.hjif"
  | s => s
  end.
(** The kinds of input files: main.cpp 195-203 and 238-246 ([getFileExt]). *)
Definition is_ahap (ext : str) : bool := str_eqb ext (bytes_of "json") || str_eqb ext (bytes_of "ahap").
Definition is_ivs (ext : str) : bool := str_eqb ext (bytes_of "xml") || str_eqb ext (bytes_of "ivs").
Definition is_wav (ext : str) : bool := str_eqb ext (bytes_of "wav").
(** One input file into a perception: main.cpp 197-232 and 238-272; [None]: another kind of file. *)
Definition encode_input (w : world) (cfg : outcome config) (timescale : Z) (filename : str) (p : perception) : outcome (option (Z * perception)) :=
  let ext := getFileExt filename in
  if is_ahap ext then do r <- w_ahap w filename timescale p; Ok (Some r)
  else if is_ivs ext then do r <- w_ivs w filename timescale p; Ok (Some r)
  else if is_wav ext then do c <- cfg; do r <- w_wav w filename c timescale p; Ok (Some r)
  else Ok None.
(** The loop over the elements of an OHM file: main.cpp 183-237; [i] is the index. *)
Fixpoint encode_elements (w : world) (cfg : outcome config) (timescale : Z) (ohmfile : str) (i : nat) (ls : list ohm_element)
    (codeExit : Z) (ps : list perception) : outcome (Z * list perception) :=
  match ls with
  | [] => Ok (codeExit, ps)
  | l :: ls' =>
      if codeExit =? EXIT_SUCCESS then
        let filename := w_sibling w ohmfile (l_file l) in
        if w_regular w filename then
          match nth_error ps i with
          | None => Throw
          | Some p =>
              do r <- encode_input w cfg timescale filename p;
              let '(codeExit, p) := match r with Some (c, q) => (c, q) | None => (codeExit, p) end in
              encode_elements w cfg timescale ohmfile (S i) ls' codeExit (if codeExit =? EXIT_SUCCESS then vec_set ps i p else ps)
          end
        else Ok (EXIT_FAILURE, ps)
      else Ok (codeExit, ps)
  end.
Definition perception0 : perception := Perception 0 0 [] None None 0 [] [] None None [].
(** main.cpp 159-278: the experience and the exit code; [None]: an OHM file that cannot be read (172-176). *)
Definition encoder_input (w : world) (cfg : outcome config) (timescale : Z) (filename : str) : outcome (option (Z * haptics)) :=
  let h := Haptics [] (bytes_of "Main") 1 [] [] [] [] (Some timescale) [] in
  let ext := getFileExt filename in
  if str_eqb ext (bytes_of "ohm") then
    let '(ok, o) := ToolsModel.loadFile (Ohm [] 0 [] []) (w_bytes w filename) in
    if (ok : bool) then
      do h <- loadMetadataFromOHM (w_now w) o h;
      let codeExit := if Nat.eqb (List.length (o_elements o)) (List.length (h_perceptions h)) then EXIT_SUCCESS else EXIT_FAILURE in
      do '(codeExit, ps) <- encode_elements w cfg timescale filename 0 (o_elements o) codeExit (h_perceptions h);
      Ok (Some (codeExit, set_perceptions ps h))
    else Ok None
  else
    do r <- encode_input w cfg timescale filename perception0;
    match r with
    | Some (c, p) => Ok (Some (c, addPerception p h))
    | None =>
        if str_eqb ext (bytes_of "hjif") then do '(_, h) <- w_hjif w filename h; Ok (Some (-1, h))
        else Ok (Some (EXIT_FAILURE, h))
    end.
(** main.cpp 284-301: what is done to the experience, and the file. *)
Definition finish_experience (args : list str) (h : haptics) : haptics :=
  let h := if has2 args "-r" "--refactor" then set_perceptions (map refactorEffects (h_perceptions h)) h else h in
  if has2 args "-l" "--linearize" then linearize h else h.
Definition DEFAULT_PACKET_DURATION : Z := 128.
Definition encoder_contents (args : list str) (h : haptics) : outcome contents :=
  if has2 args "-b" "--binary" then
    do d <- option_int args "--packet_duration"; Ok (Stream h (match d with Some z => z | None => DEFAULT_PACKET_DURATION end))
  else Ok (Interchange h).
(** main of the encoder: main.cpp 104-303: the exit code and what is written ([setTimescale] takes an [unsigned int]). *)
Definition encoder_main (w : world) (args : list str) : outcome (Z * list (str * contents)) :=
  if has2 args "-h" "--help" then Ok (EXIT_SUCCESS, [])
  else
    let filename := option2 args "-f" "--file" in
    if negb (match filename with [] => false | _ => w_regular w filename end) then Ok (EXIT_FAILURE, [])
    else
      do cfg <- encoder_config w args;
      do ts <- option_int args "-ts";
      do r <- encoder_input w cfg (match ts with Some z => cast u32 z | None => 1000 end) filename;
      match r with
      | None => Ok (EXIT_FAILURE, [])
      | Some (codeExit, h) =>
          if codeExit =? EXIT_FAILURE then Ok (codeExit, [])
          else
            do c <- encoder_contents args (finish_experience args h);
            Ok (codeExit, written w (encoder_output args) c)
      end.

(** main of the decoder: Decoder main.cpp 64-105 (readFile: [StreamModel.v]). *)
Definition decoder_main (fuel : nat) (w : world) (args : list str) : outcome (Z * list (str * contents)) :=
  if has2 args "-h" "--help" then Ok (EXIT_SUCCESS, [])
  else
    let filename := option2 args "-f" "--file" in
    let output := option2 args "-o" "--output" in
    match filename, output with
    | [], _ | _, [] => Ok (EXIT_FAILURE, [])
    | _, _ =>
        do '(ok, h) <- readFile fuel (w_bytes w filename);
        if (ok : bool) then Ok (EXIT_SUCCESS, written w output (Interchange h)) else Ok (EXIT_FAILURE, [])
    end.

(** main of the synthesizer: Synthesizer main.cpp 79-156.  [playFile] has decoded the wavelet bands when the metadata are extracted, which
    makes no difference to them. *)
Definition synth_fs (args : list str) : outcome (option Z) :=
  match option2 args "-fs" "--sampling_frequency" with
  | [] => Ok (Some 8000)
  | s => do fs <- stoi s; Ok (if fs <=? 0 then None else Some fs)
  end.
Definition synth_pad (args : list str) : outcome Z :=
  match getCmdOption args (bytes_of "--pad") with [] => Ok 0 | s => do p <- stoi s; Ok (Z.max p 0) end.
Definition synth_main (fuel : nat) (w : world) (args : list str) : outcome (Z * list (str * contents)) :=
  if has2 args "-h" "--help" then Ok (EXIT_SUCCESS, [])
  else
    let filename := option2 args "-f" "--file" in
    if negb (match filename with [] => false | _ => w_regular w filename end) then Ok (EXIT_FAILURE, [])
    else
      let output := match option2 args "-o" "--output" with [] => bytes_of "out.wav" | s => s end in
      do ofs <- synth_fs args;
      match ofs with
      | None => Ok (EXIT_FAILURE, [])
      | Some fs =>
          do pad <- synth_pad args;
          do '(ok, h) <-
            (if has2 args "-b" "--binary" then readFile fuel (w_bytes w filename)
             else do '(_, h) <- w_hjif w filename (Haptics [] (bytes_of "Main") 1 [] [] [] [] (Some 1000) []); Ok (true, h));
          if (ok : bool) then
            let h := linearize h in
            do timeLength <- getTimeLength h;
            do r <- playFile (w_evaluate w) (w_pow10 w) (w_conv w) h timeLength fs pad;
            match r with
            | Some words =>
                do more <- (if cmdOptionExists args (bytes_of "--generate_ohm")
                            then do o <- extractMetadataToOHM (w_filename w output) h; Ok (written w (w_ohm_path w output) (Metadata o))
                            else Ok []);
                Ok (EXIT_SUCCESS, written w output (Audio words) ++ more)
            | None => Ok (EXIT_FAILURE, [])
            end
          else Ok (EXIT_FAILURE, [])
      end.
