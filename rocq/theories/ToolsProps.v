(** The properties of the tools. *)
From Coq Require Import Reals String.
From Flocq Require Import Core.Core.
From Coq Require Import List.
From Verif Require Import Base TypesModel SemanticModel FloatBase FloatModel FloatProof ToolsModel ToolsSpec
  ToolsProof ToolsFloatProof.

(** *** C39: options *)
Theorem C39_value : forall tokens o pre v post,
  tokens = pre ++ o :: v :: post -> ~ In o pre -> getCmdOption tokens o = v.
Proof. exact (fun ts o pre v post => option_value ts o v post pre). Qed.
Print Assumptions C39_value.
Example C39_value_ex :
  ["-f"; "in.hjif"; "-o"; "out.hmpg"; "-o"; "other"]%string <> [] /\
  getCmdOption (map bytes_of ["-f"; "in.hjif"; "-o"; "out.hmpg"; "-o"; "other"]%string) (bytes_of "-o") =
  bytes_of "out.hmpg".
Proof. split; [discriminate|reflexivity]. Qed.

Theorem C39_nothing : forall tokens o,
  (~ In o tokens \/ exists pre, tokens = pre ++ [o] /\ ~ In o pre) -> getCmdOption tokens o = [].
Proof. intros ts o [N|(pre & -> & N)]; [exact (option_absent ts o N)|exact (option_last pre o N)]. Qed.
Print Assumptions C39_nothing.
Example C39_nothing_ex : ~ In [45; 102] ([[45; 111]; [97]] : list str).
Proof. intros [C|[C|[]]]; discriminate C. Qed.

Theorem C39_exists : forall tokens o, cmdOptionExists tokens o = true <-> In o tokens.
Proof. exact option_exists. Qed.
Print Assumptions C39_exists.

Theorem C39_extension : forall base ext, ~ In 46 ext -> getFileExt (base ++ 46 :: ext) = ext.
Proof. exact file_ext. Qed.
Print Assumptions C39_extension.
Theorem C39_no_extension : forall name, ~ In 46 name -> getFileExt name = [].
Proof. exact file_no_ext. Qed.
Print Assumptions C39_no_extension.
Example C39_extension_ex : getFileExt (bytes_of "a.b/c.hjif") = bytes_of "hjif" /\ getFileExt (bytes_of "abc") = [].
Proof. split; reflexivity. Qed.

(** *** C61: numbers on the command line *)
Theorem C61_digits : forall s, isNumber s = true <-> s <> [] /\ Forall (fun c => 48 <= c <= 57) s.
Proof. exact is_number. Qed.
Print Assumptions C61_digits.
Example C61_digits_ex : isNumber (bytes_of "8000") = true /\ isNumber (bytes_of "-5") = false /\ isNumber [] = false.
Proof. repeat split; reflexivity. Qed.

(** *** C41: powers of two *)
Theorem C41_exact : forall n, - 2 ^ 31 < n < 2 ^ 31 ->
  exists b, isPowerOfTwo n = Ok b /\ (b = true <-> exists k, 0 <= k /\ n = 2 ^ k).
Proof. exact power_of_two. Qed.
Print Assumptions C41_exact.
Example C41_exact_ex : isPowerOfTwo 1024 = Ok true /\ isPowerOfTwo 1023 = Ok false /\ isPowerOfTwo (-4) = Ok false.
Proof. repeat split; reflexivity. Qed.
Theorem C41_minimum_refuted : isPowerOfTwo (- 2 ^ 31) = UB.
Proof. reflexivity. Qed.
Print Assumptions C41_minimum_refuted.

(** *** C38: OHM files *)
Theorem C38_roundtrip : forall o o0, ohm_fits o -> o_elements o0 = [] ->
  exists f, writeFile o = Ok f /\ loadFile o0 (Some f) = (true, o).
Proof.
  intros o o0 H E. destruct (ohm_round o o0 H) as (f & W & L). exists f. split; [exact W|].
  rewrite L, E. destruct o; reflexivity.
Qed.
Print Assumptions C38_roundtrip.

Definition ex_ohm (mask : Z) : ohm :=
  Ohm OHM_HEADER 1 (bytes_of "vest")
    [OhmElement (bytes_of "a.wav") (bytes_of "left") 2
       [OhmChannel (bytes_of "c0") 1065353216 mask; OhmChannel [] 0 0x80000001];
     OhmElement [] [0; 7] 0 []].
Definition no_ohm : ohm := Ohm [] 1 [] [].
Ltac fits_ex :=
  repeat match goal with
         | |- ohm_fits _ => unfold ohm_fits
         | |- element_fits _ => unfold element_fits
         | |- channel_fits _ => unfold channel_fits
         | |- Forall _ _ => apply Forall_cons || apply Forall_nil
         | |- _ /\ _ => split
         end; try reflexivity; repeat split; cbn; lia.
Example C38_roundtrip_ex : ohm_fits (ex_ohm 0x40).
Proof.
  fits_ex.
Qed.

(** Whatever the strings and masks: strings are cut to their field and lose the NULs at their end,
    masks with the parts 7, 15 or 23 gain every part above. *)
Theorem C38_any : forall o o0, o_header o = OHM_HEADER -> - 2 ^ 15 <= o_version o < 2 ^ 15 ->
  Z.of_nat (length (o_elements o)) < 2 ^ 15 ->
  Forall (fun l => counted (l_count l) (l_channels l) /\ Forall channel_words (l_channels l)) (o_elements o) ->
  exists f d es, writeFile o = Ok f /\
    loadFile o0 (Some f) = (true, Ohm OHM_HEADER (o_version o) d (o_elements o0 ++ es)) /\
    cut_to 32 (o_desc o) d /\ Forall2 element_loaded (o_elements o) es.
Proof. exact ohm_loaded. Qed.
Print Assumptions C38_any.
Example C38_any_ex :
  Forall (fun l => counted (l_count l) (l_channels l) /\ Forall channel_words (l_channels l)) (o_elements (ex_ohm 0x80)).
Proof.
  repeat (apply Forall_cons || apply Forall_nil); repeat split; try (cbn; lia);
  repeat (apply Forall_cons || apply Forall_nil); repeat split; cbn; lia.
Qed.

(** The mask of the waist comes back as 25 body parts. *)
Theorem C38_mask_refuted :
  exists o f o', (forall l k, In l (o_elements o) -> In k (l_channels l) -> fits 32 (k_desc k) /\ word (k_mask k)) /\
    writeFile o = Ok f /\ loadFile no_ohm (Some f) = (true, o') /\
    map (fun l => map k_mask (l_channels l)) (o_elements o) = [[0x80; 0x80000001]; []] /\
    map (fun l => map k_mask (l_channels l)) (o_elements o') = [[0xFFFFFF80; 0x80000001]; []].
Proof.
  exists (ex_ohm 0x80). do 2 eexists. split.
  - intros l k [<-|[<-|[]]]; cbn [l_channels]; [intros [<-|[<-|[]]]|intros []]; repeat split; cbn; lia.
  - split; [reflexivity|]. split; [vm_compute; reflexivity|]. split; reflexivity.
Qed.
Print Assumptions C38_mask_refuted.

(** A channel count that disagrees with the channels: the rest of the file is misread. *)
Theorem C38_count_refuted :
  exists o f o', writeFile o = Ok f /\ loadFile no_ohm (Some f) = (true, o') /\
    map l_file (o_elements o) = [[97]; [98]] /\ map l_file (o_elements o') <> [[97]; [98]].
Proof.
  exists (Ohm OHM_HEADER 1 [] [OhmElement [97] [] 0 [OhmChannel [99] 0 0]; OhmElement [98] [] 0 []]).
  do 2 eexists. split; [reflexivity|]. split; [vm_compute; reflexivity|]. split; [reflexivity|discriminate].
Qed.
Print Assumptions C38_count_refuted.

(** *** C60: loading replaces the contents *)
Theorem C60_refuted : forall o o0, ohm_fits o -> o_elements o0 <> [] ->
  exists f o', writeFile o = Ok f /\ loadFile o0 (Some f) = (true, o') /\
    o_elements o' = o_elements o0 ++ o_elements o /\ o' <> o.
Proof.
  intros o o0 H E. destruct (ohm_round o o0 H) as (f & W & L). do 2 eexists. split; [exact W|].
  split; [exact L|]. split; [reflexivity|]. intros C. apply (f_equal o_elements) in C. cbn in C.
  apply (f_equal (@length _)) in C. rewrite app_length in C. destruct (o_elements o0); [now apply E|cbn in C; lia].
Qed.
Print Assumptions C60_refuted.
Example C60_ex : ohm_fits (ex_ohm 1) /\ o_elements (ex_ohm 1) <> [].
Proof.
  split; [|discriminate].
  fits_ex.
Qed.

(** *** C40: 16-bit samples *)
Theorem C40_stored : forall v : f64, is_finite v = true ->
  exists w : Z, sample_word conv_hw v = Ok w /\ 0 <= w < 65536 /\ nearest16 (B2R v * 32768) (to_signed 16 w).
Proof. exact stored_hw. Qed.
Print Assumptions C40_stored.
Theorem C40_stored_std : forall v : f64, is_finite v = true -> (0 <= B2R v)%R ->
  exists w : Z, sample_word conv_std v = Ok w /\ 0 <= w < 32768 /\ nearest16 (B2R v * 32768) w.
Proof. exact stored_std. Qed.
Print Assumptions C40_stored_std.
Theorem C40_negative_refuted : forall v : f64, is_finite v = true -> (-1 <= B2R v <= - / 65536)%R ->
  sample_word conv_std v = UB.
Proof. exact stored_negative. Qed.
Print Assumptions C40_negative_refuted.
Definition f64_half (s : bool) : f64 := @B754_finite 53 1024 s 4503599627370496 (-53) eq_refl.
Example C40_stored_ex : sample_word conv_hw (f64_half true) = Ok 49152 /\ sample_word conv_std (f64_half false) = Ok 16384 /\
  sample_word conv_std (f64_half true) = UB /\ sample_word conv_hw f64_1 = Ok 32767.
Proof. repeat split; vm_compute; reflexivity. Qed.
Theorem C40_nan_refuted : sample_word conv_std B754_nan = UB /\ sample_word conv_hw B754_nan = UB.
Proof. split; reflexivity. Qed.
Print Assumptions C40_nan_refuted.

Theorem C40_channels : forall conv buff words m, buff <> [] -> Forall (fun b => length b = m) buff ->
  Forall2 (fun b ws => saveMono conv b = Ok ws) buff words ->
  exists out, saveFile conv buff = Ok (Some out) /\ length out = (m * length buff)%nat /\
    loadSamples (length buff) out = Ok words.
Proof. exact interleave. Qed.
Print Assumptions C40_channels.
Example C40_channels_ex :
  Forall2 (fun b ws => saveMono conv_hw b = Ok ws)
    [[f64_1; f64_0]; [f64_half true; f64_half false]; [f64_0; f64_1]] [[32767; 0]; [49152; 16384]; [0; 32767]].
Proof. repeat (apply Forall2_cons || apply Forall2_nil); vm_compute; reflexivity. Qed.
Theorem C40_unequal : forall conv b0 bs, Exists (fun b => length b <> length b0) bs ->
  saveFile conv (b0 :: bs) = Ok None.
Proof. exact unequal_refused. Qed.
Print Assumptions C40_unequal.
Example C40_unequal_ex : Exists (fun b : list f64 => length b <> length [f64_1]) [[f64_0]; []].
Proof. apply Exists_cons_tl, Exists_cons_hd. discriminate. Qed.

(** *** C48: interpolation *)
Theorem C48_close : forall s e (a b x : f64) M,
  - 2 ^ 31 <= s < e -> e < 2 ^ 31 ->
  is_finite a = true -> is_finite b = true -> is_finite x = true ->
  (IZR s <= B2R x <= IZR e)%R -> (Rabs (B2R a) <= M)%R -> (Rabs (B2R b) <= M)%R -> (M <= bpow radix2 500)%R ->
  is_finite (linearInterpolation (s, a) (e, b) x) = true /\
  (Rabs (B2R (linearInterpolation (s, a) (e, b) x) - on_line s e (B2R a) (B2R b) (B2R x))
    <= 5 * / 9007199254740992 * M + bpow radix2 (-147))%R.
Proof. exact interpolation_error. Qed.
Print Assumptions C48_close.
Theorem C48_line : forall s e a b x, s < e -> (IZR s <= x <= IZR e)%R ->
  (Rmin a b <= on_line s e a b x <= Rmax a b)%R /\ on_line s e a b (IZR s) = a /\ on_line s e a b (IZR e) = b.
Proof. intros s e a b x H Hx. split; [exact (on_line_between s e a b x H Hx)|exact (on_line_ends s e a b H)]. Qed.
Print Assumptions C48_line.
Theorem C48_outside : forall s e (a b x : f64),
  - 2 ^ 31 <= s <= e -> e < 2 ^ 31 -> is_finite x = true ->
  ((B2R x < IZR s)%R -> linearInterpolation (s, a) (e, b) x = a) /\
  ((IZR e < B2R x)%R -> linearInterpolation (s, a) (e, b) x = b).
Proof. exact interpolation_outside. Qed.
Print Assumptions C48_outside.
Definition f64_04 : f64 := @B754_finite 53 1024 false 7205759403792794 (-54) eq_refl.
Definition f64_003 : f64 := @B754_finite 53 1024 false 8646911284551352 (-58) eq_refl.
(** At the first of two points (0.4 at time 0, 0.03 at time 53) the result is above both. *)
Theorem C48_ends_refuted :
  exists s e (a b : f64), s < e /\ flt b a = true /\ flt a (linearInterpolation (s, a) (e, b) (f64_of_Z s)) = true.
Proof. exists 0, 53, f64_04, f64_003. split; [reflexivity|]. split; vm_compute; reflexivity. Qed.
Print Assumptions C48_ends_refuted.
(** Two points at the same time. *)
Theorem C48_same_time_refuted : forall t (a b : f64), - 2 ^ 31 <= t < 2 ^ 31 ->
  is_finite a = true -> is_finite b = true ->
  is_nan (linearInterpolation (t, a) (t, b) (f64_of_Z t)) = true.
Proof. exact interpolation_same. Qed.
Print Assumptions C48_same_time_refuted.
