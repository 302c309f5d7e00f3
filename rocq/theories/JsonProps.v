(** Interchange files: what is saved can be opened. *)
From Coq Require Import String Reals.
From Verif Require Import Base BitsModel FloatBase FloatModel TypesModel TypesSpec SemanticModel ConformModel ConformSpec ConformProof
  ArithModel SpihtModel JsonModel JsonSpec JsonBits JsonProof JsonStream.
Local Open Scope Z_scope.

(** *** C80: an interchange file gives back the experience it was made from, except for what [kept] leaves out *)
Theorem C80_round_trip now schema h h0 : storable h -> conforms h -> empty h0 ->
  exists t, writeFile now h = Ok (Some t) /\ (schema t = true -> loadFile schema (Some t) h0 = Ok (true, kept h)).
Proof. exact (file_ok now schema h h0). Qed.
Print Assumptions C80_round_trip.
Theorem C80_lossless now schema h h0 : storable h -> conforms h -> empty h0 -> kept h = h ->
  exists t, writeFile now h = Ok (Some t) /\ (schema t = true -> loadFile schema (Some t) h0 = Ok (true, h)).
Proof. intros S C N K. pose proof (file_ok now schema h h0 S C N) as F. rewrite K in F. exact F. Qed.
Print Assumptions C80_lossless.

Definition cx_half32 : f32 := @B754_finite 24 128 false 8388608 (-24) eq_refl.
Definition cx_click := Effect 7 20 None (Some (bytes_of "UX/Click")) [] None ReferenceE [] [] [].
Definition cx_tap := Effect (-1) 10 (Some cx_half32) None [Keyframe (Some 3) (Some cx_half32) (Some 90)] (Some 2) BasisE [] [] [].
Definition cx_shape := Effect (-1) 0 None None [Keyframe (Some 0) (Some cx_half32) None; Keyframe (Some 40) None None] None BasisE [] [] [].
Definition cx_waves := Effect (-1) 0 None None [] None BasisE [] [] [3; 0; 255].
Definition cx_saved_channel :=
  Channel 4 (bytes_of "left hand") cx_half32 cx_half32 4294967295 [1; 2]
    [Band VectorialB None (Some 0) 0 1000 [cx_tap; cx_click] (Some 1); Band CurveB (Some 3) (Some 0) 0 1000 [cx_shape] None;
     Band WaveletB None (Some 512) 100 1000 [cx_waves] None]
    (Some 0) (Some 2) (Some 8000) (Some 16000) (Some (Vec 90 (-90) 0)) (Some (Vec 2 3 1)) (Some [13; 32; 50]) (Some [Vec 0 3 1]).
Definition cx_saved_device := Device 2 (bytes_of "glove") (Some 7) (Some cx_half32) None None None None None None None None None None (Some 4).
Definition cx_entry := Effect 7 0 None None [Keyframe (Some 0) (Some cx_half32) None] (Some 0) BasisE [] [] [].
Definition cx_saved := Haptics (bytes_of "2023-1") (bytes_of "Main") 2 (bytes_of "2024-02-28") (bytes_of "demo")
  [Perception 1 9 (bytes_of "glove") (Some 3) None 10 [cx_saved_channel] [cx_saved_device] (Some (-3)) (Some 2) [cx_entry]]
  [Avatar 9 1 0 (Some (bytes_of "https://example.org/mesh"))] (Some 8000) [Sync 100 (Some 1000)].
Ltac absent := let H := fresh "H" in intro H; cbn in H; repeat (destruct H as [H|H]; [discriminate H|]); exact H.
Ltac present := let x := fresh "x" in let E := fresh "E" in intros x E; first [discriminate E | injection E as <-].
Lemma saved_vector x y z : -128 <= x < 128 -> -128 <= y < 128 -> -128 <= z < 128 -> storable_vector (Vec x y z).
Proof. intros X Y W. split; [|split]; unfold int8; cbn; lia. Qed.
Lemma saved_keyframe p a f : given int p -> given number a -> given int f -> storable_keyframe (Keyframe p a f).
Proof. intros. split; [|split]; assumption. Qed.
Ltac stored := repeat match goal with
  | |- _ /\ _ => split
  | |- Forall _ (_ :: _) => apply Forall_cons
  | |- Forall _ [] => apply Forall_nil
  | |- given _ _ => present
  | |- storable_vector _ => apply saved_vector; lia
  | |- storable_keyframe _ => apply saved_keyframe
  | |- storable_effect _ => unfold storable_effect; cbn [e_type e_id e_pos e_phase e_semantic e_kfs e_base e_wavelet]
  | |- text _ => absent
  | |- number _ => reflexivity
  | |- int _ => unfold int; cbn; lia
  | |- uint _ => unfold uint; cbn; lia
  | |- int8 _ => unfold int8; cbn; lia
  | |- body_part _ => unfold body_part; lia
  | |- ?l = [] \/ Exists _ ?l => first [left; reflexivity | right; apply Exists_cons_hd; discriminate]
  | |- _ <= _ => unfold BasisE, ReferenceE, CompositeE, TransientB, CurveB, VectorialB, WaveletB; lia
  | |- _ < _ => lia
  | |- sorted_by_position _ => unfold sorted_by_position; repeat constructor; cbn; lia
  end.
Example C80_hyps : storable cx_saved /\ conforms cx_saved /\ kept cx_saved = cx_saved /\ empty (Haptics [] [] 1 [] [] [] [] (Some 1000) []).
Proof.
  assert (St : storable cx_saved).
  { unfold storable, cx_saved, cx_saved_channel, cx_saved_device, cx_entry, cx_tap, cx_click, cx_shape, cx_waves. cbn [h_version h_profile h_level h_date h_desc h_timescale h_avatars h_perceptions h_syncs]. stored.
    - exists 8000. split; [reflexivity|unfold uint; cbn; lia].
    - unfold storable_avatar. cbn [a_id a_lod a_type a_mesh]. stored.
    - unfold storable_perception. cbn [p_id p_avatar p_desc p_prio p_scheme p_modality p_uexp p_puexp p_channels p_devices p_library]. stored.
      + unfold storable_channel.
        cbn [c_id c_desc c_gain c_mix c_mask c_vertices c_bands c_prio c_device c_freq c_count c_dir c_res c_body c_target]. stored.
        all: unfold storable_band; cbn [b_type b_curve b_block b_low b_up b_effects b_prio]; stored.
      + unfold storable_device.
        cbn [d_id d_name d_mask d_maxf d_minf d_resf d_maxa d_imp d_maxv d_maxc d_maxd d_weight d_size d_custom d_type]. stored.
    - split; cbn [s_time s_scale]; stored. }
  split; [exact St|]. split; [|split; [reflexivity|repeat split]].
  destruct (storable_typed _ St) as [D B]. apply (conformance _ D B). vm_compute. reflexivity.
Qed.

(** *** C81: only the first saving can lose something: an opened file that is saved and opened again is the same *)
Theorem C81_resave now schema h h0 : storable h -> conforms h -> empty h0 -> (forall t, schema t = true) ->
  exists t1 g t2, writeFile now h = Ok (Some t1) /\ loadFile schema (Some t1) h0 = Ok (true, g) /\
    writeFile now g = Ok (Some t2) /\ loadFile schema (Some t2) h0 = Ok (true, g).
Proof.
  intros S C N A. destruct (file_ok now schema h h0 S C N) as (t1 & W1 & L1).
  destruct (file_ok now schema (kept h) h0 (storable_kept h S) (conforms_kept h C) N) as (t2 & W2 & L2). rewrite kept_idem in L2.
  exists t1, (kept h), t2. auto.
Qed.
Print Assumptions C81_resave.
Theorem C81_settles h : kept (kept h) = kept h.
Proof. exact (kept_idem h). Qed.
Print Assumptions C81_settles.

(** *** C82: what is saved can be opened - refuted: not without a timescale, not with a gain that is not finite *)
Theorem C82_timescale_refuted now schema h h0 t : h_timescale h = None -> writeFile now h = Ok t -> loadFile schema t h0 = Ok (false, h0).
Proof. exact (no_timescale now schema h h0 t). Qed.
Print Assumptions C82_timescale_refuted.
Theorem C82_gain_refuted now schema h h0 p c t : In p (h_perceptions h) -> In c (p_channels p) -> is_finite (c_gain c) = false ->
  writeFile now h = Ok t -> t = None /\ loadFile schema t h0 = Ok (false, h0).
Proof. exact (gain_lost now schema h h0 p c t). Qed.
Print Assumptions C82_gain_refuted.
Definition cx_untimed (gain : f32) (timescale : option Z) := Haptics (bytes_of "2023") (bytes_of "Main") 1 (bytes_of "2024") []
  [Perception 1 0 [] None None 5 [Channel 0 [] gain cx_half32 0 [] [] None None None None None None None None] [] None None []] [] timescale [].
Example C82_timescale_hyps : checkExperience (cx_untimed cx_half32 None) = Ok true /\ exists t, writeFile [] (cx_untimed cx_half32 None) = Ok (Some t).
Proof. split; [vm_compute; reflexivity|]. eexists. reflexivity. Qed.
Example C82_gain_hyps : checkExperience (cx_untimed B754_nan (Some 1000)) = Ok true /\ exists t, writeFile [] (cx_untimed B754_nan (Some 1000)) = Ok t.
Proof. split; [vm_compute; reflexivity|]. eexists. reflexivity. Qed.

(** *** C83: composite effects are kept - refuted: no file, whatever is in it, is opened with an effect inside another *)
Theorem C83_nested_refuted schema t h0 ok g : empty h0 -> loadFile schema t h0 = Ok (ok, g) -> Forall flat_perception (h_perceptions g).
Proof. exact (flat_file schema t h0 ok g). Qed.
Print Assumptions C83_nested_refuted.
Definition cx_composite := Haptics (bytes_of "2023") (bytes_of "Main") 1 (bytes_of "2024") []
  [Perception 1 0 [] None None 5
     [Channel 0 [] cx_half32 cx_half32 0 [] [Band TransientB None (Some 0) 0 1000 [Effect (-1) 0 None None [] None CompositeE [cx_tap] [] []] None]
        None None None None None None None None] [] None None []] [] (Some 1000) [].
Example C83_hyps : checkExperience cx_composite = Ok true /\
  exists t g, writeFile [] cx_composite = Ok (Some t) /\
    loadFile (fun _ => true) (Some t) (Haptics [] [] 1 [] [] [] [] (Some 1000) []) = Ok (true, g) /\ ~ Forall flat_perception (h_perceptions cx_composite).
Proof.
  assert (St : storable cx_composite).
  { unfold storable, cx_composite. cbn [h_version h_profile h_level h_date h_desc h_timescale h_avatars h_perceptions h_syncs]. stored.
    - exists 1000. split; [reflexivity|unfold uint; cbn; lia].
    - unfold storable_perception. cbn [p_id p_avatar p_desc p_prio p_scheme p_modality p_uexp p_puexp p_channels p_devices p_library]. stored.
      unfold storable_channel. cbn [c_id c_desc c_gain c_mix c_mask c_vertices c_bands c_prio c_device c_freq c_count c_dir c_res c_body c_target]. stored.
      unfold storable_band; cbn [b_type b_curve b_block b_low b_up b_effects b_prio]; stored. }
  assert (C : checkExperience cx_composite = Ok true) by (vm_compute; reflexivity). split; [exact C|].
  destruct (storable_typed _ St) as [D B]. apply (conformance _ D B) in C.
  destruct (file_ok [] (fun _ => true) cx_composite (Haptics [] [] 1 [] [] [] [] (Some 1000) []) St C) as (t & W & L); [repeat split|].
  exists t, (kept cx_composite). split; [exact W|]. split; [exact (L eq_refl)|].
  intros F. inversion F as [|? ? [_ H] _]; subst. inversion H as [|? ? H1 _]; subst. inversion H1 as [|? ? H2 _]; subst. inversion H2 as [|? ? H3 _]; subst. discriminate H3.
Qed.

(** *** C84: wavelet streams in interchange files *)
(** A coded block is decoded from the file as it was coded. *)
Theorem C84_block md0 md10 block k bits scale old pos :
  length block = (2 ^ k)%nat -> (3 <= k <= 22)%nat -> (1 <= bits <= 15)%nat ->
  Forall (fun v => Z.abs v < 2 ^ (Z.of_nat bits + 1)) block -> Exists (fun v => v <> 0) block ->
  is_finite scale = true -> (0 <= B2R scale < 17)%R -> - 2 ^ 31 <= pos < 2 ^ 31 ->
  exists bytes j e scale',
    encodeEffect md0 md10 resetCounter block bits scale old = Ok (bytes, resetCounter) /\
    jsonEffect WaveletB (Effect (-1) pos None None [] None BasisE [] [] bytes) = Ok j /\
    loadEffect WaveletB j = Ok (Some e) /\ e_pos e = pos /\
    decodeEffect resetCounter (e_wavelet e) (repeat 0 (length block)) (length block) = Ok (block, scale', Z.of_nat bits).
Proof. exact (block_stored md0 md10 block k bits scale old pos). Qed.
Print Assumptions C84_block.
(** The null bytes that a file loses at the end of a stream do not matter to the decoder. *)
Theorem C84_trailing cs bytes n old k : decodeEffect cs (strip bytes) old k = decodeEffect cs bytes old k /\ (exists z, bytes = strip bytes ++ repeat 0 z) /\
  strip (bytes ++ repeat 0 n) = strip bytes.
Proof.
  split; [exact (stripped_decode cs bytes old k)|]. split; [exact (strip_split bytes)|]. rewrite strip_app.
  rewrite (proj2 (strip_nil (repeat 0 n))); [reflexivity|]. apply Forall_forall. intros y Hy. exact (repeat_spec _ _ _ Hy).
Qed.
Print Assumptions C84_trailing.
(** A stream of null bytes cannot be saved at all. *)
Theorem C84_zeros_refuted now h p c b e r : In p (h_perceptions h) -> In c (p_channels p) -> In b (c_bands c) -> In e (b_effects b) ->
  b_type b = WaveletB -> e_type e = BasisE -> e_wavelet e <> [] -> Forall (fun v => v = 0) (e_wavelet e) -> writeFile now h <> Ok r.
Proof. exact (zero_stream now h p c b e r). Qed.
Print Assumptions C84_zeros_refuted.
Definition cx_zeros := Haptics (bytes_of "2023") (bytes_of "Main") 1 (bytes_of "2024") []
  [Perception 1 0 [] None None 5
     [Channel 0 [] cx_half32 cx_half32 0 [] [Band WaveletB None (Some 512) 0 1000 [Effect (-1) 0 None None [] None BasisE [] [] [0; 0]] None]
        None None None None None None None None] [] None None []] [] (Some 1000) [].
Example C84_zeros_hyps : checkExperience cx_zeros = Ok true /\ writeFile [] cx_zeros = Throw.
Proof. split; vm_compute; reflexivity. Qed.
Example C84_text : (do bits <- bytes2bits [3; 0; 255]; Ok (bits2base64 32 0 bits)) = Ok (bytes_of "wAD/").
Proof. vm_compute. reflexivity. Qed.
