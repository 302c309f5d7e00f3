(** Properties C31, C32, C33, C36, C37, C47, C49: containers of an experience. *)
From Coq Require Import Sorting.Sorted Sorting.Permutation.
From Verif Require Import Base BitsModel FloatBase TypesModel TypesSpec TypesProof RefactorModel RefactorProof.

(** ** C31 *)
(** Inserting any sequence of effects into a band without effects: the effects are sorted by position,
    are exactly the inserted ones, and those at one position are in insertion order. *)
Theorem C31_insertions :
  forall (b : band) (xs : list effect), b_effects b = [] ->
  let r := add_all xs b in
  sorted_by_position (b_effects r)
  /\ Permutation (b_effects r) xs
  /\ (forall p, at_position p (b_effects r) = at_position p xs)
  /\ band_same_but_effects b r.
Proof.
  exact add_all_empty.
Qed.
Print Assumptions C31_insertions.

(** The same from any band that is already sorted, and with removals interleaved. *)
Theorem C31_insertions_into_sorted :
  forall (xs : list effect) (b : band), sorted_by_position (b_effects b) ->
  let r := add_all xs b in
  sorted_by_position (b_effects r)
  /\ Permutation (b_effects r) (b_effects b ++ xs)
  /\ (forall p, at_position p (b_effects r) = at_position p (b_effects b) ++ at_position p xs)
  /\ band_same_but_effects b r.
Proof. exact add_all_ok. Qed.
Print Assumptions C31_insertions_into_sorted.
Theorem C31_insertions_and_removals :
  forall (os : list band_op) (b : band), sorted_by_position (b_effects b) ->
  sorted_by_position (b_effects (fold_left band_run os b)).
Proof. exact band_ops_sorted. Qed.
Print Assumptions C31_insertions_and_removals.

Definition ex_band (l : list effect) := Band VectorialB None None 0 1000 l None.
Definition ex_effect (id pos : Z) := set_id id (set_pos pos effect0).
Example C31_hyps :
  b_effects (ex_band []) = []
  /\ map e_id (b_effects (add_all [ex_effect 1 50; ex_effect 2 10; ex_effect 3 50; ex_effect 4 (-3)] (ex_band [])))
     = [4; 2; 1; 3].
Proof. split; reflexivity. Qed.

(** Replacing (unlike inserting) can break the order: the API does not maintain it. *)
Theorem C31_replace_breaks_order_refuted :
  exists b x, sorted_by_position (b_effects b) /\ fst (replaceEffectAt 0 x b) = true
    /\ ~ sorted_by_position (b_effects (snd (replaceEffectAt 0 x b))).
Proof.
  exists (ex_band [ex_effect 1 10; ex_effect 2 20]), (ex_effect 3 30). split; [|split].
  - repeat constructor; cbn; lia.
  - reflexivity.
  - intro H. inversion H as [|? ? _ F]; subst. inversion F; subst. cbn in *. lia.
Qed.
Print Assumptions C31_replace_breaks_order_refuted.

(** ** C32 *)
Theorem C32_replace_keyframe : forall c i x,
  replace_contract e_kfs effect_same_but_keyframes c i x (replaceKeyframeAt i x c).
Proof. exact replaceKeyframeAt_ok. Qed.
Print Assumptions C32_replace_keyframe.
Theorem C32_remove_keyframe : forall c i,
  remove_contract e_kfs effect_same_but_keyframes c i (removeKeyframeAt i c).
Proof. exact removeKeyframeAt_ok. Qed.
Print Assumptions C32_remove_keyframe.
Theorem C32_replace_effect : forall c i x,
  replace_contract b_effects band_same_but_effects c i x (replaceEffectAt i x c).
Proof. exact replaceEffectAt_ok. Qed.
Print Assumptions C32_replace_effect.
Theorem C32_remove_effect : forall c i,
  remove_contract b_effects band_same_but_effects c i (removeEffectAt i c).
Proof. exact removeEffectAt_ok. Qed.
Print Assumptions C32_remove_effect.
Theorem C32_replace_band : forall c i x,
  replace_contract c_bands channel_same_but_bands c i x (replaceBandAt i x c).
Proof. exact replaceBandAt_ok. Qed.
Print Assumptions C32_replace_band.
Theorem C32_remove_band : forall c i,
  remove_contract c_bands channel_same_but_bands c i (removeBandAt i c).
Proof. exact removeBandAt_ok. Qed.
Print Assumptions C32_remove_band.
Theorem C32_replace_channel : forall c i x,
  replace_contract p_channels perception_same_but_channels c i x (replaceChannelAt i x c).
Proof. exact replaceChannelAt_ok. Qed.
Print Assumptions C32_replace_channel.
Theorem C32_remove_channel : forall c i,
  remove_contract p_channels perception_same_but_channels c i (removeChannelAt i c).
Proof. exact removeChannelAt_ok. Qed.
Print Assumptions C32_remove_channel.
Theorem C32_replace_perception : forall c i x,
  replace_contract h_perceptions haptics_same_but_perceptions c i x (replacePerceptionAt i x c).
Proof. exact replacePerceptionAt_ok. Qed.
Print Assumptions C32_replace_perception.
Theorem C32_remove_perception : forall c i,
  remove_contract h_perceptions haptics_same_but_perceptions c i (removePerceptionAt i c).
Proof. exact removePerceptionAt_ok. Qed.
Print Assumptions C32_remove_perception.

Example C32_cases :
  let b := ex_band [ex_effect 1 10; ex_effect 2 20; ex_effect 3 30] in
  map e_id (b_effects (snd (replaceEffectAt 1 (ex_effect 9 25) b))) = [1; 9; 3]
  /\ fst (replaceEffectAt 3 (ex_effect 9 25) b) = false /\ fst (removeEffectAt (-1) b) = false
  /\ map e_id (b_effects (snd (removeEffectAt 0 b))) = [2; 3].
Proof. repeat split. Qed.

(** ** C33 *)
Theorem C33_keyframe_history :
  forall (h : list kf_op) (e : effect), e_kfs e = [] ->
  let r := fold_left kf_step h e in
  StronglySorted kpos_lt (e_kfs r)
  /\ (forall k, In k (e_kfs r) <->
        exists p, In p (map op_pos h) /\ k = Keyframe (Some p) (last_amp h p None) (last_freq h p None))
  /\ effect_same_but_keyframes e r.
Proof. exact kf_history. Qed.
Print Assumptions C33_keyframe_history.

(** The inserting variant keeps the order too, but may repeat positions. *)
Theorem C33_insert_keeps_order :
  forall (h : list kf_op2) (e : effect),
  StronglySorted kpos_le (e_kfs e) /\ Forall (fun k => k_pos k <> None) (e_kfs e) ->
  StronglySorted kpos_le (e_kfs (fold_left kf_step2 h e))
  /\ Forall (fun k => k_pos k <> None) (e_kfs (fold_left kf_step2 h e)).
Proof. exact kf_history2. Qed.
Print Assumptions C33_insert_keeps_order.

Definition one32 : f32 := f32_1.
Example C33_hyps :
  let h := [SetAmp (Some one32) 20; SetFreq (Some 80) 10; SetFreq (Some 60) 20; SetAmp None 20; SetFreq (Some 90) 10] in
  e_kfs effect0 = []
  /\ e_kfs (fold_left kf_step h effect0) = [Keyframe (Some 10) None (Some 90); Keyframe (Some 20) None (Some 60)].
Proof. split; reflexivity. Qed.

(** ** C37 *)
(** For every stored perception and every valid index, the avatar reference becomes the new
    perception's own id: C37 holds only if that happens to be the avatar id. *)
Theorem C37_avatar_reference_overwritten :
  forall h i n p, nth_error (h_perceptions h) (Z.to_nat i) = Some p -> 0 <= i ->
  exists h' p', replacePerceptionMetadataAt i n h = (true, h')
    /\ nth_error (h_perceptions h') (Z.to_nat i) = Some p' /\ p_avatar p' = p_id n.
Proof.
  exact replace_metadata_avatar.
Qed.
Print Assumptions C37_avatar_reference_overwritten.

Definition ex_perception (id av : Z) (cs : list channel) (lib : list effect) : perception :=
  Perception id av [65] None None 6 cs [] None None lib.
Theorem C37_keeps_avatar_refuted :
  exists h i n h' p', replacePerceptionMetadataAt i n h = (true, h')
    /\ nth_error (h_perceptions h') (Z.to_nat i) = Some p' /\ p_avatar p' <> p_avatar n.
Proof.
  exists (Haptics [] [] 1 [] [] [ex_perception 3 1 [] []] [] None []), 0, (ex_perception 3 1 [] []).
  eexists. eexists. split; [reflexivity|]. split; [reflexivity|]. discriminate.
Qed.
Print Assumptions C37_keeps_avatar_refuted.

(** Updating the metadata of a perception, a channel or a band takes the new metadata, keeps what is
    stored below it, and leaves its siblings unchanged. *)
Theorem C37_perception_update :
  forall h i n p, 0 <= i -> nth_error (h_perceptions h) (Z.to_nat i) = Some p ->
  exists h' p', replacePerceptionMetadataAt i n h = (true, h')
    /\ (forall j, j <> Z.to_nat i -> nth_error (h_perceptions h') j = nth_error (h_perceptions h) j)
    /\ nth_error (h_perceptions h') (Z.to_nat i) = Some p'
    /\ p_channels p' = p_channels p /\ p_prio p' = p_prio p
    /\ p_id p' = p_id n /\ p_desc p' = p_desc n /\ p_modality p' = p_modality n /\ p_devices p' = p_devices n
    /\ p_library p' = p_library n.
Proof. exact perception_metadata_ok. Qed.
Print Assumptions C37_perception_update.
Theorem C37_channel_update :
  forall p i n c, 0 <= i -> nth_error (p_channels p) (Z.to_nat i) = Some c ->
  exists p' c', replaceChannelMetadataAt i n p = (true, p')
    /\ (forall j, j <> Z.to_nat i -> nth_error (p_channels p') j = nth_error (p_channels p) j)
    /\ nth_error (p_channels p') (Z.to_nat i) = Some c'
    /\ c_bands c' = c_bands c /\ c_prio c' = c_prio c
    /\ c_id c' = c_id n /\ c_desc c' = c_desc n /\ c_gain c' = c_gain n /\ c_mix c' = c_mix n /\ c_mask c' = c_mask n
    /\ c_vertices c' = c_vertices n /\ c_freq c' = c_freq n /\ c_count c' = c_count n /\ c_dir c' = c_dir n
    /\ c_res c' = c_res n /\ c_body c' = c_body n /\ c_target c' = c_target n
    /\ (c_device n <> None -> c_device c' = c_device n).
Proof. exact channel_metadata_ok. Qed.
Print Assumptions C37_channel_update.
Theorem C37_band_update :
  forall c i n b, 0 <= i -> nth_error (c_bands c) (Z.to_nat i) = Some b ->
  exists c' b', replaceBandMetadataAt i n c = (true, c')
    /\ (forall j, j <> Z.to_nat i -> nth_error (c_bands c') j = nth_error (c_bands c) j)
    /\ nth_error (c_bands c') (Z.to_nat i) = Some b'
    /\ b_effects b' = b_effects b /\ b_prio b' = b_prio b
    /\ b_type b' = b_type n /\ b_low b' = b_low n /\ b_up b' = b_up n
    /\ (b_type n = CurveB -> b_curve n <> None -> b_curve b' = b_curve n)
    /\ (b_type n = WaveletB -> b_block n <> None -> b_block b' = b_block n).
Proof. exact band_metadata_ok. Qed.
Print Assumptions C37_band_update.
Example C37_hyps : nth_error (c_bands (Channel 0 [] (B754_zero false) (B754_zero false) 0 [] [Band CurveB None None 0 9 [] None; Band WaveletB None (Some 4) 3 8 [] None]
  None None None None None None None None)) (Z.to_nat 1) = Some (Band WaveletB None (Some 4) 3 8 [] None).
Proof. reflexivity. Qed.

(** ** C47 *)
Theorem C47_meaning : forall a b, isEquivalent a b = true <-> equivalent_effects a b.
Proof. exact isEquivalent_spec. Qed.
Print Assumptions C47_meaning.
Theorem C47_symmetric : forall a b, isEquivalent a b = true -> isEquivalent b a = true.
Proof. exact equivalent_sym. Qed.
Print Assumptions C47_symmetric.
Theorem C47_transitive : forall a b c,
  isEquivalent a b = true -> isEquivalent b c = true -> isEquivalent a c = true.
Proof. exact equivalent_trans. Qed.
Print Assumptions C47_transitive.
(** Reflexive exactly on basis effects without NaN. *)
Theorem C47_reflexive : forall e, isEquivalent e e = true <-> e_type e = 0 /\ effect_no_nan e.
Proof. exact equivalent_refl. Qed.
Print Assumptions C47_reflexive.
Example C47_hyps :
  let a := set_kfs [Keyframe (Some 3) (Some one32) None] (ex_effect 1 10) in
  let b := set_kfs [Keyframe (Some 3) (Some one32) None] (ex_effect 7 99) in
  isEquivalent a b = true /\ a <> b /\ effect_no_nan a.
Proof. split; [reflexivity|]. split; [discriminate|]. split; [exact I|]. repeat constructor. Qed.
Theorem C47_nan_refuted : exists e, e_type e = 0 /\ isEquivalent e e = false.
Proof. exists (set_kfs [Keyframe (Some 0) (Some B754_nan) None] effect0). split; reflexivity. Qed.
Print Assumptions C47_nan_refuted.
(** It ignores more than id and position: semantic, timeline and wavelet data. *)
Theorem C47_ignores_more_refuted :
  exists a b, isEquivalent a b = true /\ e_id a = e_id b /\ e_pos a = e_pos b
    /\ e_semantic a <> e_semantic b /\ e_wavelet a <> e_wavelet b.
Proof.
  exists effect0, (Effect (-1) 0 None (Some [65]) [] None BasisE [] [] [1; 2]).
  split; [reflexivity|]. split; [reflexivity|]. split; [reflexivity|]. split; discriminate.
Qed.
Print Assumptions C47_ignores_more_refuted.

(** ** C36 *)
(** Factoring then expanding gives what expanding alone gives, up to identifiers, provided effects that
    the equivalence test identifies have the same content, and ids in use are below the library size
    (in particular for an empty library and no references). *)
Theorem C36_factor_then_expand :
  forall p, ids_below_size p ->
  (forall l m n l' m' n' a b, effect_at p l m n = Some a -> effect_at p l' m' n' = Some b ->
     isEquivalent a b = true -> same_content a b) ->
  let q := linearizeLibrary (refactorEffects p) in
  p_library q = [] /\ skeleton q = skeleton p
  /\ forall l m n, opt_rel same_but_id (effect_at q l m n) (effect_at (linearizeLibrary p) l m n).
Proof. exact refactor_lossless. Qed.
Print Assumptions C36_factor_then_expand.

(** Without the content hypothesis: every effect that changes is replaced by another effect of the
    experience that the equivalence test identifies with it, at the same position. *)
Theorem C36_factor_then_expand_equivalent :
  forall p, ids_below_size p ->
  let q := linearizeLibrary (refactorEffects p) in
  let q0 := linearizeLibrary p in
  p_library q = [] /\ skeleton q = skeleton p
  /\ forall l m n, effect_at q l m n = effect_at q0 l m n
      \/ exists a b e, effect_at q l m n = Some a /\ effect_at q0 l m n = Some b
           /\ effect_at p l m n = Some b
           /\ a = set_id (-1) (set_pos (e_pos b) e) /\ (exists l' m' n', effect_at p l' m' n' = Some e)
           /\ isEquivalent e b = true.
Proof. exact refactor_expand. Qed.
Print Assumptions C36_factor_then_expand_equivalent.

Definition ex_channel (bs : list band) : channel :=
  Channel 0 [] one32 one32 0 [] bs None None None None None None None None.
Definition ex_kf (p : Z) : keyframe := Keyframe (Some p) (Some one32) (Some 80).
Definition ex_shared : perception :=
  ex_perception 0 0 [ex_channel [ex_band [set_kfs [ex_kf 1] (ex_effect 5 10); set_kfs [ex_kf 2] (ex_effect 6 20)];
                                 ex_band [set_kfs [ex_kf 1] (ex_effect 7 30)]];
                     ex_channel [ex_band [ex_effect 8 1; set_kfs [ex_kf 1] (ex_effect 9 40)]]] [].
Lemma ex_shared_slots : forall l m n e, effect_at ex_shared l m n = Some e ->
  In e [set_kfs [ex_kf 1] (ex_effect 5 10); set_kfs [ex_kf 2] (ex_effect 6 20); set_kfs [ex_kf 1] (ex_effect 7 30);
        ex_effect 8 1; set_kfs [ex_kf 1] (ex_effect 9 40)].
Proof.
  intros [|[|[|l]]] [|[|[|m]]] [|[|[|n]]] e; cbn; intro H; try discriminate; injection H as <-; tauto.
Qed.
Example C36_hyps :
  ids_below_size ex_shared
  /\ (forall l m n l' m' n' a b, effect_at ex_shared l m n = Some a -> effect_at ex_shared l' m' n' = Some b ->
        isEquivalent a b = true -> same_content a b)
  /\ length (p_library (refactorEffects ex_shared)) = 1%nat
  /\ map (fun e => e_pos e) (concat (map b_effects (concat (map c_bands (p_channels (linearizeLibrary (refactorEffects ex_shared)))))))
     = [10; 20; 30; 1; 40].
Proof.
  split; [split|split; [|split]].
  - intros e [].
  - intros l m n e H T. apply ex_shared_slots in H. cbn in H.
    destruct H as [<-|[<-|[<-|[<-|[<-|[]]]]]]; discriminate.
  - intros l m n l' m' n' a b Ha Hb. apply ex_shared_slots in Ha. apply ex_shared_slots in Hb. cbn [In] in Ha, Hb.
    destruct Ha as [<-|[<-|[<-|[<-|[<-|[]]]]]], Hb as [<-|[<-|[<-|[<-|[<-|[]]]]]];
      intro Q; try discriminate Q; repeat split.
  - vm_compute. reflexivity.
  - vm_compute. reflexivity.
Qed.

(** In general the property is false.  (1) Wavelet data is lost: an effect without keyframes in a vectorial
    band makes the wavelet blocks of other bands be replaced by it. *)
Theorem C36_wavelet_data_lost_refuted :
  exists p a b, p_library p = [] /\ (forall l m n e, effect_at p l m n = Some e -> e_type e = 0)
    /\ effect_at p 0 1 0 = Some b
    /\ effect_at (linearizeLibrary (refactorEffects p)) 0 1 0 = Some a
    /\ e_wavelet b = [1; 2; 3] /\ e_wavelet a = [].
Proof.
  exists (ex_perception 0 0 [ex_channel [ex_band [ex_effect 1 0];
     Band WaveletB None (Some 512) 0 1000 [Effect 2 0 None None [] None BasisE [] [] [1; 2; 3]] None]] []).
  exists (ex_effect (-1) 0), (Effect 2 0 None None [] None BasisE [] [] [1; 2; 3]).
  split; [reflexivity|]. split.
  - intros [|[|l]] [|[|[|m]]] [|[|n]] e; cbn; intro H; try discriminate; injection H as <-; reflexivity.
  - repeat split.
Qed.
Print Assumptions C36_wavelet_data_lost_refuted.

(** (2) Effects that differ only in their semantic keyword are merged. *)
Theorem C36_semantic_lost_refuted :
  exists p a b, p_library p = [] /\ effect_at p 0 0 1 = Some b
    /\ effect_at (linearizeLibrary (refactorEffects p)) 0 0 1 = Some a /\ e_semantic a <> e_semantic b.
Proof.
  exists (ex_perception 0 0 [ex_channel [ex_band
     [Effect 1 0 None (Some [65]) [ex_kf 1] None BasisE [] [] []; Effect 2 9 None (Some [66]) [ex_kf 1] None BasisE [] [] []]]] []).
  exists (Effect (-1) 9 None (Some [65]) [ex_kf 1] None BasisE [] [] []), (Effect 2 9 None (Some [66]) [ex_kf 1] None BasisE [] [] []).
  split; [reflexivity|]. split; [reflexivity|]. split; [reflexivity|]. discriminate.
Qed.
Print Assumptions C36_semantic_lost_refuted.

(** (3) With a library whose ids are not below its size, the new id collides and the wrong effect is expanded. *)
Theorem C36_id_collision_refuted :
  exists p a b, effect_at p 0 0 1 = Some b /\ e_type b = 0
    /\ effect_at (linearizeLibrary (refactorEffects p)) 0 0 1 = Some a /\ e_kfs a <> e_kfs b.
Proof.
  exists (ex_perception 0 0 [ex_channel [ex_band [set_kfs [ex_kf 1] (ex_effect 5 10); set_kfs [ex_kf 1] (ex_effect 6 20)]]]
     [set_kfs [ex_kf 77] (ex_effect 1 0)]).
  exists (set_kfs [ex_kf 77] (ex_effect (-1) 20)), (set_kfs [ex_kf 1] (ex_effect 6 20)).
  split; [reflexivity|]. split; [reflexivity|]. split; [reflexivity|]. discriminate.
Qed.
Print Assumptions C36_id_collision_refuted.

(** ** C49 *)
(** After factoring, no two different places hold equivalent effects, when the one in the lower (or same)
    channel is not in a wavelet band. *)
Theorem C49_no_repeated_effect_left :
  forall p l1 m1 n1 l2 m2 n2 e1 e2 b,
  effect_at (refactorEffects p) l1 m1 n1 = Some e1 ->
  effect_at (refactorEffects p) l2 m2 n2 = Some e2 ->
  isEquivalent e1 e2 = true -> (l1 <= l2)%nat ->
  (exists c, nth_error (p_channels p) l1 = Some c /\ nth_error (c_bands c) m1 = Some b) -> b_type b <> WaveletB ->
  (l1, m1, n1) = (l2, m2, n2).
Proof. exact no_repeats. Qed.
Print Assumptions C49_no_repeated_effect_left.
(** Before factoring this fails for the example, so the theorem says something about it. *)
Example C49_hyps :
  exists e1 e2, effect_at ex_shared 0 0 0 = Some e1 /\ effect_at ex_shared 1 0 1 = Some e2 /\ isEquivalent e1 e2 = true
  /\ exists r, effect_at (refactorEffects ex_shared) 0 0 1 = Some r /\ isEquivalent r r = true.
Proof.
  exists (set_kfs [ex_kf 1] (ex_effect 5 10)), (set_kfs [ex_kf 1] (ex_effect 9 40)). split; [reflexivity|].
  split; [reflexivity|]. split; [reflexivity|]. exists (set_kfs [ex_kf 2] (ex_effect 6 20)). split; reflexivity.
Qed.
