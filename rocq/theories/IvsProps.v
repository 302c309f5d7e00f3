(** Properties C87-C93: the import of IVS files. *)
From Coq Require Import Sorting.Permutation Sorting.Sorted Strings.String.
From Verif Require Import Base FloatBase FloatModel TypesModel TypesSpec SemanticModel SynthModel SynthSpec IvsModel IvsSpec IvsProof IvsFloatProof IvsImport IvsBridge.
Local Open Scope string_scope.
Local Open Scope Z_scope.
Local Open Scope list_scope.

(** A document: a buzz of 100 ms with a fade, a knock of 20 ms, and something unknown. *)
Definition ix_buzz : basis := Basis (bytes_of "buzz") (bytes_of "periodic") (bytes_of "square") (Some 100) (Some 8000) (Some 8) None None (Some 30) (Some 1000).
Definition ix_knock : basis := Basis (bytes_of "knock") (bytes_of "magsweep") [] (Some 20) (Some 10000) (Some 1) (Some 5) (Some 2000) None None.
Definition ix_other : basis := Basis (bytes_of "other") (bytes_of "waveform") [] (Some 20) (Some 10000) (Some 1) None None None None.
Definition ix_bases := [ix_buzz; ix_knock; ix_other].
Definition ix_at (name : str) (t : Z) : launch := Launch name (Some t) None None None.
Definition ix_launches := [ix_at (bytes_of "knock") 0; ix_at (bytes_of "buzz") 250; ix_at (bytes_of "other") 260; ix_at (bytes_of "missing") 270; ix_at (bytes_of "knock") 500].
Definition ix_repeat (t d c : Z) : repeat_event := Repeat (Some t) (Some d) (Some c).
Definition ix_timeline : timeline_effect := Timeline (bytes_of "ring") ix_launches [ix_repeat 200 200 2; ix_repeat 30 50 1].
Definition ix_document : ivs := Ivs (bytes_of "today") ix_bases [ix_timeline; ix_timeline].
Definition ix_perception : perception := Perception 0 0 [] None None 0 [] [] None None [].

(** The effect a launch event gives. *)
Definition ix_none : effect := Effect 0 0 None None [] None BasisE [] [] [].
Definition ix_made (o : outcome (option effect)) : effect := match o with Ok (Some e) => e | _ => ix_none end.
Definition ix_is_made (o : outcome (option effect)) : bool := match o with Ok (Some _) => true | _ => false end.
Lemma ix_made_ok o : ix_is_made o = true -> o = Ok (Some (ix_made o)).
Proof. destruct o as [[e|]| | |]; try discriminate. reflexivity. Qed.

(** Checks times. *)
Ltac ix_check :=
  match goal with
  | |- Forall _ ?x => let y := eval vm_compute in x in change x with y; repeat (apply Forall_cons; [vm_compute; repeat split; discriminate|]); apply Forall_nil
  | |- forall t, _ -> _ => intros t Ht; cbn in Ht; try discriminate Ht; injection Ht as <-; vm_compute; repeat split; discriminate
  | _ => vm_compute; repeat split; discriminate
  end.

(** ** C87 *)
(** The effects of a timeline whose launch events are in time order and whose repetitions do not overlap: each launched
    effect once for each time at which it is played. *)
Theorem C87_timeline :
  forall bs ts t es, separate (te_repeats t) -> launched bs (converted ts) (te_launches t) es -> in_time_order es ->
  exists out, timelineEffects bs ts t = Ok out /\ Permutation out (flat_map (played (te_repeats t)) es).
Proof. exact timeline_effects. Qed.
Print Assumptions C87_timeline.
(** A whole document, into a perception without channels: one channel for each timeline, with every launched effect at all
    its times, in bands without overlaps. *)
Theorem C87_document :
  forall d ts p, 0 <= ts < 2 ^ 32 -> p_channels p = [] -> Forall (importable (iv_basis d) ts) (iv_timelines d) ->
  exists cs, encode d ts p = Ok (set_channels cs p) /\ Forall2 (imported (iv_basis d) ts (iv_modified d)) (iv_timelines d) cs.
Proof. exact encode_document. Qed.
Print Assumptions C87_document.
Example C87_separate : separate (te_repeats ix_timeline).
Proof.
  split.
  - apply Forall_cons; [vm_compute; split; [reflexivity|discriminate]|]. apply Forall_cons; [vm_compute; split; [reflexivity|discriminate]|]. apply Forall_nil.
  - apply FOP_cons; [|apply FOP_cons; [apply Forall_nil|apply FOP_nil]]. apply Forall_cons; [|apply Forall_nil]. right. vm_compute. discriminate.
Qed.
Example C87_plays : plays (te_repeats ix_timeline) 0 = [0] /\ plays (te_repeats ix_timeline) 250 = [300; 500; 700] /\ plays (te_repeats ix_timeline) 500 = [950].
Proof. vm_compute. auto. Qed.
Example C87_importable : Forall (importable (iv_basis ix_document) 8000) (iv_timelines ix_document).
Proof.
  assert (I : importable (iv_basis ix_document) 8000 ix_timeline).
  { split; [exact C87_separate|]. split.
    - cbn [te_launches ix_timeline ix_launches]. repeat (apply SSorted_cons; [|repeat (apply Forall_cons; [vm_compute; discriminate|]); apply Forall_nil]). apply SSorted_nil.
    - intros l b Hl Hb. cbn [te_launches ix_timeline ix_launches In] in Hl.
      destruct Hl as [<-|[<-|[<-|[<-|[<-|[]]]]]]; apply launches_same in Hb; vm_compute in Hb; try discriminate Hb; injection Hb as <-;
        (split; [split; [|split; [|split]]|split]); ix_check. }
  cbn [iv_timelines ix_document]. apply Forall_cons; [exact I|]. apply Forall_cons; [exact I|apply Forall_nil].
Qed.
Example C87_value :
  match encode ix_document 8000 ix_perception with
  | Ok p => map (fun c => map (fun b => map e_pos (b_effects b)) (c_bands c)) (p_channels p) =
            [[[0; 2400; 4000; 5600; 7600]]; [[0; 2400; 4000; 5600; 7600]]]
  | _ => False
  end.
Proof. vm_compute. reflexivity. Qed.

(** ** C88 *)
(** Nested repetitions: as soon as one repetition starts inside another one, nothing outside the repetitions is imported. *)
Theorem C88_nested_refuted :
  forall bs ts t es r s, In r (te_repeats t) -> In s (te_repeats t) -> r_start r < r_start s < r_end r ->
  launched bs (converted ts) (te_launches t) es -> Forall (fun e => Forall (fun q => ~ covers q (e_pos e)) (te_repeats t)) es ->
  timelineEffects bs ts t = Ok [].
Proof. exact nested_none. Qed.
Print Assumptions C88_nested_refuted.
(** Two knocks after a repetition that holds another one. *)
Definition ix_nested : timeline_effect := Timeline [] [ix_at (bytes_of "knock") 500; ix_at (bytes_of "knock") 600] [ix_repeat 0 100 1; ix_repeat 20 30 1].
Example C88_hyps : r_start (ix_repeat 0 100 1) < r_start (ix_repeat 20 30 1) < r_end (ix_repeat 0 100 1) /\
  (exists a b, launched ix_bases (converted 1000) (te_launches ix_nested) [a; b] /\
     Forall (fun e => Forall (fun q => ~ covers q (e_pos e)) (te_repeats ix_nested)) [a; b]) /\
  timelineEffects ix_bases 1000 ix_nested = Ok [].
Proof.
  split; [vm_compute; auto|]. split; [|vm_compute; reflexivity]. eexists. eexists. split.
  - eapply LaEffect; [apply launches_same; reflexivity|apply ix_made_ok; vm_compute; reflexivity|]. eapply LaEffect; [apply launches_same; reflexivity|apply ix_made_ok; vm_compute; reflexivity|]. apply LaNil.
  - assert (P : forall t, e_pos (ix_made (convertToEffect ix_knock (ix_at (bytes_of "knock") t) 1000)) = t) by (intros t; reflexivity).
    repeat (apply Forall_cons; [rewrite P; repeat (apply Forall_cons; [unfold covers, r_end, r_start, r_length; cbn; lia|]); apply Forall_nil|]). apply Forall_nil.
Qed.

(** ** C89 *)
(** Launch events in another order than that of their times: with a launch after a repetition before one that precedes it, the
    latter is delayed by the repetition too. *)
Theorem C89_order_refuted :
  forall bs ts t r a b, te_repeats t = [r] -> 0 < r_length r /\ 0 <= r_count r -> launched bs (converted ts) (te_launches t) [a; b] ->
  r_end r <= e_pos a -> e_pos b < r_start r ->
  let d := r_count r * r_length r in
  timelineEffects bs ts t = Ok [set_pos (e_pos a + d) a; set_pos (e_pos b + d) b].
Proof. exact order_delayed. Qed.
Print Assumptions C89_order_refuted.
Definition ix_swapped : timeline_effect := Timeline [] [ix_at (bytes_of "knock") 500; ix_at (bytes_of "knock") 10] [ix_repeat 100 50 3].
Example C89_hyps : (exists a b, launched ix_bases (converted 1000) (te_launches ix_swapped) [a; b] /\ e_pos a = 500 /\ e_pos b = 10) /\
  plays [ix_repeat 100 50 3] 10 = [10] /\
  match timelineEffects ix_bases 1000 ix_swapped with Ok l => map e_pos l = [650; 160] | _ => False end.
Proof.
  split; [|vm_compute; auto]. eexists. eexists. split; [|split].
  - eapply LaEffect; [apply launches_same; reflexivity|apply ix_made_ok; vm_compute; reflexivity|]. eapply LaEffect; [apply launches_same; reflexivity|apply ix_made_ok; vm_compute; reflexivity|]. apply LaNil.
  - reflexivity.
  - reflexivity.
Qed.

(** ** C90 *)
(** A time in milliseconds becomes the last whole tick, or the one before. *)
Theorem C90_ticks :
  forall ms ts, convertible ts ms -> 0 <= ts < 2 ^ 32 ->
  exists r, millisecondsToTimeScale ms ts = Ok r /\ 0 <= r < 2 ^ 31 /\ ticks ts ms r.
Proof. exact ticks_ok. Qed.
Print Assumptions C90_ticks.
(** It is not always the exact one, when the time is a whole number of ticks. *)
Theorem C90_exact_refuted :
  exists ms ts t, convertible ts ms /\ 0 < ts < 2 ^ 32 /\ ms * ts = 1000 * t /\ millisecondsToTimeScale ms ts = Ok (t - 1).
Proof. exists 4007, 1000, 4007. vm_compute. repeat split; discriminate. Qed.
Print Assumptions C90_exact_refuted.
Example C90_value : convertible 44100 123456 /\ millisecondsToTimeScale 123456 44100 = Ok 5444409.
Proof. vm_compute. repeat split; discriminate. Qed.

(** ** C91 *)
(** A periodic effect: its keyframes are in time order from 0 to its duration; the first and the last have the levels of
    the attack, of the effect or of the fade; the frequency is that of the period, the waveform the one named. *)
Theorem C91_periodic :
  forall ts b l, 0 <= ts < 2 ^ 32 -> times_ok ts b l -> periodic b -> 1 <= period_of b l <= 2 ^ 24 ->
  exists e f, convertToEffect b l ts = Ok (Some e) /\ rendered ts b l f e /\ frequency_for (period_of b l) f /\
    (forall w, wave_named (ba_waveform b) w -> e_base e = Some w).
Proof. exact effect_periodic. Qed.
Print Assumptions C91_periodic.
(** The same for a sweep, a sine at 170 Hz. *)
Theorem C91_magsweep :
  forall ts b l, 0 <= ts < 2 ^ 32 -> times_ok ts b l -> magsweep b ->
  exists e, convertToEffect b l ts = Ok (Some e) /\ rendered ts b l 170 e /\ e_base e = Some Sine.
Proof. exact effect_magsweep. Qed.
Print Assumptions C91_magsweep.
(** An attack and a fade that do not overlap: all the keyframes. *)
Theorem C91_envelope :
  forall ts b l ta tf, 0 <= ts < 2 ^ 32 -> times_ok ts b l -> periodic b /\ 1 <= period_of b l <= 2 ^ 24 \/ magsweep b ->
  ba_attack_time b = Some ta -> ba_fade_time b = Some tf -> 2000 <= ta * ts -> 2000 <= tf * ts -> (ta + tf) * ts + 1000 < lasts b l * ts ->
  exists e D A F a0 a aD f, convertToEffect b l ts = Ok (Some e) /\ ticks ts (lasts b l) D /\ ticks ts ta A /\ ticks ts tf F /\
    level (attack_level b) a0 /\ level (strength b l) a /\ level (fade_level b) aD /\
    e_kfs e = [Keyframe (Some 0) (Some a0) (Some f); Keyframe (Some A) (Some a) None; Keyframe (Some (D - F)) (Some a) None;
               Keyframe (Some D) (Some aD) (Some f)].
Proof. exact envelope_kfs. Qed.
Print Assumptions C91_envelope.
Example C91_hyps : times_ok 8000 ix_buzz (ix_at [] 0) /\ periodic ix_buzz /\ period_of ix_buzz (ix_at [] 0) = 8 /\ times_ok 8000 ix_knock (ix_at [] 0) /\ magsweep ix_knock.
Proof.
  split; [|split; [reflexivity|split; [reflexivity|split; [|reflexivity]]]]; (split; [|split; [|split]]); ix_check.
Qed.
Example C91_value :
  match convertToEffect ix_buzz (ix_at [] 0) 8000 with
  | Ok (Some e) => map k_pos (e_kfs e) = [Some 0; Some 560; Some 800] /\ map k_freq (e_kfs e) = [Some 125; None; Some 125]
  | _ => False
  end.
Proof. vm_compute. auto. Qed.

(** A period of 8500 microseconds. *)
Example C91_microseconds : period_of ix_buzz (Launch [] (Some 0) None None (Some (- 2 ^ 31 + 8500))) = 8.
Proof. reflexivity. Qed.

(** A swell of 200 ms with an attack of 20 ms and a fade of 30 ms, launched with another magnitude. *)
Definition ix_swell : basis := Basis (bytes_of "swell") (bytes_of "periodic") (bytes_of "triangle") (Some 200) (Some 8000) (Some 10) (Some 20) (Some 1000) (Some 30) None.
Definition ix_louder : launch := Launch (bytes_of "swell") (Some 40) None (Some 10000) None.
Example C91_envelope_hyps : times_ok 1000 ix_swell ix_louder /\ periodic ix_swell /\ period_of ix_swell ix_louder = 10 /\
  strength ix_swell ix_louder = 10000 /\ wave_named (ba_waveform ix_swell) Triangle /\ (20 + 30) * 1000 + 1000 < lasts ix_swell ix_louder * 1000.
Proof.
  split; [|split; [reflexivity|split; [reflexivity|split; [reflexivity|split; [constructor|reflexivity]]]]]; (split; [|split; [|split]]); ix_check.
Qed.

(** ** C92 *)
(** One more effect: it goes to a band where it meets no other effect, and everything else stays. *)
Theorem C92_inject :
  forall ts ms e c D, 0 <= ts < 2 ^ 32 -> ticks ts ms D -> 0 < D < 2 ^ 31 -> envelope 0 D (e_kfs e) -> convertible ts (e_pos e) ->
  (e_pos e + ms) * ts <= 1000 * (2 ^ 31 - 2) ->
  Forall (fun b => b_type b = VectorialB /\ no_overlap b /\ sorted_by_position (b_effects b) /\ Forall (placed VectorialB) (b_effects b)) (c_bands c) ->
  exists bs e', injectIntoBands ts e c = Ok (set_bands bs c) /\
    Forall (fun b => b_type b = VectorialB /\ no_overlap b /\ sorted_by_position (b_effects b) /\ Forall (placed VectorialB) (b_effects b)) bs /\
    in_ticks ts e e' /\ Permutation (flat_map b_effects bs) (e' :: flat_map b_effects (c_bands c)).
Proof. intros ts ms e c D H0 H1 H2 H3 H4 H5 H6. apply (inject_ok ts ms); [exact H0|exists D; auto|exact H4|exact H5|exact H6]. Qed.
Print Assumptions C92_inject.
(** Effects that overlap: a buzz at 0 ms and one at 50 ms go to two bands, one at 200 ms to the first again. *)
Example C92_value :
  match encodeTimeline ix_bases 1000 (Timeline [] [ix_at (bytes_of "buzz") 0; ix_at (bytes_of "buzz") 50; ix_at (bytes_of "buzz") 200] []) (new_channel [] []) with
  | Ok c => map (fun b => map e_pos (b_effects b)) (c_bands c) = [[0; 200]; [50]]
  | _ => False
  end.
Proof. vm_compute. reflexivity. Qed.

(** ** C93 *)
(** A periodic effect with the period 0: the frequency is a conversion of an infinity, which is undefined. *)
Theorem C93_period_zero_refuted :
  forall b l ts, periodic b -> period_of b l = 0 -> convertToEffect b l ts = UB.
Proof. exact zero_period. Qed.
Print Assumptions C93_period_zero_refuted.
(** Without a period: the frequency is -1000 Hz, outside the band (0 to 1000 Hz). *)
Theorem C93_period_missing_refuted :
  forall b l ts, periodic b -> ba_period b = None -> la_period l = None -> times_ok ts b l -> 0 <= ts < 2 ^ 32 ->
  exists e D a0 aD, convertToEffect b l ts = Ok (Some e) /\ begins (e_kfs e) 0 a0 (-1000) /\ finishes (e_kfs e) D aD.
Proof. exact missing_period. Qed.
Print Assumptions C93_period_missing_refuted.
(** All channels made for the timelines have the identifier 0. *)
Theorem C93_channel_ids_refuted :
  forall d ts p p', encode d ts p = Ok p' -> p_channels p = [] -> Forall (fun c => c_id c = 0) (p_channels p').
Proof. intros d ts p p' H E. eapply ids_zero; [exact H|]. rewrite E. apply Forall_nil. Qed.
Print Assumptions C93_channel_ids_refuted.
Definition ix_still : basis := Basis (bytes_of "still") (bytes_of "periodic") (bytes_of "sine") (Some 100) (Some 8000) None None None None None.
Example C93_hyps : periodic ix_still /\ times_ok 8000 ix_still (ix_at [] 0) /\ period_of ix_still (Launch [] (Some 0) None None (Some 0)) = 0 /\
  match encode ix_document 8000 ix_perception with Ok p => map c_id (p_channels p) = [0; 0] | _ => False end.
Proof.
  split; [reflexivity|]. split; [|vm_compute; auto]. (split; [|split; [|split]]); ix_check.
Qed.
