(** Properties of the data packets: C22, C23, C24, C25, C26, C52. *)
From Coq Require Import String.
From Coq Require Import Sorting.Sorted Sorting.Permutation.
From Verif Require Import Base BitsModel FloatBase FloatModel TypesModel TypesSpec SemanticModel MetaModel BandModel DataModel CrcModel
  StreamModel MetaSpec MetaProof DataSpec DataProof MergeProof DataTop ExampleTac.
Local Open Scope Z_scope.
Local Open Scope list_scope.

(** ** C26 *)
(** Flattening a band keeps exactly the effects that are not composite, nested to any depth; they are in position
    order, and effects at one position keep their order. *)
Theorem C26_flatten : forall b : band,
  let r := linearizeTimeline b in
  sorted_by_position (b_effects r) /\ Permutation (b_effects r) (flat_map leaves (b_effects b)) /\
  (forall p, at_position p (b_effects r) = at_position p (flat_map leaves (b_effects b))) /\
  Forall (fun e => e_type e <> CompositeE) (b_effects r) /\ band_same_but_effects b r.
Proof. exact linearize_leaves. Qed.
Print Assumptions C26_flatten.
Definition ex_leaf (id pos : Z) : effect := Effect id pos None None [] None BasisE [] [] [].
Example C26_case :
  map e_id (b_effects (linearizeTimeline (Band CurveB None None 0 0
    [Effect 1 0 None None [] None CompositeE [ex_leaf 2 30; Effect 3 0 None None [] None CompositeE [ex_leaf 4 10; ex_leaf 5 30] [] []] [] [];
     ex_leaf 6 20] None))) = [4; 6; 2; 5].
Proof. reflexivity. Qed.

(** The position of a nested effect is not shifted by the position of the composite effect that contains it: an
    effect 10 ticks into a composite effect at 100 is streamed at 10. *)
Theorem C26_offset_refuted : exists b c x, b_effects b = [c] /\ e_type c = CompositeE /\ e_timeline c = [x] /\ e_pos c > 0 /\
  map e_pos (b_effects (linearizeTimeline b)) = [e_pos x] /\ e_pos x <> e_pos c + e_pos x.
Proof.
  exists (Band CurveB None None 0 0 [Effect 1 100 None None [] None CompositeE [ex_leaf 2 10] [] []] None),
    (Effect 1 100 None None [] None CompositeE [ex_leaf 2 10] [] []), (ex_leaf 2 10).
  repeat split; try reflexivity; cbn; lia.
Qed.
Print Assumptions C26_offset_refuted.

(** ** C24 *)
(** The packets of all bands come out in time order, none lost or duplicated; packets with the same time stay in
    the order in which they were produced. *)
Theorem C24_sorted : forall bands : list (list bits), Forall (Forall stamped) bands ->
  exists out, sortPacket bands [] = Ok out /\ Permutation out (concat bands) /\
    StronglySorted (fun a b => stamp a <= stamp b) out /\
    forall t, filter (fun q => stamp q =? t) out = filter (fun q => stamp q =? t) (concat bands).
Proof. exact sortPacket_ok. Qed.
Print Assumptions C24_sorted.
Example C24_hyps : Forall (Forall stamped) [[writeNBits 32 7 ++ [true]; writeNBits 32 9]; [writeNBits 32 5]; []].
Proof. repeat constructor. Qed.

(** ** C25 *)
(** Cutting a band gives its effects without id new ids, distinct from each other and from all ids known before,
    and changes nothing else: the packets are those of the band with these ids. *)
Theorem C25_fresh : forall fuel pd ad b ids au out au' ids', b_type b <> WaveletB -> Forall (fun i => 0 <= i) ids ->
  packetizeBand fuel pd ad b ids au = Ok (out, au', ids') ->
  exists L, only_ids_added (b_effects b) L /\ fresh_ids ids (b_effects b) L /\ ids' = ids ++ added_ids (b_effects b) L /\
    packetizeBand fuel pd ad (set_effects L b) ids' au = Ok (out, au', ids').
Proof. exact band_ids. Qed.
Print Assumptions C25_fresh.

(** Effects nested in composite effects are not taken into account: an effect of the timeline of a composite effect
    has id 0, and the id assigned to another effect is 0. *)
Definition ex_one : f32 := @B754_finite 24 128 false 8388608 (-23) eq_refl. (* 1.0 *)
Definition ex_k (p : Z) : keyframe := Keyframe (Some p) (Some ex_one) None.
Definition ex_e (id pos : Z) (ks : list Z) : effect := Effect id pos None None (map ex_k ks) None BasisE [] [] [].
Definition ex_h (es : list effect) : haptics :=
  Haptics [] [] 1 [] [] [Perception 1 0 [] None None 6 [Channel 2 [] ex_one ex_one 1 [] [Band CurveB None None 0 0 es None]
    None None None None None None None None] [] None None []] [] None [].
Ltac ex_effect_ok :=
  cbv beta; unfold effect_data_ok, ex_e, ex_k, kf_data_ok;
  cbn [b_type b_effects map e_pos e_type e_kfs e_semantic e_phase e_base e_id k_pos k_amp k_freq];
  split; [small|]; first [right; reflexivity | left; split; [reflexivity|]; split; [discriminate|]; split;
    [repeat (apply Forall_cons; [cbn [k_pos k_amp k_freq]; split; [eexists; split; [reflexivity|small]|split; [small|split; [small|split; [discriminate|intros _; split; [discriminate|reflexivity]]]]]|]); apply Forall_nil|small]].
Theorem C25_nested_refuted : exists h, match writeData 10 100 h with
  | Ok out => flat_map (fun p => map e_id (effects_in CurveB p)) out = [0; 0]
  | _ => False
  end /\ getEffectsId h = [].
Proof.
  exists (ex_h [Effect (-1) 0 None None [] None CompositeE [ex_e 0 0 [0]] [] []; ex_e (-1) 50 [0]]).
  split; vm_compute; reflexivity.
Qed.
Print Assumptions C25_nested_refuted.
(** The id of an effect of a wavelet band is not kept: the effect 7 is sent as effect 8. *)
Theorem C25_wavelet_refuted : exists b, map e_id (b_effects b) = [7] /\
  match packetizeBand 10 100 (Address 1 2 0) b [7] 0 with
  | Ok ([p], _, ids) => bits_val (firstn 16 (skipn 81 p)) = 8 /\ ids = [7; 8]
  | _ => False
  end.
Proof.
  exists (Band WaveletB None (Some 100) 0 1000 [Effect 7 0 None None [] None BasisE [] [] [1; 2]] None).
  split; [reflexivity|]. vm_compute. split; reflexivity.
Qed.
Print Assumptions C25_wavelet_refuted.

(** ** C22 *)
(** The packets of a band: one for each window of the packet duration that has content, carrying the time, the
    address and the parts of the effects that lie in the window. *)
Theorem C22_packets : forall fuel pd ad b ids au,
  band_data_ok known_semantic pd ids b -> address_ok ad -> (au = RAU \/ au = DAU) -> (1 <= fuel)%nat ->
  Forall (fun t => t < Z.of_nat fuel * pd) (flat_map events (b_effects b)) ->
  exists L out au', packetizeBand fuel pd ad b ids au = Ok (out, au', ids ++ added_ids (b_effects b) L) /\
    only_ids_added (b_effects b) L /\ fresh_ids ids (b_effects b) L /\
    Forall2 (carries (b_type b) ad) (windows pd L fuel) out.
Proof. exact band_carried. Qed.
Print Assumptions C22_packets.
(** The parts in these windows make up the effects: each keyframe in order and exactly once, each reference once. *)
Theorem C22_partition : forall bt pd l n, 0 < pd -> Forall (effect_data_ok known_semantic bt) l -> in_sequence l ->
  Forall (fun t => t < Z.of_nat n * pd) (flat_map events l) ->
  Forall (fun e => if e_type e =? BasisE
    then flat_map (fun i => flat_map e_kfs (part (Z.of_nat i * pd) (Z.of_nat i * pd + pd) e)) (seq 0 n) = e_kfs e
    else flat_map (fun i => part (Z.of_nat i * pd) (Z.of_nat i * pd + pd) e) (seq 0 n) = [e]) l.
Proof. exact windows_partition. Qed.
Print Assumptions C22_partition.
Definition ex_band : band :=
  Band CurveB None None 0 1000
    [ex_e 4 0 [0; 150; 400]; Effect 9 450 None None [] None ReferenceE [] [] []; ex_e (-1) 500 [7; 7; 65535]] None.
Example C22_hyps : band_data_ok known_semantic 100 [4; 9] ex_band /\ address_ok (Address 255 65535 0) /\
  Forall (fun t => t < Z.of_nat 661 * 100) (flat_map events (b_effects ex_band)).
Proof.
  unfold band_data_ok, ex_band, data_band, address_ok, ex_e, ex_k, effect_data_ok, kf_data_ok.
  cbn [b_type b_effects map e_pos e_type e_kfs e_semantic e_phase e_base e_id k_pos k_amp k_freq ad_perception ad_channel ad_band].
  split; [|split; [small|cbn; repeat (constructor; try lia)]].
  split; [auto|]. split; [lia|]. split.
  { repeat (apply Forall_cons; [ex_effect_ok|]). apply Forall_nil. }
  split; [reflexivity|]. split; [repeat (constructor; [cbn; lia|]); constructor|].
  split; [repeat (constructor; [cbn; lia|]); constructor|]. split.
  - unfold in_sequence. cbn. repeat (constructor; [|repeat (constructor; try lia)]). constructor.
  - intros a e Ea Hty. destruct a as [|x [|y [|z a]]]; try discriminate Ea.
    + injection Ea as _ _ <-. discriminate Hty.
    + injection Ea as _ _ _ Ea. destruct a; discriminate Ea.
Qed.

(** When effects overlap in time an effect can be dropped entirely: an effect with keyframes at 0 and 200 and an
    effect with a keyframe at 50, cut into packets of 100 ticks. *)
Theorem C22_overlap_refuted : exists b e, In e (b_effects b) /\ e_kfs e <> [] /\
  Forall (effect_data_ok known_semantic (b_type b)) (b_effects b) /\ sorted_by_position (b_effects b) /\
  match packetizeBand 10 100 (Address 1 2 0) b [1; 2] 0 with
  | Ok (out, _, _) => Forall (fun p => Forall (fun x => e_id x <> e_id e) (effects_in (b_type b) p)) out /\ length out = 2%nat
  | _ => False
  end.
Proof.
  exists (Band CurveB None None 0 1000 [ex_e 1 0 [0; 200]; ex_e 2 50 [0]] None), (ex_e 2 50 [0]).
  split; [right; left; reflexivity|]. split; [discriminate|]. split.
  { repeat (apply Forall_cons; [ex_effect_ok|]). apply Forall_nil. }
  split; [repeat constructor; cbn; lia|].
  assert (H : match packetizeBand 10 100 (Address 1 2 0) (Band CurveB None None 0 1000 [ex_e 1 0 [0; 200]; ex_e 2 50 [0]] None) [1; 2] 0 with
    | Ok (out, _, _) => forallb (fun p => forallb (fun x => negb (e_id x =? 2)) (effects_in CurveB p)) out && (length out =? 2)%nat
    | _ => false end = true) by (vm_compute; reflexivity).
  destruct (packetizeBand _ _ _ _ _ _) as [[[out a] i]| | |]; try discriminate H. apply andb_true_iff in H. destruct H as [H1 H2].
  split; [|apply Nat.eqb_eq; exact H2]. apply Forall_forall. intros p Hp. apply Forall_forall. intros x Hx E.
  rewrite forallb_forall in H1. specialize (H1 p Hp). rewrite forallb_forall in H1. specialize (H1 x Hx). cbn in E. lia.
Qed.
Print Assumptions C22_overlap_refuted.
(** A reference at the end of a band is lost when it lies exactly at the end of a window. *)
Theorem C22_boundary_refuted : exists b, map e_type (b_effects b) = [ReferenceE] /\ map e_pos (b_effects b) = [100] /\
  packetizeBand 10 100 (Address 1 2 0) b [1] 0 = Ok ([], 0, [1]).
Proof.
  exists (Band CurveB None None 0 1000 [Effect 1 100 None None [] None ReferenceE [] [] []] None). repeat split; vm_compute; reflexivity.
Qed.
Print Assumptions C22_boundary_refuted.

(** ** C23 *)
(** A receiver that knows the band (without effects) and gets its packets in order ends up with the effects of the
    band: same ids, positions, types and semantics, every keyframe in order, reals quantised. *)
Theorem C23_restored : forall fuel pd ad b ids au,
  band_data_ok known_semantic pd ids b -> address_ok ad -> (au = RAU \/ au = DAU) -> (1 <= fuel)%nat ->
  Forall (fun t => t < Z.of_nat fuel * pd) (flat_map events (b_effects b)) ->
  sorted_by_position (b_effects b) -> NoDup (given_ids (b_effects b)) -> (forall i, In i (given_ids (b_effects b)) -> In i ids) ->
  exists L out au' ids', packetizeBand fuel pd ad b ids au = Ok (out, au', ids') /\ only_ids_added (b_effects b) L /\
    forall r pi ci bi b0, found r ad pi ci bi b0 -> b_type b0 = b_type b -> b_effects b0 = [] -> sr_wait r = false ->
    exists r' l, deliver out r = Ok r' /\ sr_haptic r' = change_band (set_effects l) pi ci bi (sr_haptic r) /\
      Forall2 (data_sent (b_type b)) L l.
Proof. exact band_restored. Qed.
Print Assumptions C23_restored.
Example C23_hyps : sorted_by_position (b_effects ex_band) /\ NoDup (given_ids (b_effects ex_band)) /\
  (forall i, In i (given_ids (b_effects ex_band)) -> In i [4; 9]).
Proof.
  split; [repeat constructor; cbn; lia|]. split; [|intros i H; exact H].
  cbn. constructor; [intros [H|[]]; discriminate|]. constructor; [intros []|constructor].
Qed.
Example C23_found : found (SReader (ex_h []) [(3, 0); (8, 0)] 0 1000 100 false) (Address 1 2 8) 0 0 0 (Band CurveB None None 0 0 [] None).
Proof.
  eexists _, _, 1%nat. cbv zeta. repeat split; try reflexivity; try (intros m y Hm; lia).
  intros [|m] y Hm Hy; [|lia]. injection Hy as <-. discriminate.
Qed.
(** Two effects with one id are merged into one. *)
Theorem C23_same_id_refuted : exists b, length (b_effects b) = 2%nat /\
  match packetizeBand 10 100 (Address 1 2 8) b [1] 0 with
  | Ok (out, _, _) =>
      match deliver out (SReader (ex_h []) [(3, 0); (8, 0)] 0 1000 100 false) with
      | Ok r => flat_map (fun p => flat_map (fun c => flat_map (fun b => map (fun e => (e_id e, map k_pos (e_kfs e))) (b_effects b))
                  (c_bands c)) (p_channels p)) (h_perceptions (sr_haptic r)) = [(1, [Some 0; Some 5])]
      | _ => False
      end
  | _ => False
  end.
Proof.
  exists (Band CurveB None None 0 1000 [ex_e 1 0 [0]; ex_e 1 150 [5]] None). split; [reflexivity|]. vm_compute. reflexivity.
Qed.
Print Assumptions C23_same_id_refuted.

(** ** C52 *)
(** Cutting a band ends for every positive packet duration, after at most [fuel] windows when the last event is
    before [fuel] packet durations, and with at most one packet per window. *)
Theorem C52_terminates : forall fuel pd ad b ids au, 0 < pd -> b_type b <> WaveletB -> (1 <= fuel)%nat ->
  Forall (fun t => t < Z.of_nat fuel * pd) (flat_map events (b_effects b)) ->
  packetizeBand fuel pd ad b ids au <> NoFuel /\
  forall out au' ids', packetizeBand fuel pd ad b ids au = Ok (out, au', ids') -> (length out <= fuel)%nat.
Proof. exact band_terminates. Qed.
Print Assumptions C52_terminates.
(** With a packet duration of 0 it does not end, for any band with an effect of one keyframe. *)
Theorem C52_zero_duration_refuted : exists b, forall fuel ad ids au, packetizeBand fuel 0 ad b ids au = NoFuel.
Proof.
  exists (Band CurveB None None 0 1000 [ex_e 1 0 [0]] None). intros fuel ad ids au.
  apply (zero_duration_loops CurveB ad 0 (Some ex_one) None fuel (ex_e 1 0 [0]) ids au); (reflexivity || (cbn; lia)).
Qed.
Print Assumptions C52_zero_duration_refuted.
