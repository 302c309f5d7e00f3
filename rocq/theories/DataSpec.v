(** Specification notions for the data packets: leaves of composite effects, times of keyframes, windows. *)
From Coq Require Import Sorting.Sorted Sorting.Permutation Reals.
From Verif Require Import Base BitsModel FloatBase FloatModel TypesModel TypesSpec MetaModel DataModel CrcModel StreamModel MetaSpec.
Local Open Scope Z_scope.

(** C26: the effects that are not composite, at any depth. *)
Fixpoint leaves (e : effect) : list effect :=
  match e with
  | Effect _ _ _ _ _ _ type timeline _ _ => if type =? CompositeE then flat_map leaves timeline else [e]
  end.

(** C24: the time of a packet is its first 32 bits. *)
Definition stamp (p : bits) : Z := bits_val (firstn 32 p).
Definition stamped (p : bits) : Prop := (32 <= length p)%nat /\ stamp p < 2 ^ 31.

(** C25: [l'] is [l] where each effect without id (id -1) has received one; ids already [known] or present
    in [l] are not reused. *)
Definition only_ids_added (l l' : list effect) : Prop :=
  Forall2 (fun e e' => if e_id e =? -1 then exists i, 0 <= i /\ e' = set_id i e else e' = e) l l'.
Definition added_ids (l l' : list effect) : list Z :=
  map (fun p => e_id (snd p)) (filter (fun p => e_id (fst p) =? -1) (combine l l')).
Definition fresh_ids (known : list Z) (l l' : list effect) : Prop :=
  NoDup (added_ids l l') /\ forall i, In i (added_ids l l') -> ~ In i known.

(** The time of a keyframe relative to its effect, and the times at which an effect has something to send. *)
Definition kpos (k : keyframe) : Z := match k_pos k with Some p => p | None => 0 end.
Definition events (e : effect) : list Z :=
  if e_type e =? BasisE then map (fun k => e_pos e + kpos k) (e_kfs e)
  else if e_type e =? ReferenceE then [e_pos e] else [].
Definition in_window (lo hi t : Z) : bool := (lo <=? t) && (t <? hi).
(** The part of an effect that belongs to the window [lo, hi): the effect with the keyframes inside the
    window, if it has any; a reference, if it starts inside. *)
Definition part (lo hi : Z) (e : effect) : list effect :=
  if e_type e =? BasisE then
    match filter (fun k => in_window lo hi (e_pos e + kpos k)) (e_kfs e) with
    | [] => []
    | ks => [set_kfs ks e]
    end
  else if (e_type e =? ReferenceE) && in_window lo hi (e_pos e) then [e] else [].
Definition window (lo hi : Z) (l : list effect) : list effect := flat_map (part lo hi) l.
(** The windows of length [pd] from 0 that have content, with their times; [n] windows are considered. *)
Definition windows (pd : Z) (l : list effect) (n : nat) : list (Z * list effect) :=
  filter (fun w => match snd w with [] => false | _ => true end)
    (map (fun i => (Z.of_nat i * pd, window (Z.of_nat i * pd) (Z.of_nat i * pd + pd) l)) (seq 0 n)).

(** Keyframes and effects a band of a given type can carry in data packets. *)
Definition kf_data_ok (bandType : Z) (k : keyframe) : Prop :=
  (exists p, k_pos k = Some p /\ nbits 16 p) /\ opt_all finite (k_amp k) /\ opt_all (nbits 16) (k_freq k) /\
  (bandType = TransientB -> k_amp k <> None /\ k_freq k <> None) /\
  (bandType = CurveB -> k_amp k <> None /\ k_freq k = None).
Definition data_band (t : Z) : Prop := t = CurveB \/ t = VectorialB \/ t = TransientB.
Definition effect_data_ok (known : str -> Prop) (bandType : Z) (e : effect) : Prop :=
  nbits 30 (e_pos e) /\
  (e_type e = BasisE /\ e_kfs e <> [] /\ Forall (kf_data_ok bandType) (e_kfs e) /\ vec_size (e_kfs e) < 65536 /\
     opt_all known (e_semantic e) /\ opt_all finite (e_phase e) /\ opt_all (nbits 4) (e_base e)
   \/ e_type e = ReferenceE).
(** What is read for an effect: reals quantised; phase and base signal only in vectorial bands. *)
Definition data_sent (bandType : Z) (e e' : effect) : Prop :=
  e_id e' = e_id e /\ e_pos e' = e_pos e /\ e_type e' = e_type e /\
  (if e_type e =? BasisE then
     e_semantic e' = e_semantic e /\ Forall2 kf_sent (e_kfs e) (e_kfs e') /\
     (if bandType =? VectorialB
      then (exists w, e_phase e' = Some w /\ near 16 f32_0 MAX_PHASE (value_or (e_phase e) f32_0) w) /\
           e_base e' = Some (value_or (e_base e) 0)
      else e_phase e' = None /\ e_base e' = None)
   else e_semantic e' = None /\ e_kfs e' = [] /\ e_phase e' = None /\ e_base e' = None) /\
  e_timeline e' = [] /\ e_samples e' = [] /\ e_wavelet e' = [].
(** A band whose effects follow each other: in list order their events never go back in time; and the last
    event is not a reference placed exactly at the end of a window. *)
Definition in_sequence (l : list effect) : Prop := StronglySorted Z.le (flat_map events l).
Definition not_ending_on_boundary (pd : Z) (l : list effect) : Prop :=
  forall a e, l = a ++ [e] -> e_type e = ReferenceE -> e_pos e = 0 \/ e_pos e mod pd <> 0.

(** C22: the packet [p] announces the time and the effects of the window [w]: this is what a receiver finds in
    it (after the time stamp): the address, the number of effects and the effects. *)
Definition carries (bandType : Z) (ad : address) (w : Z * list effect) (p : bits) : Prop :=
  stamped p /\ stamp p = fst w /\
  let q := skipn 32 p in
  readUInt q 1 8 = Ok (ad_perception ad, 9%nat) /\ readUInt q 9 16 = Ok (ad_channel ad, 25%nat) /\
  readUInt q 25 8 = Ok (ad_band ad, 33%nat) /\ readUInt q 33 16 = Ok (vec_size (snd w), 49%nat) /\
  exists es, readEffects bandType (length (snd w)) q 49 = Ok (Some es, length q) /\
    Forall2 (data_sent bandType) (snd w) (addTimestampEffect (fst w) es).

(** C23: the reader at the time of a packet; packets delivered one after the other. *)
Definition at_time (t : Z) (r : sreader) : sreader :=
  SReader (sr_haptic r) (sr_bands r) t (sr_timescale r) (sr_duration r) (sr_wait r).
Fixpoint deliver (packets : list bits) (r : sreader) : outcome sreader :=
  match packets with
  | [] => Ok r
  | p :: ps =>
      do '(ok, r) <- readData (at_time (stamp p) r) (skipn 32 (fillBitset p));
      if ok then deliver ps r else Throw
  end.
(** The reader knows the band with the address: it is the band [bi] of channel [ci] of perception [pi]. *)
Definition found (r : sreader) (ad : address) (pi ci bi : nat) (b : band) : Prop :=
  exists p c k, let ps := h_perceptions (sr_haptic r) in
    first_at (fun p => p_id p = ad_perception ad) ps pi p /\
    first_at (fun c => c_id c = ad_channel ad) (p_channels p) ci c /\
    (forall m q, (m < pi)%nat -> nth_error ps m = Some q -> Forall (fun c => c_id c <> ad_channel ad) (p_channels q)) /\
    first_at (fun x => fst x = ad_band ad) (sr_bands r) k (ad_band ad, Z.of_nat bi) /\
    nth_error (c_bands c) bi = Some b.
(** The experience with the effects of one band changed. *)
Definition change_band (f : band -> band) (pi ci bi : nat) (h : haptics) : haptics :=
  set_perceptions (map_nth (fun p => set_channels (map_nth (fun c => set_bands (map_nth f bi (c_bands c)) c)
    ci (p_channels p)) p) pi (h_perceptions h)) h.
Definition address_ok (ad : address) : Prop :=
  nbits 8 (ad_perception ad) /\ nbits 16 (ad_channel ad) /\ nbits 8 (ad_band ad).
(** The ids effects come with. *)
Definition given_ids (l : list effect) : list Z := filter (fun i => negb (i =? -1)) (map e_id l).
(** Conditions on a band and on the ids known when it is cut. *)
Definition band_data_ok (known : str -> Prop) (pd : Z) (ids : list Z) (b : band) : Prop :=
  data_band (b_type b) /\ 0 < pd <= 2 ^ 24 /\ Forall (effect_data_ok known (b_type b)) (b_effects b) /\
  vec_size (b_effects b) < 65536 /\
  Forall (fun e => -1 <= e_id e < 65536) (b_effects b) /\ Forall (fun i => 0 <= i < 65536 - vec_size (b_effects b)) ids /\
  in_sequence (b_effects b) /\ not_ending_on_boundary pd (b_effects b).

(** What a receiver finds in a packet. *)
Definition effects_in (bandType : Z) (p : bits) : list effect :=
  let q := skipn 32 p in
  match readUInt q 33 16 with
  | Ok (n, i) => match readEffects bandType (Z.to_nat n) q i with Ok (Some es, _) => es | _ => [] end
  | _ => []
  end.
