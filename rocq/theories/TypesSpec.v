(** Specification notions for the containers: lists, positions, what may change. *)
From Coq Require Import Sorting.Sorted Sorting.Permutation.
From Verif Require Import Base BitsModel FloatBase TypesModel.

(** C32: one element of a list is replaced, resp. removed, and nothing else changes. *)
Definition valid_index {A} (l : list A) (i : Z) : Prop := 0 <= i < Z.of_nat (length l).
Definition only_replaced {A} (l l' : list A) (i : Z) (x : A) : Prop :=
  exists a y b, l = a ++ y :: b /\ Z.of_nat (length a) = i /\ l' = a ++ x :: b.
Definition only_removed {A} (l l' : list A) (i : Z) : Prop :=
  exists a y b, l = a ++ y :: b /\ Z.of_nat (length a) = i /\ l' = a ++ b.

Definition effect_same_but_keyframes (a b : effect) : Prop :=
  e_id a = e_id b /\ e_pos a = e_pos b /\ e_phase a = e_phase b /\ e_semantic a = e_semantic b
  /\ e_base a = e_base b /\ e_type a = e_type b /\ e_timeline a = e_timeline b
  /\ e_samples a = e_samples b /\ e_wavelet a = e_wavelet b.
Definition band_same_but_effects (a b : band) : Prop :=
  b_type a = b_type b /\ b_curve a = b_curve b /\ b_block a = b_block b /\ b_low a = b_low b
  /\ b_up a = b_up b /\ b_prio a = b_prio b.
Definition channel_same_but_bands (a b : channel) : Prop :=
  c_id a = c_id b /\ c_desc a = c_desc b /\ c_gain a = c_gain b /\ c_mix a = c_mix b /\ c_mask a = c_mask b
  /\ c_vertices a = c_vertices b /\ c_prio a = c_prio b /\ c_device a = c_device b /\ c_freq a = c_freq b
  /\ c_count a = c_count b /\ c_dir a = c_dir b /\ c_res a = c_res b /\ c_body a = c_body b
  /\ c_target a = c_target b.
Definition perception_same_but_channels (a b : perception) : Prop :=
  p_id a = p_id b /\ p_avatar a = p_avatar b /\ p_desc a = p_desc b /\ p_prio a = p_prio b
  /\ p_scheme a = p_scheme b /\ p_modality a = p_modality b /\ p_devices a = p_devices b
  /\ p_uexp a = p_uexp b /\ p_puexp a = p_puexp b /\ p_library a = p_library b.
Definition haptics_same_but_perceptions (a b : haptics) : Prop :=
  h_version a = h_version b /\ h_profile a = h_profile b /\ h_level a = h_level b /\ h_date a = h_date b
  /\ h_desc a = h_desc b /\ h_avatars a = h_avatars b /\ h_timescale a = h_timescale b /\ h_syncs a = h_syncs b.

(** The contract of "replace (remove) the element at a signed index" for a container type [C] whose
    elements are [elems], and whose other data is compared by [same]. *)
Definition replace_contract {C A} (elems : C -> list A) (same : C -> C -> Prop)
    (c : C) (i : Z) (x : A) (r : bool * C) : Prop :=
  (fst r = true <-> valid_index (elems c) i)
  /\ (fst r = true -> only_replaced (elems c) (elems (snd r)) i x /\ same c (snd r))
  /\ (fst r = false -> snd r = c).
Definition remove_contract {C A} (elems : C -> list A) (same : C -> C -> Prop)
    (c : C) (i : Z) (r : bool * C) : Prop :=
  (fst r = true <-> valid_index (elems c) i)
  /\ (fst r = true -> only_removed (elems c) (elems (snd r)) i /\ same c (snd r))
  /\ (fst r = false -> snd r = c).

(** C31: effects in position order; those at one position. *)
Definition sorted_by_position (l : list effect) : Prop := StronglySorted (fun a b => e_pos a <= e_pos b) l.
Definition at_position (p : Z) (l : list effect) : list effect := filter (fun e => e_pos e =? p) l.
(** API calls on a band. *)
Definition add_all (xs : list effect) (b : band) : band := fold_left (fun b x => addEffect x b) xs b.
Inductive band_op := Add (x : effect) | Remove (i : Z).
Definition band_run (b : band) (o : band_op) : band :=
  match o with Add x => addEffect x b | Remove i => snd (removeEffectAt i b) end.

(** C33: setting amplitudes and frequencies at positions. *)
Inductive kf_op := SetAmp (a : option f32) (p : Z) | SetFreq (f : option Z) (p : Z).
Definition op_pos (o : kf_op) : Z := match o with SetAmp _ p => p | SetFreq _ p => p end.
(** The last amplitude (frequency) set at [p] in a history, oldest operation first. *)
Fixpoint last_amp (h : list kf_op) (p : Z) (d : option f32) : option f32 :=
  match h with
  | [] => d
  | SetAmp a q :: r => last_amp r p (if q =? p then a else d)
  | SetFreq _ _ :: r => last_amp r p d
  end.
Fixpoint last_freq (h : list kf_op) (p : Z) (d : option Z) : option Z :=
  match h with
  | [] => d
  | SetFreq f q :: r => last_freq r p (if q =? p then f else d)
  | SetAmp _ _ :: r => last_freq r p d
  end.
(** The API call made by an operation. *)
Definition kf_step (e : effect) (o : kf_op) : effect :=
  match o with
  | SetAmp a p => addAmplitudeAt a p true e
  | SetFreq f p => addFrequencyAt f p e
  end.
(** With the variant that inserts instead of overriding. *)
Inductive kf_op2 := Op1 (o : kf_op) | InsAmp (a : option f32) (p : Z).
Definition kf_step2 (e : effect) (o : kf_op2) : effect :=
  match o with Op1 o => kf_step e o | InsAmp a p => addAmplitudeAt a p false e end.
(** Both keyframes have a position, in increasing order. *)
Definition kpos_lt (a b : keyframe) : Prop :=
  exists p q, k_pos a = Some p /\ k_pos b = Some q /\ p < q.
Definition kpos_le (a b : keyframe) : Prop :=
  exists p q, k_pos a = Some p /\ k_pos b = Some q /\ p <= q.

(** IEEE equality: the same number (zeros of both signs are equal), and not NaN. *)
Definition same_number {p e} (x y : binary_float p e) : Prop :=
  match x, y with
  | B754_nan, _ | _, B754_nan => False
  | B754_zero _, B754_zero _ => True
  | _, _ => x = y
  end.
Definition opt_rel {A} (R : A -> A -> Prop) (x y : option A) : Prop :=
  match x, y with
  | None, None => True
  | Some a, Some b => R a b
  | _, _ => False
  end.
Definition same_keyframe (a b : keyframe) : Prop :=
  k_pos a = k_pos b /\ opt_rel same_number (k_amp a) (k_amp b) /\ k_freq a = k_freq b.
(** C47: what [isEquivalent] should mean: two basis effects with the same phase, base signal and keyframes. *)
Definition equivalent_effects (a b : effect) : Prop :=
  e_type a = 0 /\ e_type b = 0 /\ opt_rel same_number (e_phase a) (e_phase b) /\ e_base a = e_base b
  /\ Forall2 same_keyframe (e_kfs a) (e_kfs b).
Definition no_nan {p e} (x : option (binary_float p e)) : Prop :=
  match x with Some B754_nan => False | _ => True end.
Definition effect_no_nan (e : effect) : Prop :=
  no_nan (e_phase e) /\ Forall (fun k => no_nan (k_amp k)) (e_kfs e).

(** C36: the effect in channel [l], band [m], slot [n]. *)
Definition effect_at (p : perception) (l m n : nat) : option effect :=
  match nth_error (p_channels p) l with
  | Some c => match nth_error (c_bands c) m with
              | Some b => nth_error (b_effects b) n
              | None => None
              end
  | None => None
  end.
(** Equal except for the identifier. *)
Definition same_but_id (a b : effect) : Prop :=
  e_pos a = e_pos b /\ e_phase a = e_phase b /\ e_semantic a = e_semantic b /\ e_kfs a = e_kfs b
  /\ e_base a = e_base b /\ e_type a = e_type b /\ e_timeline a = e_timeline b
  /\ e_samples a = e_samples b /\ e_wavelet a = e_wavelet b.
(** Equal except for identifier and position. *)
Definition same_content (a b : effect) : Prop :=
  e_phase a = e_phase b /\ e_semantic a = e_semantic b /\ e_kfs a = e_kfs b
  /\ e_base a = e_base b /\ e_type a = e_type b /\ e_timeline a = e_timeline b
  /\ e_samples a = e_samples b /\ e_wavelet a = e_wavelet b.
(** Everything of a perception except the effects in its bands and its library. *)
Definition skeleton_band (b : band) :=
  (b_type b, b_curve b, b_block b, b_low b, b_up b, b_prio b, length (b_effects b)).
Definition skeleton_channel (c : channel) :=
  ((c_id c, c_desc c, c_gain c, c_mix c, c_mask c, c_vertices c, c_prio c),
   (c_device c, c_freq c, c_count c, c_dir c, c_res c, c_body c, c_target c), map skeleton_band (c_bands c)).
Definition skeleton (p : perception) :=
  ((p_id p, p_avatar p, p_desc p, p_prio p, p_scheme p, p_modality p), (p_devices p, p_uexp p, p_puexp p),
   map skeleton_channel (p_channels p)).
(** The identifiers in use are smaller than the size of the library (as for the ids 0, 1, 2... that
    factoring hands out), both in the library and in the references to it. *)
Definition ids_below_size (p : perception) : Prop :=
  (forall e, In e (p_library p) -> e_id e < Z.of_nat (length (p_library p)))
  /\ (forall l m n e, effect_at p l m n = Some e -> e_type e = 1 -> e_id e < Z.of_nat (length (p_library p))).
