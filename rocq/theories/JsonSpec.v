(** What an interchange file keeps of an experience, independently of the code. *)
From Verif Require Import Base BitsModel FloatBase TypesModel TypesSpec.
Local Open Scope Z_scope.

(** *** What can be stored *)
Definition given {A} (P : A -> Prop) (o : option A) : Prop := forall x, o = Some x -> P x.
Definition int (z : Z) : Prop := - 2 ^ 31 <= z < 2 ^ 31.
Definition uint (z : Z) : Prop := 0 <= z < 2 ^ 32.
Definition int8 (z : Z) : Prop := - 2 ^ 7 <= z < 2 ^ 7.
Definition number (x : f32) : Prop := is_finite x = true.
(** No null character. *)
Definition text (s : str) : Prop := ~ In 0 s.
Definition storable_vector (v : vector) : Prop := int8 (vx v) /\ int8 (vy v) /\ int8 (vz v).
Definition storable_keyframe (k : keyframe) : Prop := given int (k_pos k) /\ given number (k_amp k) /\ given int (k_freq k).
Definition storable_effect (e : effect) : Prop :=
  0 <= e_type e <= 2 /\ int (e_id e) /\ int (e_pos e) /\ given number (e_phase e) /\ given text (e_semantic e) /\
  Forall storable_keyframe (e_kfs e) /\ given (fun s => 0 <= s <= 4) (e_base e) /\
  Forall (fun v => 0 <= v < 256) (e_wavelet e) /\ (e_wavelet e = [] \/ Exists (fun v => v <> 0) (e_wavelet e)).
Definition storable_band (b : band) : Prop :=
  0 <= b_type b <= 3 /\ given (fun c => 0 <= c <= 5) (b_curve b) /\ given int (b_block b) /\ int (b_low b) /\ int (b_up b) /\
  given int (b_prio b) /\ sorted_by_position (b_effects b) /\ Forall storable_effect (b_effects b).
(** The codes of BodyPartTarget.h. *)
Definition body_part (v : Z) : Prop :=
  0 <= v <= 1 \/ 10 <= v <= 15 \/ 20 <= v <= 24 \/ 30 <= v <= 37 \/ 40 <= v <= 43 \/ 50 <= v <= 62 \/ 254 <= v <= 255.
Definition storable_channel (c : channel) : Prop :=
  int (c_id c) /\ text (c_desc c) /\ number (c_gain c) /\ number (c_mix c) /\ uint (c_mask c) /\ Forall int (c_vertices c) /\
  given int (c_prio c) /\ given int (c_device c) /\ given uint (c_freq c) /\ given uint (c_count c) /\
  given storable_vector (c_dir c) /\ given storable_vector (c_res c) /\ given (Forall body_part) (c_body c) /\
  given (Forall storable_vector) (c_target c) /\ Forall storable_band (c_bands c).
Definition storable_device (d : device) : Prop :=
  int (d_id d) /\ text (d_name d) /\ given uint (d_mask d) /\ given number (d_maxf d) /\ given number (d_minf d) /\ given number (d_resf d) /\
  given number (d_maxa d) /\ given number (d_imp d) /\ given number (d_maxv d) /\ given number (d_maxc d) /\ given number (d_maxd d) /\
  given number (d_weight d) /\ given number (d_size d) /\ given number (d_custom d) /\ given (fun t => 0 <= t <= 4) (d_type d).
Definition storable_avatar (a : avatar) : Prop := int (a_id a) /\ int (a_lod a) /\ 0 <= a_type a <= 3 /\ given text (a_mesh a).
Definition storable_sync (s : sync) : Prop := int (s_time s) /\ given uint (s_scale s).
Definition storable_perception (p : perception) : Prop :=
  int (p_id p) /\ int (p_avatar p) /\ text (p_desc p) /\ given int (p_prio p) /\ given text (p_scheme p) /\ 0 <= p_modality p <= 13 /\
  given int8 (p_uexp p) /\ given int8 (p_puexp p) /\ Forall storable_channel (p_channels p) /\ Forall storable_device (p_devices p) /\
  Forall storable_effect (p_library p).
Definition storable (h : haptics) : Prop :=
  text (h_version h) /\ text (h_profile h) /\ 0 <= h_level h < 256 /\ text (h_date h) /\ text (h_desc h) /\
  (exists t, h_timescale h = Some t /\ uint t) /\ Forall storable_avatar (h_avatars h) /\ Forall storable_perception (h_perceptions h) /\
  Forall storable_sync (h_syncs h).

(** *** What is kept *)
(** Null bytes at the end of a stream are lost. *)
Fixpoint strip (l : list Z) : list Z :=
  match l with
  | [] => []
  | v :: l' => match strip l' with [] => if v =? 0 then [] else [v] | r => v :: r end
  end.
Definition kept_library_effect (e : effect) : effect :=
  Effect (e_id e) (e_pos e) (e_phase e) (e_semantic e) (e_kfs e) (e_base e) (e_type e) [] [] [].
(** In a band only references keep their id.  Only basis effects keep their content: the keyframes, or the stream if the
    band is a wavelet band, and phase and base signal if it is a transient or vectorial band. *)
Definition kept_effect (bt : Z) (e : effect) : effect :=
  let basis := e_type e =? BasisE in
  let wave := basis && ((bt =? TransientB) || (bt =? VectorialB)) in
  Effect (if e_type e =? ReferenceE then e_id e else -1) (e_pos e) (if wave then e_phase e else None) (e_semantic e)
    (if basis && negb (bt =? WaveletB) then e_kfs e else []) (if wave then e_base e else None) (e_type e) [] []
    (if basis && (bt =? WaveletB) then strip (e_wavelet e) else []).
Definition kept_band (b : band) : band :=
  Band (b_type b) (if b_type b =? CurveB then b_curve b else None)
    (Some (if b_type b =? WaveletB then match b_block b with Some n => n | None => 0 end else 0)) (b_low b) (b_up b)
    (map (kept_effect (b_type b)) (b_effects b)) (b_prio b).
Definition kept_channel (c : channel) : channel :=
  Channel (c_id c) (c_desc c) (c_gain c) (c_mix c) (c_mask c) (c_vertices c) (map kept_band (c_bands c)) (c_prio c) (c_device c) (c_freq c)
    (c_count c) (c_dir c) (c_res c) (c_body c) (c_target c).
Definition kept_perception (p : perception) : perception :=
  Perception (p_id p) (p_avatar p) (p_desc p) (p_prio p) (p_scheme p) (p_modality p) (map kept_channel (p_channels p)) (p_devices p)
    (p_uexp p) (p_puexp p) (map kept_library_effect (p_library p)).
(** The mesh of an avatar is only kept if its type is custom. *)
Definition kept_avatar (a : avatar) : avatar :=
  Avatar (a_id a) (a_lod a) (a_type a) (if a_type a =? 0 then a_mesh a else None).
Definition kept_sync (s : sync) : sync :=
  Sync (s_time s) (Some (match s_scale s with Some t => t | None => 1000 end)).
Definition kept (h : haptics) : haptics :=
  Haptics (h_version h) (h_profile h) (h_level h) (h_date h) (h_desc h) (map kept_perception (h_perceptions h)) (map kept_avatar (h_avatars h))
    (h_timescale h) (map kept_sync (h_syncs h)).

(** The experience a file is loaded into. *)
Definition empty (h : haptics) : Prop := h_perceptions h = [] /\ h_avatars h = [] /\ h_syncs h = [].
(** Effects without effects inside. *)
Definition flat (e : effect) : Prop := e_timeline e = [].
Definition flat_perception (p : perception) : Prop :=
  Forall flat (p_library p) /\ Forall (fun c => Forall (fun b => Forall flat (b_effects b)) (c_bands c)) (p_channels p).
