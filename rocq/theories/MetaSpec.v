(** What the receiver of a stream is expected to obtain, field by field. *)
From Coq Require Import Reals.
From Verif Require Import Base BitsModel FloatBase FloatModel FloatSpec TypesModel.

(** A number [w] decoded from an [n]-bit field of range [mn, mx] where [v] was written: [w] is in the range and
    at most one quantisation step (plus 2^-20 of the range for binary32 rounding) away from [v] clamped
    to the range. *)
Definition near (n : nat) (mn mx v w : f32) : Prop :=
  is_finite w = true /\ (B2R mn <= B2R w <= B2R mx)%R /\
  (Rabs (B2R w - clampR (B2R mn) (B2R mx) (B2R v)) <= (B2R mx - B2R mn) * (/ (2 ^ n - 1) + / 1048576))%R.

(** Related optional values. *)
Inductive opt_rel {A B} (R : A -> B -> Prop) : option A -> option B -> Prop :=
| opt_none : opt_rel R None None
| opt_some a b : R a b -> opt_rel R (Some a) (Some b).
(** All values of an optional field satisfy [P]. *)
Definition opt_all {A} (P : A -> Prop) (o : option A) : Prop := forall x, o = Some x -> P x.
Definition finite (x : f32) : Prop := is_finite x = true.

(** An unsigned integer of [n] bits. *)
Definition nbits (n : Z) (z : Z) : Prop := 0 <= z < 2 ^ n.
(** A string of at most 255 bytes. *)
Definition text (s : str) : Prop := Forall is_byte s /\ (length s <= 255)%nat.
Definition int8 (z : Z) : Prop := -128 <= z < 128.
Definition vec8 (v : vector) : Prop := int8 (vx v) /\ int8 (vy v) /\ int8 (vz v).

(** Avatars. *)
Definition avatar_ok (a : avatar) : Prop :=
  nbits 8 (a_id a) /\ nbits 8 (a_lod a) /\ nbits 8 (a_type a) /\ opt_all text (a_mesh a) /\
  (a_type a = 0 <-> a_mesh a <> None).

(** Reference devices: every real field is finite; the body-part mask is present. *)
Definition device_ok (d : device) : Prop :=
  nbits 8 (d_id d) /\ text (d_name d) /\ (exists m, d_mask d = Some m /\ nbits 32 m) /\
  opt_all finite (d_maxf d) /\ opt_all finite (d_minf d) /\ opt_all finite (d_resf d) /\ opt_all finite (d_maxa d) /\
  opt_all finite (d_imp d) /\ opt_all finite (d_maxv d) /\ opt_all finite (d_maxc d) /\ opt_all finite (d_maxd d) /\
  opt_all finite (d_weight d) /\ opt_all finite (d_size d) /\ opt_all finite (d_custom d) /\
  opt_all (nbits 4) (d_type d).
Definition device_sent (d d' : device) : Prop :=
  let q := opt_rel (near 32 f32_0 MAX_FLOAT) in
  d_id d' = d_id d /\ d_name d' = d_name d /\ d_mask d' = d_mask d /\ d_type d' = d_type d /\
  q (d_maxf d) (d_maxf d') /\ q (d_minf d) (d_minf d') /\ q (d_resf d) (d_resf d') /\ q (d_maxa d) (d_maxa d') /\
  q (d_imp d) (d_imp d') /\ q (d_maxv d) (d_maxv d') /\ q (d_maxc d) (d_maxc d') /\ q (d_maxd d) (d_maxd d') /\
  q (d_weight d) (d_weight d') /\ q (d_size d) (d_size d') /\
  opt_rel (near 32 (Bopp MAX_FLOAT) MAX_FLOAT) (d_custom d) (d_custom d').

(** Perceptions (their own fields). *)
Definition perception_ok (p : perception) : Prop :=
  nbits 8 (p_id p) /\ nbits 8 (p_avatar p) /\ text (p_desc p) /\
  opt_all (fun x => 1 <= x < 256) (p_prio p) /\ opt_all text (p_scheme p) /\ nbits 8 (p_modality p) /\
  opt_all int8 (p_uexp p) /\ opt_all int8 (p_puexp p) /\
  Forall device_ok (p_devices p) /\ (length (p_devices p) <= 255)%nat.

(** Channels (their own fields).  A channel is located either by a body-part mask or by a body-part
    target with an actuator resolution; a sampling frequency comes with a sample count. *)
Definition location_ok (c : channel) : Prop :=
  match c_res c with
  | None => nbits 32 (c_mask c) /\ c_body c = None /\ c_target c = None
  | Some r => vec8 r /\ c_mask c = 0 /\
      (exists l, c_body c = Some l /\ Forall (nbits 8) l /\ (length l <= 255)%nat) /\
      (exists l, c_target c = Some l /\ Forall vec8 l /\ (length l <= 255)%nat)
  end.
Definition channel_ok (c : channel) : Prop :=
  nbits 16 (c_id c) /\ text (c_desc c) /\ finite (c_gain c) /\ finite (c_mix c) /\
  opt_all (fun x => 1 <= x < 256) (c_prio c) /\ opt_all (fun x => 0 <= x < 255) (c_device c) /\
  location_ok c /\
  (c_freq c = None /\ c_count c = None \/
   exists f n, c_freq c = Some f /\ 1 <= f < 2 ^ 31 /\ c_count c = Some n /\ nbits 32 n) /\
  opt_all vec8 (c_dir c) /\
  Forall (fun v => - 2 ^ 31 <= v < 2 ^ 31) (c_vertices c) /\ vec_size (c_vertices c) < 65536.

(** Bands (their own fields).  The curve type belongs to curve bands, the block length to wavelet bands
    (elsewhere it is the default, 0). *)
Definition band_ok (b : band) : Prop :=
  nbits 3 (b_type b) /\ nbits 16 (b_low b) /\ nbits 16 (b_up b) /\ opt_all (fun x => 1 <= x < 256) (b_prio b) /\
  (if b_type b =? CurveB then exists c, b_curve b = Some c /\ nbits 4 c else b_curve b = None) /\
  (if b_type b =? WaveletB then exists l, b_block b = Some l /\ nbits 8 l else b_block b = Some 0).

(** Keyframes and effects of a library.  [known] are the semantic keywords of the standard. *)
Definition kf_ok (k : keyframe) : Prop :=
  opt_all (nbits 16) (k_pos k) /\ opt_all finite (k_amp k) /\ opt_all (nbits 16) (k_freq k).
Definition kf_sent (k k' : keyframe) : Prop :=
  k_pos k' = k_pos k /\ k_freq k' = k_freq k /\
  opt_rel (near 8 (Bopp MAX_AMPLITUDE) MAX_AMPLITUDE) (k_amp k) (k_amp k').
Inductive effect_ok (known : str -> Prop) (e : effect) : Prop :=
| Effect_ok :
    nbits 16 (e_id e) -> nbits 25 (e_pos e) -> nbits 2 (e_type e) ->
    opt_all finite (e_phase e) -> opt_all (nbits 4) (e_base e) -> opt_all known (e_semantic e) ->
    Forall kf_ok (e_kfs e) -> vec_size (e_kfs e) < 65536 ->
    Forall (effect_ok known) (e_timeline e) -> vec_size (e_timeline e) < 65536 ->
    effect_ok known e.
(** A basis effect comes with a phase and a base signal (the defaults are 0 and Sine). *)
Inductive effect_sent (e e' : effect) : Prop :=
| Effect_sent :
    e_id e' = e_id e -> e_pos e' = e_pos e -> e_type e' = e_type e -> e_semantic e' = e_semantic e ->
    (if e_type e =? BasisE
     then (exists w, e_phase e' = Some w /\ near 16 f32_0 MAX_PHASE (value_or (e_phase e) f32_0) w) /\
          e_base e' = Some (value_or (e_base e) 0)
     else e_phase e' = None /\ e_base e' = None) ->
    Forall2 kf_sent (e_kfs e) (e_kfs e') ->
    Forall2 effect_sent (e_timeline e) (e_timeline e') ->
    effect_sent e e'.
(** Depth of nesting of timelines. *)
Fixpoint depth (e : effect) : nat :=
  match e with
  | Effect _ _ _ _ _ _ _ tl _ _ => S (fold_right Nat.max 0%nat (map depth tl))
  end.

(** [x] is the first element of [l] that satisfies [P]; [n] is its index. *)
Definition first_at {A} (P : A -> Prop) (l : list A) (n : nat) (x : A) : Prop :=
  nth_error l n = Some x /\ P x /\ forall m y, (m < n)%nat -> nth_error l m = Some y -> ~ P y.
(** The experience with its [n]-th perception changed by [f]. *)
Fixpoint map_nth {A} (f : A -> A) (n : nat) (l : list A) : list A :=
  match l, n with
  | [], _ => []
  | x :: r, O => f x :: r
  | x :: r, S m => x :: map_nth f m r
  end.
(** The greatest depth of the effects of a library. *)
Definition library_depth (l : list effect) : nat := fold_right Nat.max 0%nat (map depth l).
