(** What a conformant experience is, independently of the code. *)
From Coq Require Import String.
From Verif Require Import Base BitsModel FloatBase TypesModel SemanticModel.
Local Open Scope Z_scope.

Definition is_digit (c : Z) : Prop := 48 <= c <= 57.
(** Four digits, a year from 2023 on, and possibly a hyphen and one digit other than 0. *)
Definition valid_version (s : str) : Prop :=
  exists a b c d, is_digit a /\ is_digit b /\ is_digit c /\ is_digit d /\
    2023 <= 1000 * (a - 48) + 100 * (b - 48) + 10 * (c - 48) + (d - 48) /\
    (s = [a; b; c; d] \/ exists e, is_digit e /\ e <> 48 /\ s = [a; b; c; d; 45; e]).
(** Somewhere in the text there are four digits in a row. *)
Definition has_four_digits (s : str) : Prop :=
  exists u a b c d v, s = u ++ a :: b :: c :: d :: v /\ is_digit a /\ is_digit b /\ is_digit c /\ is_digit d.

Definition main (h : haptics) : Prop := h_profile h = bytes_of "Main".
Definition simple (h : haptics) : Prop := h_profile h = bytes_of "Simple Parametric".
Definition level_limit (h : haptics) (limit1 limit2 : Z) (n : nat) : Prop :=
  (h_level h = 1 -> Z.of_nat n <= limit1) /\ (h_level h = 2 -> Z.of_nat n <= limit2).

Definition conform_effect (h : haptics) (p : perception) (b : band) (e : effect) : Prop :=
  (simple h -> e_type e <> CompositeE) /\
  (b_type b = WaveletB -> e_kfs e = []) /\
  (e_type e = ReferenceE -> exists l, In l (p_library p) /\ e_id l = e_id e) /\
  (forall s, e_semantic e = Some s -> In s (map (fun x => bytes_of (fst x)) semantic_names)).
Definition conform_band (h : haptics) (p : perception) (b : band) : Prop :=
  (b_type b <> CurveB -> b_curve b = None) /\
  (b_type b = WaveletB -> exists k, b_block b = Some (2 ^ k) /\ 0 <= k) /\
  (simple h -> b_type b <> WaveletB) /\
  b_low b <= b_up b /\
  Forall (conform_effect h p b) (b_effects b).
(** The coordinates are in 127ths; the length is between 0.99 and 1.01. *)
Definition nearly_unit (v : vector) : Prop :=
  (99 * 127) ^ 2 <= 100 ^ 2 * (vx v ^ 2 + vy v ^ 2 + vz v ^ 2) <= (101 * 127) ^ 2.
Definition conform_actuators (c : channel) : Prop :=
  match c_res c with
  | Some r =>
      0 <= vx r /\ 0 <= vy r /\ 0 <= vz r /\
      forall l t, c_target c = Some l -> In t l -> 0 <= vx t <= vx r /\ 0 <= vy t <= vy r /\ 0 <= vz t <= vz r
  | None => c_target c = None
  end.
Definition conform_channel (h : haptics) (p : perception) (c : channel) : Prop :=
  (forall i, c_device c = Some i -> exists d, In d (p_devices p) /\ d_id d = i) /\
  (forall v, c_dir c = Some v -> nearly_unit v) /\
  level_limit h 7 63 (length (c_bands c)) /\
  conform_actuators c /\
  Forall (conform_band h p) (c_bands c).
(** Of two values that are present, the first is not smaller. *)
Definition not_below (a b : option f32) : Prop := forall x y, a = Some x -> b = Some y -> flt x y = false.
Definition conform_device (d : device) : Prop :=
  not_below (d_maxf d) (d_minf d) /\ not_below (d_resf d) (d_minf d) /\ not_below (d_maxf d) (d_resf d).
Definition conform_perception (h : haptics) (p : perception) : Prop :=
  (simple h -> h_level h = 1 -> In (p_modality p) [6; 9; 10; 11]) /\
  (p_avatar p = 0 \/ exists a, In a (h_avatars h) /\ a_id a = p_avatar p) /\
  p_scheme p = None /\
  level_limit h 127 65535 (length (p_channels p)) /\
  NoDup (map d_id (p_devices p)) /\ Forall conform_device (p_devices p) /\
  NoDup (map c_id (p_channels p)) /\ Forall (conform_channel h p) (p_channels p) /\
  NoDup (map e_id (p_library p)) /\ (simple h -> Forall (fun e => e_type e <> CompositeE) (p_library p)).
Definition conforms (h : haptics) : Prop :=
  valid_version (h_version h) /\
  (main h \/ simple h) /\
  (h_level h = 1 \/ h_level h = 2) /\
  has_four_digits (h_date h) /\
  (forall t, h_timescale h = Some t -> (simple h -> t = 1000) /\ (main h -> t <= 48000)) /\
  NoDup (map a_id (h_avatars h)) /\
  (forall a, In a (h_avatars h) -> a_id a <> 0 /\ a_mesh a <> Some []) /\
  NoDup (map p_id (h_perceptions h)) /\
  Forall (conform_perception h) (h_perceptions h).

(** The values fit the C++ types, and the text is made of bytes. *)
Definition dirs_typed (h : haptics) : Prop :=
  forall p c v, In p (h_perceptions h) -> In c (p_channels p) -> c_dir c = Some v ->
    in_type i8 (vx v) /\ in_type i8 (vy v) /\ in_type i8 (vz v).
Definition blocks_typed (h : haptics) : Prop :=
  forall p c b n, In p (h_perceptions h) -> In c (p_channels p) -> In b (c_bands c) -> b_block b = Some n -> in_type i32 n.
(** The enumerated fields hold enumerators, and no block length is the most negative [int]. *)
Definition enums_valid (h : haptics) : Prop :=
  (forall p, In p (h_perceptions h) -> 0 <= p_modality p <= 13) /\
  (forall p c b, In p (h_perceptions h) -> In c (p_channels p) -> In b (c_bands c) ->
     0 <= b_type b <= 3 /\ b_block b <> Some (- 2 ^ 31)).
