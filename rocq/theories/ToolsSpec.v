(** Vocabulary for the statements about the tools. *)
From Coq Require Import Reals.
From Verif Require Import Base TypesModel FloatBase FloatModel ToolsModel.

(** A string that fits a field of [n] bytes and does not end with a NUL. *)
Definition fits (n : nat) (s : str) : Prop :=
  (length s <= n)%nat /\ last s 1 <> 0.

(** [t] is [s] cut to [n] bytes, without the NULs at its end. *)
Definition cut_to (n : nat) (s t : str) : Prop :=
  last t 1 <> 0 /\ exists k, firstn n s = t ++ repeat 0 k.

(** A 32-bit word; a count that agrees with the list it describes. *)
Definition word (w : Z) : Prop := 0 <= w < 2 ^ 32.
Definition counted {A} (n : Z) (l : list A) : Prop := n = Z.of_nat (length l) /\ n < 2 ^ 15.

(** A body-part mask without the parts 7 (waist), 15 (left wrist) and 23 (left thigh). *)
Definition plain_mask (m : Z) : Prop :=
  Z.testbit m 7 = false /\ Z.testbit m 15 = false /\ Z.testbit m 23 = false.

(** The mask with everything above the parts 7, 15 and 23 added when they are present. *)
Definition smeared (m : Z) : Z :=
  Z.lor m (Z.lor (if Z.testbit m 7 then 0xFFFFFF00 else 0)
             (Z.lor (if Z.testbit m 15 then 0xFFFF0000 else 0)
                    (if Z.testbit m 23 then 0xFF000000 else 0))).

Definition channel_fits (k : ohm_channel) : Prop :=
  fits 32 (k_desc k) /\ word (k_gain k) /\ word (k_mask k) /\ plain_mask (k_mask k).
Definition element_fits (l : ohm_element) : Prop :=
  fits 64 (l_file l) /\ fits 32 (l_desc l) /\ counted (l_count l) (l_channels l) /\
  Forall channel_fits (l_channels l).
Definition ohm_fits (o : ohm) : Prop :=
  o_header o = OHM_HEADER /\ - 2 ^ 15 <= o_version o < 2 ^ 15 /\ fits 32 (o_desc o) /\
  Z.of_nat (length (o_elements o)) < 2 ^ 15 /\ Forall element_fits (o_elements o).

(** What is loaded for a channel, an element, whatever the strings and masks. *)
Definition channel_loaded (k k' : ohm_channel) : Prop :=
  cut_to 32 (k_desc k) (k_desc k') /\ k_gain k' = k_gain k /\ k_mask k' = smeared (k_mask k).
Definition element_loaded (l l' : ohm_element) : Prop :=
  cut_to 64 (l_file l) (l_file l') /\ cut_to 32 (l_desc l) (l_desc l') /\ l_count l' = l_count l /\
  Forall2 channel_loaded (l_channels l) (l_channels l').
Definition channel_words (k : ohm_channel) : Prop := word (k_gain k) /\ word (k_mask k).

(** [k] is one of the 16-bit values nearest to [v]. *)
Definition nearest16 (v : R) (k : Z) : Prop :=
  -32768 <= k <= 32767 /\
  forall j, -32768 <= j <= 32767 -> (Rabs (IZR k - v) <= Rabs (IZR j - v))%R.

(** The point at time [x] of the line through two points. *)
Definition on_line (s e : Z) (a b x : R) : R :=
  ((a * (IZR e - x) + b * (x - IZR s)) / (IZR e - IZR s))%R.
