(** Specification notions for packets, units and files of a stream. *)
From Coq Require Import Sorting.Sorted Sorting.Permutation.
From Verif Require Import Base BitsModel FloatBase FloatModel TypesModel TypesSpec MetaModel DataModel CrcModel StreamModel MetaSpec
  DataSpec.
Local Open Scope Z_scope.

(** The number in the [n] bits from bit [i] on. *)
Definition field (i n : nat) (b : bits) : Z := bits_val (firstn n (skipn i b)).

(** A packet states the number of bytes of its payload in 17 bits, after 6 bits for its type; it has a
    header of 24 bits.  A unit states the number of bytes of its payload in 32 bits, after 36 bits; it
    has a header of 72 bits. *)
Definition framed_packet (p : bits) : Prop := Z.of_nat (length p) = 24 + 8 * field 6 17 p.
Definition framed_unit (u : bits) : Prop := Z.of_nat (length u) = 72 + 8 * field 36 32 u /\ field 36 32 u < 2 ^ 28.

(** C19: the packets are given to the decoder one after the other, until one fails.  The decoder sees the packet
    and what follows it in the unit ([tail] is what follows the last one). *)
Fixpoint hand_over (fuel : nat) (ps : list bits) (tail : bits) (r : sreader) (crc : crc_t)
  : outcome (bool * sreader * crc_t) :=
  match ps with
  | [] => Ok (true, r, crc)
  | p :: q =>
      do '(ok, r, crc, _) <- readMIHSPacket fuel (p ++ concat q ++ tail) r crc;
      if ok then hand_over fuel q tail r crc else Ok (false, r, crc)
  end.
(** The number of packets that start more than 9 bytes before the end. *)
Fixpoint reached (ps : list bits) : nat :=
  match ps with
  | [] => 0
  | p :: q => if (72 <? length (concat (p :: q)))%nat then S (reached q) else 0
  end.
(** The reader after the header of a unit and at its end: the duration of the unit is added to its clock. *)
Definition enter (u : bits) (r : sreader) : sreader :=
  SReader (sr_haptic r) (sr_bands r) (sr_time r) (sr_timescale r) (field 12 24 u)
    (sr_wait r && negb (field 6 2 u =? 0)).
Definition tick (r : sreader) : sreader :=
  at_time ((sr_time r + sr_duration r) mod 2 ^ 32) r.

(** C21: the clock of a receiver, from the units alone: an initialization unit sets it (its first packet has the
    time, after 24 bits), any other unit advances it by its duration. *)
Definition clock (t : Z) (u : bits) : Z :=
  if field 0 6 u =? InitializationU then field 96 32 u + field 12 24 u else t + field 12 24 u.

(** A data packet in a unit: the data without the time, padded to bytes. *)
Definition data_packet (p q : bits) : Prop :=
  framed_packet q /\ field 0 6 q = DataP /\ exists pad, skipn 24 q = skipn 32 p ++ pad /\ (length pad < 8)%nat.
(** The units a sequence of data packets (with their times) is sent in, from time [t] on: each group of packets
    of one time is in a temporal unit entered when the clock shows this time; a silent unit advances the
    clock to the time of the next packet; initialization units with the current time may be interspersed. *)
Inductive timeline (pd : Z) (init : list bits) : Z -> list bits -> list bits -> Prop :=
| TlEnd t : timeline pd init t [] []
| TlSilent t u p ps us : field 0 6 u = SilentU -> length u = 72%nat -> framed_unit u -> field 12 24 u mod pd = 0 ->
    clock t u = stamp p -> timeline pd init (clock t u) (p :: ps) us -> timeline pd init t (p :: ps) (u :: us)
| TlInit t u hd q ps us : u = hd ++ q ++ concat init -> length hd = 72%nat ->
    field 0 6 u = InitializationU -> field 12 24 u = 0 -> field 96 32 u = t ->
    timeline pd init t ps us -> timeline pd init t ps (u :: us)
| TlData t u hd group qs ps us : group <> [] -> Forall (fun p => stamp p = t) group ->
    Forall2 data_packet group qs -> u = hd ++ concat qs -> length hd = 72%nat -> framed_unit u ->
    field 0 6 u = TemporalU -> field 12 24 u = pd ->
    timeline pd init (clock t u) ps us -> timeline pd init t (group ++ ps) (u :: us).

(** Data packets that can be framed: a time, at least one more bit, at most 2^20 bits. *)
Definition sendable (p : bits) : Prop := stamped p /\ (33 <= length p)%nat /\ vec_size p <= 2 ^ 20.
(** Times never go back, and never jump by 2^24 ticks or more. *)
Fixpoint no_long_gap (t : Z) (ps : list bits) : Prop :=
  match ps with
  | [] => True
  | p :: q => t <= stamp p < t + 2 ^ 24 /\ no_long_gap (stamp p) q
  end.
(** All packets fit in one unit. *)
Definition unit_payload_ok (group : list bits) : Prop := vec_size (concat group) + 32 * vec_size group < 2 ^ 31.
