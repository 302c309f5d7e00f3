(** Specification notions for whole streams. *)
From Verif Require Import Base BitsModel FloatBase TypesModel DataModel CrcModel StreamModel DataSpec.
Local Open Scope Z_scope.
Local Open Scope list_scope.

(** C29: an effect without data: a basis effect without keyframes (wavelet bands have no keyframes). *)
Definition has_data (b : band) (e : effect) : bool := (b_type b =? WaveletB) || negb (e_type e =? BasisE) || negb (Nat.eqb (length (e_kfs e)) 0).
(** The effects of an experience that satisfy [keep], in order, each with the perception, the channel and the
    band it is in (without their contents). *)
Definition contents (keep : band -> effect -> bool) (h : haptics) : list (perception * channel * band * effect) :=
  flat_map (fun p => flat_map (fun c => flat_map (fun b =>
    map (fun e => (set_channels [] p, set_bands [] c, set_effects [] b, e)) (filter (keep b) (b_effects b)))
    (c_bands c)) (p_channels p)) (h_perceptions h).
(** [l] without some of its elements. *)
Inductive sublist {A} : list A -> list A -> Prop :=
| SubNil : sublist [] []
| SubSkip x a b : sublist a b -> sublist a (x :: b)
| SubKeep x a b : sublist a b -> sublist (x :: a) (x :: b).
Fixpoint no_two_adjacent {A} (f : A -> bool) (l : list A) : Prop :=
  match l with
  | x :: (y :: _) as r => (f x = true -> f y = false) /\ no_two_adjacent f r
  | _ => True
  end.

(** C51: the bands of an experience with the ids of their perceptions and channels; the id of a band in the stream
    is its place in this list. *)
Definition bands_of (h : haptics) : list (Z * Z * band) :=
  flat_map (fun p => flat_map (fun c => map (fun b => (p_id p, c_id c, b)) (c_bands c)) (p_channels p)) (h_perceptions h).
(** [out] has one list of packets for each band: what packetizeBand makes of the flattened band; the effect ids
    in use are passed on. *)
Inductive by_band (fuel : nat) (pd : Z) : Z -> list Z -> Z -> list (Z * Z * band) -> list (list bits) -> Prop :=
| BbNil n ids au : by_band fuel pd n ids au [] []
| BbCons n ids au pid cid b r ps au' ids' out :
    packetizeBand fuel pd (Address pid cid n) (linearizeTimeline b) ids au = Ok (ps, au', ids') ->
    by_band fuel pd (n + 1) ids' au' r out ->
    by_band fuel pd n ids au ((pid, cid, b) :: r) (ps :: out).

(** C59: bytes needed for [n] bits. *)
Definition bytes_for (n : Z) : Z := (n + 7) / 8.
