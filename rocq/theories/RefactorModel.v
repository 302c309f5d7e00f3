(** Factoring repeated effects into the library (Perception.cpp 329-381).  No proofs in this file. *)
From Verif Require Import Base BitsModel FloatBase TypesModel.

(** [getChannelAt(l).getBandAt(m).getEffectAt(n)] (Perception.cpp 111, Channel.cpp 82, Band.cpp 87:
    [vector::at]); [None] is the out-of-range exception. *)
Definition slot (cs : list channel) (l m n : nat) : option effect :=
  match nth_error cs l with
  | Some c => match nth_error (c_bands c) m with
              | Some b => nth_error (b_effects b) n
              | None => None
              end
  | None => None
  end.

(** [getChannelAt(l).getBandAt(m).replaceEffectAt(n, e)] for indices inside the vectors. *)
Definition set_slot (cs : list channel) (l m n : nat) (e : effect) : list channel :=
  upd_at cs l (fun c => set_bands (upd_at (c_bands c) m (fun b => snd (replaceEffectAt (Z.of_nat n) e b))) c).

(** [for (int k = from; k < from + count; k++)]: the list of the values of [k]. *)
Definition indices {A} (l : list A) : list nat := seq 0 (length l).

(** Perception.cpp 364-381. *)
Definition searchForEquivalentEffects (cs : list channel) (e : effect) (startingChannel : nat)
    : list (nat * nat * nat) :=
  flat_map (fun l =>
    match nth_error cs l with
    | None => []
    | Some channel2 =>
        flat_map (fun m =>
          match nth_error (c_bands channel2) m with
          | None => []
          | Some band2 =>
              flat_map (fun n =>
                match nth_error (b_effects band2) n with
                | None => []
                | Some e2 => if isEquivalent e e2 then [(l, m, n)] else []
                end) (indices (b_effects band2))
          end) (indices (c_bands channel2))
    end) (seq startingChannel (length cs - startingChannel)).

(** Perception.cpp 347-356: one equivalent effect becomes a reference at the same position. *)
Definition make_reference (newId : Z) (cs : list channel) (t : nat * nat * nat) : list channel :=
  let '(l, m, n) := t in
  match slot cs l m n with
  | Some old => set_slot cs l m n (set_type ReferenceE (set_pos (e_pos old) (set_id newId effect0)))
  | None => cs
  end.

(** Perception.cpp 339-359: one iteration of the loop over the effects.  The state is the channels
    and the library. *)
Definition refactor_step (i : nat) (st : list channel * list effect) (refEffect : effect)
    : list channel * list effect :=
  let '(cs, lib) := st in
  let sameEffects := searchForEquivalentEffects cs refEffect i in
  if (1 <? length sameEffects)%nat then
    let newId := vec_size lib in
    let basisEffect := set_pos 0 (set_id newId refEffect) in
    (fold_left (make_reference newId) sameEffects cs, lib ++ [basisEffect])
  else st.

(** Perception.cpp 329-362.  [channel] (line 331), [band] (334) and [refEffect] (340) are copies:
    the loops over bands and effects run over the channel as it was at the start of iteration [i]. *)
Definition refactor_channel (st : list channel * list effect) (i : nat) : list channel * list effect :=
  match nth_error (fst st) i with
  | None => st
  | Some c =>
      fold_left (fun st b =>
        if b_type b =? WaveletB then st
        else fold_left (refactor_step i) (b_effects b) st) (c_bands c) st
  end.
Definition refactorEffects (p : perception) : perception :=
  let '(cs, lib) := fold_left refactor_channel (indices (p_channels p)) (p_channels p, p_library p) in
  set_library lib (set_channels cs p).
