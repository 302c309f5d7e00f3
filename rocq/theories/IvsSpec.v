(** What the properties of the import of IVS files say, independently of the code. *)
From Coq Require Import Sorting.Permutation Sorting.Sorted Strings.String Reals.
From Verif Require Import Base FloatBase FloatModel TypesModel SemanticModel SynthModel TypesSpec SynthSpec IvsModel.
Local Open Scope Z_scope.
Local Open Scope list_scope.

(** A repetition covers an interval of the timeline; it plays it [count] more times, which delays what follows. *)
Definition r_start (r : repeat_event) : Z := value_or (re_time r) (-1).
Definition r_length (r : repeat_event) : Z := value_or (re_duration r) (-1).
Definition r_count (r : repeat_event) : Z := value_or (re_count r) 0.
Definition r_end (r : repeat_event) : Z := r_start r + r_length r.
Definition covers (r : repeat_event) (t : Z) : Prop := r_start r <= t < r_end r.
Definition coversb (t : Z) (r : repeat_event) : bool := (r_start r <=? t) && (t <? r_end r).
(** The time all repetitions that end before [t] add. *)
Definition added (rs : list repeat_event) (t : Z) : Z :=
  fold_right (fun r s => (if r_end r <=? t then r_count r * r_length r else 0) + s) 0 rs.
(** The times at which what is at time [t] of a timeline is played, if no two repetitions overlap. *)
Definition plays (rs : list repeat_event) (t : Z) : list Z :=
  match find (coversb t) rs with
  | Some r => map (fun k => t + added rs t + Z.of_nat k * r_length r) (seq 0 (S (Z.to_nat (r_count r))))
  | None => [t + added rs t]
  end.
(** An effect of a timeline, at all its times. *)
Definition played (rs : list repeat_event) (e : effect) : list effect := map (fun t => set_pos t e) (plays rs (e_pos e)).

Definition apart (r s : repeat_event) : Prop := r_end r <= r_start s \/ r_end s <= r_start r.
(** Repetitions that do not overlap. *)
Definition separate (rs : list repeat_event) : Prop :=
  Forall (fun r => 0 < r_length r /\ 0 <= r_count r) rs /\ ForallOrdPairs apart rs.
(** One repetition starts inside another one. *)
Definition inside (r s : repeat_event) : Prop := covers s (r_start r).

(** *** What a launch event asks for: what it overrides, else what the effect says, else -1. *)
Definition start_of (l : launch) : Z := match la_time l with Some t => t | None => -1 end.
Definition asked (override own : option Z) : Z :=
  match override, own with Some x, _ => x | None, Some x => x | None, None => -1 end.
Definition lasts (b : basis) (l : launch) : Z := asked (la_duration l) (ba_duration b).
Definition strength (b : basis) (l : launch) : Z := asked (la_magnitude l) (ba_magnitude b).
(** A period below 0 has its highest bit set: the other bits are microseconds.  Otherwise it is in milliseconds. *)
Definition milliseconds (period : Z) : Z := if period <? 0 then (2 ^ 31 + period) / 1000 else period.
Definition period_of (b : basis) (l : launch) : Z :=
  asked (option_map milliseconds (la_period l)) (option_map milliseconds (ba_period b)).
(** The effect a launch event names: the first one of that name. *)
Definition launches (bs : list basis) (l : launch) (b : basis) : Prop :=
  exists pre post, bs = pre ++ b :: post /\ ba_name b = la_effect l /\ Forall (fun x => ba_name x <> la_effect l) pre.
Definition launches_none (bs : list basis) (l : launch) : Prop := Forall (fun x => ba_name x <> la_effect l) bs.
(** The effects launched by a timeline: one for each launch event whose effect exists and gives one. *)
Inductive launched (bs : list basis) (gives : basis -> launch -> option effect -> Prop) : list launch -> list effect -> Prop :=
| LaNil : launched bs gives [] []
| LaUnknown l ls es : launches_none bs l -> launched bs gives ls es -> launched bs gives (l :: ls) es
| LaOther l b ls es : launches bs l b -> gives b l None -> launched bs gives ls es -> launched bs gives (l :: ls) es
| LaEffect l b e ls es : launches bs l b -> gives b l (Some e) -> launched bs gives ls es -> launched bs gives (l :: ls) (e :: es).
(** What the conversion of the effect returns. *)
Definition converted (ts : Z) (b : basis) (l : launch) (o : option effect) : Prop := convertToEffect b l ts = Ok o.
Definition in_time_order (es : list effect) : Prop := StronglySorted (fun a b => e_pos a <= e_pos b) es.

(** The ticks for a time in milliseconds: the last whole tick, or the one before if the time is a whole tick. *)
Definition ticks (ts ms t : Z) : Prop := 1000 * t <= ms * ts <= 1000 * (t + 1).
(** Times that can be converted. *)
Definition convertible (ts ms : Z) : Prop := 0 <= ms < 2 ^ 31 /\ ms * ts <= 1000 * (2 ^ 31 - 2).

(** Keyframes in time order from [lo] on, only the last of which is at [stop]. *)
Fixpoint envelope (lo stop : Z) (l : list keyframe) : Prop :=
  match l with
  | [] => False
  | [k] => k_pos k = Some stop /\ lo <= stop
  | k :: r => exists p, k_pos k = Some p /\ lo <= p < stop /\ envelope p stop r
  end.
(** The first and the last keyframe. *)
Definition begins (l : list keyframe) (t : Z) (a : f32) (f : Z) : Prop := exists r, l = Keyframe (Some t) (Some a) (Some f) :: r.
Definition finishes (l : list keyframe) (t : Z) (a : f32) : Prop := exists r f, l = r ++ [Keyframe (Some t) (Some a) f].
(** The kinds of effects that are imported. *)
Definition periodic (b : basis) : Prop := ba_type b = bytes_of "periodic".
Definition magsweep (b : basis) : Prop := ba_type b = bytes_of "magsweep".
(** The frequency for a period in milliseconds: the last whole one, or the one before if it is whole. *)
Definition frequency_for (period f : Z) : Prop := 0 <= f /\ period * f <= 1000 <= period * (f + 1).
(** Times of a launched effect that make sense. *)
Definition times_ok (ts : Z) (b : basis) (l : launch) : Prop :=
  convertible ts (lasts b l) /\ 2000 <= lasts b l * ts /\
  (forall t, ba_attack_time b = Some t -> convertible ts t) /\ (forall t, ba_fade_time b = Some t -> convertible ts t).
(** The waveforms. *)
Inductive wave_named : str -> Z -> Prop :=
| WSine : wave_named (bytes_of "sine") Sine
| WSquare : wave_named (bytes_of "square") Square
| WTriangle : wave_named (bytes_of "triangle") Triangle
| WUp : wave_named (bytes_of "sawtooth-up") SawToothUp
| WDown : wave_named (bytes_of "sawtooth-down") SawToothDown.
(** An amplitude for a magnitude: a ten thousandth of it, up to the accuracy of binary32. *)
Definition level (m : Z) (a : f32) : Prop :=
  - 2 ^ 31 <= m < 2 ^ 31 -> is_finite a = true /\ (Rabs (B2R a - IZR m / 10000) <= Rabs (IZR m / 10000) / 4194304)%R.
(** The levels of the attack and of the fade. *)
Definition attack_level (b : basis) : Z := match ba_attack_level b with Some m => m | None => 0 end.
Definition fade_level (b : basis) : Z := match ba_fade_level b with Some m => m | None => 0 end.
(** The effect a launch event stands for, at frequency [f]: keyframes in time order from 0 to its duration; the first and the
    last have the levels of the attack, of the effect or of the fade. *)
Definition rendered (ts : Z) (b : basis) (l : launch) (f : Z) (e : effect) : Prop :=
  e_pos e = start_of l /\
  exists D a0 aD, ticks ts (lasts b l) D /\ 0 < D < 2 ^ 31 /\
    envelope 0 D (e_kfs e) /\ begins (e_kfs e) 0 a0 f /\ finishes (e_kfs e) D aD /\
    (ba_attack_time b = None -> level (strength b l) a0) /\
    (forall t, ba_attack_time b = Some t -> 2000 <= t * ts -> level (attack_level b) a0) /\
    ((forall t, ba_attack_time b = Some t -> t * ts + 1000 < lasts b l * ts) ->
      (ba_fade_time b = None -> level (strength b l) aD) /\
      (ba_fade_time b <> None -> level (fade_level b) aD)).
(** An effect of the kinds that are imported. *)
Definition rendered_as (ts : Z) (b : basis) (l : launch) (o : option effect) : Prop :=
  match o with
  | Some e => exists f, rendered ts b l f e /\
      (periodic b /\ frequency_for (period_of b l) f /\ (forall w, wave_named (ba_waveform b) w -> e_base e = Some w) \/
       magsweep b /\ f = 170 /\ e_base e = Some Sine)
  | None => ~ periodic b /\ ~ magsweep b
  end.

(** The same effect with its position in ticks. *)
Definition in_ticks (ts : Z) (e e' : effect) : Prop := exists t, ticks ts (e_pos e) t /\ e' = set_pos t e.
(** The effects of a band do not meet. *)
Definition apart_effects (bt : Z) (e f : effect) : Prop :=
  exists m n, effect_length bt e m /\ effect_length bt f n /\ ~ meets (e_pos e) m (e_pos f) n.
Definition no_overlap (b : band) : Prop := ForallOrdPairs (apart_effects (b_type b)) (b_effects b).

(** A timeline that can be imported: launch events in the order of their times, repetitions that do not overlap, and times
    that fit. *)
Definition importable (bs : list basis) (ts : Z) (t : timeline_effect) : Prop :=
  separate (te_repeats t) /\
  StronglySorted (fun a b => start_of a <= start_of b) (te_launches t) /\
  (forall l b, In l (te_launches t) -> launches bs l b ->
     times_ok ts b l /\ (periodic b -> 1 <= period_of b l <= 2 ^ 24) /\
     Forall (fun m => convertible ts m /\ (m + lasts b l) * ts <= 1000 * (2 ^ 31 - 2)) (plays (te_repeats t) (start_of l))).
(** What is made of it: a channel with only vectorial bands, holding every launched effect at all its times, without
    overlaps. *)
Definition imported (bs : list basis) (ts : Z) (date : str) (t : timeline_effect) (c : channel) : Prop :=
  c_desc c = te_name t ++ bytes_of " - " ++ date /\
  Forall (fun b => b_type b = VectorialB /\ no_overlap b /\ sorted_by_position (b_effects b)) (c_bands c) /\
  exists es es', launched bs (rendered_as ts) (te_launches t) es /\
    Forall2 (in_ticks ts) (flat_map (played (te_repeats t)) es) es' /\
    Permutation (flat_map b_effects (c_bands c)) es'.
