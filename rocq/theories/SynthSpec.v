(** What the properties of the synthesis say, independently of the code. *)
From Coq Require Import Reals.
From Verif Require Import Base FloatBase FloatModel TypesModel.
Local Open Scope Z_scope.

(** A sample within full scale. *)
Definition full_scale (v : f64) : Prop := is_finite v = true /\ (-1 <= B2R v <= 1)%R.

(** Every keyframe has a position and an amplitude. *)
Definition complete_keyframe (k : keyframe) : Prop := k_pos k <> None /\ k_amp k <> None.

(** The keyframes of a transient effect fall into: those before, one without amplitude at the time asked for, some
    at that time, and later ones that are not ([at_time] tells which are). *)
Definition stuck_at (at_time : keyframe -> bool) (kfs : list keyframe) : Prop :=
  exists pre k mid post, kfs = pre ++ k :: mid ++ post /\
    Forall (fun k => at_time k = false) post /\ Forall (fun k => at_time k = true) (k :: mid) /\ k_amp k = None.

(** An effect occupies the closed interval from its position, of its length in ticks (an effect without keyframes
    has length 0; a transient lasts 22 ms after its last keyframe). *)
Definition last_position (kfs : list keyframe) (t : Z) : Prop :=
  exists pre k post, kfs = pre ++ k :: post /\ k_pos k = Some t /\ Forall (fun k => k_pos k = None) post.
Definition effect_length (bandType : Z) (e : effect) (len : Z) : Prop :=
  (e_kfs e = [] /\ len = 0) \/
  (e_kfs e <> [] /\ bandType = WaveletB /\ len = 0) \/
  (exists t, last_position (e_kfs e) t /\
     ((bandType = TransientB /\ len = t + 22) \/ ((bandType = CurveB \/ bandType = VectorialB) /\ len = t))).
(** Two closed intervals meet. *)
Definition meets (p1 len1 p2 len2 : Z) : Prop := p1 <= p2 + len2 /\ p2 <= p1 + len1.

(** The times of an effect are those of a 32-bit [int]; its length is known and not negative. *)
Definition small_times (e : effect) : Prop :=
  - 2 ^ 31 <= e_pos e < 2 ^ 31 /\
  Forall (fun k => match k_pos k with Some t => - 2 ^ 31 <= t < 2 ^ 31 | None => True end) (e_kfs e).
Definition placed (bt : Z) (e : effect) : Prop := small_times e /\ exists len, effect_length bt e len /\ 0 <= len.
(** The effect, in a band of type [bt], meets the interval from [position] to [position + duration]. *)
Definition touches (bt position duration : Z) (e : effect) : Prop :=
  exists len, effect_length bt e len /\ meets (e_pos e) len position duration.

(** What a listener hears at one instant: the sum of the values of the bands, rounded after each addition. *)
Definition mix (values : list f64) : f64 := fold_left add64 values f64_0.
(** No partial sum exceeds full scale. *)
Definition never_clipped (values : list f64) : Prop := forall n, full_scale (mix (firstn n values)).
(** The value of every signal at instant [k]. *)
Definition at_instant (k : nat) (signals : list (list f64)) : list f64 := map (fun s => nth k s f64_0) signals.

(** The keyframes are at these times, in samples counted from the first one: [samples_from fs timescale first kfs l]. *)
Definition samples_from (fs timescale first : Z) (kfs : list keyframe) (l : list Z) : Prop :=
  Forall2 (fun k s => exists t a, k_pos k = Some t /\ k_amp k = Some a /\ 0 <= t /\ t * fs < 2 ^ 31 /\ s = t * fs / timescale - first) kfs l.
(** Times in order: each is at most the next one. *)
Definition in_order (l : list Z) : Prop := forall i j x y, (i <= j)%nat -> nth_error l i = Some x -> nth_error l j = Some y -> x <= y.
