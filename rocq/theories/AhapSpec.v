(** What the properties of the import of AHAP files say, independently of the code. *)
From Coq Require Import Reals Sorting.Permutation Sorting.Sorted Strings.String.
From Verif Require Import Base FloatBase FloatModel TypesModel SemanticModel ToolsSpec TypesSpec SynthModel SynthSpec IvsSpec AhapModel.
Local Open Scope Z_scope.
Local Open Scope list_scope.

(** *** The document *)
(** The events of a type, in the order of the document. *)
Definition event_of (type : str) (i : item) : list event :=
  match it_event i with Some ev => if str_eqb (ev_type ev) type then [ev] else [] | None => [] end.
Definition events (type : str) (d : list item) : list event := flat_map (event_of type) d.
(** The control points of the curves of a parameter, in the order of the document: time of the curve, time of the point in it
    and value.  Points without time or value do not count. *)
Definition control_of (t : f64) (c : control) : list (f64 * f64 * f64) :=
  match co_time c, co_value c with Some u, Some v => [(t, u, v)] | _, _ => [] end.
Definition controls_of (id : str) (i : item) : list (f64 * f64 * f64) :=
  match it_curve i with
  | Some c =>
      if str_eqb (cu_id c) id then
        match cu_time c, cu_points c with Some t, Some l => flat_map (control_of t) l | _, _ => [] end
      else []
  | None => []
  end.
Definition controls (id : str) (d : list item) : list (f64 * f64 * f64) := flat_map (controls_of id) d.
Definition IntensityControl : str := bytes_of "HapticIntensityControl".
Definition SharpnessControl : str := bytes_of "HapticSharpnessControl".
Definition Intensity : str := bytes_of "HapticIntensity".
Definition Sharpness : str := bytes_of "HapticSharpness".
Definition Transient : str := bytes_of "HapticTransient".
Definition Continuous : str := bytes_of "HapticContinuous".
(** The last value given for a parameter. *)
Fixpoint given (id : str) (ps : list (str * f64)) : option f64 :=
  match ps with
  | [] => None
  | (i, v) :: r => match given id r with Some w => Some w | None => if str_eqb i id then Some v else None end
  end.

(** *** Numbers *)
Definition between (lo hi : R) {p e} (x : binary_float p e) : Prop := is_finite x = true /\ (lo <= B2R x <= hi)%R.
(** A time in seconds as a number of ticks (not a whole one). *)
Definition in_tick (ts : Z) (x : f64) : R := (B2R x * IZR ts)%R.
Definition when (ts : Z) (c : f64 * f64 * f64) : R := let '(t, u, _) := c in ((B2R t + B2R u) * IZR ts)%R.
Definition eps : R := (/ 1048576)%R.
(** [t] is the nearest tick. *)
Definition nearest (x : R) (t : Z) : Prop := (Rabs (IZR t - x) <= 1 / 2 + eps)%R.
(** [t] is the last tick not after. *)
Definition below (x : R) (t : Z) : Prop := (IZR t - eps <= x <= IZR t + 1 + eps)%R.

(** *** Documents that can be imported *)
Definition curve_ok (ts : Z) (lo : R) (id : str) (i : item) : Prop :=
  forall c, it_curve i = Some c -> cu_id c = id ->
    cu_time c <> None /\ cu_points c <> None /\
    Forall (fun '((t, u, v) as p) => is_finite t = true /\ is_finite u = true /\ (0 <= when ts p <= 2147483646)%R /\ between lo 1 v)
      (controls_of id i).
Definition params_ok (ps : list (str * f64)) : Prop :=
  Forall (fun '(id, v) => id = Intensity \/ id = Sharpness -> between 0 1 v) ps.
Definition transient_ok (ts : Z) (ev : event) : Prop :=
  exists t ps, ev_time ev = Some t /\ ev_params ev = Some ps /\ params_ok ps /\ is_finite t = true /\ (0 <= in_tick ts t <= 2147483646)%R.
(** The control points are all before the event, or the first is after it. *)
Definition misses (ts : Z) (cs : list (f64 * f64 * f64)) (t d : f64) : Prop :=
  cs <> [] /\
  (Forall (fun c => (when ts c <= in_tick ts t - 2)%R) cs \/
   exists c r, cs = c :: r /\ (in_tick ts t + in_tick ts d + 2 <= when ts c)%R).
(** The curves reach from the beginning of the event, or before its end, to after its beginning. *)
Definition spans (ts : Z) (cs : list (f64 * f64 * f64)) (t d : f64) : Prop :=
  cs = [] \/
  (Exists (fun c => (in_tick ts t + 2 <= when ts c)%R) cs /\
   exists c r, cs = c :: r /\ (when ts c <= in_tick ts t + in_tick ts d - 2)%R).
Definition continuous_ok (ts : Z) (intensity sharpness : list (f64 * f64 * f64)) (ev : event) : Prop :=
  exists t d ps, ev_time ev = Some t /\ ev_duration ev = Some d /\ ev_params ev = Some ps /\ params_ok ps /\
    is_finite t = true /\ is_finite d = true /\
    (0 <= in_tick ts t)%R /\ (1 <= in_tick ts d)%R /\ (in_tick ts t + in_tick ts d <= 2147483646)%R /\
    spans ts intensity t d /\ spans ts sharpness t d.
Definition document_ok (ts : Z) (d : list item) : Prop :=
  Forall (curve_ok ts 0 IntensityControl) d /\ Forall (curve_ok ts (-1) SharpnessControl) d /\
  Forall (transient_ok ts) (events Transient d) /\
  Forall (continuous_ok ts (controls IntensityControl d) (controls SharpnessControl d)) (events Continuous d).

(** *** What is made of them *)
(** The control points on the ticks. *)
Definition on_ticks (ts : Z) : list (f64 * f64 * f64) -> list (Z * f64) -> Prop :=
  Forall2 (fun c p => snd p = snd c /\ below (when ts c) (fst p)).
Definition rising (ps : list (Z * f64)) : Prop := StronglySorted (fun p q => fst p < fst q) ps.

(** The amplitude for an intensity: proportional, [limit] at most; 0.5 if there is none. *)
Definition limit_continuous : R := (6138 / 10000)%R.
Definition limit_transient : R := (792 / 1000)%R.
Definition amplitude_for (limit : R) (ps : list (str * f64)) (a : f32) : Prop :=
  match given Intensity ps with
  | None => is_finite a = true /\ B2R a = (/ 2)%R
  | Some v => between 0 1 a /\ (Rabs (B2R a - limit * B2R v) <= / 4194304)%R
  end.
(** The frequency for a sharpness: from 65 Hz to 300 Hz. *)
Definition hertz (s : R) : R := (65 + 235 * s)%R.
Definition frequency_for (ps : list (str * f64)) (f : Z) : Prop :=
  match given Sharpness ps with None => f = 90 | Some v => below (hertz (B2R v)) f end.
Definition sharpness_of (ps : list (str * f64)) : f64 := match given Sharpness ps with Some v => v | None => f64_1 end.

(** The amplitude of a transient at [p] follows the control points: interpolated between two of them, that of the first before
    the first, unchanged after the last. *)
Definition transient_intensity (p : Z) (b : f32) (amps : list (Z * f64)) (a : f32) : Prop :=
  (Forall (fun x => fst x < p) amps -> a = b) /\
  (forall x r, amps = x :: r -> p <= fst x -> a = mul32 (f32_of_f64 (snd x)) b) /\
  (forall before q x after, amps = before ++ q :: x :: after -> Forall (fun y => fst y < p) (before ++ [q]) -> p <= fst x ->
     (Rabs (B2R a - B2R b * on_line (fst q) (fst x) (B2R (snd q)) (B2R (snd x)) (IZR p)) <= / 4194304)%R).
(** Its frequency: 90 Hz more than that for the interpolated sharpness, 300 Hz before the first control point, 90 Hz after the
    last. *)
Definition transient_hertz (p : Z) (freqs : list (Z * f64)) (f : Z) : Prop :=
  (Forall (fun x => fst x < p) freqs -> f = 90) /\
  (forall x r, freqs = x :: r -> p <= fst x -> f = 300) /\
  (forall before q x after, freqs = before ++ q :: x :: after -> Forall (fun y => fst y < p) (before ++ [q]) -> p <= fst x ->
     (Rabs (IZR f - (90 + hertz (on_line (fst q) (fst x) (B2R (snd q)) (B2R (snd x)) (IZR p)))) <= 1 + eps)%R).
(** A keyframe of a transient. *)
Definition transient_keyframe (ts : Z) (amps freqs : list (Z * f64)) (ev : event) (k : keyframe) : Prop :=
  exists t ps p a b f, ev_time ev = Some t /\ ev_params ev = Some ps /\ k = Keyframe (Some p) (Some a) (Some f) /\
    nearest (in_tick ts t) p /\ 0 <= p < 2 ^ 31 /\ amplitude_for limit_transient ps b /\ between 0 (B2R b) a /\
    transient_intensity p b amps a /\ transient_hertz p freqs f.

(** The keyframes at each time are unique and in time order, from 0 to [stop]. *)
Fixpoint envelope1 (lo stop : Z) (l : list keyframe) : Prop :=
  match l with
  | [] => False
  | [k] => k_pos k = Some stop /\ lo <= stop
  | k :: r => exists p, k_pos k = Some p /\ lo <= p < stop /\ envelope1 (p + 1) stop r
  end.
Definition amp_at (kfs : list keyframe) (t : Z) (a : f32) : Prop := exists k, In k kfs /\ k_pos k = Some t /\ k_amp k = Some a.
Definition freq_at (kfs : list keyframe) (t : Z) (f : Z) : Prop := exists k, In k kfs /\ k_pos k = Some t /\ k_freq k = Some f.
Definition clamp (x : R) : R := Rmax 0 (Rmin 1 x).
(** The amplitudes of an effect at [pos] of length [stop - pos] follow the control points, as far as they are not the last:
    the product with the amplitude [a] at the point, and interpolated at the beginning and at the end. *)
Definition follows_intensity (pos stop : Z) (a : f32) (amps : list (Z * f64)) (kfs : list keyframe) : Prop :=
  (forall before p after, amps = before ++ p :: after -> after <> [] -> rising amps -> pos < fst p < stop ->
     amp_at kfs (fst p - pos) (mul32 (f32_of_f64 (snd p)) a)) /\
  (forall before q p after, amps = before ++ q :: p :: after -> Forall (fun x => fst x < pos) (before ++ [q]) -> pos < fst p ->
     exists x, amp_at kfs 0 x /\ (Rabs (B2R x - B2R a * on_line (fst q) (fst p) (B2R (snd q)) (B2R (snd p)) (IZR pos)) <= / 4194304)%R) /\
  (forall before q p after, amps = before ++ q :: p :: after -> Forall (fun x => fst x < stop) (before ++ [q]) -> stop <= fst p ->
     exists x, amp_at kfs (stop - pos) x /\
       (Rabs (B2R x - B2R a * on_line (fst q) (fst p) (B2R (snd q)) (B2R (snd p)) (IZR stop)) <= / 4194304)%R).
(** The frequencies at the control points inside the effect: those for the sum of the sharpnesses. *)
Definition follows_sharpness (pos stop : Z) (s : f64) (freqs : list (Z * f64)) (kfs : list keyframe) : Prop :=
  forall before p after, freqs = before ++ p :: after -> after <> [] -> rising freqs -> pos < fst p < stop ->
    exists f, freq_at kfs (fst p - pos) f /\ nearest (hertz (clamp (B2R s + B2R (snd p)))) f.

(** At the last control point, if it is inside the effect, the amplitude is that of the event again. *)
Definition ends_intensity (pos stop : Z) (a : f32) (amps : list (Z * f64)) (kfs : list keyframe) : Prop :=
  forall before p, amps = before ++ [p] -> rising amps -> pos < fst p < stop -> amp_at kfs (fst p - pos) a.

(** An effect made of a continuous event. *)
Definition continuous_effect (ts : Z) (amps freqs : list (Z * f64)) (ev : event) (e : effect) : Prop :=
  exists t d ps D a f, ev_time ev = Some t /\ ev_duration ev = Some d /\ ev_params ev = Some ps /\
    nearest (in_tick ts t) (e_pos e) /\ nearest (in_tick ts d) D /\ 0 <= e_pos e /\ 0 < D /\ e_pos e + D < 2 ^ 31 /\
    e_type e = BasisE /\ e_base e = Some Sine /\ envelope1 0 D (e_kfs e) /\
    amplitude_for limit_continuous ps a /\ frequency_for ps f /\
    (amps = [] -> freqs = [] -> e_kfs e = [Keyframe (Some 0) (Some a) (Some f); Keyframe (Some D) (Some a) (Some f)]) /\
    Forall (fun k => (forall x, k_amp k = Some x -> between 0 (B2R a) x) /\ (forall g, k_freq k = Some g -> 65 <= g <= 300)) (e_kfs e) /\
    follows_intensity (e_pos e) (e_pos e + D) a amps (e_kfs e) /\
    follows_sharpness (e_pos e) (e_pos e + D) (sharpness_of ps) freqs (e_kfs e) /\
    ends_intensity (e_pos e) (e_pos e + D) a amps (e_kfs e).

(** The bands: the band of the transients, with one effect, and bands without overlaps for the continuous events. *)
Definition imported (ts : Z) (d : list item) (c : channel) : Prop :=
  exists amps freqs tb bs ks es, on_ticks ts (controls IntensityControl d) amps /\ on_ticks ts (controls SharpnessControl d) freqs /\
    c_bands c = tb :: bs /\
    b_type tb = TransientB /\ b_low tb = 65 /\ b_up tb = 300 /\ (exists e, b_effects tb = [e] /\ e_pos e = 0 /\ e_kfs e = ks) /\
    Forall2 (transient_keyframe ts amps freqs) (events Transient d) ks /\
    Forall (fun b => b_type b = VectorialB /\ b_low b = 65 /\ b_up b = 300 /\ no_overlap b /\ sorted_by_position (b_effects b)) bs /\
    Forall2 (continuous_effect ts amps freqs) (events Continuous d) es /\
    Permutation (flat_map b_effects bs) es.
