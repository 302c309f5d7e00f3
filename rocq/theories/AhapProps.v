(** Properties of the import of AHAP files (AhapEncoder.cpp). *)
From Coq Require Import Reals Lra Lia Sorting.Permutation Sorting.Sorted Strings.String.
From Coq Require Import Floats.SpecFloat.
From Verif Require Import Base FloatBase FloatModel TypesModel SemanticModel ToolsSpec TypesSpec SynthModel SynthSpec IvsSpec AhapModel AhapSpec AhapImport AhapMore.
Local Open Scope Z_scope.
Local Open Scope list_scope.

(** ** C94 *)
(** Every transient event becomes one keyframe of one effect, in the order of the file. *)
Theorem C94_transients :
  forall ts d p, 1 <= ts < 2 ^ 32 -> document_ok ts d -> p_channels p = [] ->
  exists c amps freqs tb bs e, encode d ts p = Ok (Some (set_channels [c] p)) /\
    on_ticks ts (controls IntensityControl d) amps /\ on_ticks ts (controls SharpnessControl d) freqs /\
    c_bands c = tb :: bs /\ b_type tb = TransientB /\ b_low tb = 65 /\ b_up tb = 300 /\ b_effects tb = [e] /\ e_pos e = 0 /\
    Forall2 (transient_keyframe ts amps freqs) (events Transient d) (e_kfs e).
Proof. exact transients_imported. Qed.
Print Assumptions C94_transients.
Example C94_hyps : document_ok 8000 ax_document /\ length (events Transient ax_document) = 2%nat.
Proof. split; [exact ax_ok|reflexivity]. Qed.
Example C94_value :
  match encode ax_document 8000 ax_perception with
  | Ok (Some p) => map (fun c => map (fun b => map (fun e => (e_pos e, map (fun k => (k_pos k, k_freq k)) (e_kfs e))) (b_effects b)) (c_bands c)) (p_channels p) =
      [[[(0, [(Some 24000, Some 331); (Some 48000, Some 90)])];
        [(8000, [(Some 0, Some 241); (Some 8000, Some 300); (Some 16000, Some 300)])];
        [(16000, [(Some 0, Some 300); (Some 8000, Some 300)])]]]
  | _ => False
  end.
Proof. vm_compute. reflexivity. Qed.

(** ** C95 *)
(** Every continuous event becomes one effect; the effects are in bands where none overlaps another. *)
Theorem C95_continuous :
  forall ts d p, 1 <= ts < 2 ^ 32 -> document_ok ts d -> p_channels p = [] ->
  exists c amps freqs tb bs es, encode d ts p = Ok (Some (set_channels [c] p)) /\
    on_ticks ts (controls IntensityControl d) amps /\ on_ticks ts (controls SharpnessControl d) freqs /\ c_bands c = tb :: bs /\
    Forall (fun b => b_type b = VectorialB /\ b_low b = 65 /\ b_up b = 300 /\ no_overlap b /\ sorted_by_position (b_effects b)) bs /\
    Permutation (flat_map b_effects bs) es /\
    Forall2 (fun ev e => exists t du ps D a f, ev_time ev = Some t /\ ev_duration ev = Some du /\ ev_params ev = Some ps /\
      nearest (in_tick ts t) (e_pos e) /\ nearest (in_tick ts du) D /\ 0 <= e_pos e /\ 0 < D /\ e_pos e + D < 2 ^ 31 /\
      e_type e = BasisE /\ e_base e = Some Sine /\ envelope1 0 D (e_kfs e) /\
      amplitude_for limit_continuous ps a /\ frequency_for ps f /\
      Forall (fun k => forall x, k_amp k = Some x -> between 0 (B2R a) x) (e_kfs e) /\
      (amps = [] -> freqs = [] -> e_kfs e = [Keyframe (Some 0) (Some a) (Some f); Keyframe (Some D) (Some a) (Some f)]))
      (events Continuous d) es.
Proof. exact continuous_imported. Qed.
Print Assumptions C95_continuous.

(** ** C96 *)
(** Control points that are all before a continuous event, or all after it: undefined behaviour. *)
Theorem C96_curve_refuted :
  forall ts d p ev r t du ps, 1 <= ts < 2 ^ 32 -> (length (p_channels p) <= 1)%nat ->
  Forall (curve_ok ts 0 IntensityControl) d -> Forall (curve_ok ts (-1) SharpnessControl) d -> Forall (transient_ok ts) (events Transient d) ->
  events Continuous d = ev :: r -> ev_time ev = Some t -> ev_duration ev = Some du -> ev_params ev = Some ps -> params_ok ps ->
  is_finite t = true -> is_finite du = true -> (0 <= in_tick ts t)%R -> (1 <= in_tick ts du)%R -> (in_tick ts t + in_tick ts du <= 2147483646)%R ->
  misses ts (controls IntensityControl d) t du \/ (spans ts (controls IntensityControl d) t du /\ misses ts (controls SharpnessControl d) t du) ->
  encode d ts p = UB.
Proof. exact import_undefined. Qed.
Print Assumptions C96_curve_refuted.
(** A curve over the first second, an event at 2 s. *)
Example C96_hyps : let d := [ax_curve IntensityControl [(0, f64_1); (1, f64_1)]; ax_continuous 2 1 []] in
  Forall (curve_ok 8000 0 IntensityControl) d /\ Forall (curve_ok 8000 (-1) SharpnessControl) d /\
  misses 8000 (controls IntensityControl d) (f64_of_Z 2) (f64_of_Z 1) /\ encode d 8000 ax_perception = UB.
Proof. cbv zeta. split; [ax_curves|]. split; [ax_curves|]. split; [|vm_compute; reflexivity]. split; [discriminate|]. left. ax_points. Qed.

(** ** C97 *)
(** Inside a continuous event the intensity curve is followed: at its points, at the beginning and at the end. *)
Theorem C97_intensity :
  forall ts d p, 1 <= ts < 2 ^ 32 -> document_ok ts d -> p_channels p = [] ->
  exists c amps bs es, encode d ts p = Ok (Some (set_channels [c] p)) /\
    on_ticks ts (controls IntensityControl d) amps /\ tl (c_bands c) = bs /\ Permutation (flat_map b_effects bs) es /\
    Forall2 (fun ev e => exists t du ps D a, ev_time ev = Some t /\ ev_duration ev = Some du /\ ev_params ev = Some ps /\
      nearest (in_tick ts t) (e_pos e) /\ nearest (in_tick ts du) D /\ amplitude_for limit_continuous ps a /\
      follows_intensity (e_pos e) (e_pos e + D) a amps (e_kfs e)) (events Continuous d) es.
Proof. exact intensity_followed. Qed.
Print Assumptions C97_intensity.
(** But not at its last point: there the amplitude is that of the event without the curve. *)
Theorem C97_last_refuted :
  forall ts d p, 1 <= ts < 2 ^ 32 -> document_ok ts d -> p_channels p = [] ->
  exists c amps bs es, encode d ts p = Ok (Some (set_channels [c] p)) /\
    on_ticks ts (controls IntensityControl d) amps /\ tl (c_bands c) = bs /\ Permutation (flat_map b_effects bs) es /\
    Forall2 (fun ev e => exists t du ps D a, ev_time ev = Some t /\ ev_duration ev = Some du /\ ev_params ev = Some ps /\
      nearest (in_tick ts t) (e_pos e) /\ nearest (in_tick ts du) D /\ amplitude_for limit_continuous ps a /\
      forall before x, amps = before ++ [x] -> rising amps -> e_pos e < fst x < e_pos e + D -> amp_at (e_kfs e) (fst x - e_pos e) a)
      (events Continuous d) es.
Proof. exact last_overwritten. Qed.
Print Assumptions C97_last_refuted.
(** A fade-out that ends inside an event: at its last point the file asks for 0. *)
Example C97_hyps : let d := [ax_curve IntensityControl [(0, f64_1); (2, f64_0)]; ax_continuous 1 4 []] in
  document_ok 8000 d /\
  match encode d 8000 ax_perception with
  | Ok (Some p) => map (fun c => map (fun b => map (fun e => map (fun k => (k_pos k, option_map B2SF (k_amp k))) (e_kfs e)) (b_effects b)) (tl (c_bands c))) (p_channels p) =
      [[[[(Some 0, Some (S754_finite false 8388608 (-25))); (Some 8000, Some (S754_finite false 8388608 (-24))); (Some 32000, Some (S754_finite false 8388608 (-24)))]]]]
  | _ => False
  end.
Proof. cbv zeta. split; [ax_document_ok|]. vm_compute. reflexivity. Qed.

(** ** C98 *)
(** The frequencies of continuous effects are in the range of the device, and follow the sharpness curve inside the effect. *)
Theorem C98_frequency :
  forall ts d p, 1 <= ts < 2 ^ 32 -> document_ok ts d -> p_channels p = [] ->
  exists c freqs bs es, encode d ts p = Ok (Some (set_channels [c] p)) /\
    on_ticks ts (controls SharpnessControl d) freqs /\ tl (c_bands c) = bs /\ Permutation (flat_map b_effects bs) es /\
    Forall2 (fun ev e => exists t du ps D, ev_time ev = Some t /\ ev_duration ev = Some du /\ ev_params ev = Some ps /\
      nearest (in_tick ts t) (e_pos e) /\ nearest (in_tick ts du) D /\
      Forall (fun k => forall g, k_freq k = Some g -> 65 <= g <= 300) (e_kfs e) /\
      follows_sharpness (e_pos e) (e_pos e + D) (sharpness_of ps) freqs (e_kfs e)) (events Continuous d) es.
Proof. exact sharpness_followed. Qed.
Print Assumptions C98_frequency.
(** Those of transients are not: 90 Hz are added to the frequency of the curve. *)
Theorem C98_transient_refuted :
  forall ts d p ev t q x, 1 <= ts < 2 ^ 32 -> document_ok ts d -> p_channels p = [] -> controls SharpnessControl d = [q; x] ->
  events Transient d = [ev] -> ev_time ev = Some t -> (when ts q <= in_tick ts t - 2)%R -> (in_tick ts t + 2 <= when ts x)%R ->
  exists c k f, encode d ts p = Ok (Some (set_channels [c] p)) /\ flat_map e_kfs (flat_map b_effects (firstn 1 (c_bands c))) = [k] /\ k_freq k = Some f /\
    (B2R (snd q) = 1%R -> B2R (snd x) = 1%R -> 388 <= f) /\ (B2R (snd q) = (-1)%R -> B2R (snd x) = (-1)%R -> f <= -78).
Proof. exact transient_out_of_range. Qed.
Print Assumptions C98_transient_refuted.
Example C98_hyps : let d := [ax_curve SharpnessControl [(0, f64_m1); (4, f64_m1)]; ax_transient 1 []] in
  document_ok 8000 d /\ B2R f64_m1 = (-1)%R /\
  match encode d 8000 ax_perception with
  | Ok (Some p) => flat_map (fun c => flat_map (fun b => flat_map (fun e => map k_freq (e_kfs e)) (b_effects b)) (c_bands c)) (p_channels p) = [Some (-80)]
  | _ => False
  end.
Proof. cbv zeta. split; [ax_document_ok|]. split; [exact m1_R|]. vm_compute. reflexivity. Qed.

(** ** C99 *)
(** A file without transients still gets a band of transients, with an effect that has no keyframe. *)
Theorem C99_empty_refuted :
  forall ts d p, 1 <= ts < 2 ^ 32 -> document_ok ts d -> p_channels p = [] -> events Transient d = [] ->
  exists c tb bs e, encode d ts p = Ok (Some (set_channels [c] p)) /\ c_bands c = tb :: bs /\ b_type tb = TransientB /\ b_effects tb = [e] /\ e_kfs e = [].
Proof. exact empty_transients. Qed.
Print Assumptions C99_empty_refuted.
Example C99_hyps : document_ok 8000 [ax_continuous 1 4 []] /\ events Transient [ax_continuous 1 4 []] = [].
Proof. split; [ax_document_ok|reflexivity]. Qed.

(** ** C100 *)
(** An event and a control point at the same time can get different ticks. *)
Theorem C100_ticks_refuted :
  exists (t : f64) ts v, is_finite t = true /\ 1 <= ts < 2 ^ 32 /\ eventTime t ts = Ok 1001 /\ controlPoints f64_0 ts [Control (Some t) (Some v)] = Ok [(1000, v)].
Proof. exists (@B754_finite 53 1024 false 4508103226997866 (-52) eq_refl), 1000, f64_1. vm_compute. repeat split; discriminate. Qed.
Print Assumptions C100_ticks_refuted.

(** ** C101 *)
(** The sharpness of a transient has no effect: without a sharpness curve the frequency is always 90 Hz. *)
Theorem C101_sharpness_refuted :
  forall ts d p, 1 <= ts < 2 ^ 32 -> document_ok ts d -> p_channels p = [] -> controls SharpnessControl d = [] ->
  exists c tb bs, encode d ts p = Ok (Some (set_channels [c] p)) /\ c_bands c = tb :: bs /\
    map k_freq (flat_map e_kfs (b_effects tb)) = map (fun _ => Some 90) (events Transient d).
Proof. exact sharpness_ignored. Qed.
Print Assumptions C101_sharpness_refuted.
Example C101_hyps : let d := [ax_transient 1 [(Sharpness, f64_0)]; ax_transient 2 [(Sharpness, f64_1)]] in
  document_ok 8000 d /\ controls SharpnessControl d = [] /\ length (events Transient d) = 2%nat.
Proof. cbv zeta. split; [ax_document_ok|]. split; reflexivity. Qed.

(** ** C102 *)
(** Transients that are not in time order in the file give keyframes that are not in time order. *)
Theorem C102_order_refuted :
  forall ts d p u v t w, 1 <= ts < 2 ^ 32 -> document_ok ts d -> p_channels p = [] -> events Transient d = [u; v] ->
  ev_time u = Some t -> ev_time v = Some w -> (in_tick ts w + 2 <= in_tick ts t)%R ->
  exists c tb bs e k l x y, encode d ts p = Ok (Some (set_channels [c] p)) /\ c_bands c = tb :: bs /\ b_effects tb = [e] /\ e_kfs e = [k; l] /\
    k_pos k = Some x /\ k_pos l = Some y /\ y < x.
Proof. exact out_of_order. Qed.
Print Assumptions C102_order_refuted.
Example C102_hyps : document_ok 8000 [ax_transient 2 []; ax_transient 1 []].
Proof. ax_document_ok. Qed.

(** ** C103 *)
(** A sharpness curve that is 0 throughout should leave the frequency as it is; at the end the sharpness of the event counts
    twice. *)
Theorem C103_end_refuted :
  exists d p e, document_ok 8000 d /\ events Continuous d = [ax_event 1 2 [(Sharpness, ax_half)]] /\
    controls SharpnessControl d = [(f64_0, f64_of_Z 0, f64_0); (f64_0, f64_of_Z 4, f64_0)] /\
    encode d 8000 ax_perception = Ok (Some p) /\ flat_map (fun c => flat_map b_effects (tl (c_bands c))) (p_channels p) = [e] /\
    map (fun k => (k_pos k, k_freq k)) (e_kfs e) = [(Some 0, Some 183); (Some 16000, Some 300)].
Proof. exact end_frequency. Qed.
Print Assumptions C103_end_refuted.
(** And an event without a sharpness, 90 Hz without a curve, gets the highest frequency at the points of such a curve. *)
Theorem C103_default_refuted :
  forall ts d p, 1 <= ts < 2 ^ 32 -> document_ok ts d -> p_channels p = [] ->
  exists c freqs bs es, encode d ts p = Ok (Some (set_channels [c] p)) /\
    on_ticks ts (controls SharpnessControl d) freqs /\ tl (c_bands c) = bs /\ Permutation (flat_map b_effects bs) es /\
    Forall2 (fun ev e => exists t du ps D, ev_time ev = Some t /\ ev_duration ev = Some du /\ ev_params ev = Some ps /\
      nearest (in_tick ts t) (e_pos e) /\ nearest (in_tick ts du) D /\
      (given Sharpness ps = None -> forall before x after, freqs = before ++ x :: after -> after <> [] -> rising freqs ->
        e_pos e < fst x < e_pos e + D -> B2R (snd x) = 0%R -> exists f, freq_at (e_kfs e) (fst x - e_pos e) f /\ 299 <= f <= 301))
      (events Continuous d) es.
Proof. exact default_sharpness. Qed.
Print Assumptions C103_default_refuted.
Example C103_hyps : let d := [ax_curve SharpnessControl [(0, f64_0); (2, f64_0); (4, f64_0)]; ax_continuous 1 2 []] in
  document_ok 8000 d /\
  map (fun k => (k_pos k, k_freq k)) (e_kfs (ax_first (ax_effects (ax_result (encode d 8000 ax_perception))))) = [(Some 0, Some 300); (Some 8000, Some 300); (Some 16000, Some 300)] /\
  map (fun k => (k_pos k, k_freq k)) (e_kfs (ax_first (ax_effects (ax_result (encode [ax_continuous 1 2 []] 8000 ax_perception))))) = [(Some 0, Some 90); (Some 16000, Some 90)].
Proof. cbv zeta. split; [ax_document_ok|]. vm_compute. auto. Qed.
