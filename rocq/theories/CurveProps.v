(** Property C46: curve bands made from PCM signals. *)
From Coq Require Import Lia.
From Verif Require Import Base FloatBase FloatModel TypesModel ToolsModel SynthModel CurveModel CurveSpec CurveProof.
Local Open Scope Z_scope.

(** ** C46 *)
(** The band has one effect, at 0.  Its keyframes have strictly increasing positions.  They are exactly, for each
    tick with a salient sample (the first, the last, and those where the signal turns), the last such sample,
    at the nearest tick, with its amplitude as a [float]. *)
Theorem C46_keyframes :
  forall timescale fs signal, 0 < timescale < 2 ^ 32 -> 0 < fs < 2 ^ 31 ->
  timescale * vec_size signal < 2 ^ 52 -> tick timescale fs (length signal) < 2 ^ 31 ->
  exists b e, curveBand signal fs timescale = Ok (true, b) /\ b_type b = CurveB /\ b_up b = fs /\
    b_effects b = [e] /\ e_pos e = 0 /\ increasing (e_kfs e) /\
    forall k, In k (e_kfs e) <-> exists i, last_of_tick timescale fs signal i /\ k = keyframe_at timescale fs signal i.
Proof. exact signal_band. Qed.
Print Assumptions C46_keyframes.
(** So the last sample is always kept, and every salient sample has a keyframe at its tick, the first one at 0. *)
Theorem C46_represented :
  forall timescale fs signal, 0 <= timescale -> 0 < fs ->
  (forall n, length signal = S n -> last_of_tick timescale fs signal n) /\
  (forall i, salient signal i -> exists j, last_of_tick timescale fs signal j /\ tick timescale fs j = tick timescale fs i) /\
  tick timescale fs 0 = 0.
Proof.
  intros ts fs l Hts Hfs. split; [intros n; exact (last_sample ts fs l n)|].
  split; [intros i; exact (represented ts fs l i Hts Hfs)|exact (tick_0 ts fs Hfs)].
Qed.
Print Assumptions C46_represented.
(** The first sample is not always kept: at 8000 Hz and 1000 ticks per second, the keyframe at 0 of the signal
    1, 1/2, 1, 0, 0, 0, 0, 0, 0 has the amplitude of sample 3. *)
Definition cx_signal : list f64 := [f64_1; f64_half; f64_1; f64_0; f64_0; f64_0; f64_0; f64_0; f64_0].
Definition cx_half : f32 := @B754_finite 24 128 false 8388608 (-24) eq_refl.
Theorem C46_first_refuted :
  exists b e, curveBand cx_signal 8000 1000 = Ok (true, b) /\ b_effects b = [e] /\
    e_kfs e = [Keyframe (Some 0) (Some f32_0) None; Keyframe (Some 1) (Some f32_0) None].
Proof. eexists _, _. split; [vm_compute; reflexivity|]. split; reflexivity. Qed.
Print Assumptions C46_first_refuted.
(** A peak that differs from both neighbours by no more than 100 epsilon is lost (1, 1 + 2^-52, 1 between 0 and 0
    keeps the outer two). *)
Definition cx_peak : f64 := @B754_finite 53 1024 false 4503599627370497 (-52) eq_refl.
Theorem C46_small_peak_refuted :
  localExtrema [f64_0; f64_1; cx_peak; f64_1; f64_0] true = [(0, f64_0); (4, f64_0)].
Proof. vm_compute. reflexivity. Qed.
Print Assumptions C46_small_peak_refuted.
Example C46_hyps : 1000 * vec_size cx_signal < 2 ^ 52 /\ tick 1000 8000 (length cx_signal) = 1 /\ ~ salient cx_signal 5 /\ salient cx_signal 1.
Proof.
  split; [reflexivity|]. split; [reflexivity|]. split.
  - intros [_ [H|[H|(a & v & b & j & Ej & Ha & Hv & Hb & Ht)]]]; [discriminate H|discriminate H|].
    injection Ej as <-. injection Ha as <-. injection Hv as <-. injection Hb as <-. destruct Ht as [_ N]. apply N. split; reflexivity.
  - split; [cbn; lia|]. right. right. exists f64_1, f64_half, f64_1, 0%nat. split; [reflexivity|]. split; [reflexivity|]. split; [reflexivity|]. split; [reflexivity|].
    split; [right; split; reflexivity|]. intros [N _]. discriminate N.
Qed.
(** A rising and falling signal at one sample per tick. *)
Example C46_value : localExtrema [f64_0; f64_half; f64_1; f64_half; f64_quarter] true = [(0, f64_0); (2, f64_1); (4, f64_quarter)].
Proof. vm_compute. reflexivity. Qed.
