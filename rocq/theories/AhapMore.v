(** Consequences for the import of AHAP files, and documents for the examples. *)
From Coq Require Import Reals Lra Lia Sorting.Permutation Sorting.Sorted Strings.String.
From Flocq Require Core.Raux.
From Verif Require Import Base FloatBase FloatModel FloatProof Float64Proof TypesModel SemanticModel ToolsSpec ToolsFloatProof TypesSpec SynthModel SynthSpec IvsSpec AhapModel AhapSpec AhapFloat AhapImport.
Local Open Scope Z_scope.
Local Open Scope list_scope.

Lemma Forall2_weaken {A B} (P Q : A -> B -> Prop) l m : (forall x y, P x y -> Q x y) -> Forall2 P l m -> Forall2 Q l m.
Proof. intros H. induction 1; constructor; auto. Qed.
Lemma transients_imported ts d p : 1 <= ts < 2 ^ 32 -> document_ok ts d -> p_channels p = [] ->
  exists c amps freqs tb bs e, encode d ts p = Ok (Some (set_channels [c] p)) /\
    on_ticks ts (controls IntensityControl d) amps /\ on_ticks ts (controls SharpnessControl d) freqs /\
    c_bands c = tb :: bs /\ b_type tb = TransientB /\ b_low tb = 65 /\ b_up tb = 300 /\ b_effects tb = [e] /\ e_pos e = 0 /\
    Forall2 (transient_keyframe ts amps freqs) (events Transient d) (e_kfs e).
Proof.
  intros Hts Hd Hp. destruct (import_ok ts d p Hts Hd Hp) as (c & E & amps & freqs & tb & bs & ks & es & T1 & T2 & B & B1 & B2 & B3 & (e & E1 & E2 & E3) & K & _).
  exists c, amps, freqs, tb, bs, e. rewrite E3. auto 12.
Qed.
Lemma continuous_imported ts d p : 1 <= ts < 2 ^ 32 -> document_ok ts d -> p_channels p = [] ->
  exists c amps freqs tb bs es, encode d ts p = Ok (Some (set_channels [c] p)) /\
    on_ticks ts (controls IntensityControl d) amps /\ on_ticks ts (controls SharpnessControl d) freqs /\ c_bands c = tb :: bs /\
    Forall (fun b => b_type b = VectorialB /\ b_low b = 65 /\ b_up b = 300 /\ no_overlap b /\ sorted_by_position (b_effects b)) bs /\
    Permutation (flat_map b_effects bs) es /\
    Forall2 (fun ev e => exists t du ps D a f, ev_time ev = Some t /\ ev_duration ev = Some du /\ ev_params ev = Some ps /\
      nearest (in_tick ts t) (e_pos e) /\ nearest (in_tick ts du) D /\ 0 <= e_pos e /\ 0 < D /\ e_pos e + D < 2 ^ 31 /\
      e_type e = BasisE /\ e_base e = Some Sine /\ envelope1 0 D (e_kfs e) /\
      amplitude_for limit_continuous ps a /\ frequency_for ps f /\
      Forall (fun k => forall x, k_amp k = Some x -> between 0 (B2R a) x) (e_kfs e) /\
      (amps = [] -> freqs = [] -> e_kfs e = [Keyframe (Some 0) (Some a) (Some f); Keyframe (Some D) (Some a) (Some f)]))
      (events Continuous d) es.
Proof.
  intros Hts Hd Hp. destruct (import_ok ts d p Hts Hd Hp) as (c & E & amps & freqs & tb & bs & ks & es & T1 & T2 & B & _ & _ & _ & _ & _ & V & S & P).
  exists c, amps, freqs, tb, bs, es. split; [exact E|]. split; [exact T1|]. split; [exact T2|]. split; [exact B|]. split; [exact V|]. split; [exact P|].
  eapply Forall2_weaken; [|exact S]. intros ev e (t & du & ps & D & a & f & H1 & H2 & H3 & H4 & H5 & H6 & H7 & H8 & H9 & H10 & H11 & H12 & H13 & H14 & H15 & _).
  exists t, du, ps, D, a, f. repeat (split; [assumption|]). split; [|exact H14]. eapply Forall_impl; [|exact H15]. intros k (Hk & _). exact Hk.
Qed.
Lemma intensity_followed ts d p : 1 <= ts < 2 ^ 32 -> document_ok ts d -> p_channels p = [] ->
  exists c amps bs es, encode d ts p = Ok (Some (set_channels [c] p)) /\
    on_ticks ts (controls IntensityControl d) amps /\ tl (c_bands c) = bs /\ Permutation (flat_map b_effects bs) es /\
    Forall2 (fun ev e => exists t du ps D a, ev_time ev = Some t /\ ev_duration ev = Some du /\ ev_params ev = Some ps /\
      nearest (in_tick ts t) (e_pos e) /\ nearest (in_tick ts du) D /\ amplitude_for limit_continuous ps a /\
      follows_intensity (e_pos e) (e_pos e + D) a amps (e_kfs e)) (events Continuous d) es.
Proof.
  intros Hts Hd Hp. destruct (import_ok ts d p Hts Hd Hp) as (c & E & amps & freqs & tb & bs & ks & es & T1 & T2 & B & _ & _ & _ & _ & _ & V & S & P).
  exists c, amps, bs, es. split; [exact E|]. split; [exact T1|]. split; [rewrite B; reflexivity|]. split; [exact P|].
  eapply Forall2_weaken; [|exact S]. intros ev e (t & du & ps & D & a & f & H1 & H2 & H3 & H4 & H5 & H6 & H7 & H8 & H9 & H10 & H11 & H12 & H13 & H14 & H15 & H16 & _).
  exists t, du, ps, D, a. auto 12.
Qed.
Lemma last_overwritten ts d p : 1 <= ts < 2 ^ 32 -> document_ok ts d -> p_channels p = [] ->
  exists c amps bs es, encode d ts p = Ok (Some (set_channels [c] p)) /\
    on_ticks ts (controls IntensityControl d) amps /\ tl (c_bands c) = bs /\ Permutation (flat_map b_effects bs) es /\
    Forall2 (fun ev e => exists t du ps D a, ev_time ev = Some t /\ ev_duration ev = Some du /\ ev_params ev = Some ps /\
      nearest (in_tick ts t) (e_pos e) /\ nearest (in_tick ts du) D /\ amplitude_for limit_continuous ps a /\
      forall before x, amps = before ++ [x] -> rising amps -> e_pos e < fst x < e_pos e + D -> amp_at (e_kfs e) (fst x - e_pos e) a)
      (events Continuous d) es.
Proof.
  intros Hts Hd Hp. destruct (import_ok ts d p Hts Hd Hp) as (c & E & amps & freqs & tb & bs & ks & es & T1 & T2 & B & _ & _ & _ & _ & _ & V & S & P).
  exists c, amps, bs, es. split; [exact E|]. split; [exact T1|]. split; [rewrite B; reflexivity|]. split; [exact P|].
  eapply Forall2_weaken; [|exact S]. intros ev e (t & du & ps & D & a & f & H1 & H2 & H3 & H4 & H5 & H6 & H7 & H8 & H9 & H10 & H11 & H12 & H13 & H14 & H15 & _ & _ & H17).
  exists t, du, ps, D, a. auto 12.
Qed.
Lemma sharpness_followed ts d p : 1 <= ts < 2 ^ 32 -> document_ok ts d -> p_channels p = [] ->
  exists c freqs bs es, encode d ts p = Ok (Some (set_channels [c] p)) /\
    on_ticks ts (controls SharpnessControl d) freqs /\ tl (c_bands c) = bs /\ Permutation (flat_map b_effects bs) es /\
    Forall2 (fun ev e => exists t du ps D, ev_time ev = Some t /\ ev_duration ev = Some du /\ ev_params ev = Some ps /\
      nearest (in_tick ts t) (e_pos e) /\ nearest (in_tick ts du) D /\
      Forall (fun k => forall g, k_freq k = Some g -> 65 <= g <= 300) (e_kfs e) /\
      follows_sharpness (e_pos e) (e_pos e + D) (sharpness_of ps) freqs (e_kfs e)) (events Continuous d) es.
Proof.
  intros Hts Hd Hp. destruct (import_ok ts d p Hts Hd Hp) as (c & E & amps & freqs & tb & bs & ks & es & T1 & T2 & B & _ & _ & _ & _ & _ & V & S & P).
  exists c, freqs, bs, es. split; [exact E|]. split; [exact T2|]. split; [rewrite B; reflexivity|]. split; [exact P|].
  eapply Forall2_weaken; [|exact S]. intros ev e (t & du & ps & D & a & f & H1 & H2 & H3 & H4 & H5 & H6 & H7 & H8 & H9 & H10 & H11 & H12 & H13 & H14 & H15 & _ & H16 & _).
  exists t, du, ps, D. repeat (split; [assumption|]). split; [|exact H16]. eapply Forall_impl; [|exact H15]. intros k (_ & Hk). exact Hk.
Qed.
Lemma default_sharpness ts d p : 1 <= ts < 2 ^ 32 -> document_ok ts d -> p_channels p = [] ->
  exists c freqs bs es, encode d ts p = Ok (Some (set_channels [c] p)) /\
    on_ticks ts (controls SharpnessControl d) freqs /\ tl (c_bands c) = bs /\ Permutation (flat_map b_effects bs) es /\
    Forall2 (fun ev e => exists t du ps D, ev_time ev = Some t /\ ev_duration ev = Some du /\ ev_params ev = Some ps /\
      nearest (in_tick ts t) (e_pos e) /\ nearest (in_tick ts du) D /\
      (given Sharpness ps = None -> forall before x after, freqs = before ++ x :: after -> after <> [] -> rising freqs ->
        e_pos e < fst x < e_pos e + D -> B2R (snd x) = 0%R -> exists f, freq_at (e_kfs e) (fst x - e_pos e) f /\ 299 <= f <= 301))
      (events Continuous d) es.
Proof.
  intros Hts Hd Hp. destruct (sharpness_followed ts d p Hts Hd Hp) as (c & freqs & bs & es & E & T & B & P & S). exists c, freqs, bs, es.
  split; [exact E|]. split; [exact T|]. split; [exact B|]. split; [exact P|]. eapply Forall2_weaken; [|exact S].
  intros ev e (t & du & ps & D & H1 & H2 & H3 & H4 & H5 & _ & H6). exists t, du, ps, D. repeat (split; [assumption|]). intros N before x after Q1 Q2 Q3 Q4 Q5.
  destruct (H6 before x after Q1 Q2 Q3 Q4) as (f & F1 & F2). exists f. split; [exact F1|]. unfold sharpness_of in F2. rewrite N, one_R, Q5 in F2.
  unfold nearest, hertz, clamp, eps in F2. rewrite Rmin_left, Rmax_right in F2 by lra. apply Raux.Rabs_le_inv in F2. split; apply Zlt_succ_le, lt_IZR; rewrite succ_IZR; lra.
Qed.
Lemma transient_out_of_range ts d p ev t q x : 1 <= ts < 2 ^ 32 -> document_ok ts d -> p_channels p = [] -> controls SharpnessControl d = [q; x] ->
  events Transient d = [ev] -> ev_time ev = Some t -> (when ts q <= in_tick ts t - 2)%R -> (in_tick ts t + 2 <= when ts x)%R ->
  exists c k f, encode d ts p = Ok (Some (set_channels [c] p)) /\ flat_map e_kfs (flat_map b_effects (firstn 1 (c_bands c))) = [k] /\ k_freq k = Some f /\
    (B2R (snd q) = 1%R -> B2R (snd x) = 1%R -> 388 <= f) /\ (B2R (snd q) = (-1)%R -> B2R (snd x) = (-1)%R -> f <= -78).
Proof.
  intros Hts Hd Hp Hc Hev Et Lq Lx. destruct (transients_imported ts d p Hts Hd Hp) as (c & amps & freqs & tb & bs & e & E & T1 & T2 & B & _ & _ & _ & B4 & _ & K).
  rewrite Hev in K. inversion K as [|? k ? ks Hk Hn Ev Ek]; subst. inversion Hn; subst. rewrite Hc in T2.
  inversion T2 as [|? q' ? l (V1 & W1) T3 E5 Ef]; subst. inversion T3 as [|? x' ? l' (V2 & W2) T4]; subst. inversion T4; subst.
  destruct Hk as (t' & ps & p0 & a & b & f & Et' & _ & -> & Np & Rp & _ & _ & _ & _ & _ & HF). rewrite Et in Et'. injection Et' as <-.
  exists c, (Keyframe (Some p0) (Some a) (Some f)), f. split; [exact E|]. split; [rewrite B; cbn [firstn flat_map]; rewrite B4; cbn [flat_map app]; rewrite <- Ek; reflexivity|]. split; [reflexivity|].
  unfold nearest, below, eps in *. apply Raux.Rabs_le_inv in Np.
  assert (L1 : fst q' < p0) by (apply lt_IZR; lra). assert (L2 : p0 < fst x') by (apply lt_IZR; lra).
  specialize (HF [] q' x' [] eq_refl). cbn [app] in HF. specialize (HF ltac:(constructor; [exact L1|constructor]) ltac:(lia)). rewrite V1, V2 in HF. unfold hertz in HF. apply Raux.Rabs_le_inv in HF.
  pose proof (on_line_between (fst q') (fst x') (B2R (snd q)) (B2R (snd x)) (IZR p0) ltac:(lia)) as O.
  assert (L3 : (IZR (fst q') <= IZR p0 <= IZR (fst x'))%R) by (split; apply IZR_le; lia). specialize (O L3). unfold eps in HF.
  split; intros Q1 Q2; rewrite Q1, Q2 in *.
  - rewrite Rmin_left, Rmax_left in O by lra. apply Zlt_succ_le, lt_IZR. rewrite succ_IZR. lra.
  - rewrite Rmin_left, Rmax_left in O by lra. apply Zlt_succ_le, lt_IZR. rewrite succ_IZR. lra.
Qed.
Lemma empty_transients ts d p : 1 <= ts < 2 ^ 32 -> document_ok ts d -> p_channels p = [] -> events Transient d = [] ->
  exists c tb bs e, encode d ts p = Ok (Some (set_channels [c] p)) /\ c_bands c = tb :: bs /\ b_type tb = TransientB /\ b_effects tb = [e] /\ e_kfs e = [].
Proof.
  intros Hts Hd Hp Hev. destruct (transients_imported ts d p Hts Hd Hp) as (c & amps & freqs & tb & bs & e & E & _ & _ & B & B1 & _ & _ & B4 & _ & K).
  rewrite Hev in K. inversion K. exists c, tb, bs, e. auto.
Qed.
Lemma sharpness_ignored ts d p : 1 <= ts < 2 ^ 32 -> document_ok ts d -> p_channels p = [] -> controls SharpnessControl d = [] ->
  exists c tb bs, encode d ts p = Ok (Some (set_channels [c] p)) /\ c_bands c = tb :: bs /\
    map k_freq (flat_map e_kfs (b_effects tb)) = map (fun _ => Some 90) (events Transient d).
Proof.
  intros Hts Hd Hp Hc. destruct (transients_imported ts d p Hts Hd Hp) as (c & amps & freqs & tb & bs & e & E & _ & T2 & B & B1 & _ & _ & B4 & _ & K).
  exists c, tb, bs. split; [exact E|]. split; [exact B|]. rewrite B4. cbn [flat_map]. rewrite app_nil_r. rewrite Hc in T2. inversion T2; subst.
  induction K as [|ev k evs ks (t & ps & p0 & a & b & f & _ & _ & -> & _ & _ & _ & _ & _ & (Hf & _)) K IH]; [reflexivity|]. cbn [map k_freq]. rewrite IH, (Hf (Forall_nil _)). reflexivity.
Qed.
Lemma out_of_order ts d p u v t w : 1 <= ts < 2 ^ 32 -> document_ok ts d -> p_channels p = [] -> events Transient d = [u; v] ->
  ev_time u = Some t -> ev_time v = Some w -> (in_tick ts w + 2 <= in_tick ts t)%R ->
  exists c tb bs e k l x y, encode d ts p = Ok (Some (set_channels [c] p)) /\ c_bands c = tb :: bs /\ b_effects tb = [e] /\ e_kfs e = [k; l] /\
    k_pos k = Some x /\ k_pos l = Some y /\ y < x.
Proof.
  intros Hts Hd Hp Hev Eu Ev L. destruct (transients_imported ts d p Hts Hd Hp) as (c & amps & freqs & tb & bs & e & E & _ & _ & B & _ & _ & _ & B4 & _ & K).
  rewrite Hev in K. inversion K as [|? k ? ks Hk K2 E5 Ek]; subst. inversion K2 as [|? l ? ls Hl K3]; subst. inversion K3; subst.
  destruct Hk as (t' & ? & x & ? & ? & ? & Et & _ & -> & Nx & _). destruct Hl as (w' & ? & y & ? & ? & ? & Ew & _ & -> & Ny & _).
  rewrite Eu in Et. injection Et as <-. rewrite Ev in Ew. injection Ew as <-. exists c, tb, bs, e. do 2 eexists. exists x, y.
  split; [exact E|]. split; [exact B|]. split; [exact B4|]. split; [symmetry; exact Ek|]. split; [reflexivity|]. split; [reflexivity|].
  unfold nearest, eps in *. apply Raux.Rabs_le_inv in Nx. apply Raux.Rabs_le_inv in Ny. apply lt_IZR. lra.
Qed.

(** *** Documents for the examples: times in whole seconds *)
Definition ax_half : f64 := @B754_finite 53 1024 false 4503599627370496 (-53) eq_refl.
Definition ax_point (p : Z * f64) : control := Control (Some (f64_of_Z (fst p))) (Some (snd p)).
Definition ax_curve (id : str) (l : list (Z * f64)) : item := Item (Some (Curve id (Some f64_0) (Some (map ax_point l)))) None.
Definition ax_transient (t : Z) (ps : list (str * f64)) : item := Item None (Some (Event Transient (Some (f64_of_Z t)) None (Some ps))).
Definition ax_event (t du : Z) (ps : list (str * f64)) : event := Event Continuous (Some (f64_of_Z t)) (Some (f64_of_Z du)) (Some ps).
Definition ax_continuous (t du : Z) (ps : list (str * f64)) : item := Item None (Some (ax_event t du ps)).
Definition ax_perception : perception := Perception 0 0 [] None None 0 [] [] None None [].
Definition ax_document : list item :=
  [ax_curve IntensityControl [(0, f64_1); (2, ax_half); (4, f64_1)]; ax_curve SharpnessControl [(0, f64_0); (2, f64_1); (4, ax_half)];
   ax_transient 3 [(Intensity, f64_1)]; ax_transient 6 []; ax_continuous 1 2 [(Sharpness, ax_half)]; ax_continuous 2 1 []].

Lemma half_R : B2R ax_half = (/ 2)%R.
Proof. unfold ax_half, B2R, Defs.F2R. cbn -[Raux.bpow]. change (-53) with (Z.opp 53). rewrite (bpow_inv 53) by lia. cbn. lra. Qed.
Lemma m1_R : B2R f64_m1 = (-1)%R.
Proof. unfold f64_m1, B2R, Defs.F2R. cbn -[Raux.bpow]. change (-52) with (Z.opp 52). rewrite (bpow_inv 52) by lia. cbn. lra. Qed.
Ltac ax_number :=
  repeat match goal with |- context [B2R (f64_of_Z ?n)] => rewrite (proj1 (f64_of_Z_ok n ltac:(lia))) end; rewrite ?half_R, ?m1_R, ?one_R; cbn [B2R f64_0]; lra.
Ltac ax_point_ok := cbv beta iota; split; [reflexivity|split; [vm_compute; reflexivity|split; [unfold when; split; ax_number|split; [reflexivity|split; ax_number]]]].
Ltac ax_compute x := let y := eval cbv -[f64_of_Z f64_0 f64_1 f64_m1 ax_half] in x in change x with y.
Ltac ax_curve_ok :=
  let c := fresh in let E := fresh in intros c E; cbn [it_curve ax_curve ax_transient ax_continuous] in E; first [discriminate E | injection E as <-];
  let Q := fresh in intros Q; cbn [cu_id] in Q; first [discriminate Q | split; [discriminate|split; [discriminate|]];
    match goal with |- Forall _ ?x => ax_compute x end; repeat (apply Forall_cons; [ax_point_ok|]); apply Forall_nil ].
Ltac ax_curves := repeat (apply Forall_cons; [ax_curve_ok|]); apply Forall_nil.
Ltac ax_points := match goal with |- Forall _ ?x => ax_compute x end; repeat (apply Forall_cons; [unfold when, in_tick; ax_number|]); apply Forall_nil.
Ltac ax_params := repeat (apply Forall_cons; [cbv beta iota; intros _; split; [reflexivity|split; ax_number]|]); apply Forall_nil.
Ltac ax_spans :=
  match goal with |- spans _ ?x _ _ => ax_compute x end;
  first [left; reflexivity |
    right; split; [repeat first [solve [apply Exists_cons_hd; unfold when, in_tick; ax_number] | apply Exists_cons_tl] | do 2 eexists; split; [reflexivity|unfold when, in_tick; ax_number]]].
Ltac ax_transient_ok := do 2 eexists; split; [reflexivity|]; split; [reflexivity|]; split; [ax_params|]; split; [vm_compute; reflexivity|]; unfold in_tick; split; ax_number.
Ltac ax_continuous_ok := do 3 eexists; split; [reflexivity|]; split; [reflexivity|]; split; [reflexivity|]; split; [ax_params|]; split; [vm_compute; reflexivity|];
  split; [vm_compute; reflexivity|]; split; [unfold in_tick; ax_number|]; split; [unfold in_tick; ax_number|]; split; [unfold in_tick; ax_number|]; split; ax_spans.
Ltac ax_document_ok :=
  split; [ax_curves|]; split; [ax_curves|]; split;
    [match goal with |- Forall _ ?x => ax_compute x end; repeat (apply Forall_cons; [ax_transient_ok|]); apply Forall_nil
    |match goal with |- Forall _ ?x => ax_compute x end; repeat (apply Forall_cons; [ax_continuous_ok|]); apply Forall_nil].
Lemma ax_ok : document_ok 8000 ax_document. Proof. ax_document_ok. Qed.

(** A sharpness curve that is 0 throughout. *)
Definition ax_flat : list item := [ax_curve SharpnessControl [(0, f64_0); (4, f64_0)]; ax_continuous 1 2 [(Sharpness, ax_half)]].
Definition ax_result (o : outcome (option perception)) : perception := match o with Ok (Some p) => p | _ => ax_perception end.
Definition ax_first (l : list effect) : effect := match l with e :: _ => e | [] => effect0 end.
Definition ax_effects (p : perception) : list effect := flat_map (fun c => flat_map b_effects (tl (c_bands c))) (p_channels p).
Lemma ax_result_ok o : match o with Ok (Some _) => true | _ => false end = true -> o = Ok (Some (ax_result o)).
Proof. destruct o as [[p|]| | |]; try discriminate. reflexivity. Qed.
Lemma ax_first_ok l : length l = 1%nat -> l = [ax_first l].
Proof. destruct l as [|e [|]]; try discriminate. reflexivity. Qed.
Lemma end_frequency :
  exists d p e, document_ok 8000 d /\ events Continuous d = [ax_event 1 2 [(Sharpness, ax_half)]] /\
    controls SharpnessControl d = [(f64_0, f64_of_Z 0, f64_0); (f64_0, f64_of_Z 4, f64_0)] /\
    encode d 8000 ax_perception = Ok (Some p) /\ flat_map (fun c => flat_map b_effects (tl (c_bands c))) (p_channels p) = [e] /\
    map (fun k => (k_pos k, k_freq k)) (e_kfs e) = [(Some 0, Some 183); (Some 16000, Some 300)].
Proof.
  exists ax_flat, (ax_result (encode ax_flat 8000 ax_perception)), (ax_first (ax_effects (ax_result (encode ax_flat 8000 ax_perception)))).
  split; [unfold ax_flat; ax_document_ok|]. split; [reflexivity|]. split; [reflexivity|].
  split; [apply ax_result_ok; vm_compute; reflexivity|]. split; [|vm_compute; reflexivity]. apply ax_first_ok. vm_compute. reflexivity.
Qed.
