(** The encoding of audio files: what goes wrong, and the channels of the result. *)
From Coq Require Import Reals Psatz.
From Flocq Require Import Core.Core.
From Verif Require Import Base FloatBase FloatModel FloatSpec FloatProof Float64Proof TypesModel MetaModel ToolsModel ToolsFloatProof SynthModel SynthSpec SynthProof SynthIndex SpihtModel WaveletModel WaveletSpec WaveletLength CurveModel PcmPlay PcmBand PcmModel PcmSpec PcmEnd.
Local Open Scope R_scope.

Lemma map_o_nth {A B} (f : A -> outcome B) d d' : forall l out i, map_o f l = Ok out -> (i < length l)%nat -> f (nth i l d) = Ok (nth i out d').
Proof.
  induction l as [|x l IH]; intros out i H Hi; [cbn in Hi; lia|]. cbn [map_o] in H. destruct (f x) as [y| | |] eqn:E; try discriminate. cbn [obind] in H.
  destruct (map_o f l) as [ys| | |] eqn:E2; try discriminate. injection H as <-. destruct i as [|i]; [exact E|]. cbn [nth]. apply IH; [reflexivity|cbn in Hi; lia].
Qed.
(** *** A sample that is played twice *)
Lemma position_1001 : fle f64_0 (sample_position 8000 0 1000 1001) = true /\ flt (sample_position 8000 0 1000 1001) (f64_of_Z 128) = true /\
  is_finite (sample_position 8000 0 1000 1001) = true /\
  int_of_float i32 (ffloor (div64 (mul64 (sub64 (sample_position 8000 0 1000 1001) (f64_of_Z 0)) (f64_of_Z 8000)) (f64_of_Z 1000))) = Ok 1000%Z.
Proof. repeat split; vm_compute; reflexivity. Qed.
Theorem sample_1001 fsin fpow akima bezier bspline fuel b fs n out : Z.of_nat fs = 8000%Z -> decoded_blocks 10 128 fs b -> (Z.of_nat (length (b_effects b)) * 128 < 2 ^ 31)%Z -> (1001 < n)%Z ->
  EvaluationBand fsin fpow akima bezier bspline fuel b n 8000 0 1000 = Ok out -> B2R (nth 1001 out f64_0) = B2R (nth 1000 (all_samples b) f64_0).
Proof.
  intros Hf (Tb & Hup & _ & HL & Hes) Hlen Hn E. rewrite Hf in Hup. unfold EvaluationBand in E. rewrite Tb in E. change (WaveletB =? CurveB)%Z with false in E. cbv iota in E.
  assert (Lt : length (times 0 (n - 1)) = Z.to_nat n) by (unfold times; rewrite map_length, seq_length; f_equal; lia).
  apply (map_o_nth _ 0%Z f64_0 _ _ 1001) in E; [|rewrite Lt; lia].
  assert (N : nth 1001 (times 0 (n - 1)) 0%Z = 1001%Z).
  { unfold times. replace (Z.to_nat (n - 1 + 1 - 0)) with (Z.to_nat n) by lia. rewrite (nth_indep _ 0%Z (0 + Z.of_nat 0)%Z) by (rewrite map_length, seq_length; lia).
    rewrite (map_nth (fun i => (0 + Z.of_nat i)%Z)). rewrite seq_nth by lia. reflexivity. }
  rewrite N in E. clear N. unfold band_sample in E. destruct (b_effects b) as [|e es] eqn:Eb; [discriminate|].
  rewrite Tb in E. assert (T : getEffectTimeLength (last (e :: es) effect0) WaveletB (getTransientDuration 1000) = Ok f64_0) by (unfold getEffectTimeLength; destruct (e_kfs _); reflexivity).
  rewrite T in E. cbn [obind rev] in E. clear T.
  destruct position_1001 as (P1 & P2 & P3 & P4). set (x := sample_position 8000 0 1000 1001) in *.
  destruct (Hes 0%nat e eq_refl) as (Ep & Ls & Fs). change (Z.of_nat 0 * Z.of_nat 128)%Z with 0%Z in Ep.
  set (v := nth 1000 (e_samples e) f64_0). assert (L1024 : (length (e_samples e) = 1024)%nat) by (rewrite Ls; reflexivity).
  assert (A : adds b x e v).
  { split; [rewrite Ep; exact P1|]. rewrite Hup. unfold EvaluateWavelet. rewrite Ep, P4. cbn [obind]. unfold vec_size. rewrite L1024. change (Z.of_nat 1024 <=? 1000)%Z with false. change (1000 <? 0)%Z with false. cbv iota.
    change (Z.to_nat 1000) with 1000%nat. rewrite (nth_error_nth' _ f64_0) by lia. reflexivity. }
  assert (Fv : is_finite v = true) by (rewrite Forall_forall in Fs; apply Fs, nth_In; lia).
  assert (N2 : Forall (adds_nothing b x) (rev es)).
  { apply Forall_rev, Forall_forall. intros e' He. apply In_nth_error in He. destruct He as [m Hm]. left.
    destruct (Hes (S m) e' Hm) as (Ep' & _ & _). destruct (fle (f64_of_Z (e_pos e')) x) eqn:C; [exfalso|reflexivity].
    assert (Lm : (S m < length (e :: es))%nat) by (apply nth_error_Some; cbn [nth_error]; congruence). change (2 ^ 31)%Z with 2147483648%Z in Hlen.
    destruct (f64_of_Z_ok 128 ltac:(lia)) as [R1 F1]. apply (flt_R x (f64_of_Z 128) P3 F1) in P2. rewrite R1 in P2.
    destruct (f64_of_Z_ok (e_pos e')) as [R2 F2]; [rewrite Ep'; change (2 ^ 53)%Z with 9007199254740992%Z; lia|].
    rewrite (fle_R _ _ F2 P3), R2 in C. assert (128 <= IZR (e_pos e')) by (apply IZR_le; rewrite Ep'; lia). rewrite Rle_bool_false in C by lra. discriminate. }
  destruct (one_effect fsin fpow fuel b Tb x (rev es) e [] v N2 (Forall_nil _) A Fv) as (r & Er & Fr & Rr).
  rewrite Er in E. injection E as <-. rewrite Rr. unfold v, all_samples. rewrite Eb. cbn [flat_map]. rewrite app_nth1 by lia. reflexivity.
Qed.

Lemma sub_self v : is_finite v = true -> sub64 v v = f64_0.
Proof.
  intros F. unfold sub64. pose proof (Bminus_correct 53 1024 prec53 emax1024 mode_NE v v F F) as H. rewrite Rminus_diag_eq in H by reflexivity. rewrite round_0 in H by apply valid_rnd_N.
  rewrite Rabs_R0, Rlt_bool_true in H by apply bpow_gt_0. destruct H as (H1 & H2 & H3). rewrite Rcompare_Eq in H3 by reflexivity.
  destruct (Bminus mode_NE v v) as [b|b| |b m e B]; try discriminate.
  - cbn [Bsign] in H3. unfold f64_0. f_equal. rewrite H3. destruct (Bsign v); reflexivity.
  - exfalso. cbn [B2R] in H1. apply eq_0_F2R in H1. cbn in H1. destruct b; discriminate.
Qed.
(** *** The channels of the result *)
Section Encode.
Variable fsin : f64 -> f64.
Variable fpow : f64 -> f64 -> f64.
Variables akima bezier bspline : list point -> outcome (list f64).
Variables log10 pow2 : f64 -> f64.
Variable getSMR : list f64 -> nat -> f64 * f64.
Variable LP : f64 -> list f64 -> f64 -> list f64.
Local Open Scope Z_scope.
Let chan := pcm_channel fsin fpow akima bezier bspline log10 pow2 getSMR LP.
Let encode := pcm_encode fsin fpow akima bezier bspline log10 pow2 getSMR LP.

Lemma curve_cases cfg rate ts m s low c b c' : pcm_curve cfg rate ts m s low c = Ok (b, c') -> c' = c \/ c' = addBand b c.
Proof.
  unfold pcm_curve. destruct (vectorial_enabled cfg && _)%bool; [|intros H; injection H as <- <-; auto].
  destruct (convertToCurveBand _ _ _ _ _) as [[ok b0]| | |]; try discriminate. cbn [obind]. destruct ok; intros H; injection H as <- <-; auto.
Qed.
Lemma chan_extended mds cfg rate ts m s c c' : Z.of_nat (length s) < 2 ^ 32 -> chan mds cfg rate ts m s c = Ok c' -> extended rate (length s) c c'.
Proof.
  intros Hs. unfold chan, pcm_channel. destruct (if flt f64_0 (curveFrequencyLimit cfg) then _ else _) as [hi| | |]; try discriminate. cbn [obind].
  destruct (pcm_curve _ _ _ _ _ _ _) as [[b c1]| | |] eqn:E; try discriminate. apply curve_cases in E. cbn [obind].
  rewrite cast_u32 by (unfold vec_size; lia). intros H.
  assert (G : exists new, (length new <= 1)%nat /\ same_metadata c c1 /\ c_bands c1 = c_bands c ++ new).
  { destruct E as [-> | ->]; [exists []|exists [b]]; repeat split; try (cbn; lia). rewrite app_nil_r. reflexivity. }
  destruct G as (new & Ln & M & Eb). unfold same_metadata in M.
  destruct (wavelet_enabled cfg).
  - destruct (pcm_residual _ _ _ _ _ _ _ _ _ _ _) as [r| | |]; try discriminate. cbn [obind] in H. destruct (int_of_float _ _); try discriminate. cbn [obind] in H.
    destruct (encodeSignal _ _ _ _ _ _ _ _ _ _) as [w| | |]; try discriminate. cbn [obind] in H. injection H as <-.
    split; [exact M|]. split; [reflexivity|]. split; [reflexivity|]. exists (new ++ [w]). cbn [c_bands addBand set_sampling]. split; [rewrite app_assoc, <- Eb; reflexivity|rewrite app_length; cbn; lia].
  - injection H as <-. split; [exact M|]. split; [reflexivity|]. split; [reflexivity|]. exists new. split; [exact Eb|lia].
Qed.
Lemma channels_ok mds cfg rate ts m : forall ss cs i out, (length cs = length ss)%nat ->
  pcm_channels fsin fpow akima bezier bspline log10 pow2 getSMR LP mds cfg rate ts m i ss cs = Ok out ->
  length out = length ss /\ forall j s c, nth_error ss j = Some s -> nth_error cs j = Some c -> exists c', nth_error out j = Some c' /\ chan (mds (i + j)%nat) cfg rate ts m s c = Ok c'.
Proof.
  induction ss as [|s ss IH]; intros [|c cs] i out L E; try discriminate.
  - injection E as <-. split; [reflexivity|]. intros [|j] s c H; discriminate.
  - cbn [pcm_channels] in E. destruct (pcm_channel _ _ _ _ _ _ _ _ _ (mds i) cfg rate ts m s c) as [c1| | |] eqn:E1; try discriminate. cbn [obind] in E.
    destruct (pcm_channels _ _ _ _ _ _ _ _ _ mds cfg rate ts m (S i) ss cs) as [r| | |] eqn:E2; try discriminate. cbn [obind] in E. injection E as <-.
    destruct (IH cs (S i) r) as [Lr Hr]; [cbn in L; lia|exact E2|]. split; [cbn; lia|]. intros [|j] s' c' Hs Hc.
    + injection Hs as <-. injection Hc as <-. exists c1. rewrite Nat.add_0_r. split; [reflexivity|exact E1].
    + cbn [nth_error] in *. rewrite <- plus_n_Sm. apply (Hr j s' c' Hs Hc).
Qed.
Theorem encoded_channels mds w cfg ts p q : Forall (fun s => Z.of_nat (length s) < 2 ^ 32) (w_channels w) -> encode mds (Some w) cfg ts p = Ok (Some q) ->
  q = set_channels (p_channels q) p /\ length (p_channels q) = length (w_channels w) /\ (length (p_channels p) <= length (w_channels w))%nat /\
  forall i s, nth_error (w_channels w) i = Some s -> exists c', nth_error (p_channels q) i = Some c' /\
    extended (w_rate w) (length s) (nth i (p_channels p) (placeholder (Z.of_nat i))) c'.
Proof.
  intros Hs E. unfold encode, pcm_encode in E. destruct (Nat.ltb_spec (length (w_channels w)) (length (p_channels p))) as [|Hl]; [discriminate|].
  destruct (construct _); try discriminate. cbn [obind] in E.
  destruct (pcm_channels _ _ _ _ _ _ _ _ _ _ _ _ _ _ _ _ _) as [cs| | |] eqn:E1; try discriminate. cbn [obind] in E. injection E as <-.
  apply channels_ok in E1; [|unfold placeholders; rewrite app_length, map_length, seq_length; lia]. destruct E1 as [Lc Hc].
  split; [reflexivity|]. split; [exact Lc|]. split; [exact Hl|]. intros i s Hi.
  assert (Li : (i < length (w_channels w))%nat) by (apply nth_error_Some; congruence).
  assert (N : nth_error (p_channels p ++ placeholders (length (p_channels p)) (length (w_channels w))) i = Some (nth i (p_channels p) (placeholder (Z.of_nat i)))).
  { destruct (Nat.lt_ge_cases i (length (p_channels p))) as [G|G].
    - rewrite nth_error_app1 by exact G. apply nth_error_nth', G.
    - rewrite nth_error_app2 by exact G. rewrite nth_overflow by exact G. unfold placeholders. rewrite nth_error_map, (nth_error_nth' _ 0%nat) by (rewrite seq_length; lia).
      rewrite seq_nth by lia. cbn [option_map]. do 3 f_equal. lia. }
  destruct (Hc i s _ Hi N) as (c' & E' & H). exists c'. split; [exact E'|]. apply chan_extended in H; [exact H|].
  rewrite Forall_forall in Hs. apply Hs. eapply nth_error_In, Hi.
Qed.
Theorem encode_fails mds w cfg ts p : encode mds (Some w) cfg ts p = Ok None <-> (length (w_channels w) < length (p_channels p))%nat.
Proof.
  unfold encode, pcm_encode. destruct (Nat.ltb_spec (length (w_channels w)) (length (p_channels p))) as [H|H]; split; try reflexivity; try lia; intros E.
  destruct (construct _); try discriminate. cbn [obind] in E. destruct (pcm_channels _ _ _ _ _ _ _ _ _ _ _ _ _ _ _ _ _); discriminate.
Qed.
Theorem unreadable mds cfg ts p : p_channels p = [] -> 8 <= wavelet_blockLength cfg -> encode mds None cfg ts p = Ok (Some (set_channels [] p)).
Proof.
  intros Hp Hb. unfold encode, pcm_encode, wav0. cbn [w_channels w_rate]. rewrite Hp. cbn [length Nat.ltb Nat.leb]. unfold construct.
  rewrite (proj2 (Z.ltb_ge _ 0)) by lia. rewrite (proj2 (Z.eqb_neq _ 1)) by lia. rewrite (proj2 (Z.ltb_ge _ 8)) by lia. reflexivity.
Qed.

(** *** Settings that lose the signal *)
Lemma minus_self s : Forall (fun v => is_finite v = true) s -> minus s s = Ok (repeat f64_0 (length s)).
Proof.
  induction 1 as [|v s Hv _ IH]; [reflexivity|]. cbn [minus length repeat]. rewrite IH. cbn [obind].
  rewrite (sub_self v Hv). reflexivity.
Qed.
Lemma zeros_finite n : Forall (fun v : f64 => is_finite v = true) (repeat f64_0 n).
Proof. apply Forall_forall. intros v H. apply repeat_spec in H. subst. reflexivity. Qed.
(** Without vectorial coding, what the filter lets pass is lost. *)
Theorem no_vectorial_loses mds cf bl budget rate ts m s c : flt f64_0 cf = true -> Forall (fun v => is_finite v = true) s ->
  LP (f64_of_Z rate) s cf = s -> LP (f64_of_Z rate) (repeat f64_0 (length s)) cf = repeat f64_0 (length s) ->
  chan mds (Config cf bl budget true false) rate ts m s c = chan mds (Config cf bl budget true false) rate ts m (repeat f64_0 (length s)) c.
Proof.
  intros Hcf F L1 L2. unfold chan, pcm_channel, pcm_curve, pcm_residual. cbn [curveFrequencyLimit wavelet_enabled vectorial_enabled andb wavelet_blockLength wavelet_bitbudget]. rewrite Hcf.
  cbv zeta. rewrite ?repeat_length, L1, L2, (minus_self s F). pose proof (minus_self _ (zeros_finite (length s))) as E. rewrite repeat_length in E. rewrite E. cbn [obind].
  unfold vec_size. rewrite ?repeat_length. reflexivity.
Qed.
(** With both codings disabled, no band is added. *)
Theorem nothing_encoded mds cf bl budget rate ts m s c : flt f64_0 cf = false \/ length (LP (f64_of_Z rate) s cf) = length s ->
  exists c', chan mds (Config cf bl budget false false) rate ts m s c = Ok c' /\ c_bands c' = c_bands c.
Proof.
  intros H. unfold chan, pcm_channel, pcm_curve. cbn [curveFrequencyLimit wavelet_enabled vectorial_enabled andb].
  destruct (flt f64_0 cf) eqn:C.
  - destruct H as [H|H]; [discriminate|]. destruct (minus_ok s (LP (f64_of_Z rate) s cf)) as [r ->]; [exact H|]. cbn [obind]. eexists. split; reflexivity.
  - cbn [obind]. eexists. split; reflexivity.
Qed.
Lemma channels_all mds cfg rate ts m : (forall i s c, exists c', chan (mds i) cfg rate ts m s c = Ok c' /\ c_bands c' = c_bands c) -> forall ss cs i, (length cs = length ss)%nat ->
  exists out, pcm_channels fsin fpow akima bezier bspline log10 pow2 getSMR LP mds cfg rate ts m i ss cs = Ok out /\ map c_bands out = map c_bands cs.
Proof.
  intros H. induction ss as [|s ss IH]; intros [|c cs] i L; try discriminate; [exists []; auto|].
  cbn [pcm_channels]. destruct (H i s c) as (c' & E & B). unfold chan in E. rewrite E. cbn [obind]. destruct (IH cs (S i)) as (out & Eo & Bo); [cbn in L; lia|].
  rewrite Eo. cbn [obind]. exists (c' :: out). split; [reflexivity|]. cbn [map]. rewrite B, Bo. reflexivity.
Qed.
Theorem nothing_encoded_file mds w cf bl budget ts p : (forall r s f, length (LP r s f) = length s) -> (length (p_channels p) <= length (w_channels w))%nat -> 8 <= bl ->
  exists q, encode mds (Some w) (Config cf bl budget false false) ts p = Ok (Some q) /\
    map c_bands (p_channels q) = map c_bands (p_channels p) ++ repeat [] (length (w_channels w) - length (p_channels p)).
Proof.
  intros HL Hl Hb. unfold encode, pcm_encode. rewrite (proj2 (Nat.ltb_ge _ _)) by exact Hl. cbn [wavelet_blockLength]. unfold construct.
  rewrite (proj2 (Z.ltb_ge _ 0)) by lia. rewrite (proj2 (Z.eqb_neq _ 1)) by lia. rewrite (proj2 (Z.ltb_ge _ 8)) by lia. cbn [orb obind].
  destruct (channels_all mds (Config cf bl budget false false) (w_rate w) ts (p_modality p)
     ltac:(intros; apply nothing_encoded; right; apply HL) (w_channels w) (p_channels p ++ placeholders (length (p_channels p)) (length (w_channels w))) 0%nat) as (out & E & B).
  - unfold placeholders. rewrite app_length, map_length, seq_length. lia.
  - rewrite E. cbn [obind]. eexists. split; [reflexivity|]. change (p_channels (set_channels out p)) with out. rewrite B, map_app. f_equal. unfold placeholders. rewrite map_map. cbn [placeholder c_bands].
    generalize (length (p_channels p)) at 1. generalize (length (w_channels w) - length (p_channels p))%nat. induction n as [|n IH]; intros k; [reflexivity|]. cbn [seq map repeat]. rewrite IH. reflexivity.
Qed.
(** With a negative cutoff frequency and no wavelet band, the samples do not matter. *)
Theorem negative_cutoff mds cf bl budget rate ts m s s' c : flt cf f64_0 = true -> length s = length s' ->
  chan mds (Config cf bl budget false true) rate ts m s c = chan mds (Config cf bl budget false true) rate ts m s' c.
Proof.
  intros Hcf L. unfold chan, pcm_channel, pcm_curve. cbn [curveFrequencyLimit wavelet_enabled vectorial_enabled andb negb orb].
  assert (H : flt f64_0 cf = false /\ feq cf f64_0 = false) by (destruct cf as [[]|[]| |[] ? ? ?]; try discriminate; split; reflexivity).
  destruct H as [-> ->]. cbn [obind orb]. unfold vec_size. rewrite L. reflexivity.
Qed.
(** *** Short signals *)
Lemma tick_0 ts rate : 0 < ts < 2 ^ 31 -> 0 < rate < 2 ^ 31 -> tick_of ts (f64_of_Z rate) 0 = Ok 0.
Proof.
  intros Ht Hr. change (2 ^ 31) with 2147483648 in *. unfold tick_of. destruct (f64_of_Z_ok ts ltac:(lia)) as [E1 F1]. destruct (f64_of_Z_ok rate ltac:(lia)) as [E2 F2]. destruct (f64_of_Z_ok 0 ltac:(lia)) as [E3 F3].
  destruct (mul64_ok (f64_of_Z ts) (f64_of_Z 0) F1 F3) as [E4 F4]; [rewrite E3, Rmult_0_r, Rabs_R0; apply bpow_ge_0|]. rewrite E3, Rmult_0_r, rnd64_0 in E4.
  destruct (div64_ok (mul64 (f64_of_Z ts) (f64_of_Z 0)) (f64_of_Z rate) F4) as [E5 F5]; [rewrite E2; apply IZR_neq; lia|rewrite E4; unfold Rdiv; rewrite Rmult_0_l, Rabs_R0; apply bpow_ge_0|].
  rewrite E4 in E5. unfold Rdiv in E5. rewrite Rmult_0_l, rnd64_0 in E5.
  destruct (fround_R (div64 (mul64 (f64_of_Z ts) (f64_of_Z 0)) (f64_of_Z rate))) as [E6 F6]. rewrite F5 in F6. rewrite E5 in E6.
  apply ok_int; [exact F6| |change (2 ^ 31) with 2147483648; lia]. rewrite E6. f_equal. exact (Zrnd_IZR (Znearest (Zle_bool 0)) 0).
Qed.
Theorem short_signal mds cf bl budget rate ts m s c upper : flt f64_0 cf = true -> int_of_float i32 cf = Ok upper ->
  (length s <= 1)%nat -> length (LP (f64_of_Z rate) s cf) = length s -> 0 < ts < 2 ^ 31 -> 0 < rate < 2 ^ 31 ->
  chan mds (Config cf bl budget true true) rate ts m s c = UB.
Proof.
  intros Hcf Hu Hs HL Ht Hr. unfold chan, pcm_channel, pcm_curve, pcm_residual. cbn [curveFrequencyLimit wavelet_enabled vectorial_enabled andb negb orb]. rewrite Hcf. cbn [orb].
  destruct (minus_ok s _ HL) as [r ->]. cbn [obind]. unfold convertToCurveBand.
  assert (Le : fle cf f64_0 = false) by (destruct cf as [[]|[]| |[] ? ? ?]; try discriminate; reflexivity).
  rewrite Le, Hu. cbn [obind]. 
  destruct s as [|x [|? ?]]; [|destruct (LP (f64_of_Z rate) [x] cf) as [|y [|? ?]]; try discriminate|cbn in Hs; lia].
  - destruct (LP _ _ _); [|discriminate]. cbn [localExtrema curve_loop obind]. reflexivity.
  - cbn [localExtrema curve_loop fst]. rewrite (tick_0 ts rate Ht Hr). cbn [obind]. change (-1 <? 0) with true. cbv iota. change (0 <? 0) with false. change (0 =? 0) with true. cbv iota. cbn [app replace_last removelast obind snd].
    match goal with |- context [EvaluationBand _ _ _ _ _ 1 ?b _ _ _ _] => assert (U : EvaluationBand fsin fpow akima bezier bspline 1 b (vec_size [x]) rate 0 ts = UB) end.
    { unfold EvaluationBand. cbn [b_type set_curve b_curve b_effects insert_effect band0]. change (CurveB =? CurveB) with true. cbv iota. cbn [add_curve_effects].
      erewrite one_keyframe; [reflexivity|reflexivity|reflexivity|reflexivity|..]; cbn [e_pos]; unfold vec_size; cbn [length]; try lia.
      unfold curve_type_for. repeat match goal with |- context [if ?x then _ else _] => destruct x end; tauto. }
    rewrite U. reflexivity.
Qed.
Theorem short_file mds cf bl budget ts w p s rest upper : flt f64_0 cf = true -> int_of_float i32 cf = Ok upper -> 8 <= bl ->
  (forall r s f, length (LP r s f) = length s) -> w_channels w = s :: rest -> (length s <= 1)%nat -> (length (p_channels p) <= length (w_channels w))%nat -> 0 < ts < 2 ^ 31 -> 0 < w_rate w < 2 ^ 31 ->
  encode mds (Some w) (Config cf bl budget true true) ts p = UB.
Proof.
  intros Hcf Hu Hb HL Ew Hs Hl Ht Hr. unfold encode, pcm_encode. rewrite (proj2 (Nat.ltb_ge _ _)) by exact Hl. cbn [wavelet_blockLength]. unfold construct.
  rewrite (proj2 (Z.ltb_ge _ 0)) by lia. rewrite (proj2 (Z.eqb_neq _ 1)) by lia. rewrite (proj2 (Z.ltb_ge _ 8)) by lia. cbn [orb obind].
  assert (Lc : length (p_channels p ++ placeholders (length (p_channels p)) (length (w_channels w))) = length (w_channels w)) by (unfold placeholders; rewrite app_length, map_length, seq_length; lia).
  destruct (p_channels p ++ placeholders (length (p_channels p)) (length (w_channels w))) as [|c cs]; [rewrite Ew in Lc; discriminate|].
  rewrite Ew. cbn [pcm_channels]. pose proof (short_signal (mds 0%nat) cf bl budget (w_rate w) ts (p_modality p) s c upper Hcf Hu Hs (HL _ _ _) Ht Hr) as U. unfold chan in U. rewrite U. reflexivity.
Qed.
End Encode.
(** *** The options *)
Lemma options_used cube square r n bl cf w v cfg : choose_config cube square r n (Some bl) (Some cf) w v = Ok cfg -> r <> None \/ n <> None ->
  curveFrequencyLimit cfg = cf /\ wavelet_blockLength cfg = bl /\ wavelet_enabled cfg = w /\ vectorial_enabled cfg = v.
Proof.
  intros E H. unfold choose_config in E. destruct r as [r|].
  - unfold generateConfigParam in E. destruct (int_of_float _ _); try discriminate. cbn [obind] in E. destruct (bl <? 1)%Z; [discriminate|]. injection E as <-. auto.
  - destruct n as [n|]; [injection E as <-; auto|]. destruct H; congruence.
Qed.
Lemma options_ignored cube square bl cf w v : choose_config cube square None None bl cf w v = Ok (generateDefaultConfig w v).
Proof. reflexivity. Qed.
