(** Proofs about the synthesizer program: the contents of the audio file, and the metadata written beside it. *)
From Coq Require Import Strings.String Reals Psatz.
From Flocq Require Import Core.Core.
From Flocq Require IEEE754.Binary IEEE754.Bits.
From Verif Require Import Base FloatBase FloatModel TypesModel SemanticModel ToolsModel ToolsSpec ToolsProof RefactorModel SynthModel SynthSpec
  PcmModel PcmSpec PcmProof StreamModel WaveletModel MainModel MainSpec MainProof MainEncode MainOhm MainSynth.
Local Open Scope Z_scope.
Local Open Scope list_scope.
Ltac Zify.zify_post_hook ::= Z.div_mod_to_equations.

(** *** The words of the audio file *)
Lemma save_samples_words conv n c b : forall i o o', save_samples conv n c i b o = Ok o' -> exists ws, sample_words conv b = Ok ws.
Proof.
  induction b as [|v b IH]; intros i o o' H; cbn [save_samples sample_words] in *; [eexists; reflexivity|].
  apply obind_inv in H as (x & X & H). apply obind_inv in H as (o1 & _ & H). destruct (IH _ _ _ H) as (ws & W). rewrite X. cbn [obind]. rewrite W. cbn [obind].
  eexists. reflexivity.
Qed.
Lemma save_channels_words conv n buff : forall c o o', save_channels conv n c buff o = Ok o' -> exists wss, Forall2 (fun b ws => sample_words conv b = Ok ws) buff wss.
Proof.
  induction buff as [|b buff IH]; intros c o o' H; cbn [save_channels] in H; [exists []; constructor|].
  apply obind_inv in H as (o1 & S & H). destruct (save_samples_words _ _ _ _ _ _ _ S) as (ws & W). destruct (IH _ _ _ H) as (wss & F).
  exists (ws :: wss). constructor; assumption.
Qed.
Lemma sample_words_at conv b : forall ws k v, sample_words conv b = Ok ws -> nth_error b k = Some v -> exists x, nth_error ws k = Some x /\ sample_word conv v = Ok x.
Proof.
  induction b as [|u b IH]; intros ws k v H N; [destruct k; discriminate N|]. cbn [sample_words] in H.
  apply obind_inv in H as (x & X & H). apply obind_inv in H as (r & R & H). injection H as <-. destruct k as [|k]; cbn [nth_error] in *.
  - injection N as <-. exists x. split; [reflexivity|exact X].
  - exact (IH _ _ _ R N).
Qed.
Lemma forall2_at {A B} (R : A -> B -> Prop) l m d : Forall2 R l m -> forall c x, nth_error l c = Some x -> R x (nth c m d).
Proof. induction 1 as [|a b l m H _ IH]; intros [|c] x N; try discriminate N; cbn in *; [injection N as <-; exact H|exact (IH _ _ N)]. Qed.
Lemma save_interleaved conv sg m words : Forall (fun s => List.length s = m) sg -> saveFile conv sg = Ok (Some words) -> interleaved conv sg m words.
Proof.
  intros F H. destruct sg as [|b bs]; [discriminate H|]. pose proof (Forall_inv F) as Fb. unfold saveFile in H.
  destruct (forallb _ bs); [|discriminate H]. apply obind_inv in H as (out & O & H). injection H as <-. rewrite Fb in O.
  set (sg := b :: bs) in *. set (N := List.length sg) in *. assert (N0 : (0 < N)%nat) by (unfold N, sg; cbn; lia).
  destruct (save_channels_words _ _ _ _ _ _ O) as (wss & W).
  destruct (save_channels_ok conv N m sg wss W F 0 (repeat 0 (N * m)) (le_n N) ltac:(rewrite repeat_length; lia)) as (out' & O' & L & At).
  rewrite O in O'. injection O' as <-. split; [rewrite L, repeat_length; reflexivity|].
  intros c k s v Hc Hk. assert (C : (c < N)%nat) by (apply nth_error_Some; unfold sg in *; congruence).
  assert (K : (k < m)%nat). { pose proof F as F1. rewrite Forall_forall in F1. rewrite <- (F1 s) by (exact (nth_error_In _ _ Hc)). apply nth_error_Some. congruence. }
  fold N. specialize (At (k * N + c)%nat ltac:(nia)).
  assert (M1 : ((k * N + c) mod N = c)%nat) by (rewrite Nat.add_comm, Nat.mod_add by lia; apply Nat.mod_small; exact C).
  assert (D1 : ((k * N + c) / N = k)%nat) by (rewrite Nat.div_add_l by lia; rewrite Nat.div_small by exact C; lia).
  rewrite M1, D1 in At. replace ((0 <=? c)%nat && (c <? 0 + List.length sg)%nat) with true in At by (fold N; lia). rewrite Nat.sub_0_r in At.
  pose proof (forall2_at _ _ _ [] W _ _ Hc) as Ws. cbn beta in Ws. destruct (sample_words_at _ _ _ _ _ Ws Hk) as (x & X & Sx).
  exists x. split; [rewrite At; exact X|exact Sx].
Qed.

(** *** The signals *)
Lemma decode_bands_iff ts c d : decode_bands ts c = Ok d -> decoded ts c d.
Proof.
  unfold decode_bands. intros H. apply obind_inv in H as (bs & B & H). injection H as <-. exists bs. split; [reflexivity|].
  apply map_o_forall2 in B. induction B as [|b b' l m E _ IH]; constructor; [|exact IH]. unfold decode_band in E.
  destruct (b_type b =? WaveletB) eqn:T; [left|right]; split; try lia; [exact E|injection E as <-; reflexivity].
Qed.
Lemma forall2_app_flat {A B C D} (f : A -> list C) (g : B -> list D) (R : C -> D -> Prop) l m :
  Forall2 (fun a b => Forall2 R (f a) (g b)) l m -> Forall2 R (flat_map f l) (flat_map g m).
Proof. induction 1; cbn; [constructor|]. apply Forall2_app; assumption. Qed.
Lemma signals_ok w h T fs pad ts n sg : play_signals (w_evaluate w) (w_pow10 w) h T fs pad = Ok sg -> h_timescale h = Some ts -> play_count T fs pad ts = Ok n ->
  Forall2 (fun pc s => signal w n fs pad ts (fst pc) (snd pc) s) (parts h) sg.
Proof.
  intros H Hts N. unfold play_signals in H. rewrite Hts in H. apply obind_inv in H as (ps & P & H). apply obind_inv in H as (ls & L & H). injection H as <-.
  apply map_o_forall2 in P. apply map_o_forall2 in L. unfold parts. rewrite <- (map_id ls), <- flat_map_concat_map.
  apply forall2_app_flat. revert ls L. induction P as [|p q l l' E _ IH]; intros ls L; inversion L as [|? s ? ls' E2 L']; subst; constructor; [|exact (IH _ L')].
  unfold decode_perception in E. apply obind_inv in E as (cs & C & E). injection E as <-. unfold play_perception in E2. cbn [p_channels set_channels] in E2.
  apply map_o_forall2 in C. apply map_o_forall2 in E2. clear - C E2 N. revert s E2. induction C as [|c d l l' D _ IH]; intros s S; inversion S as [|? x ? s' E S']; subst; cbn [map]; constructor; [|exact (IH _ S')].
  cbn [fst snd]. pose proof (decode_bands_iff _ _ _ D) as Dd. unfold play_channel in E. rewrite N in E. cbn [obind] in E. apply obind_inv in E as (amp & A & E). injection E as <-.
  exists d, amp. split; [exact Dd|]. split; [exact A|]. destruct Dd as (bs & -> & _). reflexivity.
Qed.
Lemma synth_audio fuel w args f h fs pad name code out : full_length w -> input w args f -> loaded fuel w args f h ->
  synth_frequency args fs -> synth_padding args pad -> audio_output args name -> synth_main fuel w args = Ok (code, out) ->
  code = 0 /\ exists ts n signals words, h_timescale h = Some ts /\
    Forall2 (fun pc s => signal w n fs pad ts (fst pc) (snd pc) s) (parts (linearize h)) signals /\
    Forall (fun s => List.length s = Z.to_nat n) signals /\
    interleaved (w_conv w) signals (Z.to_nat n) words /\ audio_written w args name words out.
Proof.
  intros FL I L F P A H. destruct (synth_done _ _ _ _ _ _ _ _ _ _ FL I L F P A H) as (C & ts & T & n & sg & words & more & E1 & E2 & Cn & S & Fs & Sv & Hm & _ & O).
  split; [exact C|]. exists ts, n, sg, words. split; [exact E1|]. split; [apply (signals_ok _ _ _ _ _ _ _ _ S); [exact E1|exact Cn]|].
  split; [exact Fs|]. split; [exact (save_interleaved _ _ _ _ Fs Sv)|]. exists more. split; [exact O|exact (synth_no_more _ _ _ _ Hm)].
Qed.

(** *** The metadata *)
Lemma gain_bits x : f32_of_bits (bits_of_f32 x) = x.
Proof. unfold f32_of_bits, bits_of_f32, Bits.b32_of_bits, Bits.bits_of_b32. rewrite Bits.binary_float_of_bits_of_binary_float. apply Binary.B2BSN_BSN2B. Qed.
Lemma described_iff name p : Z.of_nat (List.length (p_channels p)) < 2 ^ 15 -> Forall (fun c => 0 <= c_mask c < 2 ^ 32) (p_channels p) ->
  described_by name p (perception_to_ohm name (linearizeLibrary p)).
Proof.
  intros C M. unfold perception_to_ohm, linearizeLibrary. cbn [p_channels p_desc set_library set_channels]. rewrite map_length.
  rewrite i16_round by (change (2 ^ 15) with 32768 in *; lia). rewrite Nat2Z.id. split; [reflexivity|]. split; [reflexivity|]. split; [reflexivity|]. cbn [l_channels].
  rewrite firstn_all2 by (rewrite map_length; lia). rewrite map_map. induction M as [|c cs Hc _ IH]; cbn [map]; constructor.
  - cbn. split; [reflexivity|]. split; [apply gain_bits|]. unfold cast. cbn. apply Z.mod_small. exact Hc.
  - apply IH. cbn [List.length] in C. lia.
Qed.
Lemma synth_metadata fuel w args f h fs pad name code out v : full_length w -> input w args f -> loaded fuel w args f h ->
  synth_frequency args fs -> synth_padding args pad -> audio_output args name -> given args "--generate_ohm" -> w_writable w (w_ohm_path w name) = true ->
  (h_version h = [] /\ v = 0 \/ numeral (h_version h) v) -> - 2 ^ 15 <= v < 2 ^ 15 ->
  Forall (fun p => Z.of_nat (List.length (p_channels p)) < 2 ^ 15 /\ Forall (fun c => 0 <= c_mask c < 2 ^ 32) (p_channels p)) (h_perceptions h) ->
  synth_main fuel w args = Ok (code, out) ->
  exists o, In (w_ohm_path w name, Metadata o) out /\ o_version o = v /\ o_desc o = h_desc h /\
    Forall2 (described_by (w_filename w name)) (h_perceptions h) (o_elements o).
Proof.
  intros FL I L F P A G Wr V V1 C H. destruct (synth_done _ _ _ _ _ _ _ _ _ _ FL I L F P A H) as (_ & ts & T & n & sg & words & more & _ & _ & _ & _ & _ & _ & Hm & _ & O).
  apply audio_iff in A. subst name. unfold synth_more in Hm. destruct (cmdOptionExists args (bytes_of "--generate_ohm")) eqn:E; [|apply has_not in E; tauto].
  apply obind_inv in Hm as (o & Ho & Hm). injection Hm as <-. unfold written in O. rewrite Wr in O. exists o.
  split; [rewrite O; apply in_or_app; right; left; reflexivity|].
  unfold extractMetadataToOHM in Ho. apply obind_inv in Ho as (z & Z & Ho). injection Ho as <-. cbn [o_version o_desc o_elements].
  assert (Ev : h_version (linearize h) = h_version h) by reflexivity. rewrite Ev in Z.
  assert (z = v) as ->.
  { destruct V as [[V ->]|V]; [rewrite V in Z; injection Z as <-; reflexivity|]. pose proof V as V2. apply stoi_iff in V2. destruct (h_version h); [discriminate V2|].
    rewrite V2 in Z. injection Z as <-. reflexivity. }
  split; [apply i16_round; exact V1|]. split; [reflexivity|]. unfold linearize. cbn [h_perceptions set_perceptions]. clear - C.
  induction C as [|p ps [C1 C2] _ IH]; cbn [map]; constructor; [apply described_iff; assumption|exact IH].
Qed.
Lemma synth_version fuel w args f h fs pad : full_length w -> input w args f -> loaded fuel w args f h ->
  synth_frequency args fs -> synth_padding args pad -> given args "--generate_ohm" -> h_version h <> [] -> (forall v, ~ numeral (h_version h) v) ->
  forall code out, synth_main fuel w args <> Ok (code, out).
Proof.
  intros FL I L F P G V0 V code out H. destruct (synth_done _ _ _ _ _ _ _ _ _ _ FL I L F P (proj2 (audio_iff args (synth_output args)) eq_refl) H) as (_ & ts & T & n & sg & words & more & _ & _ & _ & _ & _ & _ & M & _).
  unfold synth_more in M. destruct (cmdOptionExists args (bytes_of "--generate_ohm")) eqn:E; [|apply has_not in E; tauto].
  rewrite version_throws in M; [discriminate M|exact V0|exact V].
Qed.

(** *** The audio and the metadata encoded again *)
Lemma channels_from_length j ks cs : channels_from j ks cs -> List.length cs = List.length ks.
Proof. induction 1; cbn; congruence. Qed.
Lemma channels_from_at j ks cs : channels_from j ks cs -> forall i k, nth_error ks i = Some k -> exists c, nth_error cs i = Some c /\ c_gain c = f32_of_bits (k_gain k).
Proof.
  induction 1 as [|j k ks c cs H _ IH]; intros i k' N; [destruct i; discriminate N|]. destruct i as [|i]; cbn [nth_error] in *; [|exact (IH _ _ N)].
  injection N as <-. exists c. rewrite H. split; reflexivity.
Qed.
Lemma forall2_nth_error {A B} (R : A -> B -> Prop) l m : Forall2 R l m -> forall i x, nth_error l i = Some x -> exists y, nth_error m i = Some y /\ R x y.
Proof. induction 1 as [|a b l m H _ IH]; intros [|i] x N; try discriminate N; cbn in *; [injection N as <-; exists b; split; [reflexivity|exact H]|exact (IH _ _ N)]. Qed.
Lemma again fsin fpow akima bezier bspline log10 pow2 getSMR LP mds name p l k q0 wv cfg ts q : described_by name p l -> perception_from k l q0 ->
  Forall (fun s => Z.of_nat (List.length s) < 2 ^ 32) (w_channels wv) ->
  pcm_encode fsin fpow akima bezier bspline log10 pow2 getSMR LP mds (Some wv) cfg ts q0 = Ok (Some q) ->
  List.length (p_channels q) = List.length (w_channels wv) /\
  forall i c, nth_error (p_channels p) i = Some c -> exists c', nth_error (p_channels q) i = Some c' /\ c_gain c' = c_gain c.
Proof.
  intros (D1 & D2 & D3 & D4) (m & cs & _ & Hcs & ->) W H. destruct (encoded_channels _ _ _ _ _ _ _ _ _ _ _ _ _ _ _ W H) as (_ & E1 & E2 & E3). split; [exact E1|].
  intros i c N. destruct (forall2_nth_error _ _ _ D4 _ _ N) as (k0 & K & _ & Kg & _). destruct (channels_from_at _ _ _ Hcs _ _ K) as (c0 & C0 & G0).
  cbn [p_channels] in E2, E3. assert (Li : (i < List.length (w_channels wv))%nat).
  { apply Nat.lt_le_trans with (List.length cs); [apply nth_error_Some; congruence|exact E2]. }
  destruct (nth_error (w_channels wv) i) as [s|] eqn:S; [|apply nth_error_None in S; lia]. destruct (E3 _ _ S) as (c' & C' & X). exists c'. split; [exact C'|].
  rewrite (nth_error_nth _ _ _ C0) in X. destruct X as (Sm & _). rewrite <- Kg, <- G0. destruct Sm as (_ & _ & Sm & _). congruence.
Qed.
Lemma again_channels fsin fpow akima bezier bspline log10 pow2 getSMR LP mds name h p l k q0 wv cfg ts q :
  In p (h_perceptions h) -> described_by name p l -> perception_from k l q0 ->
  List.length (w_channels wv) = List.length (channels_of h) -> Forall (fun s => Z.of_nat (List.length s) < 2 ^ 32) (w_channels wv) ->
  pcm_encode fsin fpow akima bezier bspline log10 pow2 getSMR LP mds (Some wv) cfg ts q0 = Ok (Some q) ->
  List.length (p_channels q) = List.length (channels_of h).
Proof. intros _ D P E W H. rewrite <- E. exact (proj1 (again _ _ _ _ _ _ _ _ _ _ _ _ _ _ _ _ _ _ _ D P W H)). Qed.
Lemma again_gain fsin fpow akima bezier bspline log10 pow2 getSMR LP mds name p l k q0 wv cfg ts q :
  described_by name p l -> perception_from k l q0 -> Forall (fun s => Z.of_nat (List.length s) < 2 ^ 32) (w_channels wv) ->
  pcm_encode fsin fpow akima bezier bspline log10 pow2 getSMR LP mds (Some wv) cfg ts q0 = Ok (Some q) ->
  forall i c, nth_error (p_channels p) i = Some c -> exists c', nth_error (p_channels q) i = Some c' /\ c_gain c' = c_gain c.
Proof. intros D P W H. exact (proj2 (again _ _ _ _ _ _ _ _ _ _ _ _ _ _ _ _ _ _ _ D P W H)). Qed.
