(** Proofs about the programs: the decoder and the synthesizer. *)
From Coq Require Import Strings.String Reals Psatz.
From Flocq Require Import Core.Core.
From Verif Require Import Base FloatBase FloatModel FloatSpec FloatProof Float64Proof TypesModel SemanticModel ToolsModel ToolsSpec ToolsProof ToolsFloatProof
  RefactorModel SynthModel SynthSpec SynthProof SpihtHeader StreamModel WaveletModel MainModel MainSpec MainProof MainEncode.
Local Open Scope Z_scope.
Local Open Scope list_scope.
Ltac Zify.zify_post_hook ::= Z.div_mod_to_equations.

(** *** The decoder *)
Lemma decoder_open fuel w args f o : ~ helped args -> chosen args "-f" "--file" f -> chosen args "-o" "--output" o ->
  decoder_main fuel w args = do '(ok, h) <- readFile fuel (w_bytes w f); if ok then Ok (EXIT_SUCCESS, written w o (Interchange h)) else Ok (EXIT_FAILURE, []).
Proof.
  intros N F O. apply has2_not in N. apply chosen_option in F as [F0 F]. apply chosen_option in O as [O0 O]. unfold decoder_main. rewrite N. cbv zeta. rewrite F, O.
  destruct f; [congruence|]. destruct o; [congruence|]. reflexivity.
Qed.
Lemma decoder_done fuel w args f o h : ~ helped args -> chosen args "-f" "--file" f -> chosen args "-o" "--output" o ->
  readFile fuel (w_bytes w f) = Ok (true, h) -> decoder_main fuel w args = Ok (0, if w_writable w o then [(o, Interchange h)] else []).
Proof. intros N F O R. rewrite (decoder_open _ _ _ _ _ N F O), R. reflexivity. Qed.
Lemma decoder_status fuel w args f o code out : ~ helped args -> chosen args "-f" "--file" f -> chosen args "-o" "--output" o ->
  decoder_main fuel w args = Ok (code, out) -> code = 0.
Proof.
  intros N F O H. rewrite (decoder_open _ _ _ _ _ N F O) in H. unfold readFile in H.
  apply obind_inv in H as ([ok h] & R & H). apply obind_inv in R as (us & _ & R). apply obind_inv in R as (r & _ & R). injection R as <- <-.
  injection H as <- _. reflexivity.
Qed.
Lemma decoder_missing fuel w args f o : ~ helped args -> chosen args "-f" "--file" f -> chosen args "-o" "--output" o -> w_bytes w f = None ->
  decoder_main fuel w args = Ok (0, if w_writable w o then [(o, Interchange (with_perceptions 1000 []))] else []).
Proof. intros N F O B. apply (decoder_done fuel w args f o _ N F O). rewrite B. unfold readFile. cbn [obind]. destruct fuel; reflexivity. Qed.
Lemma decoder_unasked fuel w args : ~ helped args -> (unchosen args "-f" "--file" \/ unchosen args "-o" "--output") -> decoder_main fuel w args = Ok (1, []).
Proof.
  intros N H. apply has2_not in N. unfold decoder_main. rewrite N. cbv zeta. rewrite !unchosen_option in H.
  destruct H as [H|H]; rewrite H; [reflexivity|]. destruct (option2 args "-f" "--file"); reflexivity.
Qed.

(** *** The synthesizer *)
Definition synth_load (fuel : nat) (w : world) (args : list str) (f : str) : outcome (bool * haptics) :=
  if has2 args "-b" "--binary" then readFile fuel (w_bytes w f)
  else do '(_, h) <- w_hjif w f (with_perceptions 1000 []); Ok (true, h).
Lemma synth_load_true fuel w args f b h : synth_load fuel w args f = Ok (b, h) -> b = true.
Proof.
  unfold synth_load. destruct (has2 _ _ _).
  - unfold readFile. intros R. apply obind_inv in R as (us & _ & R). apply obind_inv in R as (r & _ & R). injection R as <- <-. reflexivity.
  - intros R. apply obind_inv in R as ([b' h'] & _ & R). injection R as <- <-. reflexivity.
Qed.
Definition synth_output (args : list str) : str := match option2 args "-o" "--output" with [] => bytes_of "out.wav" | s => s end.
Definition synth_more (w : world) (args : list str) (h : haptics) : outcome (list (str * contents)) :=
  if cmdOptionExists args (bytes_of "--generate_ohm")
  then do o <- extractMetadataToOHM (w_filename w (synth_output args)) h; Ok (written w (w_ohm_path w (synth_output args)) (Metadata o))
  else Ok [].
Lemma synth_open fuel w args f : input w args f -> synth_main fuel w args =
  do ofs <- synth_fs args;
  match ofs with
  | None => Ok (EXIT_FAILURE, [])
  | Some fs =>
      do pad <- synth_pad args;
      do '(ok, h) <- synth_load fuel w args f;
      if (ok : bool) then
        do timeLength <- getTimeLength (linearize h);
        do r <- playFile (w_evaluate w) (w_pow10 w) (w_conv w) (linearize h) timeLength fs pad;
        match r with
        | Some words =>
            do more <- synth_more w args (linearize h);
            Ok (EXIT_SUCCESS, written w (synth_output args) (Audio words) ++ more)
        | None => Ok (EXIT_FAILURE, [])
        end
      else Ok (EXIT_FAILURE, [])
  end.
Proof.
  intros (N & C & R). apply has2_not in N. apply chosen_option in C as [D E]. unfold synth_main. rewrite N. cbv zeta. rewrite E.
  destruct f as [|x l]; [congruence|]. rewrite R. reflexivity.
Qed.
Lemma synth_fs_iff args fs : synth_fs args = Ok (Some fs) <-> synth_frequency args fs.
Proof.
  unfold synth_fs, synth_frequency. setoid_rewrite chosen_option. rewrite unchosen_option. destruct (option2 args "-fs" "--sampling_frequency") as [|x l].
  - split.
    + intros H. injection H as <-. right. split; reflexivity.
    + intros [(s & [H <-] & _)|[_ ->]]; [congruence|reflexivity].
  - split.
    + intros H. apply obind_inv in H as (z & Z & H). destruct (z <=? 0) eqn:P; [discriminate H|]. injection H as <-. left. exists (x :: l).
      apply stoi_iff in Z. repeat split; [discriminate|exact Z|lia].
    + intros [(s & [_ <-] & S & P)|[H _]]; [|discriminate H]. apply stoi_iff in S. rewrite S. cbn [obind]. replace (fs <=? 0) with false by lia. reflexivity.
Qed.
Lemma synth_fs_bad args s z : chosen args "-fs" "--sampling_frequency" s -> numeral s z -> z <= 0 -> synth_fs args = Ok None.
Proof.
  intros C S P. apply chosen_option in C as [D E]. unfold synth_fs. rewrite E. destruct s; [congruence|]. apply stoi_iff in S. rewrite S. cbn [obind].
  replace (z <=? 0) with true by lia. reflexivity.
Qed.
Lemma synth_pad_iff args pad : synth_pad args = Ok pad <-> synth_padding args pad.
Proof.
  unfold synth_pad, synth_padding. setoid_rewrite value_get. destruct (getCmdOption args (bytes_of "--pad")) as [|x l].
  - split.
    + intros H. injection H as <-. right. split; [|reflexivity]. intros s [H E]. congruence.
    + intros [(s & z & [H <-] & _)|[_ ->]]; [congruence|reflexivity].
  - split.
    + intros H. apply obind_inv in H as (z & Z & H). injection H as <-. left. exists (x :: l), z. apply stoi_iff in Z. repeat split; [discriminate|exact Z].
    + intros [(s & z & [_ <-] & S & ->)|[H _]]; [|exfalso; apply (H (x :: l)); split; [discriminate|reflexivity]]. apply stoi_iff in S. rewrite S. reflexivity.
Qed.

Lemma map_o_length {A B} (f : A -> outcome B) l : forall m, map_o f l = Ok m -> List.length m = List.length l.
Proof.
  induction l as [|x l IH]; intros m H; cbn [map_o] in H; [injection H as <-; reflexivity|].
  apply obind_inv in H as (y & _ & H). apply obind_inv in H as (ys & Y & H). injection H as <-. cbn. now rewrite (IH _ Y).
Qed.
Lemma map_o_forall {A B} (f : A -> outcome B) (P : B -> Prop) l : (forall x y, f x = Ok y -> P y) -> forall m, map_o f l = Ok m -> Forall P m.
Proof.
  intros K. induction l as [|x l IH]; intros m H; cbn [map_o] in H; [injection H as <-; constructor|].
  apply obind_inv in H as (y & Y & H). apply obind_inv in H as (ys & Ys & H). injection H as <-. constructor; eauto.
Qed.
Lemma map_o_forall2 {A B} (f : A -> outcome B) l : forall m, map_o f l = Ok m -> Forall2 (fun x y => f x = Ok y) l m.
Proof.
  induction l as [|x l IH]; intros m H; cbn [map_o] in H; [injection H as <-; constructor|].
  apply obind_inv in H as (y & Y & H). apply obind_inv in H as (ys & Ys & H). injection H as <-. constructor; eauto.
Qed.
Lemma linearize_channels h : List.length (channels_of (linearize h)) = List.length (channels_of h).
Proof.
  unfold channels_of, linearize. cbn [h_perceptions set_perceptions]. induction (h_perceptions h) as [|p ps IH]; [reflexivity|].
  cbn [map concat]. rewrite !app_length, IH. f_equal. unfold linearizeLibrary. cbn. rewrite map_length. reflexivity.
Qed.
(** The signals: as many as channels, each with the number of samples. *)
Lemma signals_shape w h T fs pad signals : full_length w -> play_signals (w_evaluate w) (w_pow10 w) h T fs pad = Ok signals ->
  exists ts, h_timescale h = Some ts /\ List.length signals = List.length (channels_of h) /\
  (signals <> [] -> exists n, play_count T fs pad ts = Ok n /\ Forall (fun s => List.length s = Z.to_nat n) signals).
Proof.
  intros FL H. unfold play_signals in H. apply obind_inv in H as (ps & P & H). destruct (h_timescale h) as [ts|]; [|discriminate H]. exists ts. split; [reflexivity|].
  apply obind_inv in H as (ls & L & H). injection H as <-. apply map_o_forall2 in P. apply map_o_forall2 in L.
  assert (Len : List.length (concat ls) = List.length (channels_of h)).
  { unfold channels_of. clear - P L. revert ls L. induction P as [|p q l l' E _ IH]; intros ls L; inversion L as [|? s ? ls' E2 L']; subst; [reflexivity|].
    cbn [map concat]. rewrite !app_length, (IH _ L'). f_equal. unfold play_perception in E2. apply map_o_length in E2. rewrite E2.
    unfold decode_perception in E. apply obind_inv in E as (cs & C & E). injection E as <-. cbn. exact (map_o_length _ _ _ C). }
  split; [exact Len|]. intros NE. destruct (play_count T fs pad ts) as [n| | |] eqn:N.
  1: { exists n. split; [reflexivity|]. apply Forall_concat. clear - L FL N. induction L as [|p s l ls E _ IH]; constructor; [|exact IH].
    unfold play_perception in E. revert E. apply map_o_forall. intros c y Y. unfold play_channel in Y. rewrite N in Y. cbn [obind] in Y.
    apply obind_inv in Y as (amp & A & Y). injection Y as <-. rewrite map_length. exact (FL _ _ _ _ _ _ A). }
  all: exfalso; apply NE; clear - L N; induction L as [|p s l ls E _ IH]; [reflexivity|]; cbn [concat]; rewrite IH, app_nil_r;
    unfold play_perception in E; destruct (p_channels p) as [|c cs]; cbn [map_o] in E; [injection E as <-; reflexivity|];
    unfold play_channel at 1 in E; rewrite N in E; discriminate E.
Qed.
Lemma set_at_length l : forall k w l', set_at l k w = Ok l' -> List.length l' = List.length l.
Proof.
  induction l as [|x l IH]; intros [|k] w l' H; cbn [set_at] in H; try discriminate H; [injection H as <-; reflexivity|].
  apply obind_inv in H as (r & R & H). injection H as <-. cbn. now rewrite (IH _ _ _ R).
Qed.
Lemma save_samples_length conv n c b : forall i o o', save_samples conv n c i b o = Ok o' -> List.length o' = List.length o.
Proof.
  induction b as [|v b IH]; intros i o o' H; cbn [save_samples] in H; [injection H as <-; reflexivity|].
  apply obind_inv in H as (x & _ & H). apply obind_inv in H as (o1 & S1 & H). rewrite (IH _ _ _ H). exact (set_at_length _ _ _ _ S1).
Qed.
Lemma save_shape conv signals m r : signals <> [] -> Forall (fun s => List.length s = m) signals -> saveFile conv signals = Ok r ->
  exists words, r = Some words /\ List.length words = (List.length signals * m)%nat.
Proof.
  intros NE F H. destruct signals as [|b bs]; [congruence|]. pose proof (Forall_inv F) as Fb. pose proof (Forall_inv_tail F) as Fs.
  cbn [saveFile] in H. rewrite (proj2 (forallb_forall _ bs)) in H.
  - apply obind_inv in H as (out & O & H). injection H as <-. exists out. split; [reflexivity|].
    assert (G : forall buff n c o o', save_channels conv n c buff o = Ok o' -> List.length o' = List.length o).
    { induction buff as [|b0 buff IH]; intros n c o o' S; cbn [save_channels] in S; [injection S as <-; reflexivity|].
      apply obind_inv in S as (o1 & S1 & S). rewrite (IH _ _ _ _ S). exact (save_samples_length _ _ _ _ _ _ _ S1). }
    rewrite (G _ _ _ _ _ O), repeat_length, Fb. reflexivity.
  - intros x I. apply Nat.eqb_eq. rewrite Forall_forall in Fs. rewrite (Fs _ I), Fb. reflexivity.
Qed.

Lemma loaded_iff fuel w args f h : loaded fuel w args f h <-> synth_load fuel w args f = Ok (true, h).
Proof.
  unfold loaded, synth_load, binary. destruct (has2 args "-b" "--binary") eqn:B; [apply has2_either in B|apply has2_not in B].
  - split; [intros [[_ H]|[H _]]; [exact H|tauto]|]. intros H. left. split; assumption.
  - split.
    + intros [[H _]|[_ (b & H)]]; [tauto|]. rewrite H. reflexivity.
    + intros H. right. split; [exact B|]. apply obind_inv in H as ([b h'] & H & R). injection R as <-. exists b. exact H.
Qed.
Lemma audio_iff args f : audio_output args f <-> f = synth_output args.
Proof.
  unfold audio_output, synth_output. rewrite chosen_option, unchosen_option. destruct (option2 args "-o" "--output") as [|x l].
  - split; [intros [[H <-]|[_ H]]; [congruence|exact H]|]. intros ->. right. split; reflexivity.
  - split; [intros [[_ <-]|[H _]]; [reflexivity|discriminate H]|]. intros ->. left. split; [discriminate|reflexivity].
Qed.
Lemma synth_no_more w args h more : synth_more w args h = Ok more -> ~ given args "--generate_ohm" -> more = [].
Proof. unfold synth_more. intros H N. apply has_not in N. rewrite N in H. injection H as <-. reflexivity. Qed.
Lemma synth_done fuel w args f h fs pad name code out : full_length w -> input w args f -> loaded fuel w args f h ->
  synth_frequency args fs -> synth_padding args pad -> audio_output args name -> synth_main fuel w args = Ok (code, out) ->
  code = 0 /\ exists ts T n sg words more, h_timescale h = Some ts /\ getTimeLength (linearize h) = Ok T /\ play_count T fs pad ts = Ok n /\
  play_signals (w_evaluate w) (w_pow10 w) (linearize h) T fs pad = Ok sg /\ Forall (fun s => List.length s = Z.to_nat n) sg /\
  saveFile (w_conv w) sg = Ok (Some words) /\ synth_more w args (linearize h) = Ok more /\
  List.length words = (List.length (channels_of h) * Z.to_nat n)%nat /\ out = (if w_writable w name then [(name, Audio words)] else []) ++ more.
Proof.
  intros FL I L F P A H. apply loaded_iff in L. apply audio_iff in A. subst name.
  rewrite (synth_open _ _ _ _ I) in H. apply synth_fs_iff in F. apply synth_pad_iff in P. rewrite F in H. cbn [obind] in H. rewrite P in H. cbn [obind] in H.
  rewrite L in H. cbn [obind] in H. apply obind_inv in H as (T & HT & H). apply obind_inv in H as (r & R & H). unfold playFile in R.
  apply obind_inv in R as (sg & S & R). destruct (signals_shape _ _ _ _ _ _ FL S) as (ts & Hts & Len & Sh).
  assert (NE : sg <> []) by (intros ->; discriminate R). destruct (Sh NE) as (n & N & Fn).
  destruct (save_shape _ _ _ _ NE Fn R) as (words & -> & Lw). cbn [obind] in H. apply obind_inv in H as (more & Hm & H). injection H as <- <-. split; [reflexivity|].
  exists ts, T, n, sg, words, more. repeat split; try assumption. rewrite Lw, Len, linearize_channels. reflexivity.
Qed.
Lemma synth_empty fuel w args f h fs pad : input w args f -> loaded fuel w args f h ->
  synth_frequency args fs -> synth_padding args pad -> h_perceptions h = [] -> synth_main fuel w args = Throw.
Proof.
  intros I L F P E. apply loaded_iff in L. rewrite (synth_open _ _ _ _ I). apply synth_fs_iff in F. apply synth_pad_iff in P. rewrite F. cbn [obind]. rewrite P. cbn [obind].
  rewrite L. cbn [obind]. assert (E2 : h_perceptions (linearize h) = []) by (unfold linearize; cbn; rewrite E; reflexivity).
  unfold getTimeLength, playFile, play_signals. destruct (h_timescale (linearize h)); [|reflexivity]. rewrite E2. reflexivity.
Qed.
Lemma synth_refused fuel w args f s z : input w args f -> chosen args "-fs" "--sampling_frequency" s -> numeral s z -> z <= 0 -> synth_main fuel w args = Ok (1, []).
Proof. intros I C N Z. rewrite (synth_open _ _ _ _ I), (synth_fs_bad _ _ _ C N Z). reflexivity. Qed.

(** *** The number of samples *)
Local Open Scope R_scope.
Lemma bound70 r : Rabs r <= 100000000000000000000 -> Rabs r <= bpow radix2 1000.
Proof.
  intros H. eapply Rle_trans; [exact H|]. apply Rle_trans with (bpow radix2 70); [|apply bpow_le; lia].
  change (bpow radix2 70) with (IZR (2 ^ 70)). apply IZR_le. vm_compute. discriminate.
Qed.
Lemma count_close (T : f64) len fs pad ts : is_finite T = true -> B2R T = IZR len -> (0 <= len < 2 ^ 32)%Z -> (0 < fs < 2 ^ 31)%Z -> (0 <= pad < 2 ^ 30)%Z -> (0 < ts < 2 ^ 32)%Z ->
  IZR fs * (IZR len + 2 * IZR pad) / IZR ts <= 4294967294 ->
  exists n, play_count T fs pad ts = Ok n /\ (0 <= n)%Z /\ Rabs (IZR n - IZR fs * (IZR len + 2 * IZR pad) / IZR ts) <= / 2 + / 1000.
Proof.
  intros FT ET HL HF HP HS HX. unfold play_count.
  assert (C : (2 * pad = cast i32 (2 * pad))%Z) by (apply cast_i32_iff; change (2 ^ 31)%Z with 2147483648%Z; change (2 ^ 30)%Z with 1073741824%Z in HP; lia).
  rewrite <- C, Z.eqb_refl. cbn [negb].
  destruct (f64_of_Z_ok (2 * pad)) as (E2 & F2); [lia|]. destruct (f64_of_Z_ok fs) as (Ef & Ff); [lia|]. destruct (f64_of_Z_ok ts) as (Es & Fs); [lia|].
  destruct (f64_of_Z_ok (len + 2 * pad)) as (El & _); [lia|].
  set (S := (len + 2 * pad)%Z) in *.
  assert (RS : 0 <= IZR S <= 6442450944) by (split; [apply IZR_le; lia|apply (IZR_le _ 6442450944); unfold S; lia]).
  assert (RF : 1 <= IZR fs <= 2147483648) by (split; [apply IZR_le; lia|apply (IZR_le _ 2147483648); lia]).
  assert (RT : 1 <= IZR ts <= 4294967296) by (split; [apply IZR_le; lia|apply (IZR_le _ 4294967296); lia]).
  assert (ES : IZR len + 2 * IZR pad = IZR S) by (unfold S; rewrite plus_IZR, mult_IZR; ring). rewrite ES in *.
  destruct (add64_ok T (f64_of_Z (2 * pad)) FT F2) as (Ea & Fa).
  { rewrite ET, E2, mult_IZR, ES. apply bound70. rewrite Rabs_pos_eq by lra. lra. }
  rewrite ET, E2, mult_IZR, ES in Ea. rewrite <- El in Ea at 1. rewrite rnd64_id in Ea by apply generic_format_B2R. rewrite El in Ea.
  destruct (mul64_ok (f64_of_Z fs) (add64 T (f64_of_Z (2 * pad))) Ff Fa) as (Em & Fm).
  { rewrite Ef, Ea. apply bound70. rewrite Rabs_pos_eq by nra. nra. }
  rewrite Ef, Ea in Em.
  set (P := IZR fs * IZR S) in *. set (X := P / IZR ts) in *.
  assert (RP : 0 <= P) by (unfold P; nra).
  assert (RX : 0 <= X) by (unfold X; apply Rmult_le_pos; [exact RP|left; apply Rinv_0_lt_compat; lra]).
  pose proof (err64 P) as Er. rewrite (Rabs_pos_eq P RP) in Er.
  assert (B0 : bpow radix2 (-150) <= / 1000000000) by (apply Rle_trans with (bpow radix2 (Z.opp 30)); [apply bpow_le; lia|rewrite (bpow_inv 30) by lia; change (2 ^ 30)%Z with 1073741824%Z; lra]).
  pose proof (bpow_gt_0 radix2 (-150)) as B1.
  set (a := rnd64 P) in *.
  assert (Da : Rabs (a / IZR ts - X) <= / 9007199254740992 * X + / 1000000000).
  { unfold X. replace (a / IZR ts - P / IZR ts) with ((a - P) * / IZR ts) by (field; lra). rewrite Rabs_mult, (Rabs_pos_eq (/ IZR ts)) by (left; apply Rinv_0_lt_compat; lra).
    replace (/ 9007199254740992 * (P / IZR ts) + / 1000000000) with ((/ 9007199254740992 * P + / 1000000000 * IZR ts) * / IZR ts) by (field; lra).
    apply Rmult_le_compat_r; [left; apply Rinv_0_lt_compat; lra|]. nra. }
  assert (Da2 : Rabs (a / IZR ts) <= 4294967296).
  { apply Raux.Rabs_le_inv in Da. apply Rabs_le. lra. }
  destruct (div64_ok (mul64 (f64_of_Z fs) (add64 T (f64_of_Z (2 * pad)))) (f64_of_Z ts) Fm) as (Eq & Fq).
  { rewrite Es. lra. }
  { rewrite Em, Es. apply bound70. lra. }
  rewrite Em, Es in Eq. pose proof (err64 (a / IZR ts)) as Eq2. 
  set (q := div64 _ _) in *. rewrite <- Eq in Eq2.
  assert (Dq : Rabs (B2R q - X) <= / 1000).
  { replace (B2R q - X) with ((B2R q - a / IZR ts) + (a / IZR ts - X)) by ring. eapply Rle_trans; [apply Rabs_triang|]. lra. }
  destruct (fround_R q) as (Er1 & Er2). set (n := Znearest (Zle_bool 0) (B2R q)) in *.
  assert (Hn : Rabs (B2R q - IZR n) <= / 2) by apply Znearest_half.
  assert (Dn : Rabs (IZR n - X) <= / 2 + / 1000).
  { apply Raux.Rabs_le_inv in Hn. apply Raux.Rabs_le_inv in Dq. apply Rabs_le. lra. }
  exists n. pose proof (Raux.Rabs_le_inv _ _ Dn) as Dn2.
  assert (N0 : (0 <= n)%Z) by (assert (-1 < n)%Z by (apply lt_IZR; lra); lia).
  assert (N1 : (n < 2 ^ 32)%Z) by (apply lt_IZR; change (IZR (2 ^ 32)) with 4294967296; lra).
  split; [|split; [exact N0|exact Dn]]. unfold int_of_float. rewrite Er2, Fq. rewrite (trunc_int _ n Er1). rewrite cast_u32 by lia. rewrite Z.eqb_refl. reflexivity.
Qed.

Lemma fs_pos args fs : synth_frequency args fs -> (0 < fs)%Z.
Proof. intros [(s & _ & _ & H)|[_ ->]]; [exact H|lia]. Qed.
Lemma pad_nonneg args pad : synth_padding args pad -> (0 <= pad)%Z.
Proof. intros [(s & z & _ & _ & ->)|[_ ->]]; lia. Qed.
Lemma synth_count fuel w args f h fs pad name code out ts T len : full_length w -> input w args f -> loaded fuel w args f h ->
  synth_frequency args fs -> synth_padding args pad -> audio_output args name -> synth_main fuel w args = Ok (code, out) ->
  h_timescale h = Some ts -> getTimeLength (linearize h) = Ok T -> normal T len fs pad ts ->
  exists n words, List.length words = (List.length (channels_of h) * Z.to_nat n)%nat /\ audio_written w args name words out /\
  (0 <= n)%Z /\ Rabs (IZR n - IZR fs * (IZR len + 2 * IZR pad) / IZR ts) <= / 2 + / 1000.
Proof.
  intros FL I L F P A H Hts HT (N1 & N2 & N3 & N4 & N5 & N6 & N7).
  destruct (synth_done _ _ _ _ _ _ _ _ _ _ FL I L F P A H) as (_ & ts' & T' & n & sg & words & more & E1 & E2 & C & _ & _ & _ & Hm & Lw & O).
  rewrite Hts in E1. injection E1 as <-. rewrite HT in E2. injection E2 as <-. pose proof (fs_pos _ _ F) as Fp. pose proof (pad_nonneg _ _ P) as Pp.
  destruct (count_close T len fs pad ts N1 N2 N3 (conj Fp N4) (conj Pp N5) N6 N7) as (m & C2 & M0 & M). rewrite C in C2. injection C2 as <-.
  exists n, words. split; [exact Lw|]. split; [exists more; split; [exact O|exact (synth_no_more _ _ _ _ Hm)]|]. split; assumption.
Qed.
Lemma samples_1000 len fs pad : IZR fs * (IZR len + 2 * IZR pad) / 1000 = samples_for (IZR len) fs pad 1000.
Proof. unfold samples_for. field. Qed.
Lemma too_short len fs pad ts n : (2000 <= ts)%Z -> 2000 <= IZR fs * IZR pad -> Rabs (IZR n - IZR fs * (IZR len + 2 * IZR pad) / IZR ts) <= / 2 + / 1000 ->
  IZR n + 1 < samples_for (IZR len) fs pad ts.
Proof.
  intros Ht Hp H. apply Raux.Rabs_le_inv in H. unfold samples_for. assert (R : 2000 <= IZR ts) by (apply IZR_le; exact Ht).
  replace (IZR fs * (IZR len / IZR ts + 2 * IZR pad / 1000)) with (IZR fs * (IZR len + 2 * IZR pad) / IZR ts + 2 * (IZR fs * IZR pad) * (/ 1000 - / IZR ts)) by (field; lra).
  assert (I : / IZR ts <= / 2000) by (apply Rinv_le_contravar; lra). nra.
Qed.
Lemma synth_ms fuel w args f h fs pad name code out T len : full_length w -> input w args f -> loaded fuel w args f h ->
  synth_frequency args fs -> synth_padding args pad -> audio_output args name -> synth_main fuel w args = Ok (code, out) ->
  h_timescale h = Some 1000%Z -> getTimeLength (linearize h) = Ok T -> normal T len fs pad 1000 ->
  exists n words, List.length words = (List.length (channels_of h) * Z.to_nat n)%nat /\ audio_written w args name words out /\
  (0 <= n)%Z /\ Rabs (IZR n - samples_for (IZR len) fs pad 1000) <= / 2 + / 1000.
Proof. intros. rewrite <- samples_1000. eapply synth_count; eassumption. Qed.
Lemma synth_short fuel w args f h fs pad name code out ts T len : full_length w -> input w args f -> loaded fuel w args f h ->
  synth_frequency args fs -> synth_padding args pad -> audio_output args name -> synth_main fuel w args = Ok (code, out) ->
  h_timescale h = Some ts -> getTimeLength (linearize h) = Ok T -> normal T len fs pad ts -> (2000 <= ts)%Z -> 2000 <= IZR fs * IZR pad ->
  exists n words, List.length words = (List.length (channels_of h) * Z.to_nat n)%nat /\ audio_written w args name words out /\
  IZR n + 1 < samples_for (IZR len) fs pad ts.
Proof.
  intros FL I L F P A H Hts HT N T2 K. destruct (synth_count _ _ _ _ _ _ _ _ _ _ _ _ _ FL I L F P A H Hts HT N) as (n & words & E1 & E2 & _ & E3).
  exists n, words. repeat split; try assumption. exact (too_short _ _ _ _ _ T2 K E3).
Qed.
