(** Masks, frequencies and bands of the psychohaptic model. *)
From Coq Require Import Reals Psatz.
From Flocq Require Import Core.Core.
From Verif Require Import Base FloatBase FloatModel FloatSpec FloatProof Float64Proof ToolsModel SynthModel SynthProof SpihtModel SpihtHeader WaveletModel PeakModel PeakSpec PeakProof MaskFloat.
Local Open Scope R_scope.

(** *** The frequencies *)
Section Freqs.
Variables (s st : R) (step : f64) (B : R).
Hypothesis Hs : / 1000000 <= s <= 2147483648.
Hypothesis Fst : is_finite step = true.
Hypothesis Est : Rabs (B2R step - s) <= 2 * / 9007199254740992 * s.
Lemma freq_step (r : R) cur : 0 <= r <= 65536 -> is_finite cur = true -> Rabs (B2R cur - r * s) <= r * r * (4 * / 9007199254740992 * s) ->
  is_finite (add64 cur step) = true /\ Rabs (B2R (add64 cur step) - (r + 1) * s) <= (r + 1) * (r + 1) * (4 * / 9007199254740992 * s).
Proof.
  intros Hr Fc E. pose proof tau_val as [T0 T1]. set (a := / 9007199254740992 * s) in *. assert (Ha : 0 < a) by (unfold a; apply Rmult_lt_0_compat; lra).
  assert (R2 : 0 <= r * r <= 4294967296) by (split; [apply Rle_0_sqr|]; nra).
  replace (2 * / 9007199254740992 * s) with (2 * a) in Est by (unfold a; ring). replace (4 * / 9007199254740992 * s) with (4 * a) in * by (unfold a; ring).
  assert (D : Rabs (B2R cur + B2R step - (r + 1) * s) <= r * r * (4 * a) + 2 * a).
  { replace (B2R cur + B2R step - (r + 1) * s) with ((B2R cur - r * s) + (B2R step - s)) by ring. eapply Rle_trans; [apply Rabs_triang|]. lra. }
  assert (P1 : 0 <= (r + 1) * s <= 140740000000000) by (split; [apply Rmult_le_pos; lra|apply Rle_trans with (65537 * 2147483648); [apply Rmult_le_compat; lra|lra]]).
  assert (A1 : a <= / 4000000) by (unfold a; lra).
  assert (P2 : 0 <= r * r * (4 * a) <= 5000) by (split; [apply Rmult_le_pos; lra|apply Rle_trans with (4294967296 * (4 * / 4000000)); [apply Rmult_le_compat; lra|lra]]).
  destruct (add64_ok cur step Fc Fst) as [S1 F1].
  { apply big_bound. replace (B2R cur + B2R step) with ((B2R cur + B2R step - (r + 1) * s) + (r + 1) * s) by ring. eapply Rle_trans; [apply Rabs_triang|]. rewrite (Rabs_pos_eq ((r + 1) * s)) by lra. lra. }
  split; [exact F1|]. rewrite S1. apply round_near in D. rewrite (Rabs_pos_eq ((r + 1) * s)) in D by lra. eapply Rle_trans; [exact D|].
  replace (/ 9007199254740992 * ((r + 1) * s + (r * r * (4 * a) + 2 * a))) with ((r + 1) * a + (/ 9007199254740992 * (r * r) * (4 * a) + / 9007199254740992 * (2 * a))) by (unfold a; ring).
  assert (P3 : / 9007199254740992 * (r * r) * (4 * a) <= / 1000000 * (4 * a)) by (apply Rmult_le_compat_r; lra).
  assert (TA : bpow radix2 (-150) <= / 1000 * a) by (unfold a; lra).
  assert (RA : 0 <= r * a) by (apply Rmult_le_pos; lra).
  replace ((r + 1) * (r + 1) * (4 * a)) with (r * r * (4 * a) + 8 * (r * a) + 4 * a) by ring. replace ((r + 1) * a) with (r * a + a) by ring. lra.
Qed.
Lemma freqs_near : forall n i cur k, (Z.of_nat (i + n) <= 65536)%Z -> is_finite cur = true ->
  Rabs (B2R cur - IZR (Z.of_nat i) * s) <= IZR (Z.of_nat i) * IZR (Z.of_nat i) * (4 * / 9007199254740992 * s) -> (k < n)%nat ->
  is_finite (nth k (freqs_loop n cur step) f64_0) = true /\
  Rabs (B2R (nth k (freqs_loop n cur step) f64_0) - IZR (Z.of_nat (i + k)) * s) <= IZR (Z.of_nat (i + k)) * IZR (Z.of_nat (i + k)) * (4 * / 9007199254740992 * s).
Proof.
  induction n as [|n IH]; intros i cur k Hn Fc E Hk; [lia|]. cbn [freqs_loop]. destruct k as [|k]; [cbn [nth]; replace (i + 0)%nat with i by lia; auto|]. cbn [nth].
  assert (I : 0 <= IZR (Z.of_nat i) <= 65536) by (split; apply IZR_le; lia). destruct (freq_step _ cur I Fc E) as [F1 E1].
  specialize (IH (S i) (add64 cur step) k ltac:(lia) F1). replace (S i + k)%nat with (i + S k)%nat in IH by lia. apply IH; [|lia]. rewrite Nat2Z.inj_succ, succ_IZR. exact E1.
Qed.
End Freqs.
Lemma freqs_length n : forall cur step, length (freqs_loop n cur step) = n.
Proof. induction n as [|n IH]; intros; cbn; [reflexivity|rewrite IH; reflexivity]. Qed.
Theorem freqs_ok bl fs k : (1 <= bl)%nat -> (Z.of_nat bl <= 65536)%Z -> (1 <= fs < 2 ^ 31)%Z -> (k < bl)%nat ->
  let f := nth k (model_freqs bl fs) f64_0 in
  is_finite f = true /\ 0 <= B2R f <= 2147483648 /\ ((1 <= k)%nat -> / 1048576 <= B2R f) /\
  Rabs (B2R f - IZR (Z.of_nat k) * (IZR fs / IZR (2 * Z.of_nat bl - 1))) <= / 1000000000 * IZR fs.
Proof.
  intros H1 H2 H3 Hk f. pose proof tau_val as [T0 T1]. set (m := (2 * Z.of_nat bl - 1)%Z). set (s := IZR fs / IZR m).
  assert (M : 1 <= IZR m <= 131071) by (split; apply IZR_le; unfold m; lia). assert (Fs : 1 <= IZR fs <= 2147483647) by (split; apply IZR_le; lia).
  destruct (f64_of_Z_ok fs ltac:(lia)) as [E1 F1]. destruct (f64_of_Z_ok m ltac:(unfold m; lia)) as [E2 F2].
  assert (IM : / 131071 <= / IZR m <= 1) by (split; [apply Rinv_le; lra|rewrite <- Rinv_1; apply Rinv_le; lra]).
  assert (S : / 131071 <= s <= 2147483647). { unfold s, Rdiv. split; [apply Rle_trans with (1 * / 131071); [lra|apply Rmult_le_compat; lra]|apply Rle_trans with (2147483647 * 1); [apply Rmult_le_compat; lra|lra]]. }
  destruct (div64_ok (f64_of_Z fs) (f64_of_Z m) F1) as [E3 F3]; [rewrite E2; lra|rewrite E1, E2; apply bound1000; fold s; lra|]. rewrite E1, E2 in E3. fold s in E3.
  assert (D : Rabs (B2R (div64 (f64_of_Z fs) (f64_of_Z m)) - s) <= 2 * / 9007199254740992 * s). { rewrite E3. pose proof (err64 s) as E. rewrite (Rabs_pos_eq s) in E by lra. lra. }
  destruct (freqs_near s (div64 (f64_of_Z fs) (f64_of_Z m)) ltac:(lra) F3 D bl 0 f64_0 k) as [G1 G2]; [lia|reflexivity|change (B2R f64_0) with 0; change (IZR (Z.of_nat 0)) with 0; rewrite !Rmult_0_l, Rminus_0_r, Rabs_R0; lra|exact Hk|].
  fold (model_freqs bl fs) in G1, G2. change (freqs_loop bl f64_0 (div64 (f64_of_Z fs) (f64_of_Z m))) with (model_freqs bl fs) in G1, G2. cbn [Nat.add] in G2. fold f in G1, G2.
  assert (K : 0 <= IZR (Z.of_nat k)) by (apply IZR_le; lia). assert (K2 : 2 * IZR (Z.of_nat k) + 1 <= IZR m) by (rewrite <- mult_IZR, <- plus_IZR; apply IZR_le; unfold m; lia).
  assert (K3 : IZR (Z.of_nat k) <= 65535) by (apply IZR_le; lia). set (r := IZR (Z.of_nat k)) in *.
  assert (KS : r * s <= IZR fs / 2). { unfold s. apply Rmult_le_reg_r with (IZR m); [lra|]. unfold Rdiv. rewrite <- Rmult_assoc, (Rmult_assoc (r * IZR fs)), Rinv_l by lra. nra. }
  assert (KP : 0 <= r * s) by (apply Rmult_le_pos; lra).
  assert (ER : r * r * (4 * / 9007199254740992 * s) <= / 10000000000 * (r * s)). { replace (r * r * (4 * / 9007199254740992 * s)) with ((r * (4 * / 9007199254740992)) * (r * s)) by ring. apply Rmult_le_compat_r; lra. }
  split; [exact G1|]. assert (A := G2). apply Raux.Rabs_le_inv in A. split; [lra|]. split; [|fold m; fold s; lra].
  intros Hk1. assert (1 <= r) by (apply IZR_le; lia). assert (s <= r * s) by (apply Rle_trans with (1 * s); [lra|apply Rmult_le_compat_r; lra]). lra.
Qed.

(** *** The mask *)
Lemma mask_loop_length freqs : forall ps mask r, mask_loop freqs ps mask = Ok r -> length mask = length freqs -> length r = length freqs.
Proof.
  induction ps as [|p ps IH]; intros mask r H L; cbn [mask_loop] in H; [congruence|]. destruct (at_ freqs (fst p)) as [f| | |]; try discriminate. cbn [obind] in H.
  apply (IH _ _ H). rewrite map_length, combine_length. lia.
Qed.
Lemma mask_loop_ok freqs : forall ps mask, Forall (fun p => (fst p < length freqs)%nat) ps -> exists r, mask_loop freqs ps mask = Ok r.
Proof. induction ps as [|p ps IH]; intros mask F; [exists mask; reflexivity|]. cbn [mask_loop]. rewrite (at_ok freqs _ (Forall_inv F)). cbn [obind]. apply IH, (Forall_inv_tail F). Qed.
Lemma peakMask_ok freqs ps : Forall (fun p => (fst p < length freqs)%nat) ps -> exists r, peakMask freqs ps = Ok r /\ (ps = [] /\ r = [] \/ ps <> [] /\ length r = length freqs).
Proof.
  intros F. destruct ps as [|p ps]; [exists []; auto|]. cbn [peakMask]. rewrite (at_ok freqs _ (Forall_inv F)). cbn [obind].
  destruct (mask_loop_ok freqs ps (map (mask_value (nth (fst p) freqs f64_0) (snd p)) freqs) (Forall_inv_tail F)) as (r & E). exists r. split; [exact E|]. right. split; [discriminate|].
  apply (mask_loop_length _ _ _ _ E). apply map_length.
Qed.
Section Envelope.
Variable freqs : list f64.
Let val_of (p : peak) (k : nat) : f64 := mask_value (nth (fst p) freqs f64_0) (snd p) (nth k freqs f64_0).
Definition envelope (ps : list peak) (k : nat) (m : f64) : Prop := (exists p, In p ps /\ m = val_of p k) /\ forall p, In p ps -> B2R (val_of p k) <= B2R m.
Lemma loop_envelope : forall ps done mask k, (k < length freqs)%nat -> length mask = length freqs -> Forall (fun p => (fst p < length freqs)%nat) ps ->
  (forall p, In p done \/ In p ps -> is_finite (val_of p k) = true) -> envelope done k (nth k mask f64_0) ->
  exists r, mask_loop freqs ps mask = Ok r /\ envelope (done ++ ps) k (nth k r f64_0).
Proof.
  induction ps as [|p ps IH]; intros done mask k Hk L F Fin E; [exists mask; rewrite app_nil_r; auto|]. cbn [mask_loop]. rewrite (at_ok freqs _ (Forall_inv F)). cbn [obind].
  replace (done ++ p :: ps) with ((done ++ [p]) ++ ps) by (rewrite <- app_assoc; reflexivity).
  apply IH; [exact Hk|rewrite map_length, combine_length; lia|exact (Forall_inv_tail F)| |].
  { intros q [H|H]; apply Fin; [apply in_app_or in H; destruct H as [H|[<-|[]]]; [left; exact H|right; left; reflexivity]|right; right; exact H]. }
  assert (N : nth k (map (fun '(g, m) => let val := mask_value (nth (fst p) freqs f64_0) (snd p) g in if flt m val then val else m) (combine freqs mask)) f64_0 = if flt (nth k mask f64_0) (val_of p k) then val_of p k else nth k mask f64_0).
  { set (h := fun '(g, m) => let val := mask_value (nth (fst p) freqs f64_0) (snd p) g in if flt m val then val else m). rewrite (nth_indep (map h (combine freqs mask)) f64_0 (h (f64_0, f64_0))) by (rewrite map_length, combine_length; lia). rewrite map_nth, combine_nth by (symmetry; exact L). reflexivity. }
  match goal with |- envelope _ _ ?z => replace z with (if flt (nth k mask f64_0) (val_of p k) then val_of p k else nth k mask f64_0) by (symmetry; exact N) end. destruct E as [(q & Iq & Eq) Max]. assert (Fm : is_finite (nth k mask f64_0) = true) by (rewrite Eq; apply Fin; left; exact Iq). assert (Fv : is_finite (val_of p k) = true) by (apply Fin; right; left; reflexivity).
  destruct (flt (nth k mask f64_0) (val_of p k)) eqn:C.
  - apply flt_R in C; [|assumption|assumption]. split; [exists p; split; [apply in_or_app; right; left; reflexivity|reflexivity]|]. intros q' H. apply in_app_or in H. destruct H as [H|[<-|[]]]; [specialize (Max q' H); lra|lra].
  - assert (C' : B2R (val_of p k) <= B2R (nth k mask f64_0)). { destruct (Rle_lt_dec (B2R (val_of p k)) (B2R (nth k mask f64_0))) as [G|G]; [exact G|]. apply flt_R in G; [congruence|assumption|assumption]. }
    split; [exists q; split; [apply in_or_app; left; exact Iq|exact Eq]|]. intros q' H. apply in_app_or in H. destruct H as [H|[<-|[]]]; [apply Max, H|exact C'].
Qed.
Lemma mask_envelope ps k : (k < length freqs)%nat -> ps <> [] -> Forall (fun p => (fst p < length freqs)%nat) ps -> (forall p, In p ps -> is_finite (val_of p k) = true) ->
  exists r, peakMask freqs ps = Ok r /\ envelope ps k (nth k r f64_0).
Proof.
  intros Hk N F Fin. destruct ps as [|p ps]; [congruence|]. cbn [peakMask]. rewrite (at_ok freqs _ (Forall_inv F)). cbn [obind]. apply (loop_envelope ps [p]); [exact Hk|apply map_length|exact (Forall_inv_tail F)| |].
  { intros q [[<-|[]]|H]; apply Fin; [left; reflexivity|right; exact H]. }
  assert (E : nth k (map (mask_value (nth (fst p) freqs f64_0) (snd p)) freqs) f64_0 = val_of p k).
  { rewrite (nth_indep (map (mask_value (nth (fst p) freqs f64_0) (snd p)) freqs) f64_0 (mask_value (nth (fst p) freqs f64_0) (snd p) f64_0)) by (rewrite map_length; exact Hk). rewrite map_nth. reflexivity. }
  rewrite E. split; [exists p; split; [left; reflexivity|reflexivity]|]. intros q [<-|[]]. lra.
Qed.
End Envelope.
(** The mask with the frequencies of the model. *)
Theorem mask_exact bl fs ps : (1 <= bl)%nat -> (Z.of_nat bl <= 65536)%Z -> (1 <= fs < 2 ^ 31)%Z -> ps <> [] ->
  Forall (fun p => (1 <= fst p < bl)%nat /\ is_finite (snd p) = true /\ Rabs (B2R (snd p)) <= 1000000000) ps ->
  exists mask, peakMask (model_freqs bl fs) ps = Ok mask /\ length mask = bl /\
  forall k, (k < bl)%nat ->
    let freq i := B2R (nth i (model_freqs bl fs) f64_0) in
    is_finite (nth k mask f64_0) = true /\
    (exists p, In p ps /\ mask_near (freq (fst p)) (B2R (snd p)) (freq k) (val mask k)) /\
    forall p, In p ps -> exists m, mask_near (freq (fst p)) (B2R (snd p)) (freq k) m /\ m <= val mask k.
Proof.
  intros H1 H2 H3 N F. assert (L : length (model_freqs bl fs) = bl) by apply freqs_length.
  assert (F' : Forall (fun p => (fst p < length (model_freqs bl fs))%nat) ps) by (eapply Forall_impl; [|exact F]; cbn; intros p (P & _); rewrite L; lia).
  destruct (peakMask_ok _ _ F') as (mask & E & [[Z _]|[_ Lm]]); [congruence|]. exists mask. split; [exact E|]. split; [congruence|]. intros k Hk freq.
  assert (V : forall p, In p ps -> is_finite (mask_value (nth (fst p) (model_freqs bl fs) f64_0) (snd p) (nth k (model_freqs bl fs) f64_0)) = true /\
    mask_near (freq (fst p)) (B2R (snd p)) (freq k) (B2R (mask_value (nth (fst p) (model_freqs bl fs) f64_0) (snd p) (nth k (model_freqs bl fs) f64_0)))).
  { intros p Hp. rewrite Forall_forall in F. destruct (F p Hp) as (Hi & Fh & Hh). destruct (freqs_ok bl fs (fst p) H1 H2 H3 ltac:(lia)) as (A1 & A2 & A3 & _). destruct (freqs_ok bl fs k H1 H2 H3 Hk) as (B1 & B2 & _ & _).
    specialize (A3 ltac:(lia)). apply mask_value_near; try assumption. lra. }
  destruct (mask_envelope (model_freqs bl fs) ps k) as (r & E' & (p & Ip & Ep) & Max); [rewrite L; exact Hk|exact N|exact F'|intros p Hp; apply V, Hp|].
  rewrite E in E'. injection E' as <-. unfold val. rewrite Ep at 1. split; [apply V, Ip|]. split.
  - exists p. split; [exact Ip|]. rewrite Ep. apply V, Ip.
  - intros q Hq. eexists. split; [apply (V q Hq)|apply Max, Hq].
Qed.

(** *** The thresholds *)
Lemma thresholds_length raw : forall freqs, length (model_percthres raw freqs) = length freqs.
Proof. induction freqs as [|f l IH]; [reflexivity|]. cbn [model_percthres]. destruct (fle f64_1 (raw f)); [apply repeat_length|cbn; rewrite IH; reflexivity]. Qed.
Theorem thresholds_exact raw : forall freqs k, (k < length freqs)%nat ->
  nth k (model_percthres raw freqs) f64_0 = if existsb (fun f => fle f64_1 (raw f)) (firstn (S k) freqs) then f64_1 else raw (nth k freqs f64_0).
Proof.
  induction freqs as [|f l IH]; intros k Hk; [cbn in Hk; lia|]. cbn [model_percthres firstn existsb length] in *. destruct (fle f64_1 (raw f)) eqn:E; cbn [orb].
  - apply nth_repeat_lt || (rewrite nth_error_nth with (x := f64_1); [reflexivity|apply nth_error_repeat; lia]).
  - destruct k as [|k]; [cbn; reflexivity|]. cbn [nth]. rewrite IH by lia. reflexivity.
Qed.
