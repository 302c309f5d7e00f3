(** The samples of a band of decoded blocks. *)
From Coq Require Import Reals Psatz.
From Flocq Require Import Core.Core.
From Verif Require Import Base FloatBase FloatModel FloatSpec FloatProof Float64Proof TypesModel ToolsModel ToolsFloatProof SynthModel SynthSpec SynthProof SynthIndex WaveletModel WaveletSpec WaveletLength PcmPlay.
Local Open Scope R_scope.

(** The value of an effect that has started. *)
Lemma eval_wavelet e x fs : is_finite x = true -> (1 <= fs < 2 ^ 31)%Z -> (0 <= e_pos e < 2 ^ 31)%Z -> IZR (e_pos e) <= B2R x -> B2R x * IZR fs / 1000 <= 2147483646 ->
  (vec_size (e_samples e) < 2 ^ 31)%Z ->
  exists j, EvaluateWavelet e x fs 1000 = Ok (nth j (e_samples e) f64_0) /\ IZR (Z.of_nat j) <= B2R (rel_position x (e_pos e) fs) < IZR (Z.of_nat j) + 1.
Proof.
  intros Fx Hf HP Hx Hb Hv. destruct (rel_pos x (e_pos e) fs Fx Hf HP Hx ltac:(lra)) as (Fq & _ & Er & Pq).
  unfold EvaluateWavelet. fold (rel_position x (e_pos e) fs). set (q := rel_position x (e_pos e) fs) in *.
  destruct (ffloor_R q) as [Rq Fq']. rewrite Fq in Fq'.
  assert (F0 : (0 <= Zfloor (B2R q))%Z) by (apply Zfloor_lub; exact Pq).
  pose proof (Zfloor_lb (B2R q)) as Lb. pose proof (Zfloor_ub (B2R q)) as Ub.
  assert (RP : 0 <= IZR (e_pos e)) by (apply IZR_le; lia). assert (RF : 1 <= IZR fs) by (apply IZR_le; lia).
  assert (Bq : B2R q <= 2147483647) by (apply Raux.Rabs_le_inv in Er; nra).
  assert (F1 : (Zfloor (B2R q) < 2 ^ 31)%Z) by (apply lt_IZR; change (IZR (2 ^ 31)) with 2147483648; lra).
  rewrite (ok_int (Zfloor (B2R q)) (ffloor q) Fq' Rq) by lia. cbn [obind].
  exists (Z.to_nat (Zfloor (B2R q))). rewrite Z2Nat.id by exact F0. split; [|lra].
  set (i := Zfloor (B2R q)) in *. unfold vec_size in *. destruct (Z.leb_spec (Z.of_nat (length (e_samples e))) i) as [G|G].
  - rewrite nth_overflow by lia. reflexivity.
  - rewrite (proj2 (Z.ltb_ge _ _)) by exact F0. destruct (nth_error (e_samples e) (Z.to_nat i)) as [v|] eqn:N.
    + rewrite (nth_error_nth _ _ f64_0 N). reflexivity.
    + apply nth_error_None in N. lia.
Qed.

Lemma in_app_index {A} (l : list A) i x : nth_error l i = Some x -> exists l1 l2, l = l1 ++ x :: l2 /\ length l1 = i.
Proof. intros H. destruct (nth_error_split l i H) as (l1 & l2 & -> & E). eauto. Qed.
Lemma concat_nth P : forall (es : list effect) i e j, Forall (fun e => length (e_samples e) = (P)%nat) es -> nth_error es i = Some e -> (j < P)%nat ->
  nth (i * P + j) (flat_map e_samples es) f64_0 = nth j (e_samples e) f64_0.
Proof.
  induction es as [|e0 es IH]; intros i e j H Hi Hj; [destruct i; discriminate|]. pose proof (Forall_inv H) as H1; pose proof (Forall_inv_tail H) as H2; cbn beta in H1. cbn [flat_map]. destruct i as [|i].
  - injection Hi as ->. cbn [Nat.mul Nat.add]. rewrite app_nth1 by lia. reflexivity.
  - cbn [nth_error] in Hi. rewrite app_nth2 by nia. rewrite H1. replace (S i * P + j - P)%nat with (i * P + j)%nat by lia. apply IH; assumption.
Qed.
Section Band.
Variable fsin : f64 -> f64.
Variable fpow : f64 -> f64 -> f64.
Variables akima bezier bspline : list point -> outcome (list f64).
Variable fuel : nat.
Variable b : band.
Hypothesis Tb : b_type b = WaveletB.

(** An effect that adds nothing, and one that adds [v]. *)
Definition adds_nothing (x : f64) (e : effect) : Prop :=
  fle (f64_of_Z (e_pos e)) x = false \/ EvaluateWavelet e x (b_up b) 1000 = Ok f64_0.
Definition adds (x : f64) (e : effect) (v : f64) : Prop :=
  fle (f64_of_Z (e_pos e)) x = true /\ EvaluateWavelet e x (b_up b) 1000 = Ok v.
Lemma switch x e : EvaluationSwitch fsin fpow fuel b x e (b_low b) (b_up b) 1000 = EvaluateWavelet e x (b_up b) 1000.
Proof. unfold EvaluationSwitch. rewrite Tb. reflexivity. Qed.
Lemma add_0_r v : is_finite v = true -> is_finite (add64 v f64_0) = true /\ B2R (add64 v f64_0) = B2R v.
Proof. destruct v as [s|s| |s m e H]; intros F; try discriminate; [destruct s; split; reflexivity|split; reflexivity]. Qed.
Lemma add_0_l v z : is_finite v = true -> is_finite z = true -> B2R z = 0 -> is_finite (add64 z v) = true /\ B2R (add64 z v) = B2R v.
Proof.
  intros F G E. destruct z as [s|s| |s m e H]; try discriminate.
  - destruct v as [s'|s'| |s' m' e' H']; try discriminate; [destruct s, s'; split; reflexivity|split; reflexivity].
  - exfalso. cbn [B2R] in E. apply eq_0_F2R in E. cbn in E. destruct s; discriminate.
Qed.
Lemma nothing_step x e res : adds_nothing x e -> is_finite res = true -> exists res', is_finite res' = true /\ B2R res' = B2R res /\
  (if fle (f64_of_Z (e_pos e)) x then do v <- EvaluationSwitch fsin fpow fuel b x e (b_low b) (b_up b) 1000; Ok (add64 res v) else Ok res) = Ok res'.
Proof.
  intros H F. rewrite switch. destruct (fle (f64_of_Z (e_pos e)) x) eqn:C.
  - destruct H as [H|H]; [congruence|]. rewrite H. cbn [obind]. destruct (add_0_r res F) as [A B]. eauto.
  - eauto.
Qed.
Lemma nothing_all x l : forall res, Forall (adds_nothing x) l -> is_finite res = true ->
  exists res', add_effects fsin fpow fuel b x 1000 res l = Ok res' /\ is_finite res' = true /\ B2R res' = B2R res.
Proof.
  induction l as [|e l IH]; intros res H F; [exists res; auto|]. inversion H as [|? ? H1 H2]; subst. cbn [add_effects].
  destruct (nothing_step x e res H1 F) as (r & Fr & Er & ->). cbn [obind]. destruct (IH r H2 Fr) as (r' & E & F' & E'). exists r'. rewrite E' . auto.
Qed.
Lemma one_effect x l1 e l2 v : Forall (adds_nothing x) l1 -> Forall (adds_nothing x) l2 -> adds x e v -> is_finite v = true ->
  exists r, add_effects fsin fpow fuel b x 1000 f64_0 (l1 ++ e :: l2) = Ok r /\ is_finite r = true /\ B2R r = B2R v.
Proof.
  intros H1 H2 [C V] F.
  assert (G : forall z, is_finite z = true -> B2R z = 0 -> exists r, add_effects fsin fpow fuel b x 1000 z (l1 ++ e :: l2) = Ok r /\ is_finite r = true /\ B2R r = B2R v).
  { clear -H1 H2 C V F Tb. induction l1 as [|e1 l1 IH]; intros z Fz Ez.
    - cbn [app add_effects]. rewrite C, switch, V. cbn [obind]. destruct (add_0_l v z F Fz Ez) as [A B].
      destruct (nothing_all x l2 _ H2 A) as (r & E & Fr & Er). exists r. rewrite Er. auto.
    - inversion H1 as [|? ? H3 H4]; subst. cbn [app add_effects]. destruct (nothing_step x e1 z H3 Fz) as (r & Fr & Er & ->). cbn [obind].
      apply IH; [exact H4|exact Fr|congruence]. }
  apply G; reflexivity.
Qed.

(** The blocks: number [i] starts at [i * L] ticks and has [bl] samples. *)
Variable k L fs : nat.
Hypothesis HL : (L * fs = 1000 * 2 ^ k)%nat.
Hypothesis Hup : b_up b = Z.of_nat fs.
Hypothesis Hfs : (Z.of_nat fs < 2 ^ 31)%Z.
Hypothesis Hes : forall i e, nth_error (b_effects b) i = Some e -> e_pos e = (Z.of_nat i * Z.of_nat L)%Z /\ length (e_samples e) = (2 ^ k)%nat /\ Forall (fun v => is_finite v = true) (e_samples e).
Hypothesis Hn : (Z.of_nat (length (b_effects b)) * Z.of_nat (2 ^ k) <= 2 ^ 31 - 2)%Z.
Hypothesis HnL : (Z.of_nat (length (b_effects b)) * Z.of_nat L < 2 ^ 31)%Z.

Lemma block_sample ti : (0 <= ti < Z.of_nat (length (b_effects b)) * Z.of_nat (2 ^ k))%Z ->
  exists i e j v, nth_error (b_effects b) i = Some e /\ (j < 2 ^ k)%nat /\ nth j (e_samples e) f64_0 = v /\
    (Z.of_nat (i * 2 ^ k + j) = ti \/ Z.of_nat (i * 2 ^ k + j) + 1 = ti)%Z /\
    adds (sample_position (Z.of_nat fs) 0 1000 ti) e v /\
    forall i' e', nth_error (b_effects b) i' = Some e' -> i' <> i -> adds_nothing (sample_position (Z.of_nat fs) 0 1000 ti) e'.
Proof.
  intros Ht. assert (S31 : (2 ^ 31 = 2147483648)%Z) by reflexivity. rewrite S31 in *.
  set (P := (2 ^ k)%nat) in *. assert (P1 : (1 <= P)%nat) by (unfold P; assert (2 ^ k <> 0)%nat by (apply Nat.pow_nonzero; lia); lia).
  assert (ZL : (Z.of_nat L * Z.of_nat fs = 1000 * Z.of_nat P)%Z) by lia.
  assert (F1 : (1 <= Z.of_nat fs)%Z) by nia. assert (L1 : (1 <= Z.of_nat L)%Z) by nia.
  assert (Ti : (0 <= ti < 2147483646)%Z) by lia.
  destruct (sample_pos (Z.of_nat fs) ti) as (Fx & Ex & Er & Px); [rewrite S31; lia|rewrite S31; lia|].
  set (x := sample_position (Z.of_nat fs) 0 1000 ti) in *. set (X := B2R x) in *.
  assert (RF : 1 <= IZR (Z.of_nat fs) <= 2147483648) by (split; apply IZR_le; lia). set (F := IZR (Z.of_nat fs)) in *.
  assert (RT : 0 <= IZR ti <= 2147483645) by (split; apply IZR_le; lia).
  apply Raux.Rabs_le_inv in Er.
  assert (BX : X * F / 1000 <= 2147483646) by lra.
  (* the start of a block in samples *)
  assert (St : forall i : Z, IZR (i * Z.of_nat L) * F / 1000 = IZR (i * Z.of_nat P)).
  { intros i. unfold F. replace (IZR (i * Z.of_nat L) * IZR (Z.of_nat fs)) with (IZR (i * (Z.of_nat L * Z.of_nat fs))) by (rewrite !mult_IZR; ring). rewrite ZL, !mult_IZR. field. }
  assert (Lt : forall i : Z, (0 <= i)%Z -> (ti < i * Z.of_nat P)%Z -> X < IZR (i * Z.of_nat L)).
  { intros i Hi H. assert (IZR (ti + 1) <= IZR (i * Z.of_nat P)) by (apply IZR_le; lia). rewrite plus_IZR, <- St in H0.
    apply Rmult_lt_reg_r with F; [lra|]. lra. }
  assert (Ge : forall i : Z, (0 <= i)%Z -> (i * Z.of_nat P < ti)%Z -> IZR (i * Z.of_nat L) <= X).
  { intros i Hi H. assert (IZR (i * Z.of_nat P + 1) <= IZR ti) by (apply IZR_le; lia). rewrite plus_IZR, <- St in H0.
    apply Rmult_le_reg_r with F; [lra|]. lra. }
  (* the effects *)
  assert (Cmp : forall i e, nth_error (b_effects b) i = Some e -> fle (f64_of_Z (e_pos e)) x = Rle_bool (IZR (Z.of_nat i * Z.of_nat L)) X).
  { intros i e Hi. destruct (Hes i e Hi) as (Ep & _ & _). assert (Li : (i < length (b_effects b))%nat) by (apply nth_error_Some; congruence).
    destruct (f64_of_Z_ok (e_pos e)) as [Ee Fe]; [rewrite Ep; change (2 ^ 53)%Z with 9007199254740992%Z; nia|].
    rewrite fle_R by assumption. rewrite Ee, Ep. reflexivity. }
  assert (Val : forall i e, nth_error (b_effects b) i = Some e -> IZR (Z.of_nat i * Z.of_nat L) <= X ->
     exists j, EvaluateWavelet e x (b_up b) 1000 = Ok (nth j (e_samples e) f64_0) /\
       IZR (Z.of_nat j) <= B2R (rel_position x (e_pos e) (Z.of_nat fs)) < IZR (Z.of_nat j) + 1 /\
       (Z.of_nat (i * P + j) = ti \/ Z.of_nat (i * P + j) + 1 = ti)%Z).
  { intros i e Hi Hx. destruct (Hes i e Hi) as (Ep & Es & _). assert (Li : (i < length (b_effects b))%nat) by (apply nth_error_Some; congruence).
    assert (Hpos : (0 <= e_pos e < 2 ^ 31)%Z) by (rewrite Ep, S31; nia).
    rewrite Hup. destruct (eval_wavelet e x (Z.of_nat fs) Fx) as (j & Ej & Hj); try assumption.
    - rewrite S31; lia.
    - rewrite Ep. exact Hx.
    - unfold vec_size. rewrite Es, S31. nia.
    - exists j. split; [exact Ej|]. split; [exact Hj|].
      destruct (rel_pos x (e_pos e) (Z.of_nat fs) Fx) as (_ & _ & Eq & _); [rewrite S31; lia|exact Hpos|rewrite Ep; exact Hx|fold X F; lra|].
      apply Raux.Rabs_le_inv in Eq. fold X F in Eq. rewrite Ep in *.
      assert (Es' : (X - IZR (Z.of_nat i * Z.of_nat L)) * F / 1000 = X * F / 1000 - IZR (Z.of_nat i * Z.of_nat P)) by (rewrite <- St; field).
      rewrite Es' in Eq. set (q := B2R (rel_position x (Z.of_nat i * Z.of_nat L) (Z.of_nat fs))) in *.
      assert (A : IZR (Z.of_nat j + Z.of_nat i * Z.of_nat P) < IZR (ti + 1)) by (rewrite !plus_IZR; lra).
      assert (B : IZR (ti - 2) < IZR (Z.of_nat j + Z.of_nat i * Z.of_nat P)) by (rewrite plus_IZR, minus_IZR; lra).
      apply lt_IZR in A, B. lia. }
  (* too late or too early *)
  assert (Late : forall i e, nth_error (b_effects b) i = Some e -> (ti < Z.of_nat i * Z.of_nat P)%Z -> adds_nothing x e).
  { intros i e Hi H. left. rewrite (Cmp i e Hi). apply Rle_bool_false. apply Lt; [lia|exact H]. }
  assert (Early : forall i e, nth_error (b_effects b) i = Some e -> (Z.of_nat (S i) * Z.of_nat P < ti)%Z -> adds_nothing x e).
  { intros i e Hi H. right. destruct (Val i e Hi) as (j & Ej & _ & Hj); [apply Ge; nia|]. rewrite Ej. destruct (Hes i e Hi) as (_ & Es & _).
    rewrite nth_overflow; [reflexivity|]. rewrite Es. fold P. nia. }
  (* the block of the sample *)
  set (b0 := (ti / Z.of_nat P)%Z). set (r := (ti mod Z.of_nat P)%Z).
  assert (Hb0 : (ti = b0 * Z.of_nat P + r /\ 0 <= r < Z.of_nat P)%Z) by (unfold b0, r; split; [rewrite Z.mul_comm; apply Z.div_mod; lia|apply Z.mod_pos_bound; lia]).
  assert (Hb1 : (0 <= b0 < Z.of_nat (length (b_effects b)))%Z) by nia.
  assert (At : forall i : nat, (i < length (b_effects b))%nat -> exists e, nth_error (b_effects b) i = Some e).
  { intros i Hi. destruct (nth_error (b_effects b) i) eqn:N; [eauto|]. apply nth_error_None in N. lia. }
  destruct (At (Z.to_nat b0)) as [e Ne]; [lia|]. pose proof (Hes _ _ Ne) as (Ep & Es & Ff).
  destruct (Rle_or_lt (IZR (Z.of_nat (Z.to_nat b0) * Z.of_nat L)) X) as [Hx|Hx].
  - (* the block has started *)
    destruct (Val _ e Ne Hx) as (j & Ej & Hq & Hj). exists (Z.to_nat b0), e, j, (nth j (e_samples e) f64_0).
    assert (Lj : (j < P)%nat) by nia.
    split; [exact Ne|]. split; [exact Lj|]. split; [reflexivity|]. split; [exact Hj|]. split.
    + split; [rewrite (Cmp _ e Ne); apply Rle_bool_true; exact Hx|exact Ej].
    + intros i' e' Ne' D. destruct (Nat.lt_total i' (Z.to_nat b0)) as [G|[G|G]]; [|contradiction|apply (Late i' e' Ne'); nia].
      destruct (Z.eq_dec r 0) as [R0|R0].
      * (* the block before, at its end *)
        destruct (Nat.eq_dec (S i') (Z.to_nat b0)) as [G1|G1]; [|apply (Early i' e' Ne'); nia].
        right. destruct (Hes i' e' Ne') as (Ep' & Es' & _).
        assert (Li : (i' < length (b_effects b))%nat) by (apply nth_error_Some; congruence).
        assert (Hi'x : IZR (Z.of_nat i' * Z.of_nat L) <= X) by (eapply Rle_trans; [|exact Hx]; apply IZR_le; nia).
        destruct (Val i' e' Ne' Hi'x) as (j' & Ej' & Hq' & _). rewrite Ej'. rewrite nth_overflow; [reflexivity|]. rewrite Es'. fold P.
        destruct (rel_pos x (e_pos e') (Z.of_nat fs) Fx) as (_ & Eq & _); [rewrite S31; lia|rewrite Ep', S31; nia|rewrite Ep'; exact Hi'x|fold X F; lra|].
        fold X F in Eq. rewrite Ep' in Eq, Hq'. rewrite Eq in Hq'.
        assert (M1 : IZR (Z.of_nat L) <= rnd64 (X - IZR (Z.of_nat i' * Z.of_nat L))).
        { rewrite <- (rnd64_id (IZR (Z.of_nat L))) by (apply fmt64_Z; change (2 ^ 53)%Z with 9007199254740992%Z; nia). apply rnd64_le.
          rewrite <- G1 in Hx. replace (Z.of_nat (S i') * Z.of_nat L)%Z with (Z.of_nat i' * Z.of_nat L + Z.of_nat L)%Z in Hx by lia. rewrite plus_IZR in Hx. lra. }
        assert (EP : IZR (Z.of_nat L) * F = 1000 * IZR (Z.of_nat P)) by (unfold F; rewrite <- !mult_IZR; f_equal; exact ZL).
        assert (PB : (Z.of_nat P < 2147483648)%Z) by nia.
        assert (M2 : 1000 * IZR (Z.of_nat P) <= rnd64 (rnd64 (X - IZR (Z.of_nat i' * Z.of_nat L)) * F)).
        { rewrite <- mult_IZR. rewrite <- (rnd64_id (IZR (1000 * Z.of_nat P))) by (apply fmt64_Z; change (2 ^ 53)%Z with 9007199254740992%Z; lia). apply rnd64_le. rewrite mult_IZR, <- EP. apply Rmult_le_compat_r; lra. }
        assert (M3 : IZR (Z.of_nat P) <= rnd64 (rnd64 (rnd64 (X - IZR (Z.of_nat i' * Z.of_nat L)) * F) / 1000)).
        { rewrite <- (rnd64_id (IZR (Z.of_nat P))) by (apply fmt64_Z; change (2 ^ 53)%Z with 9007199254740992%Z; lia). apply rnd64_le. lra. }
        assert (IZR (Z.of_nat P) < IZR (Z.of_nat j' + 1)) by (rewrite plus_IZR; lra). apply lt_IZR in H. lia.
      * apply (Early i' e' Ne'). nia.
  - (* rounding put the sample before the start of its block *)
    assert (R0 : r = 0%Z).
    { destruct (Z.eq_dec r 0) as [|R0]; [assumption|exfalso]. assert (IZR (b0 * Z.of_nat L) <= X) by (apply Ge; nia). rewrite Z2Nat.id in Hx by lia. lra. }
    rewrite R0, Z.add_0_r in Hb0. destruct Hb0 as [Hb0 _]. rewrite Z2Nat.id in Hx by lia.
    assert (B3 : (3 <= b0)%Z).
    { destruct (Z_lt_le_dec b0 3) as [G|G]; [exfalso|exact G]. destruct (Z.eq_dec b0 0) as [G0|G0].
      - rewrite G0 in Hx. change (IZR (0 * Z.of_nat L)) with 0 in Hx. lra.
      - rewrite Ex, Hb0 in Hx. unfold F, P in Hx. rewrite (first_blocks k L fs b0 HL ltac:(lia)) in Hx. lra. }
    destruct (At (Z.to_nat (b0 - 1))) as [e1 Ne1]; [lia|]. pose proof (Hes _ _ Ne1) as (Ep1 & Es1 & Ff1). rewrite Z2Nat.id in Ep1 by lia.
    assert (Hx1 : IZR ((b0 - 1) * Z.of_nat L) <= X) by (apply Ge; nia).
    destruct (Val _ e1 Ne1) as (j & Ej & Hq & Hj); [rewrite Z2Nat.id by lia; exact Hx1|].
    destruct (rel_pos x (e_pos e1) (Z.of_nat fs) Fx) as (_ & Eq & _); [rewrite S31; lia|rewrite Ep1, S31; nia|rewrite Ep1; exact Hx1|fold X F; lra|].
    rewrite Ep1 in Eq, Hq. rewrite Eq in Hq.
    assert (Lj : (j < P)%nat).
    { assert (IZR (Z.of_nat j) < IZR (Z.of_nat P)); [|apply lt_IZR in H; lia]. eapply Rle_lt_trans; [exact (proj1 Hq)|].
      apply (late_block x (Z.of_nat L) b0 (Z.of_nat fs) (Z.of_nat P)); try assumption; try lia; try (rewrite S31; nia).
      - split; [|exact Hx]. assert (Y : IZR ((b0 - 1) * Z.of_nat P + 1) <= IZR ti) by (apply IZR_le; nia). rewrite plus_IZR, <- St in Y. apply Rmult_lt_reg_r with F; [lra|]. fold X. lra.
      - fold X. apply Rmult_le_reg_r with (F / 1000); [lra|]. replace (IZR (b0 * Z.of_nat L) * (1 - / 1024) * (F / 1000)) with (IZR (b0 * Z.of_nat L) * F / 1000 * (1 - / 1024)) by field.
        rewrite St, <- Hb0. assert (1 <= IZR ti) by (apply IZR_le; nia). lra. }
    exists (Z.to_nat (b0 - 1)), e1, j, (nth j (e_samples e1) f64_0).
    split; [exact Ne1|]. split; [exact Lj|]. split; [reflexivity|]. split; [exact Hj|]. split.
    + split; [rewrite (Cmp _ e1 Ne1); apply Rle_bool_true; rewrite Z2Nat.id by lia; exact Hx1|exact Ej].
    + intros i' e' Ne' D. destruct (Nat.lt_total i' (Z.to_nat (b0 - 1))) as [G|[G|G]]; [apply (Early i' e' Ne'); nia|contradiction|].
      destruct (Nat.eq_dec i' (Z.to_nat b0)) as [->|G1]; [|apply (Late i' e' Ne'); nia].
      left. rewrite (Cmp _ e' Ne'). apply Rle_bool_false. rewrite Z2Nat.id by lia. exact Hx.
Qed.

(** A sample of the band. *)
Theorem band_plays ti : (0 <= ti < Z.of_nat (length (b_effects b)) * Z.of_nat (2 ^ k))%Z ->
  exists v j, band_sample fsin fpow fuel b (Z.of_nat fs) 0 1000 ti = Ok v /\ (Z.of_nat j = ti \/ Z.of_nat j + 1 = ti)%Z /\
    is_finite v = true /\ B2R v = B2R (nth j (flat_map e_samples (b_effects b)) f64_0).
Proof.
  intros Ht. destruct (block_sample ti Ht) as (i & e & j & v & Ne & Hj & Ev & Hij & Ha & Hn').
  assert (Fv : is_finite v = true).
  { rewrite <- Ev. destruct (Hes i e Ne) as (_ & Es & Ff). rewrite Forall_forall in Ff. apply Ff, nth_In. lia. }
  destruct (in_app_index _ _ _ Ne) as (l1 & l2 & El & Ll).
  assert (N1 : Forall (adds_nothing (sample_position (Z.of_nat fs) 0 1000 ti)) l1).
  { apply Forall_forall. intros e' He. apply In_nth_error in He. destruct He as [m Hm]. assert (m < length l1)%nat by (apply nth_error_Some; congruence).
    apply (Hn' m); [rewrite El, nth_error_app1 by lia; exact Hm|lia]. }
  assert (N2 : Forall (adds_nothing (sample_position (Z.of_nat fs) 0 1000 ti)) l2).
  { apply Forall_forall. intros e' He. apply In_nth_error in He. destruct He as [m Hm].
    apply (Hn' (S (i + m))); [|lia]. rewrite El, nth_error_app2 by lia. rewrite Ll. replace (S (i + m) - i)%nat with (S m) by lia. exact Hm. }
  assert (C : nth (i * 2 ^ k + j) (flat_map e_samples (b_effects b)) f64_0 = v).
  { rewrite (concat_nth (2 ^ k) (b_effects b) i e j); [exact Ev| |exact Ne|exact Hj].
    apply Forall_forall. intros e' He. apply In_nth_error in He. destruct He as [m Hm]. destruct (Hes m e' Hm) as (_ & Es & _). exact Es. }
  rewrite <- C in Fv, Ha. clear Ev.
  unfold band_sample. rewrite Tb.
  destruct (b_effects b) as [|e0 es] eqn:Eb; [destruct l1; discriminate|].
  assert (T : getEffectTimeLength (last (e0 :: es) effect0) WaveletB (getTransientDuration 1000) = Ok f64_0) by (unfold getEffectTimeLength; destruct (e_kfs _); reflexivity).
  rewrite T. cbn [obind]. assert (Rv : rev (e0 :: es) = rev l2 ++ e :: rev l1) by (rewrite El, rev_app_distr; cbn [rev]; rewrite <- app_assoc; reflexivity). rewrite Rv.
  destruct (one_effect (sample_position (Z.of_nat fs) 0 1000 ti) (rev l2) e (rev l1) _ (Forall_rev N2) (Forall_rev N1) Ha Fv) as (w & Ew & Fw & Rw).
  exists w, (i * 2 ^ k + j)%nat. split; [exact Ew|]. split; [exact Hij|]. split; [exact Fw|]. exact Rw.
Qed.
(** All samples. *)
Theorem band_evaluates n : (0 <= n <= Z.of_nat (length (b_effects b)) * Z.of_nat (2 ^ k))%Z ->
  exists out, EvaluationBand fsin fpow akima bezier bspline fuel b n (Z.of_nat fs) 0 1000 = Ok out /\ Z.of_nat (length out) = n /\
    forall ti, (Z.of_nat ti < n)%Z -> exists j, (j = ti \/ S j = ti) /\ is_finite (nth ti out f64_0) = true /\
      B2R (nth ti out f64_0) = B2R (nth j (flat_map e_samples (b_effects b)) f64_0).
Proof.
  intros Hn'. unfold EvaluationBand. rewrite Tb. cbn [Z.eqb WaveletB CurveB].
  change (WaveletB =? CurveB)%Z with false. cbn [Z.eqb].
  unfold times. replace (Z.to_nat (n - 1 + 1 - 0)) with (Z.to_nat n) by lia.
  assert (G : forall m s, (s + Z.of_nat m <= n)%Z -> (0 <= s)%Z -> exists out, map_o (band_sample fsin fpow fuel b (Z.of_nat fs) 0 1000) (map (fun i => (s + Z.of_nat i)%Z) (seq 0 m)) = Ok out /\ length out = m /\
    forall ti, (ti < m)%nat -> exists j, (Z.of_nat j = s + Z.of_nat ti \/ Z.of_nat j + 1 = s + Z.of_nat ti)%Z /\ is_finite (nth ti out f64_0) = true /\ B2R (nth ti out f64_0) = B2R (nth j (flat_map e_samples (b_effects b)) f64_0)).
  { induction m as [|m IH]; intros s Hs Hs0; [exists []; cbn; repeat split; lia|].
    cbn [seq map map_o]. destruct (band_plays (s + Z.of_nat 0)) as (v & j & Ev & Hj & Fv & Rv); [lia|]. rewrite Ev. cbn [obind].
    destruct (IH (s + 1)%Z) as (out & Eo & Lo & Ho); [lia|lia|].
    assert (Sh : map (fun i => (s + Z.of_nat i)%Z) (seq 1 m) = map (fun i => (s + 1 + Z.of_nat i)%Z) (seq 0 m)).
    { rewrite <- seq_shift, map_map. apply map_ext. intros i. lia. }
    rewrite Sh, Eo. cbn [obind]. exists (v :: out). split; [reflexivity|]. split; [cbn; lia|]. intros [|ti] Hti.
    - exists j. cbn [nth]. auto.
    - destruct (Ho ti ltac:(lia)) as (j' & Hj' & Fj' & Rj'). exists j'. cbn [nth]. split; [lia|]. auto. }
  destruct (G (Z.to_nat n) 0%Z) as (out & Eo & Lo & Ho); [lia|lia|]. exists out. split; [exact Eo|]. split; [lia|].
  intros ti Hti. destruct (Ho ti ltac:(lia)) as (j & Hj & Fj & Rj). exists j. split; [lia|]. auto.
Qed.
End Band.
