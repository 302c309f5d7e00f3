(** The decoded blocks of a wavelet band, played one after the other. *)
From Coq Require Import Reals Psatz.
From Flocq Require Import Core.Core.
From Flocq Require Import Sterbenz.
From Verif Require Import Base FloatBase FloatModel FloatSpec FloatProof Float64Proof TypesModel ToolsModel ToolsFloatProof SynthModel SynthSpec SynthProof SynthIndex WaveletModel WaveletSpec WaveletLength.
Local Open Scope R_scope.

Definition u : R := / 9007199254740992.
Definition eta : R := / 1152921504606846976.
Lemma e64 x : 0 <= x -> Rabs (rnd64 x - x) <= u * x + eta.
Proof. intros H. eapply Rle_trans; [apply err64|]. rewrite (Rabs_pos_eq x) by exact H. pose proof tiny_small. unfold u, eta. lra. Qed.
Lemma rnd_nonneg x : 0 <= x -> 0 <= rnd64 x.
Proof. intros H. rewrite <- rnd64_0. apply rnd64_le. exact H. Qed.
Lemma big x : 0 <= x <= 1180591620717411303424 -> Rabs x <= bpow radix2 1000.
Proof. intros H. rewrite Rabs_pos_eq by lra. pose proof WaveletLength.big1000. lra. Qed.
Lemma ip n : 0 < n -> 0 < / n. Proof. apply Rinv_0_lt_compat. Qed.

(** The position of an output sample in ticks. *)
Lemma sample_pos fs ti : (1 <= fs < 2 ^ 31)%Z -> (0 <= ti < 2 ^ 31)%Z ->
  is_finite (sample_position fs 0 1000 ti) = true /\
  B2R (sample_position fs 0 1000 ti) = rnd64 (1000 * rnd64 (IZR ti / IZR fs)) /\
  Rabs (B2R (sample_position fs 0 1000 ti) * IZR fs / 1000 - IZR ti) <= / 262144 /\
  0 <= B2R (sample_position fs 0 1000 ti).
Proof.
  intros Hf Ht. unfold sample_position.
  destruct (f64_of_Z_ok ti ltac:(lia)) as [Ei Fi]. destruct (f64_of_Z_ok fs ltac:(lia)) as [Ef Ff]. destruct (f64_of_Z_ok 1000 ltac:(lia)) as [Es Fs].
  assert (RF : 1 <= IZR fs <= 2147483648) by (split; apply IZR_le; lia).
  assert (RT : 0 <= IZR ti <= 2147483648) by (split; apply IZR_le; lia).
  change (f64_of_Z 0) with f64_0. change (mul64 f64_0 MS_2_S) with f64_0.
  set (a := IZR ti / IZR fs). assert (Ea : a * IZR fs = IZR ti) by (unfold a; field; lra).
  assert (Ba : 0 <= a <= IZR ti).
  { split; [unfold a; apply Rmult_le_pos; [lra|left; apply ip; lra]|]. rewrite <- Ea. assert (0 <= a) by (unfold a; apply Rmult_le_pos; [lra|left; apply ip; lra]). nra. }
  destruct (div64_ok (f64_of_Z ti) (f64_of_Z fs) Fi) as [E1 F1]; [rewrite Ef; lra|rewrite Ei, Ef; fold a; apply big; lra|].
  rewrite Ei, Ef in E1. fold a in E1. set (x1 := div64 (f64_of_Z ti) (f64_of_Z fs)) in *.
  pose proof (e64 a (proj1 Ba)) as H1. apply Raux.Rabs_le_inv in H1. pose proof (rnd_nonneg a (proj1 Ba)) as P1. set (y := rnd64 a) in *.
  unfold u, eta in H1.
  assert (By : 0 <= y <= 2147483650) by lra.
  destruct (sub64_ok x1 f64_0 F1 eq_refl) as [E2 F2]; [change (B2R f64_0) with 0; rewrite E1, Rminus_0_r; apply big; lra|].
  change (B2R f64_0) with 0 in E2. rewrite E1, Rminus_0_r, rnd64_id in E2 by (rewrite <- E1; apply fmt64_B2R).
  set (x2 := sub64 x1 f64_0) in *.
  destruct (mul64_ok (f64_of_Z 1000) x2 Fs F2) as [E3 F3]; [rewrite Es, E2; apply big; lra|]. rewrite Es, E2 in E3.
  split; [exact F3|]. split; [exact E3|]. rewrite E3.
  assert (P2 : 0 <= 1000 * y) by lra. pose proof (e64 _ P2) as H2. apply Raux.Rabs_le_inv in H2. pose proof (rnd_nonneg _ P2) as P3. split; [|exact P3].
  set (x := rnd64 (1000 * y)) in *. unfold u, eta in H2.
  assert (D : x * IZR fs / 1000 - IZR ti = (y - a) * IZR fs + (x - 1000 * y) * IZR fs / 1000) by (rewrite <- Ea; field).
  rewrite D. set (F := IZR fs) in *. set (T := IZR ti) in *.
  assert (Q1 : Rabs ((y - a) * F) <= / 1048576).
  { rewrite Rabs_mult, (Rabs_pos_eq F) by lra. apply Rle_trans with ((/ 9007199254740992 * a + / 1152921504606846976) * F).
    - apply Rmult_le_compat_r; [lra|]. apply Rabs_le. lra.
    - replace ((/ 9007199254740992 * a + / 1152921504606846976) * F) with (/ 9007199254740992 * (a * F) + / 1152921504606846976 * F) by ring. rewrite Ea. lra. }
  assert (Q2 : Rabs ((x - 1000 * y) * F / 1000) <= / 524288).
  { unfold Rdiv. rewrite !Rabs_mult, (Rabs_pos_eq F), (Rabs_pos_eq (/ 1000)) by lra.
    apply Rle_trans with ((/ 9007199254740992 * (1000 * y) + / 1152921504606846976) * F * / 1000).
    - apply Rmult_le_compat_r; [lra|]. apply Rmult_le_compat_r; [lra|]. apply Rabs_le. lra.
    - replace ((/ 9007199254740992 * (1000 * y) + / 1152921504606846976) * F * / 1000) with (/ 9007199254740992 * (y * F) + / 1152921504606846976 * F / 1000) by (field; lra).
      assert (y * F <= T + 1).
      { apply Raux.Rabs_le_inv in Q1. replace (y * F) with ((y - a) * F + a * F) by ring. rewrite Ea. lra. }
      lra. }
  eapply Rle_trans; [apply Rabs_triang|]. lra.
Qed.

(** The index into the samples of an effect at [P] ticks that is not later than the position [x]. *)
Definition rel_position (x : f64) (P fs : Z) : f64 := div64 (mul64 (sub64 x (f64_of_Z P)) (f64_of_Z fs)) (f64_of_Z 1000).
Lemma rel_pos x P fs : is_finite x = true -> (1 <= fs < 2 ^ 31)%Z -> (0 <= P < 2 ^ 31)%Z -> IZR P <= B2R x -> B2R x * IZR fs / 1000 <= 2147483648 ->
  is_finite (rel_position x P fs) = true /\
  B2R (rel_position x P fs) = rnd64 (rnd64 (rnd64 (B2R x - IZR P) * IZR fs) / 1000) /\
  Rabs (B2R (rel_position x P fs) - (B2R x - IZR P) * IZR fs / 1000) <= / 262144 /\ 0 <= B2R (rel_position x P fs).
Proof.
  intros Fx Hf HP Hx Hb. unfold rel_position.
  destruct (f64_of_Z_ok P ltac:(lia)) as [EP FP]. destruct (f64_of_Z_ok fs ltac:(lia)) as [Ef Ff]. destruct (f64_of_Z_ok 1000 ltac:(lia)) as [Es Fs].
  assert (RF : 1 <= IZR fs <= 2147483648) by (split; apply IZR_le; lia).
  assert (RP : 0 <= IZR P <= 2147483648) by (split; apply IZR_le; lia).
  set (X := B2R x) in *. set (F := IZR fs) in *.
  assert (XF : 0 <= X * F <= 2147483648000) by (split; [apply Rmult_le_pos; lra|lra]).
  assert (BX : X <= 2147483648000) by nra.
  destruct (sub64_ok x (f64_of_Z P) Fx FP) as [E1 F1]; [fold X; rewrite EP; apply big; lra|]. fold X in E1. rewrite EP in E1.
  set (x1 := sub64 x (f64_of_Z P)) in *. set (D := X - IZR P) in *. assert (P0 : 0 <= D) by (unfold D; lra).
  assert (DF : 0 <= D * F <= 2147483648000) by (split; [apply Rmult_le_pos; lra|unfold D; nra]).
  pose proof (e64 D P0) as H1. apply Raux.Rabs_le_inv in H1. pose proof (rnd_nonneg D P0) as P1. set (d := rnd64 D) in *. unfold u, eta in H1.
  assert (dF : Rabs (d * F - D * F) <= / 2048).
  { replace (d * F - D * F) with ((d - D) * F) by ring. rewrite Rabs_mult, (Rabs_pos_eq F) by lra.
    apply Rle_trans with ((/ 9007199254740992 * D + / 1152921504606846976) * F); [apply Rmult_le_compat_r; [lra|]; apply Rabs_le; lra|].
    replace ((/ 9007199254740992 * D + / 1152921504606846976) * F) with (/ 9007199254740992 * (D * F) + / 1152921504606846976 * F) by ring. lra. }
  apply Raux.Rabs_le_inv in dF. assert (Pd : 0 <= d * F) by (apply Rmult_le_pos; lra).
  destruct (mul64_ok x1 (f64_of_Z fs) F1 Ff) as [E2 F2]; [rewrite E1, Ef; fold F; apply big; lra|]. rewrite E1, Ef in E2. fold F in E2.
  set (x2 := mul64 x1 (f64_of_Z fs)) in *.
  pose proof (e64 _ Pd) as H2. apply Raux.Rabs_le_inv in H2. pose proof (rnd_nonneg _ Pd) as P2. set (m := rnd64 (d * F)) in *. unfold u, eta in H2.
  assert (Pm : 0 <= m / 1000) by lra.
  destruct (div64_ok x2 (f64_of_Z 1000) F2) as [E3 F3]; [rewrite Es; lra|rewrite E2, Es; apply big; lra|]. rewrite E2, Es in E3.
  split; [exact F3|]. split; [exact E3|]. rewrite E3.
  pose proof (e64 _ Pm) as H3. apply Raux.Rabs_le_inv in H3. unfold u, eta in H3. split; [|apply rnd_nonneg; exact Pm].
  apply Rabs_le. lra.
Qed.

(** *** The times of the second and of the third block are exact *)
Lemma exact_five d : In d [1; 5; 25; 125]%Z -> rnd64 (1000 * rnd64 (IZR d / 1000)) = IZR d.
Proof.
  intros H. assert (Bd : (1 <= d <= 125)%Z) by (cbn [In] in H; lia). assert (Id : 1 <= IZR d <= 125) by (split; apply IZR_le; lia).
  destruct (f64_of_Z_ok d ltac:(lia)) as [Ed Fd]. destruct (f64_of_Z_ok 1000 ltac:(lia)) as [Es Fs].
  destruct (div64_ok (f64_of_Z d) (f64_of_Z 1000) Fd) as [E1 F1]; [rewrite Es; lra|rewrite Ed, Es; apply big; lra|]. rewrite Ed, Es in E1.
  assert (P1 : 0 <= IZR d / 1000) by lra. pose proof (e64 _ P1) as H1. apply Raux.Rabs_le_inv in H1. pose proof (rnd_nonneg _ P1). unfold u, eta in H1.
  destruct (mul64_ok (f64_of_Z 1000) (div64 (f64_of_Z d) (f64_of_Z 1000)) Fs F1) as [E2 F2]; [rewrite Es, E1; apply big; lra|]. rewrite Es, E1 in E2.
  rewrite <- E2, <- Ed. f_equal. apply B2SF_inj. cbn [In] in H. destruct H as [<-|[<-|[<-|[<-|[]]]]]; vm_compute; reflexivity.
Qed.
Lemma exact_shift d e : In d [1; 5; 25; 125]%Z -> (0 <= e)%Z -> rnd64 (1000 * rnd64 (IZR d * bpow radix2 e / 1000)) = IZR d * bpow radix2 e.
Proof.
  intros H He. assert (Bd : (1 <= d <= 125)%Z) by (cbn [In] in H; lia). assert (Id : 1 <= IZR d <= 125) by (split; apply IZR_le; lia).
  assert (P1 : 0 <= IZR d / 1000) by lra. pose proof (e64 _ P1) as H1. apply Raux.Rabs_le_inv in H1. unfold u, eta in H1. pose proof small1000 as Sm.
  replace (IZR d * bpow radix2 e / 1000) with (IZR d / 1000 * bpow radix2 e) by field.
  rewrite rnd_shift by (try exact He; rewrite Rabs_pos_eq by lra; lra).
  replace (1000 * (rnd64 (IZR d / 1000) * bpow radix2 e)) with (1000 * rnd64 (IZR d / 1000) * bpow radix2 e) by ring.
  rewrite rnd_shift by (try exact He; rewrite Rabs_pos_eq by lra; lra). rewrite exact_five by exact H. reflexivity.
Qed.
Lemma first_blocks k (L fs : nat) b : (L * fs = 1000 * 2 ^ k)%nat -> (b = 1 \/ b = 2)%Z ->
  rnd64 (1000 * rnd64 (IZR (b * Z.of_nat (2 ^ k)) / IZR (Z.of_nat fs))) = IZR (b * Z.of_nat L).
Proof.
  intros H Hb. assert (H' : (L * fs = 125 * 2 ^ (k + 3))%nat) by (rewrite Nat.pow_add_r; change (2 ^ 3)%nat with 8%nat; lia).
  destruct (split_two (k + 3) L fs H') as (x & x' & d & d' & EL & Ef & Hx & Hd). pose proof (split_five d d' Hd) as C.
  assert (Pf : (1 <= Z.of_nat fs)%Z) by (assert (2 ^ k <> 0)%nat by (apply Nat.pow_nonzero; lia); nia). apply IZR_le in Pf.
  assert (Eq : IZR (b * Z.of_nat (2 ^ k)) / IZR (Z.of_nat fs) = IZR (b * Z.of_nat L) / 1000).
  { apply (f_equal Z.of_nat) in H. rewrite !Nat2Z.inj_mul in H. apply (f_equal IZR) in H. rewrite !mult_IZR in *. change (IZR (Z.of_nat 1000)) with 1000 in H.
    apply Rmult_eq_reg_r with (IZR (Z.of_nat fs) * 1000); [|lra]. set (A := IZR (Z.of_nat (2 ^ k))) in *. set (F := IZR (Z.of_nat fs)) in *. set (l := IZR (Z.of_nat L)) in *.
    replace (IZR b * A / F * (F * 1000)) with (IZR b * (1000 * A)) by (field; lra). rewrite <- H. field. }
  rewrite Eq. set (e := (Z.of_nat x + (if (b =? 1)%Z then 0 else 1))%Z).
  assert (EbL : IZR (b * Z.of_nat L) = IZR (Z.of_nat d) * bpow radix2 e).
  { rewrite EL, Nat2Z.inj_mul, !mult_IZR, pow_bpow. unfold e. destruct Hb as [-> | ->]; cbn [Z.eqb Pos.eqb]; rewrite bpow_plus; cbn [bpow]; [ring|change (IZR (Z.pow_pos radix2 1)) with 2; ring]. }
  rewrite EbL. apply exact_shift; [|unfold e; destruct (b =? 1)%Z; lia].
  destruct C as [[-> _]|[[-> _]|[[-> _]|[-> _]]]]; cbn; tauto.
Qed.

(** *** A position just before a block *)
(** A number below a positive number of the format is smaller by at least 2^-53 of itself. *)
Lemma below_gap x y : fmt64 x -> fmt64 y -> 0 < x < y -> x + u * x <= y.
Proof.
  intros Fx Fy [H0 H1].
  assert (Sx : succ radix2 (FLT_exp (-1074) 53) x <= y) by (apply succ_le_lt; try assumption; typeclasses eauto).
  rewrite succ_eq_pos in Sx by lra. pose proof (ulp_FLT_gt radix2 (-1074) 53 x) as Gt. rewrite (Rabs_pos_eq x) in Gt by lra.
  assert (E : bpow radix2 (Z.opp 53) = u) by (rewrite (bpow_inv 53) by lia; unfold u; cbn; lra). rewrite E in Gt. lra.
Qed.
Lemma late_block (x : f64) (L b fs bl : Z) : is_finite x = true -> (1 <= fs < 2 ^ 31)%Z -> (1 <= L)%Z -> (3 <= b)%Z -> (b * L < 2 ^ 31)%Z -> (L * fs = 1000 * bl)%Z -> (bl < 2 ^ 31)%Z ->
  IZR ((b - 1) * L) < B2R x < IZR (b * L) -> IZR (b * L) * (1 - / 1024) <= B2R x ->
  rnd64 (rnd64 (rnd64 (B2R x - IZR ((b - 1) * L)) * IZR fs) / 1000) < IZR bl.
Proof.
  intros Fx Hf HL Hb HbL HLf Hbl [Hx1 Hx2] Hx3.
  assert (RF : 1 <= IZR fs <= 2147483648) by (split; apply IZR_le; lia).
  assert (RL : 1 <= IZR L <= 2147483648) by (split; apply IZR_le; nia).
  assert (Rb : 3 <= IZR b <= 2147483648) by (split; apply IZR_le; nia).
  assert (EL : IZR L * IZR fs = 1000 * IZR bl) by (rewrite <- !mult_IZR; f_equal; exact HLf).
  assert (Rbl : IZR bl <= 2147483648) by (apply IZR_le; lia).
  rewrite mult_IZR, minus_IZR in Hx1. rewrite mult_IZR in Hx2, Hx3.
  pose proof (fmt64_B2R x) as FX. set (X := B2R x) in *.
  assert (PbL : 3 <= IZR b * IZR L) by nra.
  (* the distance is exact *)
  assert (D : rnd64 (X - IZR ((b - 1) * L)) = X - IZR ((b - 1) * L)).
  { apply rnd64_id. apply sterbenz; [typeclasses eauto|typeclasses eauto|exact FX|apply fmt64_Z; change (2 ^ 53)%Z with 9007199254740992%Z; nia|]. rewrite mult_IZR, minus_IZR. split; nra. }
  rewrite D. rewrite mult_IZR, minus_IZR.
  assert (G : X + u * X <= IZR b * IZR L).
  { rewrite <- mult_IZR. apply below_gap; [exact FX|apply fmt64_Z; change (2 ^ 53)%Z with 9007199254740992%Z; lia|rewrite mult_IZR; lra]. }
  unfold u in G.
  set (d := X - (IZR b - 1) * IZR L) in *.
  assert (Hd : d <= IZR L * (1 - 5 / 2 * / 9007199254740992)).
  { unfold d. assert (IZR b * IZR L - X >= 5 / 2 * / 9007199254740992 * IZR L); [|lra].
    assert (X >= 5 / 2 * IZR L) by nra. nra. }
  assert (Pd : 0 <= d) by (unfold d; lra).
  assert (HdF : d * IZR fs <= 1000 * IZR bl * (1 - 5 / 2 * / 9007199254740992)).
  { rewrite <- EL. replace (IZR L * IZR fs * (1 - 5 / 2 * / 9007199254740992)) with (IZR L * (1 - 5 / 2 * / 9007199254740992) * IZR fs) by ring. apply Rmult_le_compat_r; lra. }
  assert (PdF : 0 <= d * IZR fs) by (apply Rmult_le_pos; lra).
  pose proof (err64 (d * IZR fs)) as H1. rewrite (Rabs_pos_eq (d * IZR fs)) in H1 by exact PdF. apply Raux.Rabs_le_inv in H1. pose proof (rnd_nonneg _ PdF) as P1. set (m := rnd64 (d * IZR fs)) in *.
  assert (Pm : 0 <= m / 1000) by lra. pose proof (err64 (m / 1000)) as H2. rewrite (Rabs_pos_eq (m / 1000)) in H2 by exact Pm. apply Raux.Rabs_le_inv in H2.
  assert (T : bpow radix2 (-150) <= / 1267650600228229401496703205376).
  { apply Rle_trans with (bpow radix2 (Z.opp 100)); [apply bpow_le; lia|]. rewrite (bpow_inv 100) by lia. right. reflexivity. }
  assert (Bbl : 1 <= IZR bl) by (apply IZR_le; nia).
  set (N := IZR bl) in *. assert (Hm : m <= 1000 * N * (1 - 3 / 2 * / 9007199254740992) + / 1000000000000000000000000000) by nra.
  nra.
Qed.
