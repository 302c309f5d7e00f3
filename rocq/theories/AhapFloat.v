(** Proofs about the numbers in the import of AHAP files. *)
From Coq Require Import Reals Lra Lia Strings.String.
From Flocq Require Import Core BinarySingleNaN.
From Verif Require Import Base FloatBase FloatModel FloatProof Float64Proof TypesModel SemanticModel ToolsModel ToolsSpec ToolsFloatProof SynthModel SynthProof IvsSpec IvsFloatProof AhapModel AhapSpec.
Local Open Scope R_scope.

Lemma f32_of_f64_ok (x : f64) : is_finite x = true -> Rabs (B2R x) <= bpow radix2 100 ->
  B2R (f32_of_f64 x) = rnd32 (B2R x) /\ is_finite (f32_of_f64 x) = true.
Proof.
  intros Hx B. destruct x as [s|s| |s m e He]; try discriminate.
  - split; [|reflexivity]. cbn. symmetry. apply rnd32_id, fmt32_0.
  - cbn [f32_of_f64]. pose proof (binary_normalize_correct 24 128 prec24 emax128 mode_NE (cond_Zopp s (Zpos m)) e s) as H.
    cbv zeta in H. cbn [B2R] in B. cbn [B2R]. rewrite Rlt_bool_true in H.
    + destruct H as (H1 & H2 & _). split; [exact H1|exact H2].
    + eapply Rle_lt_trans; [apply (rnd_bound (-149) 24 _ (bpow radix2 100) eq_refl fmt32_big B)|apply bpow_lt; reflexivity].
Qed.
Lemma big100 x : Rabs x <= 1048576 * 1048576 * 1048576 * 1048576 -> Rabs x <= bpow radix2 100.
Proof.
  intros H. eapply Rle_trans; [exact H|]. apply Rle_trans with (bpow radix2 80); [|apply bpow_le; lia]. rewrite bpow_IZR by lia. cbn. lra.
Qed.
Lemma rnd32_0 : rnd32 0 = 0. Proof. apply rnd32_id, fmt32_0. Qed.
Lemma rnd32_1 : rnd32 1 = 1. Proof. apply rnd32_id. rewrite <- B2R_1. apply fmt32_B2R. Qed.

(** A value in the unit interval as a [float]. *)
Lemma unit32 (x : f64) : between 0 1 x -> between 0 1 (f32_of_f64 x) /\ Rabs (B2R (f32_of_f64 x) - B2R x) <= / 16777216 + bpow radix2 (-150).
Proof.
  intros (F & H). destruct (f32_of_f64_ok x F) as (E & F'); [apply big100; rewrite Rabs_pos_eq; lra|].
  split.
  - split; [exact F'|]. rewrite E. split; [rewrite <- rnd32_0|rewrite <- rnd32_1]; apply rnd32_le; lra.
  - rewrite E. pose proof (err32 (B2R x)) as Q. rewrite (Rabs_pos_eq (B2R x)) in Q by lra. lra.
Qed.
(** The product of two amplitudes. *)
Lemma mul_unit (x a : f32) : between 0 1 x -> between 0 1 a ->
  between 0 (B2R a) (mul32 x a) /\ between 0 (B2R a) (mul32 a x) /\
  Rabs (B2R (mul32 x a) - B2R x * B2R a) <= / 16777216 + bpow radix2 (-150).
Proof.
  intros (Fx & Hx) (Fa & Ha).
  assert (P : 0 <= B2R x * B2R a <= B2R a) by nra.
  assert (S : Rabs (B2R x * B2R a) <= bpow radix2 100) by (apply big100; rewrite Rabs_pos_eq; lra).
  destruct (mul32_ok x a Fx Fa S) as (E1 & F1). rewrite (Rmult_comm (B2R x)) in S. destruct (mul32_ok a x Fa Fx S) as (E2 & F2).
  assert (Q : 0 <= rnd32 (B2R x * B2R a) <= B2R a).
  { split; [rewrite <- rnd32_0 at 1; apply rnd32_le; lra|]. rewrite <- (rnd32_id (B2R a)) at 2 by apply fmt32_B2R. apply rnd32_le; lra. }
  split; [|split].
  - split; [exact F1|rewrite E1; exact Q].
  - split; [exact F2|rewrite E2, Rmult_comm; exact Q].
  - rewrite E1. pose proof (err32 (B2R x * B2R a)) as R. rewrite (Rabs_pos_eq (B2R x * B2R a)) in R by lra. lra.
Qed.

(** *** Times *)
Lemma round_int (x : f64) : is_finite x = true -> 0 <= B2R x <= 2147483647 ->
  exists z, int_of_float i32 (fround x) = Ok z /\ (0 <= z < 2 ^ 31)%Z /\ Rabs (IZR z - B2R x) <= / 2.
Proof.
  intros F H. destruct (fround_R x) as (E & F'). rewrite F in F'. set (z := Znearest (Zle_bool 0) (B2R x)) in *. exists z.
  assert (N : Rabs (IZR z - B2R x) <= / 2) by (rewrite Rabs_minus_sym; apply Znearest_half).
  assert (Q : (0 <= z < 2 ^ 31)%Z).
  { apply Rabs_le_inv in N. split.
    - apply Zlt_succ_le, lt_IZR. rewrite succ_IZR. lra.
    - change (2 ^ 31)%Z with (Z.succ 2147483647). apply Zle_lt_succ, Zlt_succ_le, lt_IZR. rewrite succ_IZR. lra. }
  split; [|split; [exact Q|exact N]]. unfold int_of_float. rewrite F', (trunc_int _ _ E), i32_small by lia. reflexivity.
Qed.
Lemma ts_R ts : (0 <= ts < 2 ^ 32)%Z -> 0 <= IZR ts <= 4294967296.
Proof. intros H. split; [apply IZR_le; lia|change 4294967296 with (IZR (2 ^ 32)); apply IZR_le; lia]. Qed.
Lemma product ts (x : f64) : (0 <= ts < 2 ^ 32)%Z -> is_finite x = true -> 0 <= in_tick ts x <= 2147483647 ->
  is_finite (mul64 x (f64_of_Z ts)) = true /\ 0 <= B2R (mul64 x (f64_of_Z ts)) <= 2147483647 /\
  Rabs (B2R (mul64 x (f64_of_Z ts)) - in_tick ts x) <= / 2097152.
Proof.
  intros Hts F H. unfold in_tick in *. destruct (f64_of_Z_ok ts) as (Et & Ft); [lia|].
  destruct (mul64_ok x (f64_of_Z ts) F Ft) as (E & F'); [rewrite Et; apply big1000; rewrite Rabs_pos_eq; lra|]. rewrite Et in E.
  split; [exact F'|]. split.
  - rewrite E. split; [rewrite <- rnd64_0|rewrite <- (rnd64_id 2147483647)]; [apply rnd64_le; lra|apply rnd64_le; lra|apply (fmt64_Z 2147483647); lia].
  - rewrite E. pose proof (err64 (B2R x * IZR ts)) as Q. rewrite (Rabs_pos_eq (B2R x * IZR ts)) in Q by lra. pose proof tiny_small. lra.
Qed.
Lemma event_time ts x : (0 <= ts < 2 ^ 32)%Z -> is_finite x = true -> 0 <= in_tick ts x <= 2147483646 ->
  exists t, eventTime x ts = Ok t /\ nearest (in_tick ts x) t /\ (0 <= t < 2 ^ 31)%Z.
Proof.
  intros Hts F H. destruct (product ts x Hts F) as (F' & R & E); [lra|]. destruct (round_int _ F' R) as (z & Ez & Rz & Nz).
  exists z. split; [exact Ez|]. split; [|exact Rz]. unfold nearest, eps. apply Rabs_le. apply Rabs_le_inv in Nz. apply Rabs_le_inv in E. lra.
Qed.
(** The time of a control point. *)
Lemma control_time ts (t u : f64) : (1 <= ts < 2 ^ 32)%Z -> is_finite t = true -> is_finite u = true ->
  0 <= (B2R t + B2R u) * IZR ts <= 2147483646 ->
  exists z, int_of_float i32 (mul64 (add64 u t) (f64_of_Z ts)) = Ok z /\ below ((B2R t + B2R u) * IZR ts) z /\ (0 <= z < 2 ^ 31)%Z.
Proof.
  intros Hts1 Ft Fu H. assert (Hts : (0 <= ts < 2 ^ 32)%Z) by lia.
  assert (T1 : 1 <= IZR ts) by (apply (IZR_le 1); lia). pose proof (ts_R ts Hts) as T2.
  assert (S0 : 0 <= B2R t + B2R u) by (apply Rnot_lt_le; intros C; nra).
  assert (S1 : B2R t + B2R u <= 2147483646) by nra.
  destruct (add64_ok u t Fu Ft) as (E & F); [apply big1000; rewrite Rplus_comm, Rabs_pos_eq; lra|]. rewrite Rplus_comm in E.
  assert (Q0 : 0 <= B2R (add64 u t)) by (rewrite E, <- rnd64_0; apply rnd64_le; lra).
  pose proof (err64 (B2R t + B2R u)) as Er. rewrite <- E, (Rabs_pos_eq (B2R t + B2R u)) in Er by lra.
  pose proof tiny_small as T3. pose proof tiny_pos as T4. set (eta := bpow radix2 (-150)) in *.
  assert (D : Rabs (B2R (add64 u t) * IZR ts - (B2R t + B2R u) * IZR ts) <= / 2097152).
  { rewrite <- Rmult_minus_distr_r, Rabs_mult, (Rabs_pos_eq (IZR ts)) by lra.
    apply Rle_trans with ((/ 9007199254740992 * (B2R t + B2R u) + eta) * IZR ts); [apply Rmult_le_compat_r; [lra|exact Er]|].
    rewrite Rmult_plus_distr_r, Rmult_assoc.
    assert (eta * IZR ts <= / 1152921504606846976 * 4294967296) by (apply Rmult_le_compat; lra). lra. }
  apply Rabs_le_inv in D. assert (M0 : 0 <= B2R (add64 u t) * IZR ts) by (apply Rmult_le_pos; lra).
  destruct (product ts (add64 u t) Hts F) as (F' & R & E'); [unfold in_tick; lra|]. unfold in_tick in E'.
  destruct (int_of_nonneg _ F') as (z & Ez & Rz & Bz); [lra|lra|]. exists z. split; [exact Ez|]. split; [|exact Rz].
  unfold below, eps. apply Rabs_le_inv in E'. lra.
Qed.

(** *** Values *)
Lemma one_R : B2R f64_1 = 1.
Proof. unfold f64_1, B2R, F2R. cbn -[bpow]. change (-52)%Z with (Z.opp 52). rewrite (bpow_inv 52) by lia. cbn. lra. Qed.
Lemma limit_C : B2R ACTUAL_AMPLITUDE_MIN_C = 5528618902560021 / 9007199254740992.
Proof. unfold ACTUAL_AMPLITUDE_MIN_C, B2R, F2R. cbn -[bpow]. change (-53)%Z with (Z.opp 53). rewrite (bpow_inv 53) by lia. cbn. lra. Qed.
Lemma limit_T : B2R ACTUAL_AMPLITUDE_MIN_T = 7133701809754866 / 9007199254740992.
Proof. unfold ACTUAL_AMPLITUDE_MIN_T, B2R, F2R. cbn -[bpow]. change (-53)%Z with (Z.opp 53). rewrite (bpow_inv 53) by lia. cbn. lra. Qed.
Lemma default_amplitude : B2R DEFAULT_AMPLITUDE = / 2.
Proof. unfold DEFAULT_AMPLITUDE, B2R, F2R. cbn -[bpow]. change (-24)%Z with (Z.opp 24). rewrite (bpow_inv 24) by lia. cbn. lra. Qed.
Lemma rnd64_1 : rnd64 1 = 1. Proof. apply (rnd64_id 1), (fmt64_Z 1). lia. Qed.

(** [m * (x - 1) + n] for [x] in the unit interval. *)
Lemma affine (m n x : f64) : is_finite m = true -> is_finite n = true -> 0 <= B2R m <= B2R n -> B2R n <= 512 -> fmt64 (B2R n - B2R m) -> between 0 1 x ->
  let y := add64 (mul64 m (sub64 x f64_1)) n in
  is_finite y = true /\ B2R n - B2R m <= B2R y <= B2R n /\ Rabs (B2R y - (B2R n - B2R m + B2R m * B2R x)) <= / 1099511627776.
Proof.
  intros Fm Fn Hm Hn Hf (Fx & Hx) y. pose proof tiny_small as T3. pose proof tiny_pos as T4. set (eta := bpow radix2 (-150)) in *.
  destruct (sub64_ok x f64_1 Fx eq_refl) as (E1 & F1); [rewrite one_R; apply big1000, Rabs_le; lra|]. rewrite one_R in E1.
  assert (R1 : -1 <= B2R (sub64 x f64_1) <= 0).
  { rewrite E1. split; [rewrite <- (rnd64_id (-1)); [apply rnd64_le; lra|apply (fmt64_Z (-1)); lia]|rewrite <- rnd64_0; apply rnd64_le; lra]. }
  pose proof (err64 (B2R x - 1)) as Q1. rewrite <- E1 in Q1. fold eta in Q1. rewrite (Rabs_left1 (B2R x - 1)) in Q1 by lra. apply Rabs_le_inv in Q1.
  set (u := sub64 x f64_1) in *.
  assert (R2' : - B2R m <= B2R m * B2R u <= 0) by nra.
  destruct (mul64_ok m u Fm F1) as (E2 & F2); [apply big1000, Rabs_le; lra|].
  assert (R2 : - B2R m <= B2R (mul64 m u) <= 0).
  { rewrite E2. split; [rewrite <- (rnd64_id (- B2R m)); [apply rnd64_le; lra|apply generic_format_opp, fmt64_B2R]|rewrite <- rnd64_0; apply rnd64_le; lra]. }
  pose proof (err64 (B2R m * B2R u)) as Q2. rewrite <- E2 in Q2. fold eta in Q2. rewrite (Rabs_left1 (B2R m * B2R u)) in Q2 by lra. apply Rabs_le_inv in Q2.
  set (w := mul64 m u) in *.
  destruct (add64_ok w n F2 Fn) as (E3 & F3); [apply big1000, Rabs_le; lra|]. fold y in E3, F3.
  assert (R3 : B2R n - B2R m <= B2R y <= B2R n).
  { rewrite E3. split; [rewrite <- (rnd64_id (B2R n - B2R m)) by exact Hf; apply rnd64_le; lra|].
    rewrite <- (rnd64_id (B2R n)) at 2 by apply fmt64_B2R. apply rnd64_le; lra. }
  split; [exact F3|]. split; [exact R3|].
  pose proof (err64 (B2R w + B2R n)) as Q3. rewrite <- E3 in Q3. fold eta in Q3. rewrite (Rabs_pos_eq (B2R w + B2R n)) in Q3 by lra. apply Rabs_le_inv in Q3.
  assert (Q4 : - / 4398046511104 <= B2R m * B2R u - B2R m * (B2R x - 1) <= / 4398046511104).
  { rewrite <- Rmult_minus_distr_l. set (d := B2R u - (B2R x - 1)) in *.
    assert (- / 2251799813685248 <= d <= / 2251799813685248) by lra. clear - H Hm Hn. nra. }
  apply Rabs_le. lra.
Qed.
Lemma sub1 : sub64 f64_1 f64_0 = f64_1. Proof. apply B2SF_inj. vm_compute. reflexivity. Qed.
Lemma norm_amplitude (L v : f64) : L = ACTUAL_AMPLITUDE_MIN_C \/ L = ACTUAL_AMPLITUDE_MIN_T -> between 0 1 v ->
  between 0 1 (f32_of_f64 (normAmplitude L v)) /\ Rabs (B2R (f32_of_f64 (normAmplitude L v)) - B2R L * B2R v) <= / 8388608.
Proof.
  intros HL Hv. unfold normAmplitude, genericNormalization. rewrite sub1. change (feq f64_1 f64_0) with false. cbv iota.
  assert (EL : div64 (sub64 L f64_0) f64_1 = L) by (destruct HL as [-> | ->]; apply B2SF_inj; vm_compute; reflexivity). rewrite EL.
  assert (RL : 0 <= B2R L <= 1) by (destruct HL as [-> | ->]; [rewrite limit_C|rewrite limit_T]; lra).
  assert (FL : is_finite L = true) by (destruct HL as [-> | ->]; reflexivity).
  destruct (affine L L v FL FL) as (F & R & E); [lra|lra|rewrite Rminus_diag_eq by reflexivity; apply fmt64_0|exact Hv|].
  set (y := add64 _ _) in *. destruct (unit32 y) as (Q1 & Q2); [split; [exact F|lra]|]. split; [exact Q1|].
  pose proof tiny_small. apply Rabs_le. apply Rabs_le_inv in Q2. apply Rabs_le_inv in E. lra.
Qed.
Lemma norm_frequency v : between 0 1 v ->
  between 65 300 (normFrequency v) /\ Rabs (B2R (normFrequency v) - hertz (B2R v)) <= / 1099511627776.
Proof.
  intros Hv. unfold normFrequency, genericNormalization. rewrite sub1. change (feq f64_1 f64_0) with false. cbv iota.
  destruct (f64_of_Z_ok ACTUAL_FREQUENCY_MAX) as (EM & FM); [vm_compute; discriminate|].
  assert (EL : div64 (sub64 (f64_of_Z ACTUAL_FREQUENCY_MAX) (f64_of_Z ACTUAL_FREQUENCY_MIN)) f64_1 = f64_of_Z 235) by (apply B2SF_inj; vm_compute; reflexivity).
  rewrite EL. destruct (f64_of_Z_ok 235) as (E2 & F2); [vm_compute; discriminate|]. set (M := f64_of_Z ACTUAL_FREQUENCY_MAX) in *.
  destruct (affine (f64_of_Z 235) M v F2 FM) as (F & R & E); rewrite ?EM, ?E2; unfold ACTUAL_FREQUENCY_MAX; try lra; [|exact Hv|].
  { replace (300 - 235) with (IZR 65) by lra. apply fmt64_Z. lia. }
  rewrite EM, E2 in R, E. unfold ACTUAL_FREQUENCY_MAX in *. unfold hertz. split; [split; [exact F|lra]|]. apply Rabs_le. apply Rabs_le_inv in E. lra.
Qed.
(** The frequencies. *)
Lemma frequency_trunc v : between 0 1 v -> exists f, int_of_float i32 (normFrequency v) = Ok f /\ (65 <= f <= 300)%Z /\ below (hertz (B2R v)) f.
Proof.
  intros Hv. destruct (norm_frequency v Hv) as ((F & R) & E). destruct (int_of_nonneg _ F) as (f & Ef & Rf & Bf); [lra|lra|].
  exists f. split; [exact Ef|]. split.
  - split; apply Zlt_succ_le, lt_IZR; rewrite succ_IZR; lra.
  - unfold below, eps. apply Rabs_le_inv in E. lra.
Qed.
Lemma frequency_round v : between 0 1 v -> exists f, roundFrequency v = Ok f /\ (65 <= f <= 300)%Z /\ nearest (hertz (B2R v)) f.
Proof.
  intros Hv. destruct (norm_frequency v Hv) as ((F & R) & E). destruct (round_int _ F) as (f & Ef & Rf & Bf); [lra|].
  exists f. split; [exact Ef|]. apply Rabs_le_inv in Bf. split.
  - split; apply Zlt_succ_le, lt_IZR; rewrite succ_IZR; lra.
  - unfold nearest, eps. apply Rabs_le_inv in E. apply Rabs_le. lra.
Qed.
Lemma flt_bool {p e} (x y : binary_float p e) : is_finite x = true -> is_finite y = true -> flt x y = Rlt_bool (B2R x) (B2R y).
Proof. intros Fx Fy. destruct (Rlt_bool_spec (B2R x) (B2R y)); [apply flt_true|apply flt_false]; assumption. Qed.
Lemma clamp_ok (x : f64) : is_finite x = true -> between 0 1 (clamp01 x) /\ B2R (clamp01 x) = clamp (B2R x).
Proof.
  intros F. unfold clamp01, fclamp, clamp. rewrite !flt_bool by (exact F || reflexivity). rewrite one_R. cbn [f64_0 B2R].
  destruct (Rlt_bool_spec (B2R x) 0) as [E1|E1].
  - rewrite Rmin_right by lra. rewrite Rmax_left by lra. split; [split; [reflexivity|cbn; lra]|reflexivity].
  - destruct (Rlt_bool_spec 1 (B2R x)) as [E2|E2].
    + rewrite one_R. rewrite Rmin_left by lra. rewrite Rmax_right by lra. split; [split; [reflexivity|rewrite one_R; lra]|reflexivity].
    + rewrite Rmin_right by lra. rewrite Rmax_right by lra. split; [split; [exact F|lra]|reflexivity].
Qed.

(** *** Interpolation *)
Lemma linear_unit s e (a b : f64) x : (0 <= s < x)%Z -> (x <= e < 2 ^ 31)%Z -> between 0 1 a -> between 0 1 b ->
  between 0 1 (linearInterpolation (s, a) (e, b) (f64_of_Z x)).
Proof.
  intros Hs He (Fa & Ha) (Fb & Hb). unfold linearInterpolation. cbn [fst snd].
  destruct (f64_of_Z_ok s ltac:(lia)) as (Es & Fs). destruct (f64_of_Z_ok e ltac:(lia)) as (Ee & Fe). destruct (f64_of_Z_ok x ltac:(lia)) as (Ex & Fx).
  assert (L1 : IZR s < IZR x) by (apply IZR_lt; lia). assert (L2 : IZR x <= IZR e) by (apply IZR_le; lia).
  rewrite flt_false by (try assumption; lra). rewrite flt_false by (try assumption; lra).
  rewrite fle_R by assumption. rewrite Rle_bool_false by lra.
  set (X := f64_of_Z x) in *. set (S := f64_of_Z s) in *. set (E := f64_of_Z e) in *.
  assert (RE : 0 <= IZR (e - x) <= 4294967296) by (split; [apply (IZR_le 0); lia|apply (IZR_le _ 4294967296); lia]).
  assert (RS : 0 <= IZR (x - s) <= 4294967296) by (split; [apply (IZR_le 0); lia|apply (IZR_le _ 4294967296); lia]).
  assert (RD : 1 <= IZR (e - s) <= 4294967296) by (split; [apply (IZR_le 1); lia|apply (IZR_le _ 4294967296); lia]).
  destruct (sub64_ok E X Fe Fx) as (B1 & F1); rewrite ?Ee, ?Ex, <- ?minus_IZR in *; [apply big1000; rewrite Rabs_pos_eq; lra|].
  destruct (sub64_ok X S Fx Fs) as (B2 & F2); rewrite ?Es, ?Ex, <- ?minus_IZR in *; [apply big1000; rewrite Rabs_pos_eq; lra|].
  destruct (sub64_ok E S Fe Fs) as (B3 & F3); rewrite ?Es, ?Ee, <- ?minus_IZR in *; [apply big1000; rewrite Rabs_pos_eq; lra|].
  rewrite rnd64_id in B1, B2, B3 by (apply fmt64_Z; lia).
  destruct (mul64_ok a (sub64 E X) Fa F1) as (B4 & F4); rewrite B1 in *; [apply big1000; rewrite Rabs_pos_eq; nra|].
  destruct (mul64_ok b (sub64 X S) Fb F2) as (B5 & F5); rewrite B2 in *; [apply big1000; rewrite Rabs_pos_eq; nra|].
  assert (R4 : 0 <= B2R (mul64 a (sub64 E X)) <= IZR (e - x)).
  { rewrite B4. split; [rewrite <- rnd64_0; apply rnd64_le; nra|]. rewrite <- (rnd64_id (IZR (e - x))) at 2 by (apply fmt64_Z; lia). apply rnd64_le; nra. }
  assert (R5 : 0 <= B2R (mul64 b (sub64 X S)) <= IZR (x - s)).
  { rewrite B5. split; [rewrite <- rnd64_0; apply rnd64_le; nra|]. rewrite <- (rnd64_id (IZR (x - s))) at 2 by (apply fmt64_Z; lia). apply rnd64_le; nra. }
  assert (SUM : IZR (e - x) + IZR (x - s) = IZR (e - s)) by (rewrite <- plus_IZR; f_equal; lia).
  set (p := mul64 a (sub64 E X)) in *. set (q := mul64 b (sub64 X S)) in *.
  destruct (add64_ok p q F4 F5) as (B6 & F6); [apply big1000; rewrite Rabs_pos_eq; lra|].
  assert (R6 : 0 <= B2R (add64 p q) <= IZR (e - s)).
  { rewrite B6. split; [rewrite <- rnd64_0; apply rnd64_le; lra|]. rewrite <- (rnd64_id (IZR (e - s))) by (apply fmt64_Z; lia). apply rnd64_le; lra. }
  set (r := add64 p q) in *.
  assert (R7 : 0 <= B2R r / IZR (e - s) <= 1).
  { split; [apply Rmult_le_pos; [lra|apply Rlt_le, Rinv_0_lt_compat; lra]|]. apply Rmult_le_reg_r with (IZR (e - s)); [lra|]. unfold Rdiv. rewrite Rmult_assoc, Rinv_l by lra. lra. }
  destruct (div64_ok r (sub64 E S) F6) as (B8 & F8); rewrite ?B3 in *; [lra|apply big1000; rewrite Rabs_pos_eq; lra|].
  split; [exact F8|]. rewrite B8. split; [rewrite <- rnd64_0; apply rnd64_le; lra|rewrite <- rnd64_1; apply rnd64_le; lra].
Qed.
(** The amplitude at a time between two control points. *)
Lemma interpolated (q p : Z * f64) x (a : f32) : (0 <= fst q < x)%Z -> (x <= fst p < 2 ^ 31)%Z -> between 0 1 (snd q) -> between 0 1 (snd p) -> between 0 1 a ->
  let y := mul32 (f32_of_f64 (linearInterpolation q p (f64_of_Z x))) a in
  between 0 (B2R a) y /\ Rabs (B2R y - B2R a * on_line (fst q) (fst p) (B2R (snd q)) (B2R (snd p)) (IZR x)) <= / 4194304.
Proof.
  destruct q as [s u], p as [e v]. intros Hs He Hu Hv Ha y. cbn [fst snd] in Hs, He, Hu, Hv. cbn [fst snd]. pose proof (linear_unit s e u v x Hs He Hu Hv) as HL.
  destruct (unit32 _ HL) as (Q1 & Q2). destruct (mul_unit _ a Q1 Ha) as (Q3 & _ & Q4). fold y in Q3, Q4. split; [exact Q3|].
  destruct (f64_of_Z_ok x ltac:(lia)) as (Ex & Fx).
  assert (L1 : IZR s < IZR x) by (apply IZR_lt; lia). assert (L2 : IZR x <= IZR e) by (apply IZR_le; lia).
  destruct Hu as (Fu & Hu), Hv as (Fv & Hv).
  destruct (interpolation_error s e u v (f64_of_Z x) 1) as (_ & E); try assumption; try lia; rewrite ?Ex; try lra; try (rewrite Rabs_pos_eq; lra).
  { rewrite <- (Rabs_pos_eq 1) by lra. apply (Rle_trans _ (bpow radix2 0)); [rewrite Rabs_pos_eq by lra; cbn; lra|apply bpow_le; lia]. }
  rewrite Ex in E. set (l := linearInterpolation (s, u) (e, v) (f64_of_Z x)) in *.
  assert (T : bpow radix2 (-147) <= / 1152921504606846976).
  { change (-147)%Z with (Z.opp 147). rewrite bpow_inv by lia. apply Rinv_le; [lra|]. apply (IZR_le 1152921504606846976). vm_compute. discriminate. }
  pose proof tiny_small as T2. set (o := on_line s e (B2R u) (B2R v) (IZR x)) in *. destruct Ha as (Fa & Ha).
  set (A := B2R a) in *. set (L := B2R (f32_of_f64 l)) in *.
  assert (D : - (/ 16777216 + / 16777216) <= L - o <= / 16777216 + / 16777216) by (apply Rabs_le_inv in Q2; apply Rabs_le_inv in E; lra).
  assert (D2 : - (/ 16777216 + / 16777216) <= A * (L - o) <= / 16777216 + / 16777216) by (clear -D Ha; nra).
  apply Rabs_le_inv in Q4. apply Rabs_le. replace (B2R y - A * o) with (B2R y - L * A + A * (L - o)) by ring. lra.
Qed.
(** A frequency between two control points is a number. *)
Lemma chirp_finite s e (a b : f64) x : (0 <= s < x)%Z -> (x <= e < 2 ^ 31)%Z -> between (-4) 4 a -> between (-4) 4 b ->
  exists f, chirpInterpolation s e a b (f64_of_Z x) = Ok f /\ between (-1099511627776) 1099511627776 f.
Proof.
  intros Hs He (Fa & Ha) (Fb & Hb). unfold chirpInterpolation. destruct (Z.ltb_spec e s); [lia|]. destruct (Z.eqb_spec s e); [lia|].
  rewrite int_ok_fits by lia. cbn [obind]. eexists. split; [reflexivity|].
  destruct (f64_of_Z_ok s ltac:(lia)) as (Es & Fs). destruct (f64_of_Z_ok (e - s) ltac:(lia)) as (Ed & Fd). destruct (f64_of_Z_ok x ltac:(lia)) as (Ex & Fx).
  set (X := f64_of_Z x) in *. set (S := f64_of_Z s) in *. set (D := f64_of_Z (e - s)) in *.
  assert (RS : 0 <= IZR (x - s) <= 4294967296) by (split; [apply (IZR_le 0); lia|apply (IZR_le _ 4294967296); lia]).
  assert (RD : 1 <= IZR (e - s) <= 4294967296) by (split; [apply (IZR_le 1); lia|apply (IZR_le _ 4294967296); lia]).
  destruct (sub64_ok b a Fb Fa) as (B1 & F1); [apply big1000, Rabs_le; lra|].
  assert (R1 : -8 <= B2R (sub64 b a) <= 8).
  { rewrite B1, <- (rnd64_id (-8)), <- (rnd64_id 8) by (apply (fmt64_Z (-8)) || apply (fmt64_Z 8); lia). split; apply rnd64_le; lra. }
  set (u := sub64 b a) in *.
  assert (I : 0 < / IZR (e - s) <= 1) by (split; [apply Rinv_0_lt_compat; lra|rewrite <- Rinv_1; apply Rinv_le; lra]).
  assert (R2' : -8 <= B2R u / IZR (e - s) <= 8) by (unfold Rdiv; clear -R1 I; nra).
  destruct (div64_ok u D F1) as (B2 & F2); rewrite ?Ed in *; [lra|apply big1000, Rabs_le; lra|].
  assert (R2 : -8 <= B2R (div64 u D) <= 8).
  { rewrite B2, <- (rnd64_id (-8)), <- (rnd64_id 8) by (apply (fmt64_Z (-8)) || apply (fmt64_Z 8); lia). split; apply rnd64_le; lra. }
  set (w := div64 u D) in *.
  assert (E2 : B2R f64_2 = 2). { unfold f64_2, B2R, F2R. cbn -[bpow]. change (-51)%Z with (Z.opp 51). rewrite (bpow_inv 51) by lia. cbn. lra. }
  destruct (div64_ok w f64_2 F2) as (B3 & F3); rewrite ?E2 in *; [lra|apply big1000, Rabs_le; lra|].
  assert (R3 : -8 <= B2R (div64 w f64_2) <= 8).
  { rewrite B3, <- (rnd64_id (-8)), <- (rnd64_id 8) by (apply (fmt64_Z (-8)) || apply (fmt64_Z 8); lia). split; apply rnd64_le; lra. }
  set (z := div64 w f64_2) in *.
  destruct (sub64_ok X S Fx Fs) as (B4 & F4); rewrite ?Es, ?Ex, <- ?minus_IZR in *; [apply big1000; rewrite Rabs_pos_eq; lra|].
  rewrite rnd64_id in B4 by (apply fmt64_Z; lia). set (y := sub64 X S) in *.
  assert (R5' : -34359738368 <= B2R z * B2R y <= 34359738368) by (rewrite B4; clear -R3 RS; nra).
  destruct (mul64_ok z y F3 F4) as (B5 & F5); [apply big1000, Rabs_le; lra|].
  assert (R5 : -34359738368 <= B2R (mul64 z y) <= 34359738368).
  { rewrite B5, <- (rnd64_id (-34359738368)), <- (rnd64_id 34359738368) by (apply (fmt64_Z (-34359738368)) || apply (fmt64_Z 34359738368); lia). split; apply rnd64_le; lra. }
  set (m := mul64 z y) in *.
  destruct (add64_ok m a F5 Fa) as (B6 & F6); [apply big1000, Rabs_le; lra|]. split; [exact F6|].
  rewrite B6, <- (rnd64_id (-1099511627776)), <- (rnd64_id 1099511627776) by (apply (fmt64_Z (-1099511627776)) || apply (fmt64_Z 1099511627776); lia). split; apply rnd64_le; lra.
Qed.
(** Sums of sharpnesses. *)
Lemma sum_ok (a b : f64) : between (-1) 1 a -> between 0 1 b ->
  between (-4) 4 (add64 a b) /\ Rabs (B2R (add64 a b) - (B2R b + B2R a)) <= / 1099511627776.
Proof.
  intros (Fa & Ha) (Fb & Hb). destruct (add64_ok a b Fa Fb) as (B & F); [apply big1000, Rabs_le; lra|]. split.
  - split; [exact F|]. rewrite B, <- (rnd64_id (-4)), <- (rnd64_id 4) by (apply (fmt64_Z (-4)) || apply (fmt64_Z 4); lia). split; apply rnd64_le; lra.
  - rewrite B. pose proof (err64 (B2R a + B2R b)) as Q. pose proof tiny_small. assert (Rabs (B2R a + B2R b) <= 2) by (apply Rabs_le; lra).
    apply Rabs_le_inv in Q. apply Rabs_le. lra.
Qed.
Lemma add_big (f s : f64) : between (-1099511627776) 1099511627776 f -> between 0 1 s -> is_finite (add64 f s) = true.
Proof. intros (Ff & Hf) (Fs & Hs). apply (add64_ok f s Ff Fs). apply big1000, Rabs_le. lra. Qed.
Lemma clamp_lip x y d : Rabs (x - y) <= d -> Rabs (clamp x - clamp y) <= d.
Proof.
  unfold clamp. intros H. apply Rabs_le_inv in H. apply Rabs_le.
  unfold Rmax, Rmin. repeat destruct Rle_dec; lra.
Qed.
(** The frequency at a control point. *)
Lemma point_frequency (v s : f64) : between (-1) 1 v -> between 0 1 s ->
  exists f, roundFrequency (clamp01 (add64 v s)) = Ok f /\ (65 <= f <= 300)%Z /\ nearest (hertz (clamp (B2R s + B2R v))) f.
Proof.
  intros Hv Hs. destruct (sum_ok v s Hv Hs) as ((F & _) & E). destruct (clamp_ok _ F) as (C1 & C2).
  destruct (norm_frequency _ C1) as ((FN & RN) & EN). destruct (round_int _ FN) as (f & Ef & Rf & Bf); [lra|].
  exists f. split; [exact Ef|]. apply Rabs_le_inv in Bf. split.
  - split; apply Zlt_succ_le, lt_IZR; rewrite succ_IZR; lra.
  - rewrite C2 in EN. apply clamp_lip in E. unfold nearest, eps, hertz in *. apply Rabs_le_inv in EN. apply Rabs_le_inv in E. apply Rabs_le. lra.
Qed.

(** *** Transients: frequencies out of range *)
Lemma trunc_near (x : f64) : is_finite x = true -> -1024 <= B2R x <= 1024 -> exists z, int_of_float i32 x = Ok z /\ (-1024 <= z <= 1024)%Z /\ Rabs (IZR z - B2R x) <= 1.
Proof.
  intros F H. assert (E : Btrunc x = Ztrunc (B2R x)) by (apply eq_IZR; rewrite (Btrunc_correct 53 1024 emax1024), round_FIX_IZR; reflexivity).
  assert (N : Rabs (IZR (Ztrunc (B2R x)) - B2R x) < 1).
  { destruct (Rle_or_lt 0 (B2R x)) as [P|P].
    - rewrite Ztrunc_floor by exact P. pose proof (Zfloor_lb (B2R x)). pose proof (Zfloor_ub (B2R x)). apply Rabs_lt. lra.
    - rewrite Ztrunc_ceil by lra. pose proof (Zceil_ub (B2R x)). pose proof (Zceil_lb (B2R x)). apply Rabs_lt. lra. }
  set (z := Ztrunc (B2R x)) in *. apply Rabs_lt_inv in N. assert (B : (-1024 <= z <= 1024)%Z) by (split; apply Zlt_succ_le, lt_IZR; rewrite succ_IZR; lra).
  exists z. unfold int_of_float. rewrite F, E, i32_small by lia. split; [reflexivity|]. split; [exact B|]. apply Rabs_le. lra.
Qed.
Lemma normal_frequency v : between (-2) 2 v -> is_finite (normFrequency v) = true /\ Rabs (B2R (normFrequency v) - hertz (B2R v)) <= / 1099511627776.
Proof.
  intros (Fx & Hx). unfold normFrequency, genericNormalization. rewrite sub1. change (feq f64_1 f64_0) with false. cbv iota.
  destruct (f64_of_Z_ok ACTUAL_FREQUENCY_MAX) as (EM & FM); [vm_compute; discriminate|].
  assert (EL : div64 (sub64 (f64_of_Z ACTUAL_FREQUENCY_MAX) (f64_of_Z ACTUAL_FREQUENCY_MIN)) f64_1 = f64_of_Z 235) by (apply B2SF_inj; vm_compute; reflexivity).
  rewrite EL. destruct (f64_of_Z_ok 235) as (Em & Fm); [vm_compute; discriminate|]. set (n := f64_of_Z ACTUAL_FREQUENCY_MAX) in *. set (m := f64_of_Z 235) in *.
  unfold ACTUAL_FREQUENCY_MAX in EM. pose proof tiny_small as T3. pose proof tiny_pos as T4. set (eta := bpow radix2 (-150)) in *.
  destruct (sub64_ok v f64_1 Fx eq_refl) as (E1 & F1); [rewrite one_R; apply big1000, Rabs_le; lra|]. rewrite one_R in E1.
  assert (R1 : -3 <= B2R (sub64 v f64_1) <= 3).
  { rewrite E1, <- (rnd64_id (-3)), <- (rnd64_id 3) by (apply (fmt64_Z (-3)) || apply (fmt64_Z 3); lia). split; apply rnd64_le; lra. }
  pose proof (err64 (B2R v - 1)) as Q1. rewrite <- E1 in Q1. fold eta in Q1.
  assert (A1 : Rabs (B2R v - 1) <= 3) by (apply Rabs_le; lra). apply Rabs_le_inv in Q1. set (u := sub64 v f64_1) in *.
  destruct (mul64_ok m u Fm F1) as (E2 & F2); rewrite Em in *; [apply big1000, Rabs_le; lra|].
  pose proof (err64 (235 * B2R u)) as Q2. rewrite <- E2 in Q2. fold eta in Q2.
  assert (A2 : Rabs (235 * B2R u) <= 705) by (apply Rabs_le; lra). apply Rabs_le_inv in Q2. set (w := mul64 m u) in *.
  destruct (add64_ok w n F2 FM) as (E3 & F3); [apply big1000, Rabs_le; lra|]. split; [exact F3|].
  pose proof (err64 (B2R w + B2R n)) as Q3. rewrite <- E3 in Q3. fold eta in Q3.
  assert (A3 : Rabs (B2R w + B2R n) <= 1006) by (apply Rabs_le; lra). apply Rabs_le_inv in Q3. apply Rabs_le. unfold hertz. lra.
Qed.
(** The frequency of a transient between two control points. *)
Lemma transient_frequency (q p : Z * f64) x : (0 <= fst q < x)%Z -> (x <= fst p < 2 ^ 31)%Z -> between (-1) 1 (snd q) -> between (-1) 1 (snd p) ->
  exists z, int_of_float i32 (normFrequency (linearInterpolation q p (f64_of_Z x))) = Ok z /\ (-1024 <= z <= 1024)%Z /\
    Rabs (IZR z - hertz (on_line (fst q) (fst p) (B2R (snd q)) (B2R (snd p)) (IZR x))) <= 1 + eps.
Proof.
  destruct q as [s u], p as [e v]. cbn [fst snd]. intros Hs He (Fu & Hu) (Fv & Hv). destruct (f64_of_Z_ok x ltac:(lia)) as (Ex & Fx).
  assert (L1 : IZR s < IZR x) by (apply IZR_lt; lia). assert (L2 : IZR x <= IZR e) by (apply IZR_le; lia).
  destruct (interpolation_error s e u v (f64_of_Z x) 1) as (Fl & E); try assumption; try lia; rewrite ?Ex; try lra; try (apply Rabs_le; lra).
  { rewrite <- (Rabs_pos_eq 1) by lra. apply (Rle_trans _ (bpow radix2 0)); [rewrite Rabs_pos_eq by lra; cbn; lra|apply bpow_le; lia]. }
  rewrite Ex in E. set (l := linearInterpolation (s, u) (e, v) (f64_of_Z x)) in *.
  assert (T : bpow radix2 (-147) <= / 1152921504606846976).
  { change (-147)%Z with (Z.opp 147). rewrite bpow_inv by lia. apply Rinv_le; [lra|]. apply (IZR_le 1152921504606846976). vm_compute. discriminate. }
  pose proof (on_line_between s e (B2R u) (B2R v) (IZR x) ltac:(lia) ltac:(lra)) as B. set (o := on_line s e (B2R u) (B2R v) (IZR x)) in *.
  assert (B' : -1 <= o <= 1) by (revert B; unfold Rmin, Rmax; repeat destruct Rle_dec; lra). clear B.
  apply Rabs_le_inv in E. destruct (normal_frequency l) as (Fn & En); [split; [exact Fl|lra]|]. apply Rabs_le_inv in En. unfold hertz in *.
  destruct (trunc_near _ Fn) as (z & Ez & Bz & Nz); [lra|]. exists z. split; [exact Ez|]. split; [exact Bz|]. apply Rabs_le_inv in Nz. unfold eps. apply Rabs_le. lra.
Qed.
