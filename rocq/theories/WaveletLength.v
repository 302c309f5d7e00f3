(** The length of the blocks in the decoder. *)
From Coq Require Import Reals Lra Lia ZArith List Bool Floats.SpecFloat.
From Flocq Require Import Core BinarySingleNaN.
From Verif Require Import Base FloatBase FloatModel FloatProof Float64Proof ArithModel SpihtModel SpihtTree ToolsFloatProof SynthModel TypesModel WaveletModel WaveletSpec WaveletInverse WaveletBlocks.
Import ListNotations.
Ltac Zify.zify_post_hook ::= Z.div_mod_to_equations.

(** *** The entropy decoder keeps the length of its vector. *)
Lemma store_len l i v r : store l i v = Ok r -> length r = length l.
Proof. unfold store. destruct (_ <? _)%nat; [|discriminate]. intros E. injection E as <-. apply set_at_length. Qed.
Ltac dbind H := match type of H with obind ?m _ = Ok _ => let E := fresh "E" in destruct m eqn:E; try discriminate H; cbn [obind] in H end.
Ltac dprod p := repeat match type of p with (_ * _)%type => let a := fresh p in let b := fresh p in destruct p as [a b]; try dprod a end.
Ltac step H := dbind H; repeat match goal with p : (_ * _)%type |- _ => destruct p end.
Lemma lip_len c lip : forall s out st ad s' out', dec_lip c lip s out = Ok (st, ad, s', out') -> length out' = length out.
Proof.
  induction lip as [|i lip IH]; intros s out st ad s' out' H; cbn [dec_lip] in H; [now injection H as _ _ _ <-|].
  step H. destruct (_ =? _)%Z.
  - step H. step H. step H. injection H as _ _ _ <-. apply IH in E2. apply store_len in E1. lia.
  - step H. injection H as _ _ _ <-. apply IH in E0. exact E0.
Qed.
Lemma child_len c i s out a b s' out' : dec_child c i s out = Ok (a, b, s', out') -> length out' = length out.
Proof.
  unfold dec_child. intros H. step H. destruct (_ =? _)%Z.
  - step H. step H. injection H as _ _ _ <-. apply store_len in E1. exact E1.
  - injection H as _ _ _ <-. reflexivity.
Qed.
Lemma lis_len f : forall n c q lip lsp s out r1 r2 r3 s' out', dec_lis f n c q lip lsp s out = Ok (r1, r2, r3, s', out') -> length out' = length out.
Proof.
  induction f as [|f IH]; intros n c q lip lsp s out r1 r2 r3 s' out' H; [discriminate|]. cbn [dec_lis] in H.
  destruct q as [|[y t] q]; [now injection H as _ _ _ _ <-|]. destruct (_ =? _)%nat.
  - step H. destruct (_ =? _)%Z.
    + step H. step H. apply IH in H. apply child_len in E0, E1. lia.
    + step H. injection H as _ _ _ _ <-. apply IH in E0. exact E0.
  - step H. destruct (_ =? _)%Z; [apply IH in H; exact H|]. step H. injection H as _ _ _ _ <-. apply IH in E0. exact E0.
Qed.
Lemma refine_len c l : forall s out s' out', dec_refine c l s out = Ok (s', out') -> length out' = length out.
Proof.
  induction l as [|i l IH]; intros s out s' out' H; cbn [dec_refine] in H; [now injection H as _ <-|]. step H. step H.
  apply IH in H. destruct (_ =? _)%Z.
  - step E0. apply store_len in E0. lia.
  - injection E0 as <-. exact H.
Qed.
Lemma planes_len n k : forall l s out s' out', dec_planes n k l s out = Ok (s', out') -> length out' = length out.
Proof.
  induction k as [|k IH]; intros l s out s' out' H; cbn [dec_planes] in H; [now injection H as _ <-|]. step H. apply IH in H. rewrite H. clear H.
  unfold dec_plane in E. step E. step E. step E. injection E as _ _ <-. apply lip_len in E0. apply lis_len in E1. apply refine_len in E2. lia.
Qed.
Lemma decode_len cs bytes n c q b : decodeEffect cs bytes (repeat 0%Z n) n = Ok (c, q, b) -> length c = n.
Proof.
  unfold decodeEffect. intros H. step H. step H. step H. injection H as <- _ _. apply planes_len in E1. rewrite E1. unfold resize.
  rewrite app_length, firstn_length, !repeat_length. lia.
Qed.
(** A block of another length is never decoded. *)
Lemma decode_undefined bytes bl y : (8 <= bl)%nat -> (bl mod 2 ^ dwtlevel bl <> 0)%nat -> decodeSamples bytes bl <> Ok y.
Proof.
  intros H Hd E. unfold decodeSamples in E. step E. apply decode_len in E0. unfold decodeBlock in E.
  set (c := map _ _) in E. assert (Lc : length c = bl) by (unfold c; rewrite map_length; exact E0). rewrite <- Lc in E, H, Hd.
  destruct (inverse_lengths c H) as [_ U]. rewrite (U Hd) in E. discriminate.
Qed.
Lemma transform_undefined b timescale blk bl e l r : b_type b = WaveletB -> b_block b = Some blk -> b_effects b = e :: l ->
  decoded_length blk (b_up b) = Ok bl -> (8 <= bl)%Z -> (Z.to_nat bl mod 2 ^ dwtlevel (Z.to_nat bl) <> 0)%nat -> transformBand b timescale <> Ok r.
Proof.
  intros Ht Hb He Hl H8 Hd E. unfold transformBand in E. rewrite Ht, Z.eqb_refl in E. cbn [negb] in E. rewrite Hb, Hl in E. cbn [obind] in E.
  rewrite (proj2 (Z.ltb_ge _ _)) in E by lia. rewrite He in E. cbn [decode_effects] in E. step E. step E0.
  revert E1. apply decode_undefined; [lia|exact Hd].
Qed.

(** *** Numbers of the form [2^x * 5^y] *)
Lemma split_two n : forall a b, (a * b = 125 * 2 ^ n)%nat -> exists x x' d d', a = (2 ^ x * d)%nat /\ b = (2 ^ x' * d')%nat /\ (x + x' = n)%nat /\ (d * d' = 125)%nat.
Proof.
  induction n as [|n IH]; intros a b H.
  - exists 0%nat, 0%nat, a, b. cbn [Nat.pow] in *. lia.
  - rewrite Nat.pow_succ_r' in H.
    assert (Ev : Nat.even (a * b) = true) by (rewrite H; replace (125 * (2 * 2 ^ n))%nat with (2 * (125 * 2 ^ n))%nat by lia; apply Nat.even_mul).
    rewrite Nat.even_mul in Ev. apply orb_true_iff in Ev. destruct Ev as [Ev|Ev]; apply Nat.even_spec in Ev; destruct Ev as [c ->].
    + destruct (IH c b ltac:(lia)) as (x & x' & d & d' & -> & -> & Hx & Hd). exists (S x), x', d, d'. rewrite Nat.pow_succ_r'. lia.
    + destruct (IH a c ltac:(lia)) as (x & x' & d & d' & -> & -> & Hx & Hd). exists x, (S x'), d, d'. rewrite Nat.pow_succ_r'. lia.
Qed.
Lemma split_five d d' : (d * d' = 125)%nat -> (d = 1 /\ d' = 125 \/ d = 5 /\ d' = 25 \/ d = 25 /\ d' = 5 \/ d = 125 /\ d' = 1)%nat.
Proof.
  intros H. assert (B : (1 <= d <= 125)%nat) by (destruct d as [|d]; [cbn in H; discriminate|]; destruct d' as [|d']; [rewrite Nat.mul_0_r in H; discriminate|]; clear -H; nia).
  assert (C : forallb (fun d => implb (125 mod d =? 0)%nat ((d =? 1) || (d =? 5) || (d =? 25) || (d =? 125))%nat) (seq 1 125) = true) by reflexivity.
  rewrite forallb_forall in C. specialize (C d ltac:(apply in_seq; lia)). cbv beta in C.
  replace (125 mod d)%nat with 0%nat in C by (rewrite <- H, Nat.mul_comm, Nat.mod_mul by lia; reflexivity). cbn [implb Nat.eqb] in C.
  rewrite !orb_true_iff, !Nat.eqb_eq in C. lia.
Qed.

(** *** Rounding and powers of two *)
Local Open Scope R_scope.
Lemma rnd_shift r e : bpow radix2 (-1000) <= Rabs r -> (0 <= e)%Z -> rnd64 (r * bpow radix2 e) = rnd64 r * bpow radix2 e.
Proof.
  intros Hr He. assert (N : r <> 0) by (intros ->; rewrite Rabs_R0 in Hr; pose proof (bpow_gt_0 radix2 (-1000)); lra).
  assert (M : (-999 <= mag radix2 r)%Z) by (apply mag_ge_bpow; exact Hr).
  assert (C : cexp radix2 (FLT_exp (-1074) 53) (r * bpow radix2 e) = (cexp radix2 (FLT_exp (-1074) 53) r + e)%Z).
  { unfold cexp, FLT_exp. rewrite mag_mult_bpow by exact N. lia. }
  unfold round, scaled_mantissa. rewrite C. set (c := cexp _ _ r).
  replace (r * bpow radix2 e * bpow radix2 (- (c + e))) with (r * bpow radix2 (- c)).
  - unfold F2R. cbn [Fnum Fexp]. rewrite bpow_plus. ring.
  - rewrite Z.opp_add_distr, bpow_plus. rewrite (Rmult_comm (bpow radix2 (- c)) (bpow radix2 (- e))). rewrite bpow_opp with (e := e). field. apply Rgt_not_eq, bpow_gt_0.
Qed.
Definition ms (d : nat) : f64 := mul64 (f64_of_Z (Z.of_nat d)) MS_2_S_WAVELET.
Lemma pow_bpow n : IZR (Z.of_nat (2 ^ n)) = bpow radix2 (Z.of_nat n).
Proof. rewrite bpow_IZR by lia. rewrite Nat2Z.inj_pow. reflexivity. Qed.
Lemma ms_R : B2R MS_2_S_WAVELET = 4611686018427388 / 4611686018427387904.
Proof. unfold MS_2_S_WAVELET, B2R, F2R. cbn -[bpow]. change (-62)%Z with (Z.opp 62). rewrite (bpow_inv 62) by lia. cbn. lra. Qed.
Lemma ms_cases d d' : (d = 1 /\ d' = 125 \/ d = 5 /\ d' = 25 \/ d = 25 /\ d' = 5 \/ d = 125 /\ d' = 1)%nat ->
  B2R (mul64 (ms d) (f64_of_Z (Z.of_nat d'))) = / 8.
Proof.
  intros H. assert (E : B2SF (mul64 (ms d) (f64_of_Z (Z.of_nat d'))) = S754_finite false 4503599627370496 (-55)).
  { destruct H as [[-> ->]|[[-> ->]|[[-> ->]|[-> ->]]]]; vm_compute; reflexivity. }
  destruct (mul64 (ms d) (f64_of_Z (Z.of_nat d'))) as [s|s| |s m e He]; try discriminate. cbn [B2SF] in E. injection E as -> -> ->.
  unfold B2R, F2R. cbn -[bpow]. change (-55)%Z with (Z.opp 55). rewrite (bpow_inv 55) by lia. cbn. lra.
Qed.
Lemma big1000 : 1180591620717411303424 <= bpow radix2 1000.
Proof. replace 1180591620717411303424 with (bpow radix2 70) by (rewrite bpow_IZR by lia; cbn; lra). apply bpow_le. lia. Qed.
Lemma small1000 : bpow radix2 (-1000) <= / 1024.
Proof. replace (/ 1024) with (bpow radix2 (-10)) by (change (-10)%Z with (Z.opp 10); rewrite (bpow_inv 10) by lia; cbn; lra). apply bpow_le. lia. Qed.
Lemma ok_int (z : Z) (x : f64) : is_finite x = true -> B2R x = IZR z -> (-(2 ^ 31) <= z < 2 ^ 31)%Z -> int_of_float i32 x = Ok z.
Proof.
  intros F E B. unfold int_of_float. rewrite F, (trunc_int x z E).
  replace (z =? cast i32 z)%Z with true; [reflexivity|]. symmetry. apply Z.eqb_eq.
  unfold cast, i32, ct_signed, ct_width, to_signed. change (2 ^ (Z.of_nat 32 - 1))%Z with 2147483648%Z. change (2 ^ Z.of_nat 32)%Z with 4294967296%Z. change (2 ^ 31)%Z with 2147483648%Z in B. lia.
Qed.
(** The block length in time units of 1 ms, when it is exact, gives the number of samples back. *)
Lemma length_back k L fs : (k <= 21)%nat -> (L * fs = 1000 * 2 ^ k)%nat -> decoded_length (Z.of_nat L) (Z.of_nat fs) = Ok (Z.of_nat (2 ^ k)).
Proof.
  intros Hk H. assert (H' : (L * fs = 125 * 2 ^ (k + 3))%nat) by (rewrite Nat.pow_add_r; change (2 ^ 3)%nat with 8%nat; lia).
  destruct (split_two (k + 3) L fs H') as (x & x' & d & d' & EL & Ef & Hx & Hd). pose proof (split_five d d' Hd) as C.
  assert (Bd : (1 <= d <= 125 /\ 1 <= d' <= 125)%nat) by lia.
  assert (Bp : forall n, (n <= k + 3)%nat -> (1 <= Z.of_nat (2 ^ n) <= 16777216)%Z).
  { intros n Hn. assert (2 ^ n <= 2 ^ 24)%nat by (apply Nat.pow_le_mono_r; lia). assert (2 ^ n <> 0)%nat by (apply Nat.pow_nonzero; lia).
    assert (Z.of_nat (2 ^ 24) = 16777216)%Z by (rewrite Nat2Z.inj_pow; reflexivity). lia. }
  pose proof (Bp x ltac:(lia)) as Bx. pose proof (Bp x' ltac:(lia)) as Bx'.
  assert (ZL : Z.of_nat L = (Z.of_nat (2 ^ x) * Z.of_nat d)%Z) by (rewrite EL; lia). assert (Zf : Z.of_nat fs = (Z.of_nat (2 ^ x') * Z.of_nat d')%Z) by (rewrite Ef; lia).
  assert (S53 : (2 ^ 53 = 9007199254740992)%Z) by reflexivity.
  destruct (f64_of_Z_ok (Z.of_nat L)) as [RL FL]; [rewrite S53; nia|]. destruct (f64_of_Z_ok (Z.of_nat fs)) as [Rf Ff]; [rewrite S53; nia|].
  destruct (f64_of_Z_ok (Z.of_nat d)) as [Rd Fd]; [rewrite S53; nia|]. destruct (f64_of_Z_ok (Z.of_nat d')) as [Rd' Fd']; [rewrite S53; nia|].
  assert (FM : is_finite MS_2_S_WAVELET = true) by reflexivity.
  assert (VL : IZR (Z.of_nat L) = bpow radix2 (Z.of_nat x) * IZR (Z.of_nat d)) by (rewrite ZL, mult_IZR, pow_bpow; reflexivity). rewrite VL in RL.
  assert (Vf : IZR (Z.of_nat fs) = bpow radix2 (Z.of_nat x') * IZR (Z.of_nat d')) by (rewrite Zf, mult_IZR, pow_bpow; reflexivity). rewrite Vf in Rf.
  assert (Ix : forall n, (n <= k + 3)%nat -> 1 <= bpow radix2 (Z.of_nat n) <= 16777216).
  { intros n Hn. rewrite <- pow_bpow. pose proof (Bp n Hn) as [A B]. apply IZR_le in A, B. lra. }
  pose proof (Ix x ltac:(lia)) as Px. pose proof (Ix x' ltac:(lia)) as Px'.
  assert (Id : 1 <= IZR (Z.of_nat d) <= 125) by (split; apply IZR_le; lia). assert (Id' : 1 <= IZR (Z.of_nat d') <= 125) by (split; apply IZR_le; lia).
  assert (Pm : / 1024 <= B2R MS_2_S_WAVELET <= / 512) by (rewrite ms_R; lra). set (m := B2R MS_2_S_WAVELET) in *.
  set (a := IZR (Z.of_nat d)) in *. set (a' := IZR (Z.of_nat d')) in *. set (p := bpow radix2 (Z.of_nat x)) in *. set (p' := bpow radix2 (Z.of_nat x')) in *.
  assert (Am : / 1024 <= a * m <= 1) by nra.
  destruct (mul64_ok (f64_of_Z (Z.of_nat d)) MS_2_S_WAVELET Fd FM) as [Rm1 Fm1].
  { rewrite Rd. fold m. rewrite Rabs_pos_eq by nra. pose proof big1000. lra. }
  rewrite Rd in Rm1. fold m in Rm1. fold (ms d) in Rm1, Fm1.
  assert (Rr : / 1024 <= rnd64 (a * m) <= 1).
  { split.
    - rewrite <- (rnd64_id (/ 1024)); [apply round_le; try typeclasses eauto; lra|]. replace (/ 1024) with (IZR 1 * bpow radix2 (-10)); [apply fmt_Z; lia|]. change (-10)%Z with (Z.opp 10). rewrite (bpow_inv 10) by lia. cbn. lra.
    - rewrite <- (rnd64_id 1); [apply round_le; try typeclasses eauto; lra|]. apply (fmt64_Z 1). lia. }
  destruct (mul64_ok (ms d) (f64_of_Z (Z.of_nat d')) Fm1 Fd') as [Rm2 Fm2].
  { rewrite Rm1, Rd'. fold a'. rewrite Rabs_pos_eq by nra. pose proof big1000. nra. }
  rewrite (ms_cases d d' C), Rm1, Rd' in Rm2. fold a' in Rm2.
  (* the same with the powers of two *)
  destruct (mul64_ok (f64_of_Z (Z.of_nat L)) MS_2_S_WAVELET FL FM) as [R1 F1].
  { rewrite RL. fold m. rewrite Rabs_pos_eq by nra. pose proof big1000. nra. }
  rewrite RL in R1. fold m in R1. replace (p * a * m) with (a * m * p) in R1 by ring. unfold p in R1. rewrite rnd_shift in R1 by (try lia; rewrite Rabs_pos_eq by lra; pose proof small1000; lra). fold p in R1.
  destruct (mul64_ok _ (f64_of_Z (Z.of_nat fs)) F1 Ff) as [R2 F2].
  { rewrite R1, Rf. rewrite Rabs_pos_eq by (apply Rmult_le_pos; apply Rmult_le_pos; lra). apply Rle_trans with (1 * 16777216 * (16777216 * 125)); [|pose proof big1000; lra].
    apply Rmult_le_compat; [apply Rmult_le_pos; lra|apply Rmult_le_pos; lra|apply Rmult_le_compat; lra|apply Rmult_le_compat; lra]. }
  rewrite R1, Rf in R2. replace (rnd64 (a * m) * p * (p' * a')) with (rnd64 (a * m) * a' * (p * p')) in R2 by ring.
  assert (Pp : p * p' = bpow radix2 (Z.of_nat (k + 3))) by (unfold p, p'; rewrite <- bpow_plus; f_equal; lia).
  rewrite Pp, rnd_shift in R2 by (try lia; rewrite Rabs_pos_eq by nra; pose proof small1000; nra). rewrite <- Rm2 in R2.
  unfold decoded_length. apply ok_int; [exact F2| |].
  - rewrite R2, pow_bpow. replace (Z.of_nat (k + 3)) with (Z.of_nat k + 3)%Z by lia. rewrite bpow_plus. change (bpow radix2 3) with 8. field.
  - assert (X := Bp k ltac:(lia)). assert ((2 ^ 31 = 2147483648)%Z) by reflexivity. lia.
Qed.
(** The positions of the decoded effects. *)
Lemma position_back k L fs (b : Z) : (k <= 21)%nat -> (L * fs = 1000 * 2 ^ k)%nat -> (0 <= b)%Z -> (b * Z.of_nat L < 2 ^ 31)%Z ->
  int_of_float i32 (div64 (mul64 (mul64 (f64_of_Z b) (f64_of_Z (Z.of_nat (2 ^ k)))) (f64_of_Z 1000)) (f64_of_Z (Z.of_nat fs))) = Ok (b * Z.of_nat L)%Z.
Proof.
  intros Hk H Hb Hm. assert (S53 : (2 ^ 53 = 9007199254740992)%Z) by reflexivity. assert (S31 : (2 ^ 31 = 2147483648)%Z) by reflexivity. rewrite S31 in Hm.
  assert (Bk : (1 <= Z.of_nat (2 ^ k) <= 2097152)%Z).
  { assert (2 ^ k <= 2 ^ 21)%nat by (apply Nat.pow_le_mono_r; lia). assert (2 ^ k <> 0)%nat by (apply Nat.pow_nonzero; lia). assert (Z.of_nat (2 ^ 21) = 2097152)%Z by (rewrite Nat2Z.inj_pow; reflexivity). lia. }
  assert (HZ : (Z.of_nat L * Z.of_nat fs = 1000 * Z.of_nat (2 ^ k))%Z) by lia.
  assert (BL : (1 <= Z.of_nat L)%Z) by nia. assert (Bf : (1 <= Z.of_nat fs <= 2097152000)%Z) by nia. assert (Bb : (b < 2147483648)%Z) by nia.
  destruct (f64_of_Z_ok b) as [Rb Fb]; [rewrite S53; lia|]. destruct (f64_of_Z_ok (Z.of_nat (2 ^ k))) as [Rk Fk]; [rewrite S53; lia|].
  destruct (f64_of_Z_ok 1000) as [Rt Ft]; [rewrite S53; lia|]. destruct (f64_of_Z_ok (Z.of_nat fs)) as [Rf Ff]; [rewrite S53; lia|].
  assert (Ib : 0 <= IZR b <= 2147483648) by (split; apply IZR_le; lia). assert (Ik : 1 <= IZR (Z.of_nat (2 ^ k)) <= 2097152) by (split; apply IZR_le; lia).
  assert (If : 1 <= IZR (Z.of_nat fs) <= 2097152000) by (split; apply IZR_le; lia).
  destruct (mul64_ok _ _ Fb Fk) as [R1 F1].
  { rewrite Rb, Rk, Rabs_pos_eq by nra. pose proof big1000. nra. }
  rewrite Rb, Rk, rnd64_id in R1. 2:{ rewrite pow_bpow. apply fmt_Z; [lia|lia|rewrite S53; lia]. }
  destruct (mul64_ok _ _ F1 Ft) as [R2 F2].
  { rewrite R1, Rt, Rabs_pos_eq by nra. pose proof big1000. nra. }
  rewrite R1, Rt, rnd64_id in R2.
  2:{ replace (IZR b * IZR (Z.of_nat (2 ^ k)) * 1000) with (IZR (b * 1000) * bpow radix2 (Z.of_nat k)) by (rewrite mult_IZR, pow_bpow; ring). apply fmt_Z; [lia|lia|rewrite S53; lia]. }
  assert (Eq : B2R (mul64 (mul64 (f64_of_Z b) (f64_of_Z (Z.of_nat (2 ^ k)))) (f64_of_Z 1000)) / B2R (f64_of_Z (Z.of_nat fs)) = IZR (b * Z.of_nat L)).
  { rewrite R2, Rf, mult_IZR. apply (f_equal IZR) in HZ. rewrite !mult_IZR in HZ. assert (E1 : IZR b * IZR (Z.of_nat (2 ^ k)) * 1000 = IZR b * IZR (Z.of_nat L) * IZR (Z.of_nat fs)) by (rewrite (Rmult_assoc (IZR b) (IZR (Z.of_nat L))), HZ; ring). rewrite E1. field. lra. }
  assert (Bq : (0 <= b * Z.of_nat L)%Z) by lia.
  destruct (div64_ok (mul64 (mul64 (f64_of_Z b) (f64_of_Z (Z.of_nat (2 ^ k)))) (f64_of_Z 1000)) (f64_of_Z (Z.of_nat fs)) F2) as [R3 F3].
  { rewrite Rf. lra. }
  { rewrite Eq, Rabs_pos_eq by (apply IZR_le; exact Bq). apply Rle_trans with 2147483648; [apply IZR_le; lia|pose proof big1000; lra]. }
  apply ok_int; [exact F3|rewrite R3, Eq; apply rnd64_id, fmt64_Z; rewrite S53; lia|lia].
Qed.
