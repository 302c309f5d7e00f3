(** Quantised fields through the bit-level readers and writers. *)
From Coq Require Import Reals Psatz.
From Flocq Require Import Core.Core.
From Verif Require Import Base BitsModel FloatBase FloatModel FloatSpec BitsSpec BitsProof BitsVecProof FloatProof.
Local Open Scope R_scope.

Lemma code_writeNBits T n k : code_type T n -> (0 <= k < 2 ^ Z.of_nat n)%Z ->
  bits_val (writeNBits n k) = k.
Proof. intros _ Hk. rewrite bits_val_writeNBits. apply Z.mod_small. exact Hk. Qed.

Lemma code_field T n k : code_type T n -> (0 <= k < 2 ^ Z.of_nat n)%Z -> cast T (bits_val (writeNBits n k)) = k.
Proof.
  intros Hc Hk. rewrite (code_writeNBits T n k Hc Hk).
  symmetry. apply Z.eqb_eq. apply (in_T T n Hc). lia.
Qed.

Lemma IZR_pow_nat n : IZR (2 ^ Z.of_nat n - 1) = 2 ^ n - 1.
Proof.
  rewrite minus_IZR. f_equal. rewrite <- pow_IZR. reflexivity.
Qed.

Lemma float_round_trip : forall (T : ctype) (n : nat) (mn mx v : f32),
    code_type T n -> range_ok mn mx -> is_finite v = true ->
    exists (b : bits) (w : f32),
      writeFloatNBits T n v mn mx = Ok b /\ length b = n /\
      (forall st rest, (length (rs_unused st) < 8)%nat ->
         (rs_unused st ++ flat_map byte_bits (rs_file st))%list = (b ++ rest)%list ->
         exists st', readFloatNBits T n mn mx st = (w, st') /\ (length (rs_unused st') < 8)%nat /\
           (rs_unused st' ++ flat_map byte_bits (rs_file st'))%list = rest) /\
      (forall pre post, readFloatBits (pre ++ b ++ post) (length pre) n mn mx = Ok (w, (length pre + n)%nat)) /\
      is_finite w = true /\ B2R mn <= B2R w <= B2R mx /\
      Rabs (B2R w - clampR (B2R mn) (B2R mx) (B2R v))
        <= (B2R mx - B2R mn) * (/ (2 ^ n - 1) + / 1048576).
Proof.
  intros T n mn mx v Hc Hr Fv.
  destruct (quantisation_error T n mn mx v Hc Hr Fv) as (k & E & K & Q).
  exists (writeNBits n k), (decodeFloat n k mn mx).
  unfold writeFloatNBits. rewrite E. cbn [obind].
  split; [reflexivity|]. split; [apply writeNBits_length|]. split; [|split].
  - intros st rest Hok Hs. 
    destruct (reads_nbits T n (writeNBits n k) (writeNBits_length n k) st rest Hok Hs) as (st' & R1 & R2 & R3).
    exists st'. unfold readFloatNBits. rewrite R1. rewrite (code_field T n k Hc K). auto.
  - intros pre post. unfold readFloatBits. 
    rewrite <- (writeNBits_length n k) at 2. rewrite slice_app. cbn [obind].
    rewrite (code_writeNBits T n k Hc K). reflexivity.
  - destruct (decode_range mn mx Hr T n Hc k) as [F B]; [lia|].
    split; [exact F|]. split; [exact B|]. rewrite IZR_pow_nat in Q. exact Q.
Qed.

Lemma bits_val_range bs : (0 <= bits_val bs < 2 ^ Z.of_nat (length bs))%Z.
Proof. apply bits_val_bound. Qed.

Lemma float_read_in_range : forall (T : ctype) (n : nat) (mn mx : f32) (bs : bits) (i : nat),
    code_type T n -> range_ok mn mx -> (i + n <= length bs)%nat ->
    exists w, readFloatBits bs i n mn mx = Ok (w, (i + n)%nat) /\ is_finite w = true /\ B2R mn <= B2R w <= B2R mx.
Proof.
  intros T n mn mx bs i Hc Hr Hl. unfold readFloatBits, slice.
  destruct (Nat.leb_spec (i + n) (length bs)); [|lia]. cbn [obind].
  eexists. split; [reflexivity|]. apply (decode_range mn mx Hr T n Hc).
  pose proof (bits_val_range (firstn n (skipn i bs))) as B.
  rewrite firstn_length, skipn_length, Nat.min_l in B by lia. lia.
Qed.

Lemma encode_code T n mn mx v b : writeFloatNBits T n v mn mx = Ok b ->
  exists k, encodeFloat T n v mn mx = Ok k /\ b = writeNBits n k.
Proof.
  unfold writeFloatNBits. destruct (encodeFloat T n v mn mx) as [k| | |]; cbn; try discriminate.
  intros [= <-]. eauto.
Qed.

Lemma float_monotone : forall (T : ctype) (n : nat) (mn mx v w : f32) (b c : bits),
    code_type T n -> range_ok mn mx -> is_finite v = true -> is_finite w = true -> B2R v <= B2R w ->
    writeFloatNBits T n v mn mx = Ok b -> writeFloatNBits T n w mn mx = Ok c ->
    (bits_val b <= bits_val c)%Z.
Proof.
  intros T n mn mx v w b c Hc Hr Fv Fw L Eb Ec.
  destruct (encode_code _ _ _ _ _ _ Eb) as (k & Ek & ->). destruct (encode_code _ _ _ _ _ _ Ec) as (l & El & ->).
  assert (Hv : is_nan v = false) by (destruct v; try discriminate; reflexivity).
  assert (Hw : is_nan w = false) by (destruct w; try discriminate; reflexivity).
  destruct (encode_spec mn mx Hr T n Hc v Hv) as [E1 K1]. destruct (encode_spec mn mx Hr T n Hc w Hw) as [E2 K2].
  pose proof (encode_monotone T n mn mx v w k l Hc Hr Fv Fw L Ek El) as M.
  rewrite E1 in Ek. rewrite E2 in El. injection Ek as Ek. injection El as El.
  rewrite !(code_writeNBits T n) by (try assumption; subst; lia). exact M.
Qed.

Lemma float_infinity : forall (T : ctype) (n : nat) (mn mx : f32) (s : bool),
    code_type T n -> range_ok mn mx ->
    exists b, writeFloatNBits T n (B754_infinity s) mn mx = Ok b /\ length b = n /\
      bits_val b = (if s then 0 else 2 ^ Z.of_nat n - 1)%Z.
Proof.
  intros T n mn mx s Hc Hr. destruct (encode_spec mn mx Hr T n Hc (B754_infinity s) eq_refl) as [E K].
  unfold writeFloatNBits. rewrite E. cbn [obind]. eexists. split; [reflexivity|].
  split; [apply writeNBits_length|]. rewrite (code_writeNBits T n) by (try assumption; lia).
  assert (N : norm mn mx (B754_infinity s) = if s then f32_0 else f32_1).
  { unfold norm. replace (sub32 (B754_infinity s) mn) with (B754_infinity s : f32).
    - destruct (div_inf mn mx Hr s) as (y & Ey & Ed). rewrite Ey, Ed. destruct s; reflexivity.
    - destruct Hr as (F & _). destruct mn as [s'|s'| |s' m' e' He']; try discriminate; reflexivity. }
  rewrite N. destruct s.
  - change (B2R f32_0) with 0. rewrite Rmult_0_l, (rnd64_id 0 fmt64_0). apply (Zfloor_IZR 0).
  - rewrite B2R_1, Rmult_1_l, (rnd64_id _ (fmt64_M T n Hc)). apply Zfloor_IZR.
Qed.

Lemma B2R_fin s m e H : B2R (@B754_finite 24 128 s m e H) = IZR (cond_Zopp s (Zpos m)) * bpow radix2 e.
Proof. reflexivity. Qed.
Lemma bp10 : bpow radix2 (-10) = / 1024. Proof. exact (bpow_inv 10 ltac:(lia)). Qed.
Lemma bp21 : bpow radix2 (-21) = / 2097152. Proof. exact (bpow_inv 21 ltac:(lia)). Qed.
Lemma bp24 : bpow radix2 (-24) = / 16777216. Proof. exact (bpow_inv 24 ltac:(lia)). Qed.
Lemma bp9 : bpow radix2 (-9) = / 512. Proof. exact (bpow_inv 9 ltac:(lia)). Qed.
Lemma B2R_MF : B2R MAX_FLOAT = 10000.
Proof. unfold MAX_FLOAT. rewrite B2R_fin, bp10. cbn [cond_Zopp]. lra. Qed.
Lemma B2R_MP : B2R MAX_PHASE = 13176784 / 2097152.
Proof. unfold MAX_PHASE. rewrite B2R_fin, bp21. cbn [cond_Zopp]. lra. Qed.

Lemma format_ranges :
  range_ok (Bopp MAX_AMPLITUDE) MAX_AMPLITUDE /\ range_ok f32_0 MAX_PHASE /\
  range_ok f32_0 MAX_FLOAT /\ range_ok (Bopp MAX_FLOAT) MAX_FLOAT.
Proof.
  unfold range_ok. rewrite !B2R_Bopp. unfold MAX_AMPLITUDE. rewrite B2R_1, B2R_MF, B2R_MP.
  change (B2R f32_0) with 0.
  split; [|split; [|split]]; (split; [reflexivity|]; split; [reflexivity|]; split; [lra|]; split; [lra|]).
  - exists (@B754_finite 24 128 false 8388608 (-22) eq_refl). split; [reflexivity|].
    rewrite B2R_fin. assert (B : bpow radix2 (-22) = / 4194304) by exact (bpow_inv 22 ltac:(lia)). rewrite B. cbn [cond_Zopp]. lra.
  - exists MAX_PHASE. split; [reflexivity|]. rewrite B2R_MP. lra.
  - exists MAX_FLOAT. split; [reflexivity|]. rewrite B2R_MF. lra.
  - exists (@B754_finite 24 128 false 10240000 (-9) eq_refl). split; [reflexivity|].
    rewrite B2R_fin, bp9. cbn [cond_Zopp]. lra.
Qed.

Definition amp_check (k : Z) : bool :=
  match rewrite_code u8 8 (Bopp MAX_AMPLITUDE) MAX_AMPLITUDE k with
  | Ok k' => (k' =? (if (1 <=? k) && (k <=? 63) then k - 1 else k))%Z
  | _ => false
  end.
Lemma amp_sweep : forallb (fun i => amp_check (Z.of_nat i)) (seq 0 256) = true.
Proof. vm_cast_no_check (eq_refl true). Qed.
Lemma amplitude_rewrite : forall k, (0 <= k < 256)%Z ->
    rewrite_code u8 8 (Bopp MAX_AMPLITUDE) MAX_AMPLITUDE k
    = Ok (if (1 <=? k)%Z && (k <=? 63)%Z then k - 1 else k)%Z.
Proof.
  intros k Hk. pose proof amp_sweep as S. rewrite forallb_forall in S.
  specialize (S (Z.to_nat k)). rewrite in_seq, Z2Nat.id in S by lia. specialize (S ltac:(lia)).
  unfold amp_check in S. destruct (rewrite_code _ _ _ _ k); try discriminate.
  apply Z.eqb_eq in S. rewrite S. reflexivity.
Qed.

Lemma amplitude_drift :
  rewrites 63 u8 8 (Bopp MAX_AMPLITUDE) MAX_AMPLITUDE 63 = Ok 0%Z /\
  B2R (decodeFloat 8 63 (Bopp MAX_AMPLITUDE) MAX_AMPLITUDE) > - (51 / 100) /\
  B2R (decodeFloat 8 0 (Bopp MAX_AMPLITUDE) MAX_AMPLITUDE) = -1.
Proof.
  split; [vm_cast_no_check (eq_refl (@Ok Z 0%Z))|]. split.
  - rewrite <- SF2R_B2SF.
    replace (B2SF (decodeFloat 8 63 (Bopp MAX_AMPLITUDE) MAX_AMPLITUDE)) with (SpecFloat.S754_finite true 8487298 (-24))
      by (vm_compute; reflexivity).
    cbn [SF2R]. unfold F2R. cbn [Fnum Fexp cond_Zopp Z.opp]. rewrite bp24. lra.
  - rewrite <- SF2R_B2SF.
    replace (B2SF (decodeFloat 8 0 (Bopp MAX_AMPLITUDE) MAX_AMPLITUDE)) with (SpecFloat.S754_finite true 8388608 (-23))
      by (vm_compute; reflexivity).
    cbn [SF2R]. unfold F2R. cbn [Fnum Fexp cond_Zopp Z.opp].
    assert (B : bpow radix2 (-23) = / 8388608) by exact (bpow_inv 23 ltac:(lia)). rewrite B. lra.
Qed.
