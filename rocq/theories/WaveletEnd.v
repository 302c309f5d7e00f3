(** Signals through encoder and decoder. *)
From Coq Require Import Reals Lra Lia ZArith List Bool.
From Flocq Require Import Core BinarySingleNaN.
From Verif Require Import Base FloatBase FloatModel FloatProof Float64Proof ArithModel SpihtModel ToolsModel SynthModel TypesModel WaveletModel WaveletSpec WaveletTransform WaveletFilter WaveletInverse WaveletQuant WaveletAlloc WaveletBits WaveletCodec WaveletBlocks WaveletSilent WaveletLength.
Import ListNotations.
Local Open Scope R_scope.
Ltac Zify.zify_post_hook ::= Z.div_mod_to_equations.

Lemma sum_zsum l : zsum l = sum_bits l.
Proof. induction l as [|b l IH]; [reflexivity|]. cbn [zsum sum_bits fold_right]. rewrite IH. reflexivity. Qed.

(** *** The transform and its inverse *)
Lemma near_self n : forall c, halves n (length c) -> Forall (fun x => is_finite x = true) c -> near n (fun _ => 0) c c.
Proof.
  assert (Z : forall l : list f64, Forall (fun x => is_finite x = true) l -> Forall2 (close 0) l l).
  { intros l F. induction F as [|x l Fx F IH]; constructor; [|exact IH]. split; [exact Fx|]. rewrite Rminus_diag_eq by reflexivity. rewrite Rabs_R0. lra. }
  induction n as [|n IH]; intros c H F; [apply Z, F|]. destruct (halves_S n _ H) as (Ev & L6 & H'). pose proof (half_even _ Ev) as He.
  cbn [near]. exists (firstn (length c / 2) c), (firstn (length c / 2) c), (skipn (length c / 2) c), (skipn (length c / 2) c).
  assert (Lf : length (firstn (length c / 2) c) = (length c / 2)%nat) by (rewrite firstn_length; lia).
  split; [symmetry; apply firstn_skipn|]. split; [symmetry; apply firstn_skipn|]. split; [rewrite Lf, skipn_length; lia|]. split; [reflexivity|].
  split; [apply IH; [rewrite Lf; exact H'|apply Forall_firstn, F]|apply Z, Forall_skipn, F].
Qed.
Lemma total_zero n : total n (fun _ => 0) = 0.
Proof. induction n as [|n IH]; [reflexivity|]. cbn [total]. rewrite IH. ring. Qed.
Lemma transform_back n m x M : (1 <= n <= 100)%nat -> (3 <= m)%nat -> length x = (m * 2 ^ n)%nat -> 1 <= M <= IZR (2 ^ 100) -> samples_within M x ->
  exists c y, DWT x n = Ok c /\ length c = length x /\ samples_within (M * 2 ^ n) c /\ inv_DWT c n = Ok y /\ Forall2 (within (M * 2 ^ n / 1099511627776)) x y.
Proof.
  intros Hn Hm L HM B. destruct n as [|n]; [lia|]. rewrite DWT_tr.
  assert (H : halves (S n) (length x)) by (exists m; split; assumption).
  assert (P : 1 <= 2 ^ S n <= IZR (2 ^ 100)).
  { split; [apply pow_R1_Rle; lra|]. rewrite (pow_IZR 2 (S n)) at 1. apply IZR_le. apply Z.pow_le_mono_r; lia. }
  assert (HB : M * 2 ^ S n <= bpow radix2 700).
  { apply Rle_trans with (IZR (2 ^ 100) * IZR (2 ^ 100)); [apply Rmult_le_compat; lra|]. rewrite <- mult_IZR, <- Z.pow_add_r by lia. rewrite <- bpow_IZR by lia. apply bpow_le. lia. }
  destruct (tr_ok (S n) x M H (proj1 HM) HB B) as (c & Ec & Lc & Bc).
  destruct (inverse_near (S n) x M (fun _ => 0) c c H (proj1 HM) HB B) as (y & Ey & Ly & Hy); try assumption.
  { intros _. lra. }
  { rewrite total_zero. apply bpow_ge_0. }
  { apply near_self; [rewrite Lc; exact H|]. eapply Forall_impl; [|exact Bc]. intros v [F _]. exact F. }
  exists c, y. split; [exact Ec|]. split; [exact Lc|]. split; [exact Bc|]. split; [unfold inv_DWT; rewrite Lc; exact Ey|].
  eapply AhapMore.Forall2_weaken; [|exact Hy]. intros a b [F E]. split; [exact F|]. eapply Rle_trans; [exact E|]. rewrite total_zero. unfold eps.
  set (p := 2 ^ S n) in *. nra.
Qed.

(** *** The quantiser *)
Lemma quantiser (inp out : list f64) start len Q b : is_finite Q = true -> on_grid (B2R Q) -> (0 <= b <= 15)%Z -> (start + len <= length inp)%nat -> length out = length inp ->
  samples_within 1073741824 inp -> (B2R Q = 0 -> Forall (fun x => B2R x = 0) inp) ->
  exists r, uniformQuant inp start Q b len out = Ok r /\ length r = length inp /\
    (forall i, (start <= i < start + len)%nat -> quantised (B2R Q) b (nth i inp f64_0) (nth i r f64_0)) /\
    (forall i, (i < start \/ start + len <= i)%nat -> nth i r f64_0 = nth i out f64_0).
Proof.
  intros FQ GQ Hb Hs Lo B ZQ.
  apply (uniform_ok (fun x => x) (fun x => x) (length inp) (fun _ => (f64_0, f64_0)) inp Q 0); try assumption; try reflexivity. unfold MAXBITS. lia.
Qed.
(** *** Silent blocks *)
Lemma silent_block log10 pow2 getSMR md0 md10 cs k block budget : library_limits log10 pow2 -> (forall i, flt (fst (getSMR block i)) f64_0 = false) ->
  (3 <= k)%nat -> length block = (2 ^ k)%nat -> no_signal block -> (0 <= budget)%Z ->
  ((budget <= 30)%Z -> (budget <= 15 * (Z.of_nat k - 2))%Z -> exists c Q st, DWT block (dwtlevel (2 ^ k)) = Ok c /\ largestCoefficient c = Ok Q /\
     allocate log10 pow2 (2 ^ k) (getSMR block) c Q budget = Ok st /\ bitalloc st = budget :: repeat 0%Z (k - 2)) /\
  ((5 <= k)%nat -> (31 <= budget)%Z -> encodeBlock log10 pow2 getSMR md0 md10 cs (2 ^ k) block budget = UB).
Proof.
  intros (Hp & Hi & Hn) He Hk L Z Hb.
  assert (Zb : Forall zero block) by (eapply Forall_impl; [|exact Z]; intros x [->| ->]; eexists; reflexivity).
  assert (L8 : (8 <= length block)%nat). { rewrite L. assert (2 ^ 3 <= 2 ^ k)%nat by (apply Nat.pow_le_mono_r; lia). change (2 ^ 3)%nat with 8%nat in *. lia. }
  destruct (forward_lengths block L8) as [P _]. rewrite L in P.
  destruct P as (c & Ec & Lc).
  { rewrite level_pow by lia. apply Nat.mod_divide; [apply Nat.pow_nonzero; lia|]. exists 4%nat. rewrite (pow_split k) at 1 by lia. lia. }
  pose proof (zero_DWT _ _ _ Zb Ec) as Zc. pose proof (zero_largest _ Zc) as EQ.
  destruct (silent_alloc log10 pow2 (getSMR block) Hp Hi Hn He (2 ^ k) c Lc Zc budget Hb) as [A B]. rewrite level_pow in A, B by lia. split.
  - intros B1 B2. destruct (A B1 ltac:(lia)) as (st & Ea & Eb). exists c, (B754_zero false), st. split; [exact Ec|]. split; [exact EQ|]. split; assumption.
  - intros H5 H31. unfold encodeBlock, quantiseBlock. rewrite Ec. cbn [obind]. rewrite EQ. cbn [obind]. rewrite B by lia. reflexivity.
Qed.

(** *** Signals *)
Lemma int_some z v : int_ok z = Ok v -> v = z.
Proof. unfold int_ok. destruct (_ =? _)%Z; [intros E; now injection E|discriminate]. Qed.
Lemma int_fits z : (-(2 ^ 31) <= z < 2 ^ 31)%Z -> int_ok z = Ok z.
Proof.
  intros B. unfold int_ok. replace (z =? cast i32 z)%Z with true; [reflexivity|]. symmetry. apply Z.eqb_eq.
  unfold cast, i32, ct_signed, ct_width, to_signed. change (2 ^ (Z.of_nat 32 - 1))%Z with 2147483648%Z. change (2 ^ Z.of_nat 32)%Z with 4294967296%Z. change (2 ^ 31)%Z with 2147483648%Z in B. lia.
Qed.
Lemma cast_fits z : (0 <= z < 2 ^ 31)%Z -> cast i32 z = z.
Proof. intros B. unfold cast, i32, ct_signed, ct_width, to_signed. change (2 ^ (Z.of_nat 32 - 1))%Z with 2147483648%Z. change (2 ^ Z.of_nat 32)%Z with 4294967296%Z. change (2 ^ 31)%Z with 2147483648%Z in B. lia. Qed.

Lemma signal_blocks log10 pow2 getSMR mds bl fs sig budget f_cutoff ts r : (0 <= ts < 2 ^ 31)%Z -> encodeSignal log10 pow2 getSMR mds bl fs sig budget f_cutoff ts = Ok r ->
  exists es, r = Band WaveletB None (Some (Z.of_nat bl * ts / Z.of_nat fs)%Z) f_cutoff (Z.of_nat fs) es None /\ length es = ((length sig + bl - 1) / bl)%nat /\
    forall i, (i < length es)%nat -> exists e cs1 cs2, nth_error es i = Some e /\ e_pos e = (Z.of_nat i * (Z.of_nat bl * ts / Z.of_nat fs))%Z /\ e_type e = BasisE /\
      encodeBlock log10 pow2 getSMR (fst (mds i)) (snd (mds i)) cs1 bl (block_at bl sig i) budget = Ok (e_wavelet e, cs2).
Proof.
  intros Ht E. unfold encodeSignal in E. destruct (_ || _) eqn:C; [discriminate|]. apply orb_false_iff in C. destruct C as [C1 C2].
  apply Nat.ltb_ge in C1. apply Nat.eqb_neq in C2. rewrite cast_fits in E by exact Ht.
  destruct (int_ok (Z.of_nat bl * ts)) as [p| | |] eqn:Ep; try discriminate. cbn [obind] in E. apply int_some in Ep. subst p.
  rewrite Z.quot_div_nonneg in E by nia. set (L := (Z.of_nat bl * ts / Z.of_nat fs)%Z) in *.
  assert (HL : (0 <= L)%Z) by (apply Z.div_pos; nia).
  apply (blocks_of log10 pow2 getSMR mds bl budget L HL) in E; [|constructor]. destruct E as (es & -> & Le & He).
  exists es. split; [reflexivity|]. split; [exact Le|]. intros i Hi. rewrite Le in Hi. destruct (He i Hi) as (bytes & c1 & c2 & N & Eb).
  exists (wavelet_effect (0 + Z.of_nat i * L) bytes), c1, c2. split; [exact N|]. split; [cbn; lia|]. split; [reflexivity|]. exact Eb.
Qed.

Lemma block_length bl sig i : length (block_at bl sig i) = bl.
Proof. unfold block_at. rewrite map_length. apply seq_length. Qed.
Lemma block_within bl (sig : list f64) i M : 1 <= M -> samples_within M sig -> samples_within M (block_at bl sig i).
Proof.
  intros HM B. apply Forall_forall. intros v Hv. unfold block_at in Hv. apply in_map_iff in Hv. destruct Hv as (j & <- & _).
  destruct (nth_in_or_default (i * bl + j) sig f64_0) as [I|E]; [unfold samples_within in B; rewrite Forall_forall in B; apply B, I|]. rewrite E. cbn. split; [reflexivity|]. rewrite Rabs_R0. lra.
Qed.

Lemma decode_all bl up ts (L : Z) (good : nat -> list f64 -> Prop) : forall l b,
  (forall i e, nth_error l i = Some e -> exists y, decodeSamples (e_wavelet e) bl = Ok y /\ good (b + i)%nat y /\
     int_of_float i32 (div64 (mul64 (mul64 (f64_of_Z (Z.of_nat (b + i))) (f64_of_Z (Z.of_nat bl))) (f64_of_Z ts)) (f64_of_Z up)) = Ok (Z.of_nat (b + i) * L)%Z) ->
  exists r, decode_effects bl up ts (Z.of_nat b) l = Ok r /\ length r = length l /\
    forall i e, nth_error r i = Some e -> e_pos e = (Z.of_nat (b + i) * L)%Z /\ e_type e = BasisE /\ good (b + i)%nat (e_samples e).
Proof.
  induction l as [|e l IH]; intros b H.
  - exists []. split; [reflexivity|]. split; [reflexivity|]. intros [|i] e E; discriminate.
  - cbn [decode_effects]. destruct (H 0%nat e eq_refl) as (y & Ey & Gy & Ep). rewrite Ey. cbn [obind]. rewrite Nat.add_0_r in Ep, Gy. rewrite Ep. cbn [obind].
    destruct (IH (S b)) as (r & Er & Lr & Hr).
    { intros i e' Hi. destruct (H (S i) e' Hi) as (y' & A & B & C). exists y'. replace (S b + i)%nat with (b + S i)%nat by lia. split; [exact A|]. split; [exact B|exact C]. }
    replace (Z.of_nat b + 1)%Z with (Z.of_nat (S b)) by lia. rewrite Er. cbn [obind]. eexists. split; [reflexivity|]. split; [cbn; lia|].
    intros [|i] e' Hi.
    + cbn [nth_error] in Hi. injection Hi as <-. cbn [e_pos e_type e_samples]. rewrite Nat.add_0_r. split; [reflexivity|]. split; [reflexivity|exact Gy].
    + cbn [nth_error] in Hi. replace (b + S i)%nat with (S b + i)%nat by lia. apply Hr, Hi.
Qed.

Theorem signal_round log10 pow2 getSMR mds k fs sig M budget f_cutoff : (3 <= k <= 21)%nat -> (0 < fs)%nat -> ((1000 * 2 ^ k) mod fs = 0)%nat ->
  1 <= M <= 512 -> samples_within M sig ->
  (forall i, (i * 2 ^ k < length sig)%nat -> block_usable log10 pow2 getSMR (2 ^ k) (block_at (2 ^ k) sig i) budget) ->
  (1000 * (Z.of_nat (length sig) + 2 ^ Z.of_nat k) < 2 ^ 31 * Z.of_nat fs)%Z ->
  exists band out, encodeSignal log10 pow2 getSMR mds (2 ^ k) fs sig budget f_cutoff 1000 = Ok band /\ transformBand band 1000 = Ok out /\
    b_type out = WaveletB /\ b_low out = f_cutoff /\ b_up out = Z.of_nat fs /\
    length (b_effects out) = ((length sig + 2 ^ k - 1) / 2 ^ k)%nat /\
    forall i e, nth_error (b_effects out) i = Some e -> (e_pos e * Z.of_nat fs = 1000 * (Z.of_nat i * 2 ^ Z.of_nat k))%Z /\ e_type e = BasisE /\
      decoded_from k M budget (block_at (2 ^ k) sig i) (e_samples e).
Proof.
  intros Hk Hf Hd HM B Us Hl. assert (S31 : (2 ^ 31 = 2147483648)%Z) by reflexivity.
  apply Nat.mod_divides in Hd; [|lia]. destruct Hd as [L HL].
  assert (ZP : Z.of_nat (2 ^ k) = (2 ^ Z.of_nat k)%Z) by (rewrite Nat2Z.inj_pow; reflexivity).
  assert (Bk : (8 <= Z.of_nat (2 ^ k) <= 2097152)%Z).
  { rewrite ZP. split; [change 8%Z with (2 ^ 3)%Z|change 2097152%Z with (2 ^ 21)%Z]; apply Z.pow_le_mono_r; lia. }
  rewrite <- ZP in *. set (P := (2 ^ k)%nat) in *. assert (HL' : (Z.of_nat L * Z.of_nat fs = 1000 * Z.of_nat P)%Z) by lia.
  set (n := ((length sig + P - 1) / P)%nat).
  assert (Hn : (n * P <= length sig + P - 1)%nat) by (unfold n; rewrite Nat.mul_comm; apply Nat.mul_div_le; lia).
  assert (Hin : forall i, (i < n)%nat -> (i * P < length sig)%nat) by (intros i Hi; nia).
  assert (HnL : (Z.of_nat n * Z.of_nat L < 2147483648)%Z).
  { assert (X : (Z.of_nat n * (Z.of_nat L * Z.of_nat fs) < 2147483648 * Z.of_nat fs)%Z) by (rewrite HL'; rewrite S31 in Hl; nia). apply Z.mul_lt_mono_pos_r with (p := Z.of_nat fs); [lia|]. lia. }
  (* every block *)
  assert (Rd : forall i md0 md10, (i < n)%nat -> exists bytes y, encodeBlock log10 pow2 getSMR md0 md10 resetCounter P (block_at P sig i) budget = Ok (bytes, resetCounter) /\
     decodeSamples bytes P = Ok y /\ decoded_from k M budget (block_at P sig i) y).
  { intros i md0 md10 Hi.
    destruct (block_round log10 pow2 getSMR md0 md10 k (block_at P sig i) M budget) as (c & Q & W & st & bytes & y & E1 & E2 & Lg & Sc & Ea & Rg & Ee & Ed & Hy); try assumption; try lia.
    - apply block_length.
    - apply block_within; [lra|exact B].
    - apply Us, Hin, Hi.
    - destruct (proj2 (allocate_sum log10 pow2 (2 ^ k) (getSMR (block_at P sig i)) c Q budget) st Ea) as (Lb & _ & _ & Sm). rewrite level_pow in Lb, Sm by lia.
      exists bytes, y. split; [exact Ee|]. split; [exact Ed|]. exists c, W, (B2R Q), (bitalloc st). split; [exact E1|]. split; [exact Lg|]. split; [exact Sc|].
      split; [lia|]. split; [exact Rg|]. split; [rewrite <- sum_zsum, Sm; unfold MAXBITS; f_equal; f_equal; lia|exact Hy]. }
  assert (Eq : Z.quot (Z.of_nat P * 1000) (Z.of_nat fs) = Z.of_nat L).
  { rewrite Z.quot_div_nonneg by lia. symmetry. apply Z.div_unique_exact; lia. }
  (* the encoder *)
  assert (Enc : exists r, encodeSignal log10 pow2 getSMR mds P fs sig budget f_cutoff 1000 = Ok r).
  { unfold encodeSignal. rewrite (proj2 (Nat.ltb_ge _ _)) by lia. rewrite (proj2 (Nat.eqb_neq _ _)) by lia. cbn [orb].
    rewrite cast_fits by (rewrite S31; lia). rewrite int_fits by (rewrite S31; lia). cbn [obind].
    rewrite Eq.
    apply (blocks_ok log10 pow2 getSMR mds P budget (Z.of_nat L) ltac:(lia)).
    - intros i Hi. destruct (Rd i (fst (mds i)) (snd (mds i)) Hi) as (bytes & y & E & _). exists bytes. exact E.
    - lia.
    - rewrite S31. fold n. lia. }
  destruct Enc as [r Er]. pose proof Er as Er'.
  unfold encodeSignal in Er'. rewrite (proj2 (Nat.ltb_ge _ _)) in Er' by lia. rewrite (proj2 (Nat.eqb_neq _ _)) in Er' by lia. cbn [orb] in Er'.
  rewrite cast_fits in Er' by (rewrite S31; lia). rewrite int_fits in Er' by (rewrite S31; lia). cbn [obind] in Er'.
  rewrite Eq in Er'.
  fold n in Er'.
  assert (Cs : exists es, r = set_effects es (Band WaveletB None (Some (Z.of_nat L)) f_cutoff (Z.of_nat fs) [] None) /\ length es = n /\
     forall i e, nth_error es i = Some e -> exists bytes, e_wavelet e = bytes /\ encodeBlock log10 pow2 getSMR (fst (mds i)) (snd (mds i)) resetCounter P (block_at P sig i) budget = Ok (bytes, resetCounter)).
  { apply (blocks_reset log10 pow2 getSMR mds P budget (Z.of_nat L) ltac:(lia) n) in Er'; [|constructor|].
    - destruct Er' as (es & -> & Le & He). exists es. split; [reflexivity|]. split; [exact Le|]. intros i e Hi.
      assert (Hin' : (i < n)%nat) by (rewrite <- Le; apply nth_error_Some; rewrite Hi; discriminate). destruct (He i Hin') as (bytes & N & Eb). rewrite Hi in N. injection N as ->. exists bytes. split; [reflexivity|exact Eb].
    - intros i Hi. destruct (Rd i (fst (mds (0 + i)%nat)) (snd (mds (0 + i)%nat)) Hi) as (bytes & y & E & _). exists bytes. exact E. }
  destruct Cs as (es & -> & Le & He).
  destruct (decode_all P (Z.of_nat fs) 1000 (Z.of_nat L) (fun i y => decoded_from k M budget (block_at P sig i) y) es 0) as (rs & Ed & Lr & Hr).
  { intros i e Hi. assert (Hin' : (i < n)%nat) by (rewrite <- Le; apply nth_error_Some; rewrite Hi; discriminate).
    destruct (He i e Hi) as (bytes & Ew & Eb). destruct (Rd i (fst (mds i)) (snd (mds i)) Hin') as (bytes' & y & Eb' & Ed & G).
    rewrite Eb in Eb'. injection Eb' as <-. exists y. rewrite Ew. split; [exact Ed|]. split; [exact G|].
    cbn [Nat.add]. unfold P. apply position_back; [lia|fold P; lia|lia|rewrite S31; nia]. }
  eexists. eexists. split; [exact Er|]. split.
  { unfold transformBand. cbn [b_type set_effects]. rewrite Z.eqb_refl. cbn [negb b_block b_up b_effects set_effects].
    rewrite (length_back k L fs) by lia. cbn [obind]. fold P. rewrite (proj2 (Z.ltb_ge _ _)) by lia. rewrite Nat2Z.id. change 0%Z with (Z.of_nat 0). rewrite Ed. cbn [obind]. reflexivity. }
  cbn [b_type b_low b_up b_effects set_effects]. split; [reflexivity|]. split; [reflexivity|]. split; [reflexivity|]. split; [rewrite Lr; exact Le|].
  intros i e Hi. destruct (Hr i e Hi) as (Ep & Et & G). cbn [Nat.add] in *. split; [rewrite Ep; nia|]. split; [exact Et|exact G].
Qed.

(** The encoder succeeds for every sampling frequency. *)
Lemma encode_some log10 pow2 getSMR mds k fs sig M budget f_cutoff ts : (3 <= k <= 22)%nat -> (0 < fs)%nat -> (0 <= ts)%Z -> (Z.of_nat (2 ^ k) * ts < 2 ^ 31)%Z ->
  1 <= M <= 512 -> samples_within M sig ->
  (forall i, (i * 2 ^ k < length sig)%nat -> block_usable log10 pow2 getSMR (2 ^ k) (block_at (2 ^ k) sig i) budget) ->
  (ts * (Z.of_nat (length sig) + Z.of_nat (2 ^ k)) < 2 ^ 31 * Z.of_nat fs)%Z ->
  exists band, encodeSignal log10 pow2 getSMR mds (2 ^ k) fs sig budget f_cutoff ts = Ok band.
Proof.
  intros Hk Hf Ht Hm HM B Us Hl. assert (S31 : (2 ^ 31 = 2147483648)%Z) by reflexivity. rewrite S31 in *.
  assert (Bk : (8 <= Z.of_nat (2 ^ k))%Z).
  { assert (2 ^ 3 <= 2 ^ k)%nat by (apply Nat.pow_le_mono_r; lia). change (2 ^ 3)%nat with 8%nat in *. lia. }
  set (P := (2 ^ k)%nat) in *. set (n := ((length sig + P - 1) / P)%nat).
  assert (Hn : (n * P <= length sig + P - 1)%nat) by (unfold n; rewrite Nat.mul_comm; apply Nat.mul_div_le; lia).
  assert (Hin : forall i, (i < n)%nat -> (i * P < length sig)%nat) by (intros i Hi; nia).
  assert (Bt : (ts < 2147483648)%Z) by nia.
  unfold encodeSignal. rewrite (proj2 (Nat.ltb_ge _ _)) by lia. rewrite (proj2 (Nat.eqb_neq _ _)) by lia. cbn [orb].
  rewrite cast_fits by (rewrite S31; lia). rewrite int_fits by (rewrite S31; nia). cbn [obind]. rewrite Z.quot_div_nonneg by nia.
  set (L := (Z.of_nat P * ts / Z.of_nat fs)%Z).
  assert (HL : (0 <= L)%Z) by (apply Z.div_pos; nia).
  assert (HLf : (L * Z.of_nat fs <= Z.of_nat P * ts)%Z) by (unfold L; rewrite Z.mul_comm; apply Z.mul_div_le; lia).
  apply (blocks_ok log10 pow2 getSMR mds P budget L HL).
  - intros i Hi.
    destruct (block_round log10 pow2 getSMR (fst (mds i)) (snd (mds i)) k (block_at P sig i) M budget) as (c & Q & W & st & bytes & y & _ & _ & _ & _ & _ & _ & Ee & _); try assumption; try lia.
    + apply block_length.
    + apply block_within; [lra|exact B].
    + apply Us, Hin, Hi.
    + exists bytes. exact Ee.
  - lia.
  - rewrite S31. fold n. rewrite Z.add_0_l. apply Z.mul_lt_mono_pos_r with (p := Z.of_nat fs); [lia|].
    assert (X : (Z.of_nat n * (L * Z.of_nat fs) <= Z.of_nat n * (Z.of_nat P * ts))%Z) by (apply Z.mul_le_mono_nonneg_l; lia).
    assert (Y : (Z.of_nat n * Z.of_nat P * ts <= (Z.of_nat (length sig) + Z.of_nat P) * ts)%Z) by (apply Z.mul_le_mono_nonneg_r; lia). nia.
Qed.
(** What the decoder makes of it. *)
Lemma decode_length bytes bl y : (8 <= bl)%nat -> decodeSamples bytes bl = Ok y -> length y = bl.
Proof.
  intros H8 E. pose proof E as E'. unfold decodeSamples in E. step E. apply decode_len in E0. unfold decodeBlock in E.
  set (c := map _ _) in E. assert (Lc : length c = bl) by (unfold c; rewrite map_length; exact E0).
  destruct (Nat.eq_dec (bl mod 2 ^ dwtlevel bl) 0) as [D|D]; [|destruct (decode_undefined _ _ _ H8 D E')].
  rewrite <- Lc in E, H8, D. destruct (inverse_lengths c H8) as [P _]. destruct (P D) as (y' & Ey & Ly). rewrite E in Ey. injection Ey as ->. lia.
Qed.
Lemma decode_lengths bl up ts : (8 <= bl)%nat -> forall l b r, decode_effects bl up ts b l = Ok r -> length r = length l /\ Forall (fun e => length (e_samples e) = bl) r.
Proof.
  intros H8. induction l as [|e l IH]; intros b r H; cbn [decode_effects] in H; [injection H as <-; split; constructor|].
  step H. step H. step H. injection H as <-. destruct (IH _ _ E1) as [Lr Fr]. apply (decode_length _ _ _ H8) in E.
  split; [cbn; lia|]. constructor; [exact E|exact Fr].
Qed.
Lemma audio_refuted log10 pow2 getSMR mds fs sig budget f_cutoff band out : In fs audio_rates -> sig <> [] ->
  encodeSignal log10 pow2 getSMR mds 1024 (Z.to_nat fs) sig budget f_cutoff 1000 = Ok band -> transformBand band 1000 <> Ok out.
Proof.
  intros Hf Hs E. apply signal_blocks in E; [|change (2 ^ 31)%Z with 2147483648%Z; lia]. destruct E as (es & -> & Le & _).
  destruct es as [|e es].
  { destruct sig as [|v sig]; [destruct (Hs eq_refl)|]. cbn [length] in Le. symmetry in Le. apply Nat.div_small_iff in Le; [|discriminate]. pose proof (Nat.le_0_l (length sig)). lia. }
  change (Z.of_nat 1024 * 1000)%Z with 1024000%Z.
  assert (Pf : (0 <= fs)%Z) by (unfold audio_rates in Hf; cbn [In] in Hf; lia). rewrite Z2Nat.id by exact Pf.
  assert (D : exists bl, decoded_length (1024000 / fs) fs = Ok bl /\ (bl = 1014 \/ bl = 1008)%Z).
  { unfold audio_rates in Hf. repeat (destruct Hf as [<-|Hf]; [eexists; split; [vm_compute; reflexivity|lia]|]). destruct Hf. }
  destruct D as (bl & Ed & Hb). apply (transform_undefined _ 1000 (1024000 / fs) bl e es); try reflexivity; [exact Ed|lia|].
  destruct Hb as [-> | ->]; vm_compute; discriminate.
Qed.
Lemma timescale_refuted log10 pow2 getSMR mds sig budget f_cutoff band out :
  encodeSignal log10 pow2 getSMR mds 1024 (Z.to_nat 8000) sig budget f_cutoff 8000 = Ok band -> transformBand band 8000 = Ok out ->
  length (b_effects out) = ((length sig + 1023) / 1024)%nat /\ Forall (fun e => Z.of_nat (length (e_samples e)) = 8192%Z) (b_effects out).
Proof.
  intros E T. apply signal_blocks in E; [|change (2 ^ 31)%Z with 2147483648%Z; lia]. destruct E as (es & -> & Le & _).
  unfold transformBand in T. cbn [b_type] in T. rewrite Z.eqb_refl in T. cbn [negb b_block b_up b_effects] in T.
  rewrite Z2Nat.id in T by lia.
  assert (Dl : decoded_length (Z.of_nat 1024 * 8000 / 8000) 8000 = Ok 8192%Z) by (vm_compute; reflexivity).
  rewrite Dl in T. cbn [obind] in T. rewrite (proj2 (Z.ltb_ge _ _)) in T by lia. step T. injection T as <-. cbn [b_effects set_effects].
  apply decode_lengths in E; [|lia]. destruct E as [Lr Fr]. split; [rewrite Lr, Le; f_equal; lia|].
  eapply Forall_impl; [|exact Fr]. cbv beta. intros e ->. rewrite Z2Nat.id; lia.
Qed.
(** Lengths for the entropy coded effects. *)
Lemma effect_lengths bytes bl : (8 <= bl)%nat -> (bl mod 2 ^ dwtlevel bl <> 0)%nat -> forall y, decodeSamples bytes bl <> Ok y.
Proof. intros A B y. apply decode_undefined; assumption. Qed.

(** *** Checking that a block is usable *)
Definition usableb (l : list f64) : bool :=
  negb (is_nan (hd f64_0 l)) && existsb (fun r => match r with B754_nan | B754_infinity false => false | _ => true end) l.
Lemma usableb_ok l : usableb l = true -> usable l.
Proof.
  unfold usableb, usable. intros H. apply andb_true_iff in H. destruct H as [A B]. split; [apply negb_true_iff in A; exact A|].
  apply existsb_exists in B. destruct B as (r & I & P). apply Exists_exists. exists r. split; [exact I|]. destruct r as [s|[|]| |s m e He]; try discriminate; split; try reflexivity; discriminate.
Qed.
Section Check.
Variables log10 pow2 : f64 -> f64.
Variable bl : nat.
Variable smr : nat -> f64 * f64.
Variable dwt : list f64.
Variable Q : f64.
Variable budget : Z.
Fixpoint run_ok (fuel : nat) (st : alloc) : bool :=
  match fuel with
  | O => false
  | S n =>
      if (bitalloc_sum st <? budget)%Z
      then usableb (ratios log10 smr st) && match alloc_step log10 pow2 bl smr dwt Q budget st with Ok st' => run_ok n st' | _ => true end
      else true
  end.
Lemma run_visited fuel : run_ok fuel (alloc_start pow2 bl dwt) = true -> forall st, visited log10 pow2 bl smr dwt Q budget st -> (bitalloc_sum st < budget)%Z -> usable (ratios log10 smr st).
Proof.
  intros H0 st V. assert (X : exists f, run_ok f st = true).
  { induction V as [|st st' V IH Lt E]; [exists fuel; exact H0|]. destruct IH as [f Hf]. destruct f as [|f]; [discriminate|]. cbn [run_ok] in Hf.
    rewrite (proj2 (Z.ltb_lt _ _) Lt), E in Hf. apply andb_true_iff in Hf. exists f. apply Hf. }
  destruct X as [f Hf]. intros Lt. destruct f as [|f]; [discriminate|]. cbn [run_ok] in Hf. rewrite (proj2 (Z.ltb_lt _ _) Lt) in Hf.
  apply andb_true_iff in Hf. apply usableb_ok, Hf.
Qed.
End Check.
Definition block_check (log10 pow2 : f64 -> f64) (getSMR : list f64 -> nat -> f64 * f64) (bl : nat) (block : list f64) (budget : Z) : bool :=
  match DWT block (dwtlevel bl) with
  | Ok c => match largestCoefficient c with
            | Ok Q => run_ok log10 pow2 bl (getSMR block) c Q (usable_budget bl budget) (S (Z.to_nat budget)) (alloc_start pow2 bl c)
            | _ => true
            end
  | _ => true
  end.
Lemma block_check_ok log10 pow2 getSMR bl block budget : block_check log10 pow2 getSMR bl block budget = true -> block_usable log10 pow2 getSMR bl block budget.
Proof.
  unfold block_check, block_usable. intros H c Q Ec EQ. rewrite Ec, EQ in H. unfold always_usable. apply (run_visited _ _ _ _ _ _ _ _ H).
Qed.

(** Blocks are usable when all ratios are finite. *)
Lemma small_sum (l : list Z) : (zsum l < MAXBITS * Z.of_nat (length l))%Z -> exists i, (i < length l)%nat /\ (nth i l 0 < MAXBITS)%Z.
Proof.
  induction l as [|b l IH]; intros H; [cbn in H; lia|]. cbn [zsum length] in H. destruct (Z_lt_ge_dec b MAXBITS) as [L|G]; [exists 0%nat; cbn; split; [lia|exact L]|].
  destruct IH as (i & Hi & Hn); [lia|]. exists (S i). cbn. split; [lia|exact Hn].
Qed.
Lemma finite_usable log10 pow2 getSMR bl block budget : (forall noise i, is_finite (ratio log10 (getSMR block) noise i) = true) -> block_usable log10 pow2 getSMR bl block budget.
Proof.
  intros Fr c Q _ _ st V Lt.
  assert (Ba : balanced bl (usable_budget bl budget) st).
  { clear Lt. induction V as [|st st' V IH Lt E]; [apply start_balanced; exact (fun x => x)|]. apply (step_balanced _ _ _ _ _ _ _ _ _ IH Lt E). }
  destruct Ba as ((L1 & L2 & _) & Sum & Pos & _).
  assert (Hb : (usable_budget bl budget <= MAXBITS * Z.of_nat (S (dwtlevel bl)))%Z).
  { unfold usable_budget. rewrite book_length. destruct (Z.ltb_spec (Z.of_nat (S (dwtlevel bl)) * MAXBITS) budget); lia. }
  destruct (small_sum (bitalloc st)) as (i & Hi & Hn); [rewrite L1; lia|].
  assert (Fm : forall p, let r := (fun '(i, (bits, noise)) => if (MAXBITS <=? bits)%Z then B754_infinity false else ratio log10 (getSMR block) noise i) p in is_nan r = false).
  { intros (j & b & n). cbv zeta beta iota. destruct (_ <=? _)%Z; [reflexivity|]. specialize (Fr n j). destruct (ratio _ _ _ _); try discriminate; reflexivity. }
  unfold usable, ratios. set (l := combine _ _).
  assert (Ll : length l = S (dwtlevel bl)) by (unfold l; rewrite combine_length, seq_length, combine_length; lia).
  split.
  - destruct l as [|p l']; [discriminate|]. cbn [map hd]. apply (Fm p).
  - apply Exists_exists. set (d := (0%nat, (0%Z, f64_0))). set (g := fun '(i, (bits, noise)) => if (MAXBITS <=? bits)%Z then B754_infinity false else ratio log10 (getSMR block) noise i).
    exists (g (nth i l d)). split; [apply in_map, nth_In; lia|].
    assert (En : nth i l d = (i, (nth i (bitalloc st) 0%Z, nth i (noiseenergy st) f64_0))).
    { unfold l, d. rewrite combine_nth by (rewrite seq_length, combine_length; lia). rewrite seq_nth by lia. rewrite combine_nth by lia. reflexivity. }
    rewrite En. unfold g. rewrite (proj2 (Z.leb_gt _ _)) by exact Hn. specialize (Fr (nth i (noiseenergy st) f64_0) i).
    destruct (ratio _ _ _ _); try discriminate; split; try reflexivity; discriminate.
Qed.
