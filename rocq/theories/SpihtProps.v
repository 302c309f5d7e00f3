(** C12, C13, C14: the coding of wavelet blocks. *)
From Coq Require Import Reals Lra.
From Verif Require Import Base FloatBase FloatModel FloatProof Float64Proof ArithModel ArithSpec SpihtModel SpihtSpec SpihtTree SpihtProof SpihtHeader.

(** C12.  A block of 8 to 2^22 coefficients that fit the bit count is decoded exactly, and the coder
    is left in the state for the next block. *)
Theorem C12_lossless : forall md0 md10 block k bits scale old,
  length block = (2 ^ k)%nat -> (3 <= k <= 22)%nat -> (1 <= bits <= 15)%nat ->
  Forall (fun v => Z.abs v < 2 ^ (Z.of_nat bits + 1)) block -> Exists (fun v => v <> 0) block ->
  is_finite scale = true -> (0 <= B2R scale < 17)%R ->
  exists bytes scale',
    encodeEffect md0 md10 resetCounter block bits scale old = Ok (bytes, resetCounter) /\
    Forall (fun v => 0 <= v < 256) bytes /\
    decodeEffect resetCounter bytes (repeat 0 (length block)) (length block) = Ok (block, scale', Z.of_nat bits).
Proof.
  exact (fun md0 md10 block k bits scale old L Hk Hb Hc Hn Fs Hs =>
    match scale_round scale Fs Hs with
    | ex_intro _ bw (conj E (conj Fb (conj Lb _))) =>
        match effect_round md0 md10 block k bits scale bw old L Hk Hb Hc Hn E Fb Lb with
        | ex_intro _ bytes H => ex_intro _ bytes (ex_intro _ (wavmax_of bw) H)
        end
    end).
Qed.
Print Assumptions C12_lossless.

(** A block of zeros is not written at all, and nothing is decoded as zeros. *)
Theorem C12_nothing : forall md0 md10 block k bits scale,
  length block = (2 ^ k)%nat -> (3 <= k)%nat -> Forall (fun v => v = 0) block ->
  encodeEffect md0 md10 resetCounter block bits scale [] = Ok ([], resetCounter) /\
  exists scale', decodeEffect resetCounter [] (repeat 0 (length block)) (length block) = Ok (block, scale', 0).
Proof. exact zero_block. Qed.
Print Assumptions C12_nothing.

(** The encoder reads outside blocks of fewer than 8 coefficients: no such block is coded unless it
    is zero. *)
Theorem C12_short_refuted : forall md0 md10 cs block bits scale old r,
  (length block < 8)%nat -> (1 <= bits)%nat -> Exists (fun v => v <> 0) block ->
  encodeEffect md0 md10 cs block bits scale old <> Ok r.
Proof. exact short_fails. Qed.
Print Assumptions C12_short_refuted.

Definition sample_block : list Z := [9; -4; 0; 3; -1; 0; 0; 2; 0; 0; 1; 0; 0; -7; 0; 5].
Example C12_sample : length sample_block = (2 ^ 4)%nat /\ Forall (fun v => Z.abs v < 2 ^ (Z.of_nat 3 + 1)) sample_block
  /\ Exists (fun v => v <> 0) sample_block.
Proof.
  split; [reflexivity|]. split; [unfold sample_block; repeat (apply Forall_cons; [reflexivity|]); apply Forall_nil|].
  apply Exists_cons_hd. discriminate.
Qed.
Example C12_sample_decoded :
  (do '(bytes, _) <- encodeEffect [] [] resetCounter sample_block 3 f64_one [];
   do '(coefs, _, bits) <- decodeEffect resetCounter bytes (repeat 0 16) 16; Ok (coefs, bits)) = Ok (sample_block, 3).
Proof. vm_compute. reflexivity. Qed.
Example C12_short_ub : encodeEffect [] [] resetCounter [1; 0; 0; 0] 1 f64_one [] = UB.
Proof. vm_compute. reflexivity. Qed.

(** C13.  The maxima of all nodes the coder asks about are exact; nodes without descendants have 0. *)
Theorem C13_maxima : forall md0 md10 block k,
  ints block -> length block = (2 ^ k)%nat -> (3 <= k)%nat ->
  exists md md1, initMaxDescendants md0 md10 block = Ok (md, md1) /\
    forall j, (2 <= j)%nat ->
      (if (2 * j <? length block)%nat then largest block (descendant j) (maxDescendant md md1 j 0)
       else maxDescendant md md1 j 0 = 0) /\
      (if (4 * j <? length block)%nat then largest block (grandchild_or_deeper j) (maxDescendant md md1 j 1)
       else maxDescendant md md1 j 1 = 0).
Proof. exact all_maxima. Qed.
Print Assumptions C13_maxima.
Example C13_sample : ints sample_block /\ (do '(md, md1) <- initMaxDescendants [] [] sample_block;
  Ok (maxDescendant md md1 2 0, maxDescendant md md1 2 1, maxDescendant md md1 3 0, maxDescendant md md1 6 0, maxDescendant md md1 8 0))
  = Ok (1, 1, 7, 7, 0).
Proof. split; [unfold ints, sample_block; repeat (apply Forall_cons; [reflexivity|]); apply Forall_nil|]. vm_compute. reflexivity. Qed.

(** C14.  The header of a block: the bit count is read exactly, the scale factor as the header keeps it. *)
Theorem C14_header : forall md0 md10 block k bits scale old,
  length block = (2 ^ k)%nat -> (3 <= k <= 22)%nat -> (1 <= bits <= 15)%nat ->
  Forall (fun v => Z.abs v < 2 ^ (Z.of_nat bits + 1)) block -> Exists (fun v => v <> 0) block ->
  is_finite scale = true -> (0 <= B2R scale < 17)%R ->
  exists bytes coefs scale' cs,
    encodeEffect md0 md10 resetCounter block bits scale old = Ok (bytes, cs) /\
    decodeEffect resetCounter bytes (repeat 0 (length block)) (length block) = Ok (coefs, scale', Z.of_nat bits) /\
    B2R scale' = header_scale (B2R scale) /\ is_finite scale' = true.
Proof. exact header_round. Qed.
Print Assumptions C14_header.

(** Multiples of 1/128 below 1 and of 1/8 from 1 to 16 7/8 are kept exactly. *)
Theorem C14_exact : forall j, 0 <= j < 128 ->
  (header_scale (IZR j / 128) = IZR j / 128 /\ header_scale (1 + IZR j / 8) = 1 + IZR j / 8)%R.
Proof. exact (fun j H => conj (header_scale_exact j H) (header_scale_exact8 j H)). Qed.
Print Assumptions C14_exact.

(** A factor of 17 or more is read as another one, below 17. *)
Theorem C14_wrap_refuted : forall md0 md10 block k bits scale old,
  length block = (2 ^ k)%nat -> (3 <= k <= 22)%nat -> (1 <= bits <= 15)%nat ->
  Forall (fun v => Z.abs v < 2 ^ (Z.of_nat bits + 1)) block -> Exists (fun v => v <> 0) block ->
  is_finite scale = true -> (17 <= B2R scale < 268435456)%R ->
  exists bytes coefs scale' cs,
    encodeEffect md0 md10 resetCounter block bits scale old = Ok (bytes, cs) /\
    decodeEffect resetCounter bytes (repeat 0 (length block)) (length block) = Ok (coefs, scale', Z.of_nat bits) /\
    (B2R scale' < 17)%R.
Proof. exact header_wraps. Qed.
Print Assumptions C14_wrap_refuted.
Example C14_sample : is_finite f64_one = true /\ (0 <= B2R f64_one < 17)%R.
Proof. split; [reflexivity|]. rewrite one_R. lra. Qed.
(** 17.0 comes back as 1.0. *)
Example C14_wrap_ex :
  (do bw <- maximumWaveletCoefficient (f64_of_Z 17); Ok (feq (wavmax_of bw) f64_one)) = Ok true.
Proof. vm_compute. reflexivity. Qed.
