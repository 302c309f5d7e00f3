(** Lemmas about the checksum. *)
From Verif Require Import Base BitsModel BitsSpec BitsProof BitsVecProof CrcModel CrcSpec.
Ltac Zify.zify_post_hook ::= Z.div_mod_to_equations.

(** Pointwise exclusive or of two bit strings of equal length. *)
Definition xorl (a b : bits) : bits := map (fun p => xorb (fst p) (snd p)) (combine a b).

Lemma xorl_length a b : length a = length b -> length (xorl a b) = length a.
Proof. intros H. unfold xorl. rewrite map_length, combine_length. lia. Qed.

Lemma xorl_cons x a y b : xorl (x :: a) (y :: b) = xorb x y :: xorl a b.
Proof. reflexivity. Qed.

Lemma xorl_app a b c d : length a = length c -> xorl (a ++ b) (c ++ d) = xorl a c ++ xorl b d.
Proof.
  revert c; induction a as [|x a IH]; intros [|y c] H; try discriminate; [reflexivity|].
  cbn [app]. rewrite !xorl_cons, IH; auto.
Qed.

Lemma xorl_comm a : forall b, xorl a b = xorl b a.
Proof.
  induction a as [|x a IH]; intros [|y b]; try reflexivity.
  rewrite !xorl_cons, IH, xorb_comm. reflexivity.
Qed.

Lemma xorl_zeros_r a : xorl a (repeat false (length a)) = a.
Proof. induction a as [|x a IH]; [reflexivity|]. cbn [length repeat]. rewrite xorl_cons, IH, xorb_false_r. reflexivity. Qed.

Lemma xorl_self a : xorl a a = repeat false (length a).
Proof. induction a as [|x a IH]; [reflexivity|]. cbn [length repeat]. rewrite xorl_cons, IH, xorb_nilpotent. reflexivity. Qed.

Lemma xorl_eq_zero a b : length a = length b -> xorl a b = repeat false (length a) -> a = b.
Proof.
  revert b; induction a as [|x a IH]; intros [|y b] Hl H; try discriminate; [reflexivity|].
  cbn [length repeat] in H. rewrite xorl_cons in H. injection H as H1 H2.
  assert (x = y) as -> by (destruct x, y; (reflexivity || discriminate H1)). f_equal. apply IH; auto.
Qed.

Lemma xorl_swap a b c d : length a = length b -> length c = length a -> length d = length a ->
  xorl (xorl a b) (xorl c d) = xorl (xorl a c) (xorl b d).
Proof.
  revert b c d; induction a as [|x a IH]; intros [|y b] [|z c] [|w d] H1 H2 H3; try discriminate; [reflexivity|].
  rewrite !xorl_cons. cbn [length] in *. rewrite IH by lia. f_equal.
  destruct x, y, z, w; reflexivity.
Qed.

(** ** Register form of the loop *)

Definition crc_step (poly r : bits) (c : bool) : bits :=
  match r with
  | [] => []
  | m :: r' => if m then xorl (r' ++ [c]) poly else r' ++ [c]
  end.

Lemma xor_prefix_app poly : forall a b, length a = length poly ->
  xor_prefix (a ++ b) poly = xorl a poly ++ b.
Proof.
  induction poly as [|p poly IH]; intros [|x a] b H; try discriminate.
  - destruct b; reflexivity.
  - cbn [app xor_prefix]. rewrite IH by (cbn in H; lia). reflexivity.
Qed.

Lemma crc_step_length poly r c : (0 < length poly)%nat -> length r = length poly -> length (crc_step poly r c) = length poly.
Proof.
  intros Hp H. destruct r as [|m r]; cbn [crc_step]; [exact H|]. cbn [length] in H.
  assert (Hl : length (r ++ [c]) = length poly) by (rewrite app_length; cbn [length]; lia).
  destruct m; [rewrite xorl_length; assumption|exact Hl].
Qed.

Lemma computeCRC_loop_fold poly : (0 < length poly)%nat ->
  forall tail fuel r, length r = length poly -> (length tail <= fuel)%nat ->
  computeCRC_loop fuel poly (r ++ tail) = Ok (fold_left (crc_step poly) tail r).
Proof.
  intros Hp. induction tail as [|c tail IH]; intros fuel r Hr Hf.
  - rewrite app_nil_r. destruct fuel; cbn [computeCRC_loop fold_left];
      (destruct (Nat.ltb_spec (length poly) (length r)); [lia|reflexivity]).
  - destruct fuel as [|fuel]; cbn [length] in Hf; [lia|].
    cbn [computeCRC_loop fold_left]. rewrite app_length. cbn [length].
    destruct (Nat.ltb_spec (length poly) (length r + S (length tail))) as [_|]; [|lia].
    destruct r as [|m r']; [cbn in Hr; lia|]. cbn [app].
    assert (Hl : length (r' ++ [c]) = length poly) by (rewrite app_length; cbn [length] in *; lia).
    replace (r' ++ c :: tail) with ((r' ++ [c]) ++ tail) by (rewrite <- app_assoc; reflexivity).
    cbn [crc_step]. destruct m.
    + rewrite xor_prefix_app by exact Hl. apply IH; [|lia]. rewrite xorl_length; assumption.
    + apply IH; [exact Hl|lia].
Qed.

(** The checksum as a total function: run the register over the message followed by
    n zero bits, starting from the first n bits. *)
Definition crc_of (poly m : bits) : bits :=
  let l := m ++ repeat false (length poly) in
  fold_left (crc_step poly) (skipn (length poly) l) (firstn (length poly) l).

Lemma computeCRC_ok poly m : (0 < length poly)%nat -> computeCRC m poly = Ok (crc_of poly m).
Proof.
  intros Hp. unfold computeCRC, crc_of. set (l := m ++ repeat false (length poly)).
  assert (Hl : (length poly <= length l)%nat) by (unfold l; rewrite app_length, repeat_length; lia).
  rewrite <- (firstn_skipn (length poly) l) at 2.
  apply computeCRC_loop_fold; [exact Hp| |].
  - rewrite firstn_length. lia.
  - rewrite skipn_length. lia.
Qed.

Lemma fold_step_length poly : (0 < length poly)%nat -> forall tail r, length r = length poly ->
  length (fold_left (crc_step poly) tail r) = length poly.
Proof.
  intros Hp. induction tail as [|c tail IH]; intros r Hr; [exact Hr|].
  cbn [fold_left]. apply IH. apply crc_step_length; assumption.
Qed.

Lemma crc_of_length poly m : (0 < length poly)%nat -> length (crc_of poly m) = length poly.
Proof.
  intros Hp. apply fold_step_length; [exact Hp|]. rewrite firstn_length, app_length, repeat_length. lia.
Qed.

(** ** Linearity *)

Lemma crc_step_linear poly r s c d : (0 < length poly)%nat -> length r = length poly -> length s = length poly ->
  crc_step poly (xorl r s) (xorb c d) = xorl (crc_step poly r c) (crc_step poly s d).
Proof.
  intros Hp Hr Hs. destruct r as [|m r]; [cbn in Hr; lia|]. destruct s as [|k s]; [cbn in Hs; lia|].
  rewrite xorl_cons. cbn [crc_step].
  assert (Hrs : length r = length s) by (cbn in *; lia).
  assert (E : xorl r s ++ [xorb c d] = xorl (r ++ [c]) (s ++ [d])).
  { rewrite xorl_app by exact Hrs. reflexivity. }
  rewrite E. set (a := r ++ [c]). set (b := s ++ [d]).
  assert (Ha : length a = length poly) by (unfold a; rewrite app_length; cbn in *; lia).
  assert (Hb : length b = length poly) by (unfold b; rewrite app_length; cbn in *; lia).
  destruct m, k; cbn [xorb].
  - rewrite (xorl_swap a poly b poly) by lia. rewrite xorl_self.
    replace (length poly) with (length (xorl a b)) by (rewrite xorl_length; lia).
    symmetry. apply xorl_zeros_r.
  - rewrite <- (xorl_zeros_r b) at 2. replace (length b) with (length poly) by lia.
    rewrite (xorl_swap a poly b (repeat false (length poly))) by (rewrite ?repeat_length; lia).
    rewrite xorl_zeros_r. reflexivity.
  - rewrite <- (xorl_zeros_r a) at 2. replace (length a) with (length poly) by lia.
    rewrite (xorl_swap a (repeat false (length poly)) b poly) by (rewrite ?repeat_length; lia).
    rewrite (xorl_comm (repeat _ _) poly), xorl_zeros_r. reflexivity.
  - reflexivity.
Qed.

Lemma fold_step_linear poly : (0 < length poly)%nat -> forall t u r s,
  length t = length u -> length r = length poly -> length s = length poly ->
  fold_left (crc_step poly) (xorl t u) (xorl r s)
  = xorl (fold_left (crc_step poly) t r) (fold_left (crc_step poly) u s).
Proof.
  intros Hp. induction t as [|c t IH]; intros [|d u] r s Hl Hr Hs; try discriminate; [reflexivity|].
  rewrite xorl_cons. cbn [fold_left]. rewrite crc_step_linear by assumption.
  apply IH; [cbn in Hl; lia| |]; apply crc_step_length; assumption.
Qed.

Lemma xorl_firstn n : forall a b, firstn n (xorl a b) = xorl (firstn n a) (firstn n b).
Proof.
  induction n as [|n IH]; intros [|x a] [|y b]; try reflexivity.
  cbn [firstn]. rewrite !xorl_cons. cbn [firstn]. rewrite IH. reflexivity.
Qed.
Lemma xorl_nil_r a : xorl a [] = [].
Proof. destruct a; reflexivity. Qed.
Lemma xorl_skipn n : forall a b, length a = length b -> skipn n (xorl a b) = xorl (skipn n a) (skipn n b).
Proof.
  induction n as [|n IH]; intros [|x a] [|y b] H; try discriminate; try reflexivity.
  cbn [skipn]. rewrite xorl_cons. cbn [skipn]. apply IH. cbn in H; lia.
Qed.

Lemma crc_of_linear poly a b : (0 < length poly)%nat -> length a = length b ->
  crc_of poly (xorl a b) = xorl (crc_of poly a) (crc_of poly b).
Proof.
  intros Hp Hl. unfold crc_of. set (z := repeat false (length poly)).
  assert (E : xorl a b ++ z = xorl (a ++ z) (b ++ z)).
  { rewrite xorl_app by exact Hl. f_equal. rewrite xorl_self. unfold z. now rewrite repeat_length. }
  rewrite E, xorl_firstn, xorl_skipn by (rewrite !app_length; lia).
  apply fold_step_linear; [exact Hp| | |].
  - rewrite !skipn_length, !app_length. lia.
  - rewrite firstn_length, app_length. unfold z. rewrite repeat_length. lia.
  - rewrite firstn_length, app_length. unfold z. rewrite repeat_length. lia.
Qed.

(** ** Injectivity of the shift when the polynomial is odd *)

Definition zero_reg (n : nat) : bits := repeat false n.

Lemma crc_step_zero poly : crc_step poly (zero_reg (length poly)) false = zero_reg (length poly).
Proof.
  unfold zero_reg. destruct (length poly) as [|n] eqn:E; [reflexivity|]. cbn [repeat crc_step].
  change [false] with (repeat false 1). rewrite <- repeat_app. rewrite Nat.add_1_r. reflexivity.
Qed.

Lemma crc_step_nonzero p r :
  let poly := p ++ [true] in
  length r = length poly -> r <> zero_reg (length poly) ->
  crc_step poly r false <> zero_reg (length poly).
Proof.
  intros poly Hr Hnz E. destruct r as [|m r].
  { unfold poly in Hr. rewrite app_length in Hr. cbn in Hr. lia. }
  assert (Hrp : length r = length p) by (unfold poly in Hr; rewrite app_length in Hr; cbn in Hr; lia).
  assert (HS : length poly = S (length p)) by (unfold poly; rewrite app_length; cbn; lia).
  cbn [crc_step] in E. rewrite HS in *. unfold zero_reg in *.
  rewrite <- Nat.add_1_r, repeat_app in E. destruct m.
  - unfold poly in E. rewrite xorl_app in E by exact Hrp.
    apply app_inj_tail in E. destruct E as [_ E]. discriminate E.
  - apply app_inj_tail in E. destruct E as [E _]. apply Hnz. cbn [repeat]. now rewrite E.
Qed.

Lemma fold_zero poly n : fold_left (crc_step poly) (repeat false n) (zero_reg (length poly)) = zero_reg (length poly).
Proof. induction n as [|n IH]; [reflexivity|]. cbn [repeat fold_left]. now rewrite crc_step_zero. Qed.

Lemma fold_nonzero p n : let poly := p ++ [true] in forall r,
  length r = length poly -> r <> zero_reg (length poly) ->
  fold_left (crc_step poly) (repeat false n) r <> zero_reg (length poly).
Proof.
  intros poly. induction n as [|n IH]; intros r Hr Hnz; [exact Hnz|].
  cbn [repeat fold_left]. apply IH.
  - apply crc_step_length; [|exact Hr]. unfold poly. rewrite app_length. cbn. lia.
  - apply crc_step_nonzero; assumption.
Qed.

(** Leading zeros do not matter. *)
Lemma firstn_skipn_S {A} n : forall l : list A, (S n <= length l)%nat ->
  exists c, skipn n l = c :: skipn (S n) l /\ firstn (S n) l = firstn n l ++ [c].
Proof.
  induction n as [|n IH]; intros [|c l] Hl; cbn [length] in Hl; try lia.
  - exists c. split; reflexivity.
  - destruct (IH l) as (d & H1 & H2); [lia|]. exists d. cbn [skipn]. split; [exact H1|].
    change (firstn (S (S n)) (c :: l)) with (c :: firstn (S n) l). rewrite H2. reflexivity.
Qed.

Lemma fold_step_leading_zero poly n : length poly = S n -> forall l, (S n <= length l)%nat ->
  fold_left (crc_step poly) (skipn (S n) (false :: l)) (firstn (S n) (false :: l))
  = fold_left (crc_step poly) (skipn (S n) l) (firstn (S n) l).
Proof.
  intros Hp l Hl. destruct (firstn_skipn_S n l Hl) as (c & E1 & E2).
  change (skipn (S n) (false :: l)) with (skipn n l).
  change (firstn (S n) (false :: l)) with (false :: firstn n l).
  rewrite E1, E2. reflexivity.
Qed.

Lemma crc_of_leading_zeros poly a m : (0 < length poly)%nat ->
  crc_of poly (repeat false a ++ m) = crc_of poly m.
Proof.
  intros Hp. induction a as [|a IH]; [reflexivity|]. rewrite <- IH. clear IH. unfold crc_of.
  destruct (length poly) as [|n] eqn:En; [lia|]. cbn [repeat]. rewrite <- !app_comm_cons.
  apply fold_step_leading_zero; [exact En|]. rewrite app_length. cbn [repeat length].
  rewrite repeat_length. lia.
Qed.

Lemma crc_of_error_nonzero p a burst b :
  let poly := p ++ [true] in
  (length burst <= length poly)%nat -> In true burst ->
  crc_of poly (repeat false a ++ burst ++ repeat false b) <> zero_reg (length poly).
Proof.
  intros poly Hl Hin. assert (Hp : (0 < length poly)%nat) by (unfold poly; rewrite app_length; cbn; lia).
  rewrite crc_of_leading_zeros by exact Hp. unfold crc_of.
  rewrite <- app_assoc, <- repeat_app. set (n := length poly) in *.
  rewrite firstn_app, skipn_app, firstn_all2, skipn_all2, firstn_repeat' by exact Hl. cbn [app].
  assert (Es : skipn (n - length burst) (repeat false (b + n)) = repeat false (b + n - (n - length burst))).
  { generalize (b + n)%nat as q. generalize (n - length burst)%nat as w. clear.
    induction w as [|w IH]; intros [|q]; try reflexivity. cbn [repeat skipn Nat.sub]. apply IH. }
  rewrite Es. apply fold_nonzero.
  - rewrite app_length, repeat_length. fold poly n. lia.
  - intros E. match type of E with ?x = ?y => assert (Hz : In true y) end.
    { rewrite <- E. apply in_or_app. left. exact Hin. }
    apply repeat_spec in Hz. discriminate Hz.
Qed.

Lemma crc_detects p m e a burst b :
  let poly := p ++ [true] in
  length m = length e -> e = repeat false a ++ burst ++ repeat false b ->
  (length burst <= length poly)%nat -> In true burst ->
  crc_of poly (xorl m e) <> crc_of poly m.
Proof.
  intros poly Hl He Hb Hin E.
  assert (Hp : (0 < length poly)%nat) by (unfold poly; rewrite app_length; cbn; lia).
  rewrite crc_of_linear in E by assumption.
  apply (f_equal (xorl (crc_of poly m))) in E.
  rewrite xorl_self in E.
  set (c := crc_of poly m) in *. set (d := crc_of poly e) in *.
  assert (Hc : length c = length poly) by (apply crc_of_length; exact Hp).
  assert (Hd : length d = length poly) by (apply crc_of_length; exact Hp).
  assert (E2 : xorl c (xorl c d) = d).
  { clear E. clearbody c d. assert (H : length c = length d) by lia. clear - H. revert d H.
    induction c as [|x c IH]; intros [|y d] H; try discriminate; [reflexivity|].
    rewrite !xorl_cons, IH by (cbn in H; lia). f_equal. destruct x, y; reflexivity. }
  rewrite E2, Hc in E. revert E. unfold d. rewrite He. apply crc_of_error_nonzero; assumption.
Qed.

(** ** Writer and checker *)

Definition poly16 := poly_bits 16 CRC16_POLYNOMIAL.
Definition poly32 := poly_bits 32 CRC32_POLYNOMIAL.

Lemma checkCRC_gather_all ps : forall acc, checkCRC_gather (length ps) ps acc = concat (rev ps) ++ acc.
Proof.
  induction ps as [|p ps IH]; intros acc; [reflexivity|].
  cbn [length checkCRC_gather rev]. rewrite IH, concat_app. cbn [concat]. rewrite app_nil_r, app_assoc. reflexivity.
Qed.

Lemma poly16_odd : poly16 = removelast poly16 ++ [true].
Proof. reflexivity. Qed.
Lemma poly32_odd : poly32 = removelast poly32 ++ [true].
Proof. reflexivity. Qed.

Lemma writeCRC16 ps : (2 <= length ps)%nat -> concat ps <> [] ->
  writeCRC ps 0 = Ok (true, writeNBits 8 (Z.of_nat (length ps)) ++ crc_of poly16 (concat ps)).
Proof.
  intros Hl Hne. unfold writeCRC. cbn [Z.eqb]. fold poly16.
  destruct ps as [|p [|q ps]]; cbn [length] in Hl; try lia.
  destruct (concat (p :: q :: ps)) as [|x l] eqn:E; [congruence|].
  destruct poly16 as [|y poly] eqn:Ep; [discriminate|]. rewrite <- Ep.
  rewrite computeCRC_ok by (cbn; lia). cbn [obind].
  unfold to_unsigned. rewrite writeNBits_mod. reflexivity.
Qed.

Lemma writeCRC32 ps : (2 <= length ps)%nat -> concat ps <> [] ->
  writeCRC ps 1 = Ok (true, writeNBits 8 (Z.of_nat (length ps)) ++ crc_of poly32 (concat ps)).
Proof.
  intros Hl Hne. unfold writeCRC. cbn [Z.eqb]. fold poly32.
  destruct ps as [|p [|q ps]]; cbn [length] in Hl; try lia.
  destruct (concat (p :: q :: ps)) as [|x l] eqn:E; [congruence|].
  change (1 =? 0) with false. cbn [Pos.eqb].
  destruct poly32 as [|y poly] eqn:Ep; [discriminate|]. rewrite <- Ep.
  rewrite computeCRC_ok by (cbn; lia). cbn [obind].
  unfold to_unsigned. rewrite writeNBits_mod. reflexivity.
Qed.

Lemma readCRC16_payload n c : 0 <= n < 256 -> length c = 16%nat ->
  readCRC (writeNBits 8 n ++ c) PGlobalCRC16 = Ok (Crc n (bits_val c) 0).
Proof.
  intros Hn Hc. cbn [readCRC].
  rewrite (readUInt_at0 (writeNBits 8 n) c 8) by (rewrite ?writeNBits_length; cbn; lia).
  cbn [obind]. rewrite <- (app_nil_r c).
  rewrite (readUInt_at (writeNBits 8 n) c [] _ 16) by (rewrite ?writeNBits_length; cbn; lia). cbn [obind].
  rewrite app_nil_r, bits_val_writeNBits_small by exact Hn. unfold to_unsigned.
  rewrite Z.mod_small by exact Hn. pose proof (bits_val_bound c) as Hb. rewrite Hc in Hb.
  rewrite Z.mod_small by exact Hb. reflexivity.
Qed.

Lemma to_unsigned_to_signed w z : (0 < w)%nat -> to_unsigned w (to_signed w z) = to_unsigned w z.
Proof.
  intros Hw. unfold to_unsigned, to_signed. rewrite Zminus_mod_idemp_l. f_equal. lia.
Qed.

Lemma readCRC32_payload n c : 0 <= n < 256 -> length c = 32%nat ->
  readCRC (writeNBits 8 n ++ c) PGlobalCRC32 = Ok (Crc n 0 (bits_val c)).
Proof.
  intros Hn Hc. cbn [readCRC].
  rewrite (readUInt_at0 (writeNBits 8 n) c 8) by (rewrite ?writeNBits_length; cbn; lia).
  cbn [obind]. rewrite <- (app_nil_r c).
  rewrite (readUInt_at32 (writeNBits 8 n) c [] _ 32) by (rewrite ?writeNBits_length; cbn; lia). cbn [obind].
  rewrite app_nil_r, bits_val_writeNBits_small by exact Hn.
  rewrite to_unsigned_to_signed by lia. unfold to_unsigned.
  rewrite Z.mod_small by exact Hn. pose proof (bits_val_bound c) as Hb. rewrite Hc in Hb.
  rewrite Z.mod_small by exact Hb. reflexivity.
Qed.

Lemma gather_n ps n : n = Z.of_nat (length ps) -> checkCRC_gather (Z.to_nat n) ps [] = concat (rev ps).
Proof. intros ->. rewrite Nat2Z.id, checkCRC_gather_all. apply app_nil_r. Qed.

Lemma checkCRC16_verdict ps n v : n = Z.of_nat (length ps) -> 0 < v ->
  checkCRC ps (Crc n v 0) = Ok (v =? bits_val (crc_of poly16 (concat (rev ps))), Crc 255 0 0).
Proof.
  intros Hn Hv. unfold checkCRC. cbn [nbPackets value16 value32].
  destruct (Z.ltb_spec (Z.of_nat (length ps)) n); [lia|].
  rewrite gather_n by exact Hn. destruct (Z.ltb_spec 0 v); [|lia].
  fold poly16. rewrite computeCRC_ok by (cbn; lia). cbn [obind].
  set (c := crc_of poly16 (concat (rev ps))).
  assert (Hc : length c = 16%nat) by (apply crc_of_length; cbn; lia).
  rewrite readUInt_all by lia. reflexivity.
Qed.

Lemma checkCRC32_verdict ps n v : n = Z.of_nat (length ps) -> 0 < v < 2 ^ 32 ->
  checkCRC ps (Crc n 0 v) = Ok (v =? bits_val (crc_of poly32 (concat (rev ps))), Crc 255 0 0).
Proof.
  intros Hn Hv. unfold checkCRC. cbn [nbPackets value16 value32].
  destruct (Z.ltb_spec (Z.of_nat (length ps)) n); [lia|].
  rewrite gather_n by exact Hn. destruct (Z.ltb_spec 0 0); [lia|]. destruct (Z.ltb_spec 0 v); [|lia].
  fold poly32. rewrite computeCRC_ok by (cbn; lia). cbn [obind].
  set (c := crc_of poly32 (concat (rev ps))).
  assert (Hc : length c = 32%nat) by (apply crc_of_length; cbn; lia).
  rewrite readUInt_all32 by lia. cbn [obind]. f_equal. f_equal.
  pose proof (bits_val_bound c) as Hb. rewrite Hc in Hb. change (2 ^ Z.of_nat 32) with (2 ^ 32) in Hb.
  destruct (Z.eqb_spec v (bits_val c)) as [->|Hne]; [apply Z.eqb_refl|].
  apply Z.eqb_neq. intros E. apply (f_equal (to_unsigned 32)) in E.
  rewrite !to_unsigned_to_signed in E by lia. unfold to_unsigned in E.
  change (2 ^ Z.of_nat 32) with (2 ^ 32) in E. rewrite !Z.mod_small in E by lia. contradiction.
Qed.

Lemma checkCRC_zero ps n : 0 <= n -> checkCRC ps (Crc n 0 0) = Ok (false, if Z.of_nat (length ps) <? n then Crc n 0 0 else Crc 255 0 0).
Proof. intros Hn. unfold checkCRC. cbn. destruct (Z.of_nat (length ps) <? n); reflexivity. Qed.

(** Intact data checked against the checksum the writer produced. *)
Lemma global16_verdict ps : (2 <= length ps <= 255)%nat -> concat ps <> [] ->
  exists payload crc b,
    writeCRC ps 0 = Ok (true, payload) /\ readCRC payload PGlobalCRC16 = Ok crc /\ 
    checkCRC ps crc = Ok (b, Crc 255 0 0) /\ 
    (b = true <-> crc_of poly16 (concat ps) = crc_of poly16 (concat (rev ps))
                  /\ 0 < bits_val (crc_of poly16 (concat ps))).
Proof.
  intros Hl Hne. set (c := crc_of poly16 (concat ps)).
  assert (Hc : length c = 16%nat) by (apply crc_of_length; cbn; lia).
  assert (Hd : length (crc_of poly16 (concat (rev ps))) = 16%nat) by (apply crc_of_length; cbn; lia).
  pose proof (bits_val_bound c) as Hb.
  destruct (Z.eq_dec (bits_val c) 0) as [E|E].
  - eexists _, _, _. split; [apply writeCRC16; [lia|exact Hne]|]. split; [apply readCRC16_payload; [lia|exact Hc]|]. fold c. split; [rewrite E, checkCRC_zero by lia; rewrite Z.ltb_irrefl; reflexivity|]. split; [discriminate|lia].
  - eexists _, _, _. split; [apply writeCRC16; [lia|exact Hne]|]. split; [apply readCRC16_payload; [lia|exact Hc]|]. fold c. 
    assert (Hpos : 0 < bits_val c) by (clear - Hb E; lia). split; [exact (checkCRC16_verdict ps _ _ eq_refl Hpos)|]. rewrite Z.eqb_eq. split.
    + intros H. split; [|lia]. apply bits_val_inj; [lia|exact H].
    + intros [H _]. rewrite H. reflexivity.
Qed.

Lemma global32_verdict ps : (2 <= length ps <= 255)%nat -> concat ps <> [] ->
  exists payload crc b,
    writeCRC ps 1 = Ok (true, payload) /\ readCRC payload PGlobalCRC32 = Ok crc /\ 
    checkCRC ps crc = Ok (b, Crc 255 0 0) /\ 
    (b = true <-> crc_of poly32 (concat ps) = crc_of poly32 (concat (rev ps))
                  /\ 0 < bits_val (crc_of poly32 (concat ps))).
Proof.
  intros Hl Hne. set (c := crc_of poly32 (concat ps)).
  assert (Hc : length c = 32%nat) by (apply crc_of_length; cbn; lia).
  assert (Hd : length (crc_of poly32 (concat (rev ps))) = 32%nat) by (apply crc_of_length; cbn; lia).
  pose proof (bits_val_bound c) as Hb. rewrite Hc in Hb. change (2 ^ Z.of_nat 32) with (2 ^ 32) in Hb.
  destruct (Z.eq_dec (bits_val c) 0) as [E|E].
  - eexists _, _, _. split; [apply writeCRC32; [lia|exact Hne]|]. split; [apply readCRC32_payload; [lia|exact Hc]|]. fold c. split; [rewrite E, checkCRC_zero by lia; rewrite Z.ltb_irrefl; reflexivity|]. split; [discriminate|lia].
  - eexists _, _, _. split; [apply writeCRC32; [lia|exact Hne]|]. split; [apply readCRC32_payload; [lia|exact Hc]|]. fold c. 
    assert (Hpos : 0 < bits_val c < 2 ^ 32) by (clear - Hb E; lia). split; [exact (checkCRC32_verdict ps _ _ eq_refl Hpos)|]. rewrite Z.eqb_eq. split.
    + intros H. split; [|lia]. apply bits_val_inj; [lia|exact H].
    + intros [H _]. rewrite H. reflexivity.
Qed.

(** ** Statements in the form of the properties *)

Lemma bits_val_zero_iff c n : length c = n -> (bits_val c = 0 <-> c = repeat false n).
Proof.
  intros Hc. assert (Hz : bits_val (repeat false n) = 0).
  { clear. induction n as [|n IH]; [reflexivity|]. cbn [repeat]. rewrite bits_val_cons, IH. reflexivity. }
  split.
  - intros H. apply bits_val_inj; [now rewrite repeat_length|]. congruence.
  - intros ->. exact Hz.
Qed.

Lemma burst_gen n poly p m e : length poly = n -> poly = p ++ [true] -> length e = length m -> error_burst n e ->
  exists c c', computeCRC m poly = Ok c /\ computeCRC (corrupt m e) poly = Ok c'
      /\ length c = n /\ length c' = n /\ c <> c'.
Proof.
  intros Hn Hp Hl (a & burst & b & He & Hb & Hin).
  assert (H0 : (0 < length poly)%nat) by (rewrite Hp, app_length; cbn; lia).
  exists (crc_of poly m), (crc_of poly (corrupt m e)).
  rewrite !computeCRC_ok by exact H0. rewrite !crc_of_length by exact H0.
  repeat (split; [auto|]). intros E. symmetry in E. revert E.
  change (corrupt m e) with (xorl m e). rewrite Hp.
  apply (crc_detects p m e a burst b); auto. rewrite <- Hp. lia.
Qed.

Lemma burst16 m e : length e = length m -> error_burst 16 e ->
  exists c c', computeCRC m (poly_bits 16 CRC16_POLYNOMIAL) = Ok c
      /\ computeCRC (corrupt m e) (poly_bits 16 CRC16_POLYNOMIAL) = Ok c'
      /\ length c = 16%nat /\ length c' = 16%nat /\ c <> c'.
Proof. apply burst_gen with (p := removelast poly16); [reflexivity|apply poly16_odd]. Qed.

Lemma burst32 m e : length e = length m -> error_burst 32 e ->
  exists c c', computeCRC m (poly_bits 32 CRC32_POLYNOMIAL) = Ok c
      /\ computeCRC (corrupt m e) (poly_bits 32 CRC32_POLYNOMIAL) = Ok c'
      /\ length c = 32%nat /\ length c' = 32%nat /\ c <> c'.
Proof. apply burst_gen with (p := removelast poly32); [reflexivity|apply poly32_odd]. Qed.

Lemma single_packet_nothing p lvl : writeCRC [p] lvl = Ok (false, []).
Proof. unfold writeCRC. destruct (lvl =? 0), (lvl =? 1); reflexivity. Qed.

Lemma no_packet_ub lvl : lvl = 0 \/ lvl = 1 -> writeCRC [] lvl = UB.
Proof. intros [-> | ->]; reflexivity. Qed.

Lemma reader16 p c : computeCRC p (poly_bits 16 CRC16_POLYNOMIAL) = Ok c ->
  forall value, length value = 16%nat ->
  exists crc b crc', readCRC value PCRC16 = Ok crc /\ checkCRC [p] crc = Ok (b, crc')
    /\ (b = true <-> value = c /\ value <> repeat false 16).
Proof.
  intros Hc value Hv. fold poly16 in Hc. rewrite computeCRC_ok in Hc by (cbn; lia). injection Hc as <-.
  set (c := crc_of poly16 p). assert (Hlc : length c = 16%nat) by (apply crc_of_length; cbn; lia).
  pose proof (bits_val_bound value) as Hb. rewrite Hv in Hb.
  cbn [readCRC]. rewrite readUInt_all by lia. cbn [obind].
  unfold to_unsigned. rewrite Z.mod_small by exact Hb.
  destruct (Z.eq_dec (bits_val value) 0) as [E|E].
  - rewrite E. eexists _, _, _. split; [reflexivity|]. split; [apply checkCRC_zero; lia|].
    split; [discriminate|]. intros [_ H]. exfalso. apply H, bits_val_zero_iff; assumption.
  - eexists _, _, _. split; [reflexivity|]. split; [apply checkCRC16_verdict; [reflexivity|lia]|].
    cbn [rev app concat]. rewrite app_nil_r. fold c. rewrite Z.eqb_eq. split.
    + intros H. split; [apply bits_val_inj; [lia|exact H]|]. intros H0. apply E, (bits_val_zero_iff value 16); auto.
    + intros [-> _]. reflexivity.
Qed.

Lemma reader32 p c : computeCRC p (poly_bits 32 CRC32_POLYNOMIAL) = Ok c ->
  forall value, length value = 32%nat ->
  exists crc b crc', readCRC value PCRC32 = Ok crc /\ checkCRC [p] crc = Ok (b, crc')
    /\ (b = true <-> value = c /\ value <> repeat false 32).
Proof.
  intros Hc value Hv. fold poly32 in Hc. rewrite computeCRC_ok in Hc by (cbn; lia). injection Hc as <-.
  set (c := crc_of poly32 p). assert (Hlc : length c = 32%nat) by (apply crc_of_length; cbn; lia).
  pose proof (bits_val_bound value) as Hb. rewrite Hv in Hb. change (2 ^ Z.of_nat 32) with (2 ^ 32) in Hb.
  cbn [readCRC]. rewrite readUInt_all32 by lia. cbn [obind].
  rewrite to_unsigned_to_signed by lia. unfold to_unsigned. change (2 ^ Z.of_nat 32) with (2 ^ 32).
  rewrite Z.mod_small by exact Hb.
  destruct (Z.eq_dec (bits_val value) 0) as [E|E].
  - rewrite E. eexists _, _, _. split; [reflexivity|]. split; [apply checkCRC_zero; lia|].
    split; [discriminate|]. intros [_ H]. exfalso. apply H, bits_val_zero_iff; assumption.
  - eexists _, _, _. split; [reflexivity|]. split; [apply checkCRC32_verdict; [reflexivity|lia]|].
    cbn [rev app concat]. rewrite app_nil_r. fold c. rewrite Z.eqb_eq. split.
    + intros H. split; [apply bits_val_inj; [lia|exact H]|]. intros H0. apply E, (bits_val_zero_iff value 32); auto.
    + intros [-> _]. reflexivity.
Qed.

Lemma global16 ps : (2 <= length ps <= 255)%nat -> concat ps <> [] ->
  exists payload crc b c c',
    writeCRC ps 0 = Ok (true, payload) /\ readCRC payload PGlobalCRC16 = Ok crc
    /\ computeCRC (concat ps) (poly_bits 16 CRC16_POLYNOMIAL) = Ok c
    /\ computeCRC (concat (rev ps)) (poly_bits 16 CRC16_POLYNOMIAL) = Ok c'
    /\ checkCRC ps crc = Ok (b, Crc 255 0 0)
    /\ (b = true <-> c = c' /\ c <> repeat false 16).
Proof.
  intros Hl Hne. destruct (global16_verdict ps Hl Hne) as (payload & crc & b & H1 & H2 & H3 & H4).
  exists payload, crc, b, (crc_of poly16 (concat ps)), (crc_of poly16 (concat (rev ps))).
  fold poly16. rewrite !computeCRC_ok by (cbn; lia).
  repeat (split; [assumption || reflexivity|]). rewrite H4.
  rewrite <- (bits_val_zero_iff _ 16) by (apply crc_of_length; cbn; lia).
  pose proof (bits_val_bound (crc_of poly16 (concat ps))). intuition lia.
Qed.

Lemma global32 ps : (2 <= length ps <= 255)%nat -> concat ps <> [] ->
  exists payload crc b c c',
    writeCRC ps 1 = Ok (true, payload) /\ readCRC payload PGlobalCRC32 = Ok crc
    /\ computeCRC (concat ps) (poly_bits 32 CRC32_POLYNOMIAL) = Ok c
    /\ computeCRC (concat (rev ps)) (poly_bits 32 CRC32_POLYNOMIAL) = Ok c'
    /\ checkCRC ps crc = Ok (b, Crc 255 0 0)
    /\ (b = true <-> c = c' /\ c <> repeat false 32).
Proof.
  intros Hl Hne. destruct (global32_verdict ps Hl Hne) as (payload & crc & b & H1 & H2 & H3 & H4).
  exists payload, crc, b, (crc_of poly32 (concat ps)), (crc_of poly32 (concat (rev ps))).
  fold poly32. rewrite !computeCRC_ok by (cbn; lia).
  repeat (split; [assumption || reflexivity|]). rewrite H4.
  rewrite <- (bits_val_zero_iff _ 32) by (apply crc_of_length; cbn; lia).
  pose proof (bits_val_bound (crc_of poly32 (concat ps))). intuition lia.
Qed.
