(** Proofs about the wavelet transform. *)
From Coq Require Import Reals Lra Lia.
From Flocq Require Import Core.
From Verif Require Import Base FloatBase FloatModel FloatProof Float64Proof WaveletModel.
Ltac Zify.zify_post_hook ::= Z.div_mod_to_equations.

(** Reflection of an index into a block of [n] elements. *)
Definition refl (n : nat) (i : Z) : nat :=
  let m := i mod (2 * (Z.of_nat n - 1)) in
  Z.to_nat (if m <? Z.of_nat n then m else 2 * (Z.of_nat n - 1) - m).

Lemma refl_lt n i : (2 <= n)%nat -> (refl n i < n)%nat.
Proof.
  intros Hn. unfold refl. pose proof (Z.mod_pos_bound i (2 * (Z.of_nat n - 1)) ltac:(lia)).
  destruct (Z.ltb_spec (i mod (2 * (Z.of_nat n - 1))) (Z.of_nat n)); lia.
Qed.
Lemma refl_in n i : (2 <= n)%nat -> 0 <= i < Z.of_nat n -> refl n i = Z.to_nat i.
Proof.
  intros Hn Hi. unfold refl. destruct (Z.eq_dec (Z.of_nat n) 2) as [E|E].
  - rewrite E. change (2 * (2 - 1)) with 2. rewrite (Z.mod_small i 2) by lia. destruct (Z.ltb_spec i 2); [reflexivity|lia].
  - rewrite Z.mod_small by lia. destruct (Z.ltb_spec i (Z.of_nat n)); [reflexivity|lia].
Qed.
Lemma refl_opp n i : (2 <= n)%nat -> refl n (- i) = refl n i.
Proof.
  intros Hn. unfold refl. set (p := 2 * (Z.of_nat n - 1)). assert (Hp : 2 <= p) by (unfold p; lia).
  destruct (Z.eq_dec (i mod p) 0) as [E|E].
  - rewrite (Z.mod_opp_l_z i p) by lia. rewrite E. reflexivity.
  - rewrite (Z.mod_opp_l_nz i p) by lia. pose proof (Z.mod_pos_bound i p ltac:(lia)).
    destruct (Z.ltb_spec (p - i mod p) (Z.of_nat n)), (Z.ltb_spec (i mod p) (Z.of_nat n)); unfold p in *; lia.
Qed.
Lemma refl_period n i : refl n (2 * (Z.of_nat n - 1) + i) = refl n i.
Proof.
  unfold refl. destruct (Z.eq_dec (2 * (Z.of_nat n - 1)) 0) as [E|E]; [rewrite E; reflexivity|].
  replace (2 * (Z.of_nat n - 1) + i) with (i + 1 * (2 * (Z.of_nat n - 1))) by ring. rewrite Z.mod_add by exact E. reflexivity.
Qed.
Lemma refl_far n i : (2 <= n)%nat -> refl n (2 * (Z.of_nat n - 1) - i) = refl n i.
Proof. intros Hn. unfold Z.sub at 1. rewrite refl_period. apply refl_opp, Hn. Qed.
Lemma refl_low n i : (2 <= n)%nat -> 0 <= i < Z.of_nat n -> refl n (- i) = Z.to_nat i.
Proof. intros. rewrite refl_opp by assumption. apply refl_in; assumption. Qed.
Lemma refl_high n i : (2 <= n)%nat -> Z.of_nat n <= i <= 2 * (Z.of_nat n - 1) -> refl n i = Z.to_nat (2 * (Z.of_nat n - 1) - i).
Proof. intros. rewrite <- refl_far by assumption. apply refl_in; [assumption|lia]. Qed.
(** Reflection keeps the parity, for even lengths too. *)
Lemma refl_even n i : (2 <= n)%nat -> Z.even (Z.of_nat (refl n i)) = Z.even i.
Proof.
  intros Hn. unfold refl. set (p := 2 * (Z.of_nat n - 1)). pose proof (Z.mod_pos_bound i p ltac:(unfold p; lia)) as B.
  assert (E : Z.even (i mod p) = Z.even i).
  { rewrite (Z.div_mod i p) at 2 by (unfold p; lia). rewrite Z.even_add, Z.even_mul. unfold p at 2. rewrite Z.even_mul. cbn [Z.even orb].
    destruct (Z.even (i mod p)); reflexivity. }
  destruct (Z.ltb_spec (i mod p) (Z.of_nat n)); rewrite Z2Nat.id by (unfold p in *; lia); [exact E|].
  rewrite Z.even_sub. unfold p at 1. rewrite Z.even_mul. cbn [Z.even orb]. rewrite E. destruct (Z.even i); reflexivity.
Qed.

(** *** Convolution *)
(** The scalar product of a filter with values [w t], in the order of the program. *)
Definition fdot (h : list f64) (w : nat -> f64) : f64 :=
  fold_left (fun acc t => add64 acc (mul64 (w t) (nth t h f64_0))) (seq 1 (length h - 1)) (mul64 (w 0%nat) (nth 0 h f64_0)).
(** Element [i] of a block, reflected at its ends. *)
Definition ext (x : list f64) (i : Z) : f64 := nth (refl (length x) i) x f64_0.

Lemma nth_rev_part (x : list f64) a e k : (a + e <= length x)%nat -> (k < e)%nat ->
  nth k (rev (firstn e (skipn a x))) f64_0 = nth (a + (e - 1 - k)) x f64_0.
Proof.
  intros H K. assert (L : length (firstn e (skipn a x)) = e) by (rewrite firstn_length, skipn_length; lia).
  rewrite rev_nth by lia. rewrite L.
  assert (N : forall (l : list f64) c m, (c < m)%nat -> nth c (firstn m l) f64_0 = nth c l f64_0).
  { induction l as [|y l IH]; intros c m Hc; [rewrite firstn_nil; reflexivity|]. destruct m; [lia|]. destruct c; [reflexivity|].
    cbn. apply IH. lia. }
  rewrite N by lia.
  assert (S : forall (l : list f64) m c, nth c (skipn m l) f64_0 = nth (m + c) l f64_0).
  { induction l as [|y l IH]; intros m c; [rewrite skipn_nil; destruct c, m; reflexivity|]. destruct m; [reflexivity|]. cbn. apply IH. }
  rewrite S. f_equal. lia.
Qed.

Lemma temp_nth (x : list f64) e k : (2 <= length x)%nat -> (e + 1 <= length x)%nat -> (k < length x + 2 * e)%nat ->
  nth k (rev (firstn e (skipn 1 x)) ++ x ++ rev (firstn e (skipn (length x - e - 1) x))) f64_0 = ext x (Z.of_nat k - Z.of_nat e).
Proof.
  intros H2 He Hk. unfold ext. set (n := length x) in *.
  assert (L1 : length (rev (firstn e (skipn 1 x))) = e) by (rewrite rev_length, firstn_length, skipn_length; fold n; lia).
  destruct (Nat.lt_ge_cases k e) as [K|K].
  - rewrite app_nth1 by lia. rewrite nth_rev_part by (fold n; lia).
    replace (Z.of_nat k - Z.of_nat e) with (- (Z.of_nat e - Z.of_nat k)) by lia. rewrite refl_low by lia. f_equal. lia.
  - rewrite app_nth2 by lia. rewrite L1. destruct (Nat.lt_ge_cases (k - e) n) as [K2|K2].
    + rewrite app_nth1 by (fold n; lia). rewrite refl_in by lia. f_equal. lia.
    + rewrite app_nth2 by (fold n; lia). fold n. rewrite nth_rev_part by (fold n; lia). rewrite refl_high by lia. f_equal. lia.
Qed.

Lemma fold_left_same {A B} (f g : A -> B -> A) l : forall a, (forall a b, In b l -> f a b = g a b) -> fold_left f l a = fold_left g l a.
Proof.
  induction l as [|b l IH]; intros a H; [reflexivity|]. cbn. rewrite (H a b (or_introl eq_refl)). apply IH.
  intros a' b' I. apply H. right. exact I.
Qed.

Lemma symconv_ok (x h : list f64) e : length h = (2 * e + 1)%nat -> (2 <= length x)%nat -> (e + 1 <= length x)%nat ->
  exists out, symconv x h = Ok out /\ length out = length x /\
    forall i, (i < length x)%nat -> nth i out f64_0 = fdot h (fun t => ext x (Z.of_nat i + Z.of_nat e - Z.of_nat t)).
Proof.
  intros Hh H2 He. unfold symconv. replace (length h / 2)%nat with e by (rewrite Hh; apply (Nat.div_unique _ _ _ 1); lia).
  destruct (Nat.ltb_spec (length x) (e + 1)); [lia|].
  set (temp := rev (firstn e (skipn 1 x)) ++ x ++ rev (firstn e (skipn (length x - e - 1) x))).
  assert (Lt : length temp = (length x + 2 * e)%nat).
  { unfold temp. rewrite !app_length, !rev_length, !firstn_length, !skipn_length. lia. }
  assert (Lc : length (conv1D temp h) = (length x + 4 * e)%nat) by (unfold conv1D; rewrite map_length, seq_length, Lt, Hh; lia).
  eexists. split; [reflexivity|]. split.
  - rewrite firstn_length, skipn_length, Lc. lia.
  - intros i Hi.
    assert (N : forall (l : list f64) c m, (c < m)%nat -> nth c (firstn m l) f64_0 = nth c l f64_0).
    { induction l as [|y l IH]; intros c m Hc; [rewrite firstn_nil; reflexivity|]. destruct m; [lia|]. destruct c; [reflexivity|].
      cbn. apply IH. lia. }
    rewrite N by exact Hi.
    assert (S : forall (l : list f64) m c, nth c (skipn m l) f64_0 = nth (m + c) l f64_0).
    { induction l as [|y l IH]; intros m c; [rewrite skipn_nil; destruct c, m; reflexivity|]. destruct m; [reflexivity|]. cbn. apply IH. }
    rewrite S. unfold conv1D.
    rewrite (nth_indep _ _ (conv_at temp h 0)) by (rewrite map_length, seq_length, Lt, Hh; lia).
    rewrite map_nth, seq_nth by (rewrite Lt, Hh; lia). unfold conv_at, fdot. rewrite Hh, Lt.
    destruct (Nat.ltb_spec (0 + (2 * e + i)) (length x + 2 * e)); [|lia].
    unfold temp at 2. rewrite temp_nth by lia.
    replace (Z.of_nat (0 + (2 * e + i)) - Z.of_nat e) with (Z.of_nat i + Z.of_nat e - Z.of_nat 0) by lia.
    apply fold_left_same. intros a t It. apply in_seq in It.
    destruct (Nat.leb_spec t (0 + (2 * e + i))); [|lia]. destruct (Nat.ltb_spec (0 + (2 * e + i) - t) (length x + 2 * e)); [|lia].
    cbn [andb]. unfold temp. rewrite temp_nth by lia. do 3 f_equal. lia.
Qed.

(** *** The error of a convolution *)
Open Scope R_scope.
Definition bounded (M : R) (x : f64) : Prop := is_finite x = true /\ Rabs (B2R x) <= M.
(** The scalar product in exact arithmetic. *)
Definition rdot (h : list f64) (w : nat -> R) : R :=
  fold_left (fun acc t => acc + w t * B2R (nth t h f64_0)) (seq 1 (length h - 1)) (w 0%nat * B2R (nth 0 h f64_0)).

Definition eps := / 9007199254740992.
Lemma big_bound x M : Rabs x <= 64 * M -> M <= bpow radix2 900 -> Rabs x <= bpow radix2 1000.
Proof.
  intros H1 H2. eapply Rle_trans; [exact H1|]. eapply Rle_trans; [apply Rmult_le_compat_l; [lra|exact H2]|].
  change 64 with (bpow radix2 6). rewrite <- bpow_plus. apply bpow_le. lia.
Qed.

Lemma tiny_eps M : 1 <= M -> bpow radix2 (-150) <= eps * / 128 * M.
Proof. intros. pose proof tiny_small. pose proof tiny_pos. unfold eps. lra. Qed.

Lemma mul_err (w h : f64) M : 1 <= M <= bpow radix2 900 -> bounded M w -> bounded 1 h ->
  is_finite (mul64 w h) = true /\ Rabs (B2R (mul64 w h) - B2R w * B2R h) <= 2 * eps * M.
Proof.
  intros HM [Fw Bw] [Fh Bh].
  assert (P : Rabs (B2R w * B2R h) <= M).
  { rewrite Rabs_mult. rewrite <- (Rmult_1_r M). apply Rmult_le_compat; try apply Rabs_pos; assumption. }
  destruct (mul64_ok w h Fw Fh) as [E F]; [apply (big_bound _ M); lra|]. split; [exact F|]. rewrite E.
  eapply Rle_trans; [apply err64|]. pose proof (tiny_eps M (proj1 HM)). unfold eps in *. lra.
Qed.

(** One more term: [s] is the exact sum so far, of [k] terms. *)
Lemma term_err acc s (w h : f64) M k : 1 <= M <= bpow radix2 900 -> 0 <= k <= 16 ->
  is_finite acc = true -> Rabs s <= k * M -> Rabs (B2R acc - s) <= k * (24 * eps * M) ->
  bounded M w -> bounded 1 h ->
  is_finite (add64 acc (mul64 w h)) = true /\ Rabs (s + B2R w * B2R h) <= (k + 1) * M /\
  Rabs (B2R (add64 acc (mul64 w h)) - (s + B2R w * B2R h)) <= (k + 1) * (24 * eps * M).
Proof.
  intros HM Hk Fa Hs Ha Bw Bh. destruct (mul_err w h M HM Bw Bh) as [Fm Em].
  assert (P : Rabs (B2R w * B2R h) <= M).
  { destruct Bw, Bh. rewrite Rabs_mult. rewrite <- (Rmult_1_r M). apply Rmult_le_compat; try apply Rabs_pos; assumption. }
  assert (K : k * M <= 16 * M) by (apply Rmult_le_compat_r; lra).
  assert (K0 : 0 <= k * M) by (apply Rmult_le_pos; lra).
  assert (KE : k * (24 * eps * M) = k * M * 24 * eps) by ring.
  set (a := B2R acc) in *. set (p := B2R (mul64 w h)) in *. set (q := B2R w * B2R h) in *.
  assert (A : Rabs (a + p) <= k * M + M + 1 * M).
  { apply Rabs_le. apply Raux.Rabs_le_inv in Hs, Ha, Em, P. rewrite KE in Ha. unfold eps in *. lra. }
  destruct (add64_ok acc (mul64 w h) Fa Fm) as [E F]; [fold a p; apply (big_bound _ M); lra|].
  split; [exact F|]. split.
  - eapply Rle_trans; [apply Rabs_triang|]. lra.
  - rewrite E. fold a p. pose proof (err64 (a + p)) as R1. pose proof (tiny_eps M (proj1 HM)) as T.
    apply Rabs_le. apply Raux.Rabs_le_inv in Hs, Ha, Em, P. rewrite KE in Ha. set (z := Rabs (a + p)) in *. apply Raux.Rabs_le_inv in R1.
    replace ((k + 1) * (24 * eps * M)) with (k * M * 24 * eps + 24 * eps * M) by ring.
    unfold eps in *. lra.
Qed.

Lemma dot_err (h : list f64) (w : nat -> f64) M : 1 <= M <= bpow radix2 900 -> (1 <= length h <= 10)%nat ->
  Forall (bounded 1) h -> (forall t, (t < length h)%nat -> bounded M (w t)) ->
  is_finite (fdot h w) = true /\ Rabs (B2R (fdot h w) - rdot h (fun t => B2R (w t))) <= 512 * eps * M.
Proof.
  intros HM Hl Hh Hw. unfold fdot, rdot.
  assert (Nh : forall t, (t < length h)%nat -> bounded 1 (nth t h f64_0)) by (intros t Ht; apply Forall_nth; assumption).
  assert (G : forall n a acc s k, (a + n <= length h)%nat -> 0 <= k -> k + INR n <= 11 -> is_finite acc = true -> Rabs s <= k * M ->
     Rabs (B2R acc - s) <= k * (24 * eps * M) ->
     is_finite (fold_left (fun acc t => add64 acc (mul64 (w t) (nth t h f64_0))) (seq a n) acc) = true /\
     Rabs (B2R (fold_left (fun acc t => add64 acc (mul64 (w t) (nth t h f64_0))) (seq a n) acc) -
           fold_left (fun acc t => acc + B2R (w t) * B2R (nth t h f64_0)) (seq a n) s) <= 11 * (24 * eps * M)).
  { induction n as [|n IH]; intros a acc s k Ha Hk Hn Fa Hs Hd.
    - cbn. split; [exact Fa|]. cbn in Hn. eapply Rle_trans; [exact Hd|].
      apply Rmult_le_compat_r; [unfold eps; lra|lra].
    - cbn [seq fold_left]. rewrite S_INR in Hn. pose proof (pos_INR n).
      destruct (term_err acc s (w a) (nth a h f64_0) M k HM ltac:(lra) Fa Hs Hd (Hw a ltac:(lia)) (Nh a ltac:(lia))) as (F & S' & D).
      apply (IH (S a) _ _ (k + 1)); try assumption; try lia; lra. }
  destruct (mul_err (w 0%nat) (nth 0 h f64_0) M HM (Hw 0%nat ltac:(lia)) (Nh 0%nat ltac:(lia))) as [F0 E0].
  destruct (G (length h - 1)%nat 1%nat (mul64 (w 0%nat) (nth 0 h f64_0)) (B2R (w 0%nat) * B2R (nth 0 h f64_0)) 1) as [F E].
  - lia.
  - lra.
  - assert (INR (length h - 1) <= 9); [|lra]. rewrite INR_IZR_INZ. apply IZR_le. lia.
  - exact F0.
  - destruct (Hw 0%nat ltac:(lia)), (Nh 0%nat ltac:(lia)). rewrite Rabs_mult, Rmult_1_l. rewrite <- (Rmult_1_r M).
    apply Rmult_le_compat; try apply Rabs_pos; assumption.
  - eapply Rle_trans; [exact E0|]. unfold eps. lra.
  - split; [exact F|]. eapply Rle_trans; [exact E|]. unfold eps. lra.
Qed.
