(** The inverse transform undoes the transform, up to the changes of the coefficients and rounding. *)
From Coq Require Import Reals Lra Lia.
From Flocq Require Import Core.
From Verif Require Import Base FloatBase FloatModel FloatProof Float64Proof WaveletModel WaveletTransform WaveletFilter.
Ltac Zify.zify_post_hook ::= Z.div_mod_to_equations.

(** *** Lists *)
Lemma evens_two {A} (l : list A) : forall k d, (length (evens l) = (length l + 1) / 2)%nat /\ nth k (evens l) d = nth (2 * k) l d.
Proof.
  assert (G : forall n l, (length l <= n)%nat -> forall k (d : A), length (evens l) = ((length l + 1) / 2)%nat /\ nth k (evens l) d = nth (2 * k) l d).
  { induction n as [|n IH]; intros l0 Hl k d.
    - destruct l0; [|cbn in Hl; lia]. cbn. destruct k; split; reflexivity.
    - destruct l0 as [|x [|y l0]]; cbn [evens].
      + destruct k; split; reflexivity.
      + destruct k; [split; reflexivity|]. cbn. split; [reflexivity|]. replace (k + S (k + 0))%nat with (S (2 * k)) by lia. destruct k; reflexivity.
      + cbn [length] in *. destruct (IH l0 ltac:(lia) (Nat.pred k) d) as [L N]. split.
        * rewrite L. replace (S (S (length l0)) + 1)%nat with (length l0 + 1 + 1 * 2)%nat by lia. rewrite Nat.div_add by lia. lia.
        * destruct k; [reflexivity|]. cbn [nth]. cbn [Nat.pred] in N. rewrite N. replace (2 * S k)%nat with (S (S (2 * k))) by lia. reflexivity. }
  intros. apply (G (length l)). lia.
Qed.
Lemma evens_length {A} (l : list A) : length (evens l) = ((length l + 1) / 2)%nat.
Proof. destruct l as [|x l']; [reflexivity|]. apply (evens_two (x :: l') 0 x). Qed.
Lemma evens_nth {A} (l : list A) k d : nth k (evens l) d = nth (2 * k) l d.
Proof. apply evens_two. Qed.
Lemma odds_length {A} (l : list A) : length (odds l) = (length l / 2)%nat.
Proof. destruct l; [reflexivity|]. cbn [odds length]. rewrite evens_length. f_equal. lia. Qed.
Lemma odds_nth {A} (l : list A) k d : nth k (odds l) d = nth (2 * k + 1) l d.
Proof.
  destruct l; [destruct k; cbn; [reflexivity|]; destruct (k + S (k + 0) + 1)%nat; reflexivity|]. cbn [odds].
  rewrite evens_nth. replace (2 * k + 1)%nat with (S (2 * k)) by lia. reflexivity.
Qed.
Lemma interleave_length {A} (a : list A) : forall b, length a = length b -> length (interleave a b) = (2 * length a)%nat.
Proof. induction a as [|x a IH]; intros [|y b] H; try discriminate; [reflexivity|]. cbn in *. rewrite IH by lia. lia. Qed.
Lemma interleave_nth {A} (a : list A) d : forall b k, length a = length b ->
  nth k (interleave a b) d = if Nat.even k then nth (k / 2) a d else nth (k / 2) b d.
Proof.
  induction a as [|x a IH]; intros [|y b] k H; try discriminate.
  - cbn [interleave]. rewrite !nth_overflow by (cbn; lia). destruct (Nat.even k); reflexivity.
  - cbn [interleave]. destruct k as [|[|k]]; [reflexivity|reflexivity|]. cbn [nth]. injection H as H.
    rewrite IH by exact H. replace (S (S k) / 2)%nat with (S (k / 2)) by (replace (S (S k)) with (k + 1 * 2)%nat by lia; rewrite Nat.div_add by lia; lia).
    reflexivity.
Qed.
Lemma nth_firstn_lt (l : list f64) c m : (c < m)%nat -> nth c (firstn m l) f64_0 = nth c l f64_0.
Proof. revert c m. induction l as [|y l IH]; intros c m Hc; [rewrite firstn_nil; reflexivity|]. destruct m; [lia|]. destruct c; [reflexivity|]. cbn. apply IH. lia. Qed.
Lemma nth_skipn_add (l : list f64) m c : nth c (skipn m l) f64_0 = nth (m + c) l f64_0.
Proof. revert m c. induction l as [|y l IH]; intros m c; [rewrite skipn_nil; destruct c, m; reflexivity|]. destruct m; [reflexivity|]. cbn. apply IH. Qed.

(** *** One level *)
Open Scope R_scope.
Lemma lp_bounded : Forall (bounded 1) lp.
Proof.
  unfold lp, bounded. repeat (apply Forall_cons; [split; [reflexivity|]|]); try apply Forall_nil;
  rewrite ?LP_0R, ?LP_1R, ?LP_2R, ?LP_3R, ?LP_4R; unfold l0, l1, l2, l3, l4; apply Rabs_le; lra.
Qed.
Lemma hp_bounded : Forall (bounded 1) hp.
Proof.
  unfold hp, bounded. repeat (apply Forall_cons; [split; [reflexivity|]|]); try apply Forall_nil;
  rewrite ?HP_0R, ?HP_1R, ?HP_2R, ?HP_3R; unfold h0, h1, h2, h3; apply Rabs_le; lra.
Qed.
Lemma lpr_bounded : Forall (bounded 1) lpr.
Proof.
  unfold lpr, bounded. repeat (apply Forall_cons; [split; [reflexivity|]|]); try apply Forall_nil;
  rewrite ?opp_R, ?HP_0R, ?HP_1R, ?HP_2R, ?HP_3R; unfold h0, h1, h2, h3; apply Rabs_le; lra.
Qed.
Lemma hpr_bounded : Forall (bounded 1) hpr.
Proof.
  unfold hpr, bounded. repeat (apply Forall_cons; [split; [reflexivity|]|]); try apply Forall_nil;
  rewrite ?opp_R, ?LP_0R, ?LP_1R, ?LP_2R, ?LP_3R, ?LP_4R; unfold l0, l1, l2, l3, l4; apply Rabs_le; lra.
Qed.

Definition all_bounded (M : R) (x : list f64) : Prop := Forall (bounded M) x.
Lemma ext_bounded M x i : (2 <= length x)%nat -> all_bounded M x -> bounded M (ext x i).
Proof. intros L H. unfold ext. apply Forall_nth; [exact H|]. apply refl_lt, L. Qed.

Definition Xr (x : list f64) (i : Z) : R := B2R (ext x i).

Lemma dwt_level_ok (x : list f64) M : Nat.even (length x) = true -> (6 <= length x)%nat -> 1 <= M <= bpow radix2 900 -> all_bounded M x ->
  exists low high, dwt_level x = Ok (low, high) /\ length low = (length x / 2)%nat /\ length high = (length x / 2)%nat /\
    (forall k, (k < length x / 2)%nat -> is_finite (nth k low f64_0) = true /\ Rabs (B2R (nth k low f64_0) - Lf (Xr x) (2 * Z.of_nat k)) <= 512 * eps * M) /\
    (forall k, (k < length x / 2)%nat -> is_finite (nth k high f64_0) = true /\ Rabs (B2R (nth k high f64_0) - Hf (Xr x) (2 * Z.of_nat k + 1)) <= 512 * eps * M).
Proof.
  intros Ev L HM B. unfold dwt_level.
  destruct (symconv_ok x hp 3 eq_refl ltac:(lia) ltac:(lia)) as (h & -> & Lh & Nh). cbn [obind].
  destruct (symconv_ok x lp 4 eq_refl ltac:(lia) ltac:(lia)) as (l & -> & Ll & Nl). cbn [obind].
  rewrite <- Nat.negb_even, Ev. cbn [negb].
  assert (E2 : exists m, length x = (2 * m)%nat) by (apply Nat.even_spec in Ev; destruct Ev as [m Em]; exists m; exact Em).
  destruct E2 as [m Em]. assert (Hm : (length x / 2 = m)%nat) by (rewrite Em; rewrite Nat.mul_comm; apply Nat.div_mul; lia).
  eexists _, _. split; [reflexivity|]. rewrite Hm. split; [|split; [|split]].
  - rewrite evens_length, Ll, Em. replace (2 * m + 1)%nat with (1 + m * 2)%nat by lia. rewrite Nat.div_add by lia. reflexivity.
  - rewrite odds_length, Lh. exact Hm.
  - intros k Hk. rewrite evens_nth, Nl by lia.
    destruct (dot_err lp (fun t => ext x (Z.of_nat (2 * k) + Z.of_nat 4 - Z.of_nat t)) M HM ltac:(cbn; lia) lp_bounded) as [F E].
    + intros t _. apply ext_bounded; [lia|exact B].
    + split; [exact F|]. unfold Lf, Xr. replace (2 * Z.of_nat k + 4)%Z with (Z.of_nat (2 * k) + Z.of_nat 4)%Z by lia. exact E.
  - intros k Hk. rewrite odds_nth, Nh by lia.
    destruct (dot_err hp (fun t => ext x (Z.of_nat (2 * k + 1) + Z.of_nat 3 - Z.of_nat t)) M HM ltac:(cbn; lia) hp_bounded) as [F E].
    + intros t _. apply ext_bounded; [lia|exact B].
    + split; [exact F|]. unfold Hf, Xr. replace (2 * Z.of_nat k + 1 + 3)%Z with (Z.of_nat (2 * k + 1) + Z.of_nat 3)%Z by lia. exact E.
Qed.

(** The low part is at most twice as large. *)
Lemma low_bound M r L : 1 <= M -> Rabs (r - L) <= 512 * eps * M -> Rabs L <= 19522 / 10000 * M -> Rabs r <= 2 * M.
Proof. intros H A B. apply Rabs_le. apply Raux.Rabs_le_inv in A, B. unfold eps in *. lra. Qed.
Lemma Xr_bound M x : (2 <= length x)%nat -> all_bounded M x -> forall j, Rabs (Xr x j) <= M.
Proof. intros L B j. apply (ext_bounded M x j L B). Qed.

(** The symmetry of the filtered signals. *)
Lemma Xr_opp x i : (2 <= length x)%nat -> Xr x (- i) = Xr x i.
Proof. intros. unfold Xr, ext. rewrite refl_opp by assumption. reflexivity. Qed.
Lemma Xr_far x i : (2 <= length x)%nat -> Xr x (2 * (Z.of_nat (length x) - 1) - i) = Xr x i.
Proof. intros. unfold Xr, ext. rewrite refl_far by assumption. reflexivity. Qed.
Section Symmetric.
Variable X : Z -> R.
Variable c : Z.
Hypothesis sym : forall i, X (c - i)%Z = X i.
Lemma Lf_sym i : Lf X (c - i) = Lf X i.
Proof.
  rewrite !Lf_eq. rewrite <- (sym i), <- (sym (i + 1)), <- (sym (i - 1)), <- (sym (i + 2)), <- (sym (i - 2)), <- (sym (i + 3)), <- (sym (i - 3)), <- (sym (i + 4)), <- (sym (i - 4)).
  replace (c - i + 1)%Z with (c - (i - 1))%Z by ring. replace (c - i - 1)%Z with (c - (i + 1))%Z by ring.
  replace (c - i + 2)%Z with (c - (i - 2))%Z by ring. replace (c - i - 2)%Z with (c - (i + 2))%Z by ring.
  replace (c - i + 3)%Z with (c - (i - 3))%Z by ring. replace (c - i - 3)%Z with (c - (i + 3))%Z by ring.
  replace (c - i + 4)%Z with (c - (i - 4))%Z by ring. replace (c - i - 4)%Z with (c - (i + 4))%Z by ring. ring.
Qed.
Lemma Hf_sym i : Hf X (c - i) = Hf X i.
Proof.
  rewrite !Hf_eq. rewrite <- (sym i), <- (sym (i + 1)), <- (sym (i - 1)), <- (sym (i + 2)), <- (sym (i - 2)), <- (sym (i + 3)), <- (sym (i - 3)).
  replace (c - i + 1)%Z with (c - (i - 1))%Z by ring. replace (c - i - 1)%Z with (c - (i + 1))%Z by ring.
  replace (c - i + 2)%Z with (c - (i - 2))%Z by ring. replace (c - i - 2)%Z with (c - (i + 2))%Z by ring.
  replace (c - i + 3)%Z with (c - (i - 3))%Z by ring. replace (c - i - 3)%Z with (c - (i + 3))%Z by ring. ring.
Qed.
End Symmetric.

(** A function symmetric about 0 and about the last index takes the value at the reflected index. *)
Lemma sym_refl n (F : Z -> R) : (2 <= n)%nat -> (forall i, F (0 - i)%Z = F i) -> (forall i, F (2 * (Z.of_nat n - 1) - i)%Z = F i) ->
  forall i, F (Z.of_nat (refl n i)) = F i.
Proof.
  intros Hn S0 S1 i. set (p := (2 * (Z.of_nat n - 1))%Z) in *.
  assert (P : forall j, F (j + p)%Z = F j) by (intros j; rewrite <- (S1 (j + p)%Z), <- (S0 j); f_equal; ring).
  assert (PN : forall k : nat, forall j, F (j + Z.of_nat k * p)%Z = F j).
  { induction k as [|k IH]; intros j; [f_equal; lia|]. rewrite Nat2Z.inj_succ. replace (j + Z.succ (Z.of_nat k) * p)%Z with (j + Z.of_nat k * p + p)%Z by ring. rewrite P. apply IH. }
  assert (PZ : F (i mod p)%Z = F i).
  { assert (E : i = (i mod p + (i / p) * p)%Z) by (rewrite (Z.div_mod i p) at 1 by (unfold p; lia); ring).
    destruct (Z_le_gt_dec 0 (i / p)) as [G|G].
    - rewrite E at 2. rewrite <- (Z2Nat.id (i / p)) by exact G. symmetry. apply PN.
    - rewrite <- (PN (Z.to_nat (- (i / p))) i). rewrite Z2Nat.id by lia. f_equal. rewrite E at 2. ring. }
  unfold refl. fold p. pose proof (Z.mod_pos_bound i p ltac:(unfold p; lia)).
  destruct (Z.ltb_spec (i mod p) (Z.of_nat n)); rewrite Z2Nat.id by (unfold p in *; lia); [exact PZ|]. rewrite S1. exact PZ.
Qed.

Lemma Ls_minus X Y i : Ls X i - Ls Y i = Ls (fun j => X j - Y j) i.
Proof. rewrite !Ls_eq. ring. Qed.
Lemma Hs_minus X Y i : Hs X i - Hs Y i = Hs (fun j => X j - Y j) i.
Proof. rewrite !Hs_eq. ring. Qed.
Lemma Ls_ext X Y i : (forall j, X j = Y j) -> Ls X i = Ls Y i.
Proof. intros H. rewrite !Ls_eq, !H. reflexivity. Qed.
Lemma Hs_ext X Y i : (forall j, X j = Y j) -> Hs X i = Hs Y i.
Proof. intros H. rewrite !Hs_eq, !H. reflexivity. Qed.

Lemma half_of n k : Nat.even n = true -> (k < n)%nat -> (k / 2 < n / 2)%nat.
Proof.
  intros E K. apply Nat.even_spec in E. destruct E as [m ->]. rewrite (Nat.mul_comm 2 m), Nat.div_mul by lia.
  apply Nat.div_lt_upper_bound; lia.
Qed.
Lemma even_Z (k : nat) : Nat.even k = Z.even (Z.of_nat k).
Proof.
  destruct (Nat.even k) eqn:E; symmetry.
  - apply Nat.even_spec in E. destruct E as [m ->]. rewrite Nat2Z.inj_mul, Z.even_mul. reflexivity.
  - assert (O : Nat.odd k = true) by (rewrite <- Nat.negb_even, E; reflexivity). apply Nat.odd_spec in O. destruct O as [m ->].
    rewrite Nat2Z.inj_add, Nat2Z.inj_mul, Z.even_add, Z.even_mul. reflexivity.
Qed.
Lemma half_even k : Nat.even k = true -> (2 * (k / 2) = k)%nat.
Proof. intros E. apply Nat.even_spec in E. destruct E as [m ->]. rewrite (Nat.mul_comm 2 m), Nat.div_mul by lia. lia. Qed.
Lemma half_odd k : Nat.even k = false -> (2 * (k / 2) + 1 = k)%nat.
Proof.
  intros E. assert (O : Nat.odd k = true) by (rewrite <- Nat.negb_even, E; reflexivity). apply Nat.odd_spec in O. destruct O as [m ->].
  replace (2 * m + 1)%nat with (1 + m * 2)%nat by lia. rewrite Nat.div_add by lia. cbn. lia.
Qed.

Lemma Forall2_length {A B} (P : A -> B -> Prop) l l' : Forall2 P l l' -> length l = length l'.
Proof. induction 1; cbn; congruence. Qed.
Lemma Forall2_of_nth {A B} (P : A -> B -> Prop) a b : forall l l', length l = length l' ->
  (forall k, (k < length l)%nat -> P (nth k l a) (nth k l' b)) -> Forall2 P l l'.
Proof.
  induction l as [|x l IH]; intros [|y l'] L H; try discriminate; [constructor|]. constructor.
  - apply (H 0%nat). cbn. lia.
  - apply IH; [injection L as L; exact L|]. intros k K. apply (H (S k)). cbn. lia.
Qed.

Definition close (d : R) (a b : f64) : Prop := is_finite b = true /\ Rabs (B2R b - B2R a) <= d.
Lemma close_nth d l l' k : Forall2 (close d) l l' -> (k < length l)%nat -> close d (nth k l f64_0) (nth k l' f64_0).
Proof. intros H. revert k. induction H as [|a b l l' A H IH]; intros k K; [cbn in K; lia|]. destruct k; [exact A|]. cbn in *. apply IH. lia. Qed.

Lemma sum_nth : forall hs ls i, length hs = length ls -> (i < length hs)%nat ->
  nth i (map (fun '(a, b) => add64 a b) (combine hs ls)) f64_0 = add64 (nth i hs f64_0) (nth i ls f64_0).
Proof.
  induction hs as [|x hs IH]; intros [|y ls] i L Hi; try discriminate; [cbn in Hi; lia|]. destruct i; [reflexivity|].
  cbn in *. apply IH; lia.
Qed.
Lemma two_bounds M : M <= bpow radix2 800 -> 8 * M <= bpow radix2 900.
Proof.
  intros H. eapply Rle_trans; [apply Rmult_le_compat_l; [lra|exact H]|]. change 8 with (bpow radix2 3). rewrite <- bpow_plus. apply bpow_le. lia.
Qed.

Lemma inv_level_close (x low high low' high' : list f64) M dl dh :
  Nat.even (length x) = true -> (6 <= length x)%nat -> 1 <= M <= bpow radix2 800 -> all_bounded M x ->
  dwt_level x = Ok (low, high) ->
  0 <= dl <= bpow radix2 800 -> 0 <= dh <= bpow radix2 800 ->
  Forall2 (close dl) low low' -> Forall2 (close dh) high high' ->
  exists y, inv_level (length x) (low' ++ high') = Ok y /\ length y = length x /\
    Forall2 (close (dl + 116 / 100 * dh + 8192 * eps * M)) x y.
Proof.
  intros Ev L HM B D Hdl Hdh Cl Ch.
  destruct (dwt_level_ok x M Ev L ltac:(pose proof (two_bounds M (proj2 HM)); lra) B) as (low0 & high0 & D0 & Ll & Lh & Nl & Nh).
  rewrite D in D0. injection D0 as <- <-.
  set (n := length x) in *. set (half := (n / 2)%nat) in *.
  assert (N2 : n = (2 * half)%nat) by (unfold half; symmetry; apply half_even; exact Ev).
  assert (Ll' : length low' = half) by (rewrite <- (Forall2_length _ _ _ Cl); exact Ll).
  assert (Lh' : length high' = half) by (rewrite <- (Forall2_length _ _ _ Ch); exact Lh).
  unfold inv_level. rewrite <- Nat.negb_even, Ev. cbn [negb]. fold half.
  replace (firstn half (skipn half (low' ++ high'))) with high'.
  2:{ rewrite skipn_app, Ll', Nat.sub_diag, skipn_all2 by lia. cbn [skipn app]. rewrite firstn_all2 by lia. reflexivity. }
  replace (firstn half (low' ++ high')) with low'.
  2:{ rewrite firstn_app, Ll', Nat.sub_diag, firstn_all2 by lia. cbn [firstn]. rewrite app_nil_r. reflexivity. }
  replace (skipn n (low' ++ high')) with (@nil f64) by (rewrite skipn_all2; [reflexivity|rewrite app_length; lia]).
  set (hl := interleave (repeat f64_0 half) high'). set (ll := interleave low' (repeat f64_0 half)).
  assert (Lhl : length hl = n) by (unfold hl; rewrite interleave_length; rewrite repeat_length; lia).
  assert (Lll : length ll = n) by (unfold ll; rewrite interleave_length; rewrite ?repeat_length; lia).
  destruct (symconv_ok hl hpr 4 eq_refl ltac:(lia) ltac:(lia)) as (hs & -> & Lhs & Nhs). cbn [obind].
  destruct (symconv_ok ll lpr 3 eq_refl ltac:(lia) ltac:(lia)) as (ls & -> & Lls & Nls). cbn [obind].
  rewrite app_nil_r.
  set (X := Xr x). assert (BX : forall j, Rabs (X j) <= M) by (apply Xr_bound; [fold n; lia|exact B]).
  (* the values *)
  assert (Zr : forall k, nth k (repeat f64_0 half) f64_0 = f64_0) by (intros k; destruct (nth_in_or_default k (repeat f64_0 half) f64_0) as [I|I]; [apply repeat_spec in I; exact I|exact I]).
  set (M2 := 2 * M + dl + dh).
  assert (HM2 : 1 <= M2 <= bpow radix2 900).
  { unfold M2. split; [lra|]. pose proof (two_bounds (bpow radix2 800) ltac:(lra)). lra. }
  assert (Vl : forall k, (k < half)%nat -> bounded M2 (nth k low' f64_0) /\ Rabs (B2R (nth k low' f64_0) - Lf X (2 * Z.of_nat k)) <= dl + 512 * eps * M).
  { intros k Hk. destruct (close_nth _ _ _ k Cl ltac:(lia)) as [F1 E1]. destruct (Nl k Hk) as [F2 E2].
    pose proof (Lf_bound X M (2 * Z.of_nat k) BX) as B3. fold X in E2. split; [split; [exact F1|]|];
    apply Rabs_le; apply Raux.Rabs_le_inv in E1, E2, B3; unfold M2, eps in *; lra. }
  assert (Vh : forall k, (k < half)%nat -> bounded M2 (nth k high' f64_0) /\ Rabs (B2R (nth k high' f64_0) - Hf X (2 * Z.of_nat k + 1)) <= dh + 512 * eps * M).
  { intros k Hk. destruct (close_nth _ _ _ k Ch ltac:(lia)) as [F1 E1]. destruct (Nh k Hk) as [F2 E2].
    pose proof (Hf_bound X M (2 * Z.of_nat k + 1) BX) as B3. fold X in E2. split; [split; [exact F1|]|];
    apply Rabs_le; apply Raux.Rabs_le_inv in E1, E2, B3; unfold M2, eps in *; lra. }
  assert (B0 : bounded M2 f64_0) by (split; [reflexivity|]; cbn; rewrite Rabs_R0; lra).
  assert (Bhl : all_bounded M2 hl).
  { apply Forall_nth. intros k d Hk. rewrite (nth_indep _ d f64_0 Hk). unfold hl. rewrite interleave_nth by (rewrite repeat_length; lia).
    destruct (Nat.even k); [rewrite Zr; exact B0|]. apply Vh. unfold half. apply half_of; [exact Ev|lia]. }
  assert (Bll : all_bounded M2 ll).
  { apply Forall_nth. intros k d Hk. rewrite (nth_indep _ d f64_0 Hk). unfold ll. rewrite interleave_nth by (rewrite repeat_length; lia).
    destruct (Nat.even k); [|rewrite Zr; exact B0]. apply Vl. unfold half. apply half_of; [exact Ev|lia]. }
  (* differences to the exact signals *)
  set (A := fun j => if Z.even j then 0 else Xr hl j - Hf X j).
  set (Bf := fun j => if Z.even j then Xr ll j - Lf X j else 0).
  assert (S0 : forall j, X (0 - j)%Z = X j) by (intros j; unfold X; replace (0 - j)%Z with (- j)%Z by ring; apply Xr_opp; fold n; lia).
  assert (S1 : forall j, X (2 * (Z.of_nat n - 1) - j)%Z = X j) by (intros j; apply Xr_far; fold n; lia).
  assert (HA : forall j, Rabs (A j) <= dh + 512 * eps * M).
  { intros j. unfold A. destruct (Z.even j) eqn:Ej; [rewrite Rabs_R0; unfold eps; lra|].
    unfold Xr, ext, hl. rewrite interleave_nth by (rewrite repeat_length; lia). rewrite even_Z. fold hl. rewrite Lhl.
    rewrite (refl_even n j) by lia. rewrite Ej.
    rewrite <- (sym_refl n (Hf X) ltac:(lia) (Hf_sym X 0 S0) (Hf_sym X _ S1) j).
    assert (O : Nat.even (refl n j) = false) by (rewrite even_Z, refl_even by lia; exact Ej).
    set (k := (refl n j / 2)%nat). replace (Z.of_nat (refl n j)) with (2 * Z.of_nat k + 1)%Z by (pose proof (half_odd _ O); unfold k; lia).
    apply Vh. unfold k, half. apply half_of; [exact Ev|apply refl_lt; lia]. }
  assert (HB : forall j, Rabs (Bf j) <= dl + 512 * eps * M).
  { intros j. unfold Bf. destruct (Z.even j) eqn:Ej; [|rewrite Rabs_R0; unfold eps; lra].
    unfold Xr, ext, ll. rewrite interleave_nth by (rewrite repeat_length; lia). rewrite even_Z. fold ll. rewrite Lll.
    rewrite (refl_even n j) by lia. rewrite Ej.
    rewrite <- (sym_refl n (Lf X) ltac:(lia) (Lf_sym X 0 S0) (Lf_sym X _ S1) j).
    assert (O : Nat.even (refl n j) = true) by (rewrite even_Z, refl_even by lia; exact Ej).
    set (k := (refl n j / 2)%nat). replace (Z.of_nat (refl n j)) with (2 * Z.of_nat k)%Z by (pose proof (half_even _ O); unfold k; lia).
    apply Vl. unfold k, half. apply half_of; [exact Ev|apply refl_lt; lia]. }
  assert (Xhl : forall j, Z.even j = true -> Xr hl j = 0).
  { intros j Ej. unfold Xr, ext, hl. rewrite interleave_nth by (rewrite repeat_length; lia). rewrite even_Z. fold hl. rewrite Lhl.
    rewrite (refl_even n j) by lia. rewrite Ej, Zr. reflexivity. }
  assert (Xll : forall j, Z.even j = false -> Xr ll j = 0).
  { intros j Ej. unfold Xr, ext, ll. rewrite interleave_nth by (rewrite repeat_length; lia). rewrite even_Z. fold ll. rewrite Lll.
    rewrite (refl_even n j) by lia. rewrite Ej, Zr. reflexivity. }
  eexists. split; [reflexivity|].
  assert (Ly : length (map (fun '(a, b) => add64 a b) (combine hs ls)) = n) by (rewrite map_length, combine_length; lia).
  split; [exact Ly|].
  apply (Forall2_of_nth _ f64_0 f64_0); [fold n; lia|]. intros i Hi. fold n in Hi.
  assert (Ny : nth i (map (fun '(a, b) => add64 a b) (combine hs ls)) f64_0 = add64 (nth i hs f64_0) (nth i ls f64_0)).
  { apply sum_nth; lia. }
  rewrite Ny, Nhs, Nls by lia. clear Ny.
  destruct (dot_err hpr (fun t => ext hl (Z.of_nat i + Z.of_nat 4 - Z.of_nat t)) M2 HM2 ltac:(cbn; lia) hpr_bounded) as [F1 E1].
  { intros t _. apply ext_bounded; [lia|exact Bhl]. }
  destruct (dot_err lpr (fun t => ext ll (Z.of_nat i + Z.of_nat 3 - Z.of_nat t)) M2 HM2 ltac:(cbn; lia) lpr_bounded) as [F2 E2].
  { intros t _. apply ext_bounded; [lia|exact Bll]. }
  change (rdot hpr (fun t => B2R (ext hl (Z.of_nat i + Z.of_nat 4 - Z.of_nat t)))) with (Hs (Xr hl) (Z.of_nat i)) in E1.
  change (rdot lpr (fun t => B2R (ext ll (Z.of_nat i + Z.of_nat 3 - Z.of_nat t)))) with (Ls (Xr ll) (Z.of_nat i)) in E2.
  set (u := fdot hpr (fun t => ext hl (Z.of_nat i + Z.of_nat 4 - Z.of_nat t))) in *.
  set (v := fdot lpr (fun t => ext ll (Z.of_nat i + Z.of_nat 3 - Z.of_nat t))) in *.
  assert (G1 : Rabs (Hs (Xr hl) (Z.of_nat i) - Hs (at_odd (Hf X)) (Z.of_nat i)) <= 115 / 100 * (dh + 512 * eps * M)).
  { rewrite Hs_minus. rewrite (Hs_ext _ (at_odd A)); [apply Hs_bound, HA|]. intros j. unfold at_odd, A. destruct (Z.even j) eqn:Ej; [rewrite Xhl by exact Ej|]; ring. }
  assert (G2 : Rabs (Ls (Xr ll) (Z.of_nat i) - Ls (at_even (Lf X)) (Z.of_nat i)) <= 966 / 1000 * (dl + 512 * eps * M)).
  { rewrite Ls_minus. rewrite (Ls_ext _ (at_even Bf)); [apply Ls_bound, HB|]. intros j. unfold at_even, Bf. destruct (Z.even j) eqn:Ej; [|rewrite Xll by exact Ej]; ring. }
  pose proof (inverse X M (Z.of_nat i) BX) as G3.
  assert (Xi : X (Z.of_nat i) = B2R (nth i x f64_0)) by (unfold X, Xr, ext; fold n; rewrite refl_in by lia; rewrite Nat2Z.id; reflexivity).
  pose proof (BX (Z.of_nat i)) as G4. rewrite Xi in G3, G4.
  set (p := Hs (Xr hl) (Z.of_nat i)) in *. set (q := Ls (Xr ll) (Z.of_nat i)) in *. set (p0 := Hs (at_odd (Hf X)) (Z.of_nat i)) in *.
  set (q0 := Ls (at_even (Lf X)) (Z.of_nat i)) in *. set (xi := B2R (nth i x f64_0)) in *.
  assert (Su : Rabs (B2R u + B2R v) <= 8 * M2).
  { apply Rabs_le. apply Raux.Rabs_le_inv in E1, E2, G1, G2, G3, G4. unfold M2, eps in *. lra. }
  destruct (add64_ok u v F1 F2) as [Ea Fa]; [apply (big_bound _ M2); lra|].
  split; [exact Fa|]. rewrite Ea. pose proof (err64 (B2R u + B2R v)) as R1. pose proof (tiny_eps M2 (proj1 HM2)) as T.
  set (z := Rabs (B2R u + B2R v)) in *. apply Rabs_le. apply Raux.Rabs_le_inv in E1, E2, G1, G2, G3, G4, R1. unfold M2, eps in *. fold xi. lra.
Qed.

(** *** All levels *)
Fixpoint tr (n : nat) (x : list f64) : outcome (list f64) :=
  match n with
  | O => Ok x
  | S n => do '(low, high) <- dwt_level x; do a <- tr n low; Ok (a ++ high)
  end.
Lemma dwt_level_length x low high : dwt_level x = Ok (low, high) -> length low = (length x / 2)%nat /\ length high = (length x / 2)%nat /\ Nat.even (length x) = true.
Proof.
  unfold dwt_level. intros H.
  destruct (symconv x hp) as [h| | |] eqn:E1; try discriminate. cbn [obind] in H.
  destruct (symconv x lp) as [l| | |] eqn:E2; try discriminate. cbn [obind] in H.
  destruct (Nat.odd (length x)) eqn:O; try discriminate. injection H as <- <-.
  assert (S : forall f e out, length f = (2 * e + 1)%nat -> (1 <= e)%nat -> symconv x f = Ok out -> length out = length x).
  { intros f e out Lf He E. destruct (Nat.lt_ge_cases (length x) (e + 1)) as [C|C].
    - exfalso. unfold symconv in E. replace (length f / 2)%nat with e in E by (rewrite Lf; apply (Nat.div_unique _ _ _ 1); lia).
      destruct (Nat.ltb_spec (length x) (e + 1)); [discriminate|lia].
    - destruct (symconv_ok x f e Lf ltac:(lia) C) as (o & E' & L & _). rewrite E' in E. injection E as <-. exact L. }
  rewrite evens_length, odds_length. rewrite (S hp 3%nat h eq_refl ltac:(lia) E1), (S lp 4%nat l eq_refl ltac:(lia) E2).
  assert (Ev : Nat.even (length x) = true) by (rewrite <- Nat.negb_odd, O; reflexivity). split; [|split; [reflexivity|exact Ev]].
  apply Nat.even_spec in Ev. destruct Ev as [m ->]. replace (2 * m + 1)%nat with (1 + m * 2)%nat by lia. rewrite Nat.div_add by lia.
  rewrite Nat.mul_comm, Nat.div_mul by lia. reflexivity.
Qed.
Lemma dwt_levels_tr n : forall x rest, dwt_levels n x (x ++ rest) = do c <- tr n x; Ok (c ++ rest).
Proof.
  induction n as [|n IH]; intros x rest; [reflexivity|]. cbn [dwt_levels tr].
  destruct (dwt_level x) as [[low high]| | |] eqn:D; try reflexivity. cbn [obind].
  rewrite skipn_app, Nat.sub_diag, skipn_all. cbn [skipn app]. rewrite IH.
  destruct (tr n low) as [a| | |]; try reflexivity. cbn [obind]. rewrite <- app_assoc. reflexivity.
Qed.
Lemma DWT_tr n x : DWT x (S n) = tr (S n) x.
Proof.
  unfold DWT. cbn [dwt_levels tr]. destruct (dwt_level x) as [[low high]| | |] eqn:D; try reflexivity. cbn [obind].
  rewrite skipn_all2 by (rewrite repeat_length; lia). rewrite app_nil_r. rewrite dwt_levels_tr. reflexivity.
Qed.

(** The inverse, the last level first. *)
Lemma inv_levels_last n : forall size out, inv_levels (S n) size out = do o <- inv_levels n (size / 2) out; inv_level size o.
Proof.
  induction n as [|n IH]; intros size out.
  - cbn [inv_levels]. rewrite Nat.pow_0_r, Nat.div_1_r. cbn [obind]. destruct (inv_level size out); reflexivity.
  - change (inv_levels (S (S n)) size out) with (do o <- inv_level (size / 2 ^ S n) out; inv_levels (S n) size o).
    change (inv_levels (S n) (size / 2) out) with (do o <- inv_level (size / 2 / 2 ^ n) out; inv_levels n (size / 2) o).
    rewrite Nat.div_div by (try apply Nat.pow_nonzero; lia). replace (2 * 2 ^ n)%nat with (2 ^ S n)%nat by reflexivity.
    destruct (inv_level (size / 2 ^ S n) out) as [o| | |]; try reflexivity. cbn [obind]. apply IH.
Qed.
Lemma inv_level_prefix len a rest : length a = len -> inv_level len (a ++ rest) = do y <- inv_level len a; Ok (y ++ rest).
Proof.
  intros L. unfold inv_level. destruct (Nat.odd len); [reflexivity|].
  assert (H : (len / 2 <= len)%nat) by (apply Nat.div_le_upper_bound; lia).
  assert (H2 : (len / 2 + len / 2 <= len)%nat) by (pose proof (Nat.div_mod len 2 ltac:(lia)); lia).
  rewrite skipn_app. rewrite firstn_app. rewrite (firstn_app (len / 2) a rest).
  replace (len / 2 - length a)%nat with 0%nat by lia. cbn [firstn skipn]. rewrite app_nil_r.
  replace (len / 2 - length (skipn (len / 2) a))%nat with 0%nat by (rewrite skipn_length; lia). cbn [firstn]. rewrite app_nil_r.
  destruct (symconv (interleave (repeat f64_0 (len / 2)) (firstn (len / 2) (skipn (len / 2) a))) hpr); try reflexivity. cbn [obind].
  destruct (symconv (interleave (firstn (len / 2) a) (repeat f64_0 (len / 2))) lpr); try reflexivity. cbn [obind].
  rewrite skipn_app. rewrite (skipn_all2 a) by lia. rewrite L, Nat.sub_diag. cbn [skipn app]. rewrite app_nil_r. reflexivity.
Qed.
Lemma inv_level_length len a y : length a = len -> (6 <= len)%nat -> inv_level len a = Ok y -> length y = len.
Proof.
  intros L L6 H. unfold inv_level in H. destruct (Nat.odd len) eqn:O; [discriminate|].
  assert (Ev : Nat.even len = true) by (rewrite <- Nat.negb_odd, O; reflexivity).
  pose proof (half_even len Ev) as N2. set (half := (len / 2)%nat) in *.
  set (hl := interleave _ _) in H. set (ll := interleave (firstn half a) _) in H.
  assert (Lhl : length hl = len) by (unfold hl; rewrite interleave_length; rewrite repeat_length; rewrite ?firstn_length, ?skipn_length; lia).
  assert (Lll : length ll = len) by (unfold ll; rewrite interleave_length; rewrite ?repeat_length, firstn_length; lia).
  destruct (symconv_ok hl hpr 4 eq_refl ltac:(lia) ltac:(lia)) as (hs & E1 & Lhs & _). rewrite E1 in H. cbn [obind] in H.
  destruct (symconv_ok ll lpr 3 eq_refl ltac:(lia) ltac:(lia)) as (ls & E2 & Lls & _). rewrite E2 in H. cbn [obind] in H.
  injection H as <-. rewrite app_length, map_length, combine_length, skipn_length. lia.
Qed.

(** Blocks that can be halved [n] times, to lengths of at least 3. *)
Definition halves (n len : nat) : Prop := exists m, (3 <= m)%nat /\ len = (m * 2 ^ n)%nat.
Lemma halves_S n len : halves (S n) len -> Nat.even len = true /\ (6 <= len)%nat /\ halves n (len / 2).
Proof.
  intros (m & Hm & ->). pose proof (Nat.pow_nonzero 2 n ltac:(lia)). rewrite Nat.pow_succ_r'. replace (m * (2 * 2 ^ n))%nat with (2 * (m * 2 ^ n))%nat by lia.
  split; [rewrite Nat.even_mul; reflexivity|]. split; [nia|]. exists m. split; [exact Hm|]. rewrite (Nat.mul_comm 2), Nat.div_mul by lia. reflexivity.
Qed.
Lemma inv_levels_apart n : forall len a rest, length a = len -> halves n len ->
  inv_levels n len (a ++ rest) = (do y <- inv_levels n len a; Ok (y ++ rest)) /\ (forall y, inv_levels n len a = Ok y -> length y = len).
Proof.
  induction n as [|n IH]; intros len a rest L H; [split; [reflexivity|intros y E; injection E as <-; exact L]|].
  destruct (halves_S n len H) as (Ev & L6 & H'). pose proof (half_even len Ev) as N2.
  assert (La : length (firstn (len / 2) a) = (len / 2)%nat) by (rewrite firstn_length; lia).
  assert (Lb : length (skipn (len / 2) a) = (len / 2)%nat) by (rewrite skipn_length; lia).
  rewrite <- (firstn_skipn (len / 2) a). set (a1 := firstn (len / 2) a) in *. set (a2 := skipn (len / 2) a) in *. clearbody a1 a2.
  destruct (IH (len / 2)%nat a1 (a2 ++ rest) La H') as [P1 _]. destruct (IH (len / 2)%nat a1 a2 La H') as [P2 Q].
  rewrite !inv_levels_last. rewrite <- app_assoc, P1, P2. destruct (inv_levels n (len / 2) a1) as [o| | |]; try (split; [reflexivity|discriminate]).
  cbn [obind]. specialize (Q o eq_refl). split.
  - rewrite app_assoc. apply inv_level_prefix. rewrite app_length. lia.
  - intros y E. apply (inv_level_length _ (o ++ a2)); [rewrite app_length; lia|exact L6|exact E].
Qed.

(** Coefficients that differ by at most [D b] in band [b]. *)
Fixpoint near (n : nat) (D : nat -> R) (c c' : list f64) : Prop :=
  match n with
  | O => Forall2 (close (D 0%nat)) c c'
  | S m => exists a a' h h', c = a ++ h /\ c' = a' ++ h' /\ length a = length h /\ length a' = length a /\ near m D a a' /\ Forall2 (close (D n)) h h'
  end.
Fixpoint total (n : nat) (D : nat -> R) : R :=
  match n with O => D 0%nat | S m => total m D + 116 / 100 * D n end.
Lemma total_pos n D : (forall b, 0 <= D b) -> 0 <= total n D.
Proof. intros H. induction n as [|n IH]; cbn; [apply H|]. pose proof (H (S n)). lra. Qed.

Lemma bpow_le_800 r : r <= bpow radix2 700 -> r <= bpow radix2 800.
Proof. intros H. eapply Rle_trans; [exact H|]. apply bpow_le. lia. Qed.

Lemma low_bounded x M low high : Nat.even (length x) = true -> (6 <= length x)%nat -> 1 <= M <= bpow radix2 800 -> all_bounded M x ->
  dwt_level x = Ok (low, high) -> all_bounded (2 * M) low /\ all_bounded (2 * M) high.
Proof.
  intros Ev L HM B D. destruct (dwt_level_ok x M Ev L ltac:(pose proof (two_bounds M (proj2 HM)); lra) B) as (low0 & high0 & D0 & Ll & Lh & Nl & Nh).
  rewrite D in D0. injection D0 as <- <-. assert (BX : forall j, Rabs (Xr x j) <= M) by (apply Xr_bound; [lia|exact B]).
  split; apply Forall_nth; intros k d Hk; rewrite (nth_indep _ d f64_0 Hk).
  - destruct (Nl k ltac:(lia)) as [F E]. split; [exact F|]. apply (low_bound M _ _ (proj1 HM) E). apply Lf_bound, BX.
  - destruct (Nh k ltac:(lia)) as [F E]. split; [exact F|]. apply (low_bound M _ _ (proj1 HM) E). pose proof (Hf_bound (Xr x) M (2 * Z.of_nat k + 1) BX). lra.
Qed.

Lemma tr_ok n : forall x M, halves n (length x) -> 1 <= M -> M * 2 ^ n <= bpow radix2 700 -> all_bounded M x ->
  exists c, tr n x = Ok c /\ length c = length x /\ all_bounded (M * 2 ^ n) c.
Proof.
  induction n as [|n IH]; intros x M H HM HB B.
  - exists x. cbn. rewrite Rmult_1_r. repeat split; assumption.
  - destruct (halves_S n _ H) as (Ev & L6 & H'). cbn [pow] in HB.
    assert (P : 1 <= 2 ^ n) by (apply pow_R1_Rle; lra).
    assert (M1 : M <= bpow radix2 800) by (apply bpow_le_800; nra).
    destruct (dwt_level_ok x M Ev L6 ltac:(pose proof (two_bounds M M1); lra) B) as (low & high & D & Ll & Lh & _).
    destruct (low_bounded x M low high Ev L6 (conj HM M1) B D) as [Bl Bh].
    destruct (IH low (2 * M)) as (c & E & Lc & Bc).
    + rewrite Ll. exact H'.
    + lra.
    + nra.
    + exact Bl.
    + exists (c ++ high). cbn [tr]. rewrite D. cbn [obind]. rewrite E. cbn [obind]. split; [reflexivity|].
      split; [rewrite app_length, Lc, Ll, Lh; pose proof (half_even _ Ev); lia|].
      cbn [pow]. apply Forall_app. split; [replace (M * (2 * 2 ^ n)) with (2 * M * 2 ^ n) by ring; exact Bc|].
      eapply Forall_impl; [|exact Bh]. intros v [F Bv]. split; [exact F|]. eapply Rle_trans; [exact Bv|]. nra.
Qed.

Theorem inverse_near n : forall x M D c c', halves n (length x) -> 1 <= M -> M * 2 ^ n <= bpow radix2 700 -> all_bounded M x ->
  (forall b, 0 <= D b) -> total n D <= bpow radix2 700 ->
  tr n x = Ok c -> near n D c c' ->
  exists y, inv_levels n (length x) c' = Ok y /\ length y = length x /\
    Forall2 (close (total n D + 8192 * eps * M * (2 ^ n - 1))) x y.
Proof.
  induction n as [|n IH]; intros x M D c c' H HM HB B HD HT E N.
  - cbn in E. injection E as <-. exists c'. cbn [inv_levels near total pow] in *. split; [reflexivity|].
    split; [symmetry; apply (Forall2_length _ _ _ N)|]. replace (D 0%nat + 8192 * eps * M * (1 - 1)) with (D 0%nat) by ring. exact N.
  - destruct (halves_S n _ H) as (Ev & L6 & H'). cbn [pow] in HB. assert (P : 1 <= 2 ^ n) by (apply pow_R1_Rle; lra).
    assert (M1 : M <= bpow radix2 800) by (apply bpow_le_800; nra).
    cbn [tr] in E. destruct (dwt_level x) as [[low high]| | |] eqn:Dw; try discriminate. cbn [obind] in E.
    destruct (tr n low) as [a| | |] eqn:Et; try discriminate. cbn [obind] in E. injection E as <-.
    destruct (dwt_level_length x low high Dw) as (Ll & Lh & _).
    destruct (low_bounded x M low high Ev L6 (conj HM M1) B Dw) as [Bl Bh].
    destruct N as (a0 & a' & h & h' & Ec & -> & La & La' & Na & Nh).
    destruct (tr_ok n low (2 * M)) as (a1 & Et' & Lc & _); [rewrite Ll; exact H'|lra|nra|exact Bl|]. rewrite Et in Et'. injection Et' as <-.
    assert (Ea : a0 = a /\ h = high).
    { pose proof (half_even _ Ev).
      assert (Lt : length a0 = length a). { assert (length (a ++ high) = length (a0 ++ h)) by (rewrite Ec; reflexivity). rewrite !app_length in *. lia. }
      clear -Ec Lt. revert a0 Ec Lt. induction a as [|v a IHa]; intros [|w a0] Ec Lt; try discriminate; cbn in *.
      - split; [reflexivity|]. symmetry. exact Ec.
      - injection Ec as -> Ec. destruct (IHa a0 Ec ltac:(lia)) as [-> ->]. split; reflexivity. }
    destruct Ea as [-> ->]. cbn [total] in HT. pose proof (total_pos n D HD) as TP. pose proof (HD (S n)) as DP.
    destruct (IH low (2 * M) D a a') as (z & Ez & Lz & Cz); try assumption; [rewrite Ll; exact H'|lra|nra|lra|].
    rewrite inv_levels_last. rewrite Ll in Ez.
    destruct (inv_levels_apart n (length x / 2) a' h' ltac:(lia) H') as [Ap _]. rewrite Ap, Ez. cbn [obind].
    set (dl := total n D + 8192 * eps * (2 * M) * (2 ^ n - 1)) in *.
    assert (P2 : 0 <= 8192 * eps * (2 * M) * (2 ^ n - 1)) by (repeat apply Rmult_le_pos; unfold eps; lra).
    assert (P3 : 8192 * eps * (2 * M) * (2 ^ n - 1) <= bpow radix2 700).
    { eapply Rle_trans; [|exact HB]. replace (M * (2 * 2 ^ n)) with (1 * (2 * M) * (2 ^ n)) by ring.
      apply Rmult_le_compat; try lra; [repeat apply Rmult_le_pos; unfold eps; lra|]. apply Rmult_le_compat_r; [lra|]. unfold eps. lra. }
    assert (B78 : 2 * bpow radix2 700 <= bpow radix2 800).
    { change 2 with (bpow radix2 1) at 1. rewrite <- bpow_plus. apply bpow_le. lia. }
    destruct (inv_level_close x low high z h' M dl (D (S n)) Ev L6 (conj HM M1) B Dw) as (y & Ey & Ly & Cy); try assumption.
    { unfold dl. lra. }
    { split; [exact DP|]. lra. }
    exists y. split; [exact Ey|]. split; [exact Ly|]. cbn [total pow].
    replace (total n D + 116 / 100 * D (S n) + 8192 * eps * M * (2 * 2 ^ n - 1)) with (dl + 116 / 100 * D (S n) + 8192 * eps * M) by (unfold dl; ring).
    exact Cy.
Qed.
