(** The filters of the wavelet transform invert each other up to 10^-14. *)
From Coq Require Import Reals Lra Lia.
From Flocq Require Import Core.
From Verif Require Import Base FloatBase FloatModel FloatProof Float64Proof WaveletModel WaveletTransform.
Open Scope R_scope.

Definition Lf (X : Z -> R) (i : Z) : R := rdot lp (fun t => X (i + 4 - Z.of_nat t)%Z).
Definition Hf (X : Z -> R) (i : Z) : R := rdot hp (fun t => X (i + 3 - Z.of_nat t)%Z).

Lemma opp_R (x : f64) : B2R (Bopp x) = - B2R x.
Proof. apply B2R_Bopp. Qed.
Definition l0 := 7680426906092132 / 9007199254740992.
Definition l1 := 6798685439622839 / 18014398509481984.
Definition l2 := 7971328424270286 / 72057594037927936.
Definition l3 := 6874140273552989 / 288230376151711744.
Definition l4 := 5451654980009730 / 144115188075855872.
Definition h0 := 7102047056463097 / 9007199254740992.
Definition h1 := 7531680823560150 / 18014398509481984.
Definition h2 := 5863963071498637 / 144115188075855872.
Definition h3 := 4650516604137494 / 72057594037927936.
Ltac const k := unfold B2R, F2R; cbn -[bpow]; change (Z.neg k) with (Z.opp (Z.pos k)); rewrite (bpow_inv (Z.pos k)) by lia; cbn; lra.
Lemma LP_0R : B2R LP_0 = l0. Proof. unfold LP_0, l0. const 53%positive. Qed.
Lemma LP_1R : B2R LP_1 = l1. Proof. unfold LP_1, l1. const 54%positive. Qed.
Lemma LP_2R : B2R LP_2 = - l2. Proof. unfold LP_2, l2. const 56%positive. Qed.
Lemma LP_3R : B2R LP_3 = - l3. Proof. unfold LP_3, l3. const 58%positive. Qed.
Lemma LP_4R : B2R LP_4 = l4. Proof. unfold LP_4, l4. const 57%positive. Qed.
Lemma HP_0R : B2R HP_0 = - h0. Proof. unfold HP_0, h0. const 53%positive. Qed.
Lemma HP_1R : B2R HP_1 = h1. Proof. unfold HP_1, h1. const 54%positive. Qed.
Lemma HP_2R : B2R HP_2 = h2. Proof. unfold HP_2, h2. const 57%positive. Qed.
Lemma HP_3R : B2R HP_3 = - h3. Proof. unfold HP_3, h3. const 56%positive. Qed.

Ltac taps := unfold rdot, lp, hp, lpr, hpr; cbn [length seq fold_left nth Nat.sub]; rewrite ?opp_R, ?LP_0R, ?LP_1R, ?LP_2R, ?LP_3R, ?LP_4R, ?HP_0R, ?HP_1R, ?HP_2R, ?HP_3R.
Lemma Lf_eq X i : Lf X i = l0 * X i + l1 * (X (i + 1)%Z + X (i - 1)%Z) - l2 * (X (i + 2)%Z + X (i - 2)%Z)
  - l3 * (X (i + 3)%Z + X (i - 3)%Z) + l4 * (X (i + 4)%Z + X (i - 4)%Z).
Proof.
  unfold Lf. taps. cbn [Z.of_nat Pos.of_succ_nat Pos.succ].
  replace (i + 4 - 0)%Z with (i + 4)%Z by ring. replace (i + 4 - 1)%Z with (i + 3)%Z by ring. replace (i + 4 - 2)%Z with (i + 2)%Z by ring.
  replace (i + 4 - 3)%Z with (i + 1)%Z by ring. replace (i + 4 - 4)%Z with i by ring. replace (i + 4 - 5)%Z with (i - 1)%Z by ring.
  replace (i + 4 - 6)%Z with (i - 2)%Z by ring. replace (i + 4 - 7)%Z with (i - 3)%Z by ring. replace (i + 4 - 8)%Z with (i - 4)%Z by ring. ring.
Qed.
Lemma Hf_eq X i : Hf X i = - h0 * X i + h1 * (X (i + 1)%Z + X (i - 1)%Z) + h2 * (X (i + 2)%Z + X (i - 2)%Z) - h3 * (X (i + 3)%Z + X (i - 3)%Z).
Proof.
  unfold Hf. taps. cbn [Z.of_nat Pos.of_succ_nat Pos.succ].
  replace (i + 3 - 0)%Z with (i + 3)%Z by ring. replace (i + 3 - 1)%Z with (i + 2)%Z by ring. replace (i + 3 - 2)%Z with (i + 1)%Z by ring.
  replace (i + 3 - 3)%Z with i by ring. replace (i + 3 - 4)%Z with (i - 1)%Z by ring. replace (i + 3 - 5)%Z with (i - 2)%Z by ring.
  replace (i + 3 - 6)%Z with (i - 3)%Z by ring. ring.
Qed.
(** Synthesis. *)
Definition Ls (Y : Z -> R) (i : Z) : R := rdot lpr (fun t => Y (i + 3 - Z.of_nat t)%Z).
Definition Hs (Y : Z -> R) (i : Z) : R := rdot hpr (fun t => Y (i + 4 - Z.of_nat t)%Z).
Lemma Ls_eq X i : Ls X i = h0 * X i + h1 * (X (i + 1)%Z + X (i - 1)%Z) - h2 * (X (i + 2)%Z + X (i - 2)%Z) - h3 * (X (i + 3)%Z + X (i - 3)%Z).
Proof.
  unfold Ls. taps. cbn [Z.of_nat Pos.of_succ_nat Pos.succ].
  replace (i + 3 - 0)%Z with (i + 3)%Z by ring. replace (i + 3 - 1)%Z with (i + 2)%Z by ring. replace (i + 3 - 2)%Z with (i + 1)%Z by ring.
  replace (i + 3 - 3)%Z with i by ring. replace (i + 3 - 4)%Z with (i - 1)%Z by ring. replace (i + 3 - 5)%Z with (i - 2)%Z by ring.
  replace (i + 3 - 6)%Z with (i - 3)%Z by ring. ring.
Qed.
Lemma Hs_eq X i : Hs X i = - l0 * X i + l1 * (X (i + 1)%Z + X (i - 1)%Z) + l2 * (X (i + 2)%Z + X (i - 2)%Z)
  - l3 * (X (i + 3)%Z + X (i - 3)%Z) - l4 * (X (i + 4)%Z + X (i - 4)%Z).
Proof.
  unfold Hs. taps. cbn [Z.of_nat Pos.of_succ_nat Pos.succ].
  replace (i + 4 - 0)%Z with (i + 4)%Z by ring. replace (i + 4 - 1)%Z with (i + 3)%Z by ring. replace (i + 4 - 2)%Z with (i + 2)%Z by ring.
  replace (i + 4 - 3)%Z with (i + 1)%Z by ring. replace (i + 4 - 4)%Z with i by ring. replace (i + 4 - 5)%Z with (i - 1)%Z by ring.
  replace (i + 4 - 6)%Z with (i - 2)%Z by ring. replace (i + 4 - 7)%Z with (i - 3)%Z by ring. replace (i + 4 - 8)%Z with (i - 4)%Z by ring. ring.
Qed.

(** Keep the values at even or at odd positions. *)
Definition at_even (Y : Z -> R) (i : Z) : R := if Z.even i then Y i else 0.
Definition at_odd (Y : Z -> R) (i : Z) : R := if Z.even i then 0 else Y i.

Ltac norm_index X i :=
  repeat match goal with |- context [X ?j] =>
    lazymatch j with
    | (i + ?a + ?b)%Z => let c := eval cbv in (a + b)%Z in replace j with (i + c)%Z by ring
    | (i + ?a - ?b)%Z => let c := eval cbv in (a - b)%Z in replace j with (i + c)%Z by ring
    | (i - ?a + ?b)%Z => let c := eval cbv in (b - a)%Z in replace j with (i + c)%Z by ring
    | (i - ?a - ?b)%Z => let c := eval cbv in (- a - b)%Z in replace j with (i + c)%Z by ring
    | (i + ?a)%Z => fail
    | (i - ?a)%Z => let c := eval cbv in (- a)%Z in replace j with (i + c)%Z by ring
    end end; replace (i + 0)%Z with i by ring.
Ltac bound_values X HX :=
  repeat match goal with |- context [X ?j] =>
    let b := fresh "b" in pose proof (Raux.Rabs_le_inv _ _ (HX j)) as b; let v := fresh "v" in set (v := X j) in *; clearbody v
  end; clear HX.
Lemma inverse_even X M i : (forall j, Rabs (X j) <= M) -> Z.even i = true ->
  Rabs (Hs (at_odd (Hf X)) i + Ls (at_even (Lf X)) i - X i) <= / 100000000000000 * M.
Proof.
  intros HX E. rewrite Hs_eq, Ls_eq. unfold at_even, at_odd.
  rewrite !Z.even_add, !Z.even_sub, E. cbn [Z.even Bool.eqb]. rewrite !Lf_eq, !Hf_eq. norm_index X i. bound_values X HX.
  unfold l0, l1, l2, l3, l4, h0, h1, h2, h3. apply Rabs_le. split; lra.
Qed.
Lemma inverse_odd X M i : (forall j, Rabs (X j) <= M) -> Z.even i = false ->
  Rabs (Hs (at_odd (Hf X)) i + Ls (at_even (Lf X)) i - X i) <= / 100000000000000 * M.
Proof.
  intros HX E. rewrite Hs_eq, Ls_eq. unfold at_even, at_odd.
  rewrite !Z.even_add, !Z.even_sub, E. cbn [Z.even Bool.eqb]. rewrite !Lf_eq, !Hf_eq. norm_index X i. bound_values X HX.
  unfold l0, l1, l2, l3, l4, h0, h1, h2, h3. apply Rabs_le. split; lra.
Qed.
Lemma inverse X M i : (forall j, Rabs (X j) <= M) -> Rabs (Hs (at_odd (Hf X)) i + Ls (at_even (Lf X)) i - X i) <= / 100000000000000 * M.
Proof. intros H. destruct (Z.even i) eqn:E; [apply inverse_even|apply inverse_odd]; assumption. Qed.

(** The gains of the filters. *)
Lemma Lf_bound X M i : (forall j, Rabs (X j) <= M) -> Rabs (Lf X i) <= 19522 / 10000 * M.
Proof. intros HX. rewrite Lf_eq. bound_values X HX. unfold l0, l1, l2, l3, l4. apply Rabs_le. split; lra. Qed.
Lemma Hf_bound X M i : (forall j, Rabs (X j) <= M) -> Rabs (Hf X i) <= 18352 / 10000 * M.
Proof. intros HX. rewrite Hf_eq. bound_values X HX. unfold h0, h1, h2, h3. apply Rabs_le. split; lra. Qed.
Lemma Ls_bound X M i : (forall j, Rabs (X j) <= M) -> Rabs (Ls (at_even X) i) <= 966 / 1000 * M.
Proof.
  intros HX. rewrite Ls_eq. unfold at_even. rewrite !Z.even_add, !Z.even_sub. destruct (Z.even i); cbn [Z.even Bool.eqb];
  bound_values X HX; unfold h0, h1, h2, h3; apply Rabs_le; split; lra.
Qed.
Lemma Hs_bound X M i : (forall j, Rabs (X j) <= M) -> Rabs (Hs (at_odd X) i) <= 115 / 100 * M.
Proof.
  intros HX. rewrite Hs_eq. unfold at_odd. rewrite !Z.even_add, !Z.even_sub. destruct (Z.even i); cbn [Z.even Bool.eqb];
  bound_values X HX; unfold l0, l1, l2, l3, l4; apply Rabs_le; split; lra.
Qed.
