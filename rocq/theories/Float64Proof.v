(** Operations on [double] away from overflow. *)
From Coq Require Import Reals Psatz.
From Flocq Require Import Core.Core.
Require Import Flocq.Prop.Relative.
From Verif Require Import Base FloatBase FloatModel FloatSpec FloatProof.
Local Open Scope R_scope.

Lemma add64_ok x y : is_finite x = true -> is_finite y = true -> Rabs (B2R x + B2R y) <= bpow radix2 1000 ->
  B2R (add64 x y) = rnd64 (B2R x + B2R y) /\ is_finite (add64 x y) = true.
Proof.
  intros Hx Hy B. pose proof (Bplus_correct 53 1024 _ _ mode_NE x y Hx Hy) as H.
  unfold add64. rewrite Rlt_bool_true in H.
  - destruct H as (H1 & H2 & _). split; [exact H1|exact H2].
  - eapply Rle_lt_trans; [apply (rnd_bound (-1074) 53 _ _ eq_refl fmt64_big B)|apply bpow_lt; reflexivity].
Qed.
Lemma sub64_ok x y : is_finite x = true -> is_finite y = true -> Rabs (B2R x - B2R y) <= bpow radix2 1000 ->
  B2R (sub64 x y) = rnd64 (B2R x - B2R y) /\ is_finite (sub64 x y) = true.
Proof.
  intros Hx Hy B. pose proof (Bminus_correct 53 1024 _ _ mode_NE x y Hx Hy) as H.
  unfold sub64. rewrite Rlt_bool_true in H.
  - destruct H as (H1 & H2 & _). split; [exact H1|exact H2].
  - eapply Rle_lt_trans; [apply (rnd_bound (-1074) 53 _ _ eq_refl fmt64_big B)|apply bpow_lt; reflexivity].
Qed.
Lemma div64_ok (x y : f64) : is_finite x = true -> B2R y <> 0 -> Rabs (B2R x / B2R y) <= bpow radix2 1000 ->
  B2R (div64 x y) = rnd64 (B2R x / B2R y) /\ is_finite (div64 x y) = true.
Proof.
  intros Hx Hy B. pose proof (Bdiv_correct 53 1024 _ _ mode_NE x y Hy) as H.
  unfold div64. rewrite Rlt_bool_true in H.
  - destruct H as (H1 & H2 & _). rewrite Hx in H2. split; [exact H1|exact H2].
  - eapply Rle_lt_trans; [apply (rnd_bound (-1074) 53 _ _ eq_refl fmt64_big B)|apply bpow_lt; reflexivity].
Qed.

Lemma rnd64_0 : rnd64 0 = 0.
Proof. apply round_0. typeclasses eauto. Qed.
Lemma fmt64_Z z : (Z.abs z <= 2 ^ 53)%Z -> fmt64 (IZR z).
Proof. intros H. replace (IZR z) with (IZR z * bpow radix2 0) by (cbn; ring). apply fmt_Z; lia. Qed.

(** Comparisons of finite numbers. *)
Lemma flt_true {p e} (x y : binary_float p e) : is_finite x = true -> is_finite y = true ->
  B2R x < B2R y -> flt x y = true.
Proof. intros Hx Hy H. apply (flt_R x y Hx Hy), H. Qed.
Lemma flt_false {p e} (x y : binary_float p e) : is_finite x = true -> is_finite y = true ->
  B2R y <= B2R x -> flt x y = false.
Proof. intros Hx Hy H. destruct (flt x y) eqn:E; [|reflexivity]. apply (flt_R x y Hx Hy) in E. lra. Qed.
Lemma fle_R {p e} (x y : binary_float p e) : is_finite x = true -> is_finite y = true ->
  fle x y = Rle_bool (B2R x) (B2R y).
Proof.
  intros Hx Hy. unfold fle, Rle_bool. rewrite Bcompare_correct by assumption.
  destruct (Rcompare (B2R x) (B2R y)); reflexivity.
Qed.
