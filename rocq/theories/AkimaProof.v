(** Proofs about Akima curves. *)
From Coq Require Import Reals Psatz.
From Flocq Require Import Core.Core.
From Verif Require Import Base FloatBase FloatModel FloatProof Float64Proof TypesModel ToolsModel SynthModel SynthSpec SynthProof SynthMore SynthCurve InterpModel InterpSpec InterpBase.
Local Open Scope Z_scope.
Ltac Zify.zify_post_hook ::= Z.div_mod_to_equations.

Lemma at_map (f : nat -> f64) n i : (i < n)%nat -> at_ (map f (seq 0 n)) i = f i.
Proof.
  intros H. unfold at_. rewrite (nth_indep _ f64_0 (f 0%nat)) by (rewrite map_length, seq_length; exact H).
  rewrite map_nth, seq_nth by exact H. reflexivity.
Qed.
Lemma time_nth points i p : nth_error points i = Some p -> time_of points i = fst p /\ value_of points i = snd p.
Proof. intros H. unfold time_of, value_of. rewrite (nth_error_nth _ _ _ H). split; reflexivity. Qed.
Lemma last_nth {A} (l : list A) d : last l d = nth (length l - 1) l d.
Proof.
  induction l as [|x l IH]; [reflexivity|]. destruct l as [|y l]; [reflexivity|].
  change (last (x :: y :: l) d) with (last (y :: l) d). rewrite IH. cbn [length]. replace (S (S (length l)) - 1)%nat with (S (S (length l) - 1)) by lia. reflexivity.
Qed.
Lemma last_time_of points : last_time points = time_of points (length points - 1).
Proof. unfold last_time, time_of. rewrite last_nth. reflexivity. Qed.

(** Results of operations with a larger bound. *)
Lemma bd_add_to j k x y : 0 <= j <= 900 /\ j + 1 <= k -> bd j x -> bd j y -> bd k (add64 x y).
Proof. intros H Hx Hy. apply (bd_le (j + 1)); [apply bd_add; [lia|assumption..]|lia]. Qed.
Lemma bd_sub_to j k x y : 0 <= j <= 900 /\ j + 1 <= k -> bd j x -> bd j y -> bd k (sub64 x y).
Proof. intros H Hx Hy. apply (bd_le (j + 1)); [apply bd_sub; [lia|assumption..]|lia]. Qed.
Lemma bd_mul_to i j k x y : 0 <= i <= 450 -> 0 <= j <= 450 /\ i + j <= k -> bd i x -> bd j y -> bd k (mul64 x y).
Proof. intros H H' Hx Hy. apply (bd_le (i + j)); [apply bd_mul; [lia|lia|assumption..]|lia]. Qed.

(** ** The loop. *)
Section L.
Variable fpow : f64 -> f64 -> f64.
Variables (points : list point) (m b : list f64).
Notation T := (time_of points).
Lemma loop_count : forall s i count ys c, akima_loop fpow points m b s i count = (ys, c) ->
  T (i + s) - T i <= c - count /\ Z.of_nat (length ys) = c - count /\
  ((exists k, (i <= k < i + s)%nat /\ T (k + 1) < T k) -> T (i + s) - T i < c - count).
Proof.
  induction s as [|s IH]; intros i count ys c H; cbn [akima_loop] in H.
  - injection H as <- <-. rewrite Nat.add_0_r. cbn. split; [lia|]. split; [lia|]. intros (k & K & _). lia.
  - cbv zeta in H. destruct (akima_loop fpow points m b s (i + 1) _) as [rest c'] eqn:E in H. injection H as <- <-.
    destruct (IH _ _ _ _ E) as (I1 & I2 & I3). rewrite app_length, map_length, seq_length.
    replace (i + 1 + s)%nat with (i + S s)%nat in * by lia.
    split; [lia|]. split; [lia|]. intros (k & K & Hk). destruct (Nat.eq_dec k i) as [-> |Ne]; [lia|].
    assert (Q : T (i + S s) - T (i + 1) < c' - (count + Z.of_nat (Z.to_nat (T (i + 1) - T i)))) by (apply I3; exists k; split; [lia|exact Hk]). lia.
Qed.
Lemma loop_values : forall s i count ys c, akima_loop fpow points m b s i count = (ys, c) ->
  (forall k, (i <= k < i + s)%nat -> T k <= T (k + 1)) -> count = T i ->
  c = T (i + s) /\
  forall k x, (i <= k < i + s)%nat -> T k <= x < T (k + 1) ->
    nth_error ys (Z.to_nat (x - T i)) = Some (akima_at (akima_d fpow points m b k) (akima_c points m b k) (at_ b k) (value_of points k) (x - T k)).
Proof.
  induction s as [|s IH]; intros i count ys c H Ho Hc; cbn [akima_loop] in H.
  - injection H as <- <-. rewrite Nat.add_0_r. split; [exact Hc|]. intros k x K. lia.
  - cbv zeta in H. destruct (akima_loop fpow points m b s (i + 1) _) as [rest c'] eqn:E in H. injection H as <- <-.
    assert (Oi : T i <= T (i + 1)) by (apply Ho; lia).
    destruct (IH _ _ _ _ E) as (I1 & I2); [intros k K; apply Ho; lia|lia|].
    replace (i + 1 + s)%nat with (i + S s)%nat in * by lia. split; [exact I1|].
    assert (Mono : forall k, (i + 1 <= k <= i + S s)%nat -> T (i + 1) <= T k).
    { induction k as [|k IHk]; intros K; [lia|]. destruct (Nat.eq_dec (S k) (i + 1)) as [-> |]; [lia|].
      specialize (IHk ltac:(lia)). specialize (Ho k ltac:(lia)). replace (k + 1)%nat with (S k) in Ho by lia. lia. }
    intros k x K Hx. destruct (Nat.eq_dec k i) as [-> |Ne].
    + rewrite nth_error_app1 by (rewrite map_length, seq_length; lia).
      rewrite nth_error_map, (nth_error_nth' _ 0%nat) by (rewrite seq_length; lia). rewrite seq_nth by lia. cbn [option_map]. do 2 f_equal. lia.
    + rewrite nth_error_app2; rewrite map_length, seq_length; specialize (Mono k ltac:(lia)); [|lia].
      rewrite <- (I2 k x ltac:(lia) Hx). f_equal. lia.
Qed.
Lemma loop_Forall (P : f64 -> Prop) : forall s i count ys c, akima_loop fpow points m b s i count = (ys, c) ->
  (forall k x, (i <= k < i + s)%nat -> count <= x < c -> P (akima_at (akima_d fpow points m b k) (akima_c points m b k) (at_ b k) (value_of points k) (x - T k))) ->
  Forall P ys.
Proof.
  induction s as [|s IH]; intros i count ys c H HP; cbn [akima_loop] in H.
  - injection H as <- <-. constructor.
  - cbv zeta in H. destruct (akima_loop fpow points m b s (i + 1) _) as [rest c'] eqn:E in H. injection H as <- <-.
    pose proof (loop_count _ _ _ _ _ E) as (_ & LC & _). apply Forall_app. split.
    + apply Forall_map, Forall_forall. intros k Hk. apply in_seq in Hk. apply (HP i (count + Z.of_nat k)); lia.
    + apply (IH _ _ _ _ E). intros k x K X. apply HP; lia.
Qed.
End L.

(** ** Out of order. *)
Lemma akima_order fpow points : (3 <= length points)%nat -> time_of points 0 = 0 -> -1 <= last_time points < 2 ^ 31 -> ~ ordered points ->
  akimaInterpolation fpow points = UB.
Proof.
  intros Hn H0 Hl No. unfold akimaInterpolation. replace (length points <? 3)%nat with false by (symmetry; apply Nat.ltb_ge; exact Hn). cbv zeta.
  destruct (Z.eq_dec (last_time points) (2 ^ 31 - 1)) as [Eq|Ne]; [rewrite Eq; reflexivity|].
  rewrite int_ok_fits by lia. cbn [obind]. replace (last_time points + 1 <? 0) with false by lia.
  destruct (akima_loop _ _ _ _ _ _ _) as [ys c] eqn:E. destruct (loop_count _ _ _ _ _ _ _ _ _ E) as (_ & _ & St).
  replace (last_time points + 1 <=? c) with true; [reflexivity|]. symmetry. apply Z.leb_le.
  assert (Q : exists k, (0 <= k < 0 + (length points - 1))%nat /\ time_of points (k + 1) < time_of points k).
  { destruct (List.find (fun k => time_of points (k + 1) <? time_of points k) (seq 0 (length points - 1))) as [k|] eqn:F.
    - apply List.find_some in F as (I & F). apply in_seq in I. exists k. split; [lia|]. lia.
    - exfalso. apply No. intros i p q Hp Hq. pose proof (proj1 (nth_error_Some points (S i)) ltac:(congruence)) as L.
      pose proof (List.find_none _ _ F i ltac:(apply in_seq; lia)) as G. cbv beta in G.
      destruct (time_nth _ _ _ Hp) as (<- & _). destruct (time_nth _ _ _ Hq) as (<- & _). replace (S i) with (i + 1)%nat by lia. lia. }
  specialize (St Q). rewrite last_time_of. rewrite Nat.add_0_l, H0 in St. lia.
Qed.

(** ** Bounds. *)
Section B.
Variable fpow : f64 -> f64 -> f64.
Hypothesis Hpow : pow_faithful fpow.
Variable points : list point.
Hypothesis Hn : (3 <= length points)%nat.
Hypothesis Hinc : increasing points.
Hypothesis Hfirst : time_of points 0 = 0.
Hypothesis Hlast : last_time points < 2 ^ 31 - 1.
Variable K : Z.
Hypothesis HK : 1 <= K <= 128.
Hypothesis Hval : forall i, (i < length points)%nat -> bd K (value_of points i).
Notation n := (length points).
Notation T := (time_of points).
Notation m := (akima_m points).
Notation m1 := (akima_m1 m).
Notation bs := (map (akima_b fpow m1 n) (seq 0 n)).

Lemma T_step i : (i + 1 < n)%nat -> T i < T (i + 1).
Proof.
  intros H. destruct (nth_error points i) as [p|] eqn:E; [|apply nth_error_None in E; lia].
  destruct (nth_error points (S i)) as [q|] eqn:F; [|apply nth_error_None in F; lia].
  replace (i + 1)%nat with (S i) by lia. rewrite (proj1 (time_nth _ _ _ E)), (proj1 (time_nth _ _ _ F)). exact (Hinc i p q E F).
Qed.
Lemma T_range i : (i < n)%nat -> 0 <= T i <= last_time points.
Proof.
  intros H. split.
  - induction i as [|i IH]; [lia|]. specialize (IH ltac:(lia)). pose proof (T_step i ltac:(lia)). replace (i + 1)%nat with (S i) in * by lia. lia.
  - rewrite last_time_of. remember (n - 1 - i)%nat as d eqn:Ed. revert i H Ed. induction d as [|d IH]; intros i H Ed; [replace (n - 1)%nat with i by lia; lia|].
    specialize (IH (i + 1)%nat ltac:(lia) ltac:(lia)). pose proof (T_step i ltac:(lia)). lia.
Qed.
Lemma dx_ge i : (i + 1 < n)%nat -> is_finite (akima_dx points i) = true /\ (1 <= B2R (akima_dx points i) <= bpow radix2 31)%R.
Proof.
  intros H. pose proof (T_step i H). pose proof (T_range i ltac:(lia)). pose proof (T_range (i + 1) H). unfold akima_dx.
  destruct (f64_of_Z_ok (T (i + 1) - T i)) as (E & F); [lia|]. split; [exact F|]. rewrite E, bpow_IZR by lia. split; apply IZR_le; lia.
Qed.
Lemma dx_abs i : (i + 1 < n)%nat -> (1 <= Rabs (B2R (akima_dx points i)))%R.
Proof. intros H. destruct (dx_ge i H) as (_ & B & _). rewrite Rabs_pos_eq; lra. Qed.
Lemma m_bd i : (i < n - 1)%nat -> bd (K + 1) (at_ m i).
Proof.
  intros H. unfold akima_m. rewrite at_map by exact H. apply bd_div; [lia| |apply dx_abs; lia].
  apply (bd_sub_to K); [lia|apply Hval; lia..].
Qed.
Lemma m_length : length m = (n - 1)%nat.
Proof. unfold akima_m. rewrite map_length, seq_length. reflexivity. Qed.
Lemma ends_bd x y : bd (K + 1) x -> bd (K + 1) y -> bd (K + 4) (sub64 (mul64 f64_3 x) (mul64 f64_2 y)) /\ bd (K + 4) (sub64 (mul64 f64_2 x) y).
Proof.
  intros Hx Hy. split.
  - apply (bd_sub_to (K + 3)); [lia|apply (bd_mul_to 2 (K + 1)); [lia|lia|exact bd_3|exact Hx]|].
    apply (bd_le (K + 2)); [apply (bd_mul_to 1 (K + 1)); [lia|lia|exact bd_2|exact Hy]|lia].
  - apply (bd_le (K + 3)); [|lia]. apply (bd_sub_to (K + 2)); [lia|apply (bd_mul_to 1 (K + 1)); [lia|lia|exact bd_2|exact Hx]|apply (bd_le (K + 1)); [exact Hy|lia]].
Qed.
Lemma m1_bd i : (i < n + 3)%nat -> bd (K + 4) (at_ m1 i).
Proof.
  intros H. unfold akima_m1, at_ at 1. rewrite m_length. cbv zeta.
  pose proof (m_bd 0 ltac:(lia)). pose proof (m_bd 1 ltac:(lia)). pose proof (m_bd (n - 1 - 1) ltac:(lia)). pose proof (m_bd (n - 1 - 2) ltac:(lia)).
  destruct i as [|[|i]]; cbn [app nth].
  - apply ends_bd; assumption.
  - apply ends_bd; assumption.
  - destruct (Nat.lt_ge_cases i (n - 1)) as [C|C].
    + rewrite app_nth1 by (rewrite m_length; exact C). apply (bd_le (K + 1)); [apply m_bd; exact C|lia].
    + rewrite app_nth2 by (rewrite m_length; exact C). rewrite m_length. destruct (i - (n - 1))%nat as [|[|j]] eqn:Ej; cbn [nth]; [apply ends_bd; assumption..|lia].
Qed.
Lemma dm_bd i : (i < n + 2)%nat -> bd (K + 5) (akima_dm m1 i) /\ (0 <= B2R (akima_dm m1 i))%R.
Proof.
  intros H. destruct (bd_sub_to (K + 4) (K + 5) (at_ m1 (i + 1)) (at_ m1 i) ltac:(lia) (m1_bd (i + 1) ltac:(lia)) (m1_bd i ltac:(lia))) as (F & B).
  unfold akima_dm, bd. rewrite B2R_Babs, is_finite_Babs, Rabs_Rabsolu. split; [split; assumption|apply Rabs_pos].
Qed.
Lemma f_bd i : (i < n)%nat -> bd (K + 6) (akima_f m1 i) /\ (B2R (akima_dm m1 (i + 2)) <= B2R (akima_f m1 i))%R /\ (B2R (akima_dm m1 i) <= B2R (akima_f m1 i))%R.
Proof.
  intros H. destruct (dm_bd (i + 2) ltac:(lia)) as (B2 & P2). destruct (dm_bd i ltac:(lia)) as (B0 & P0).
  unfold akima_f. split; [apply (bd_add_to (K + 5)); [lia|assumption..]|].
  assert (B : (Rabs (B2R (akima_dm m1 (i + 2)) + B2R (akima_dm m1 i)) <= bpow radix2 (K + 6))%R).
  { replace (K + 6) with (K + 5 + 1) by lia. rewrite bpow_double. eapply Rle_trans; [apply Rabs_triang|]. pose proof (proj2 B2). pose proof (proj2 B0). lra. }
  destruct (add64_ok _ _ (proj1 B2) (proj1 B0)) as (E & _); [eapply Rle_trans; [exact B|apply bpow1000; lia]|]. rewrite E. split.
  - rewrite <- (rnd64_id _ (fmt64_B2R (akima_dm m1 (i + 2)))) at 1. apply rnd64_le. lra.
  - rewrite <- (rnd64_id _ (fmt64_B2R (akima_dm m1 i))) at 1. apply rnd64_le. lra.
Qed.
Lemma max_ok : forall l mx, (forall i, In i l -> (i < n)%nat) -> bd (K + 6) mx ->
  bd (K + 6) (fold_left (fun mx i => if flt mx (akima_f m1 i) then akima_f m1 i else mx) l mx) /\
  (B2R mx <= B2R (fold_left (fun mx i => if flt mx (akima_f m1 i) then akima_f m1 i else mx) l mx))%R /\
  forall i, In i l -> (B2R (akima_f m1 i) <= B2R (fold_left (fun mx i => if flt mx (akima_f m1 i) then akima_f m1 i else mx) l mx))%R.
Proof.
  induction l as [|i l IH]; intros mx Hl Hm; cbn [fold_left]; [split; [exact Hm|]; split; [lra|]; intros i []|].
  destruct (f_bd i (Hl i (or_introl eq_refl))) as (Fb & _). set (mx' := if flt mx (akima_f m1 i) then akima_f m1 i else mx).
  assert (X : bd (K + 6) mx' /\ (B2R mx <= B2R mx')%R /\ (B2R (akima_f m1 i) <= B2R mx')%R).
  { unfold mx'. destruct (flt mx (akima_f m1 i)) eqn:E.
    - apply flt_R in E; [|apply Hm|apply Fb]. split; [exact Fb|]. split; lra.
    - split; [exact Hm|]. split; [lra|]. apply Rnot_lt_le. intros C. rewrite flt_true in E; [discriminate|apply Hm|apply Fb|exact C]. }
  destruct X as (X1 & X2 & X3). destruct (IH mx' (fun j J => Hl j (or_intror J)) X1) as (I1 & I2 & I3). split; [exact I1|]. split; [lra|].
  intros j [<-|J]; [lra|apply I3; exact J].
Qed.
Lemma b_bd i : (i < n)%nat -> bd (K + 5) (akima_b fpow m1 n i).
Proof.
  intros H. unfold akima_b. destruct (flt _ _) eqn:E.
  2:{ apply (bd_le (K + 4)); [apply m1_bd; lia|lia]. }
  destruct (f_bd i H) as ((Ff & Fb) & F2 & F0). destruct (dm_bd (i + 2) ltac:(lia)) as (B2 & P2). destruct (dm_bd i ltac:(lia)) as (B0 & P0).
  assert (Pos : (0 < B2R (akima_f m1 i))%R).
  { destruct (max_ok (seq 0 n) (f64_of_Z AKIMA_EPSILON)) as (M1 & M2 & M3).
    { intros j J. apply in_seq in J. lia. }
    { apply (bd_le 7); [apply bd_Z; [lia|reflexivity || (unfold AKIMA_EPSILON; lia)]|lia]. }
    fold (akima_max m1 n) in M1, M2, M3. destruct (proj2 Hpow) as (Fp & Pp). change 10 with AKIMA_THRESHOLD in Fp, Pp. change (-8) with AKIMA_THRESHOLD2 in Fp, Pp.
    set (th := fpow (f64_of_Z AKIMA_THRESHOLD) (f64_of_Z AKIMA_THRESHOLD2)) in *.
    assert (Pm : (0 <= B2R (akima_max m1 n))%R).
    { apply Rle_trans with (B2R (akima_f m1 0)); [|apply M3; apply in_seq; lia]. destruct (f_bd 0 ltac:(lia)) as (_ & G & _). destruct (dm_bd (0 + 2) ltac:(lia)) as (_ & G'). lra. }
    assert (Bp : bd 0 th) by (split; [exact Fp|]; change (bpow radix2 0) with 1%R; rewrite Rabs_pos_eq; lra).
    assert (Bm : bd (0 + (K + 6)) (mul64 th (akima_max m1 n))) by (apply bd_mul; [lia|lia|exact Bp|exact M1]).
    apply flt_R in E; [|apply Bm|exact Ff]. eapply Rle_lt_trans; [|exact E].
    destruct (mul64_ok th (akima_max m1 n) Fp (proj1 M1)) as (Em & _).
    { rewrite Rabs_mult. apply Rle_trans with (1 * bpow radix2 (K + 6))%R; [|rewrite Rmult_1_l; apply bpow1000; lia].
      apply Rmult_le_compat; [apply Rabs_pos|apply Rabs_pos|rewrite Rabs_pos_eq; lra|exact (proj2 M1)]. }
    rewrite Em, <- rnd64_0. apply rnd64_le. apply Rmult_le_pos; lra. }
  set (F := B2R (akima_f m1 i)) in *.
  assert (S1 : forall d x, bd (K + 5) d -> (0 <= B2R d <= F)%R -> bd (K + 4) x -> is_finite (mul64 d x) = true /\ (Rabs (B2R (mul64 d x)) <= F * bpow radix2 (K + 4))%R).
  { intros d x Hd Pd Hx. destruct (mul64_ok d x (proj1 Hd) (proj1 Hx)) as (Em & Fm).
    { rewrite Rabs_mult. apply Rle_trans with (bpow radix2 (K + 5) * bpow radix2 (K + 4))%R; [apply Rmult_le_compat; [apply Rabs_pos|apply Rabs_pos|apply Hd|apply Hx]|]. rewrite <- bpow_plus. apply bpow1000. lia. }
    split; [exact Fm|]. rewrite Em. apply rnd_bound; [lia|apply fmt64_scale; [apply fmt64_B2R|lia]|].
    rewrite Rabs_mult. apply Rmult_le_compat; [apply Rabs_pos|apply Rabs_pos|rewrite Rabs_pos_eq; lra|apply Hx]. }
  destruct (S1 (akima_dm m1 (i + 2)) (at_ m1 (i + 1)) B2 (conj P2 F2) (m1_bd (i + 1) ltac:(lia))) as (A1 & A2).
  destruct (S1 (akima_dm m1 i) (at_ m1 (i + 2)) B0 (conj P0 F0) (m1_bd (i + 2) ltac:(lia))) as (C1 & C2).
  set (u := mul64 (akima_dm m1 (i + 2)) (at_ m1 (i + 1))) in *. set (v := mul64 (akima_dm m1 i) (at_ m1 (i + 2))) in *.
  assert (Fle : (F <= bpow radix2 (K + 6))%R) by (rewrite <- (Rabs_pos_eq F); [exact Fb|lra]).
  assert (Bs : (Rabs (B2R u + B2R v) <= F * bpow radix2 (K + 5))%R).
  { replace (K + 5) with (K + 4 + 1) by lia. rewrite bpow_double. eapply Rle_trans; [apply Rabs_triang|]. rewrite Rmult_plus_distr_l. lra. }
  destruct (add64_ok u v A1 C1) as (Es & Fs).
  { eapply Rle_trans; [exact Bs|]. apply Rle_trans with (bpow radix2 (K + 6) * bpow radix2 (K + 5))%R; [apply Rmult_le_compat_r; [apply bpow_ge_0|exact Fle]|]. rewrite <- bpow_plus. apply bpow1000. lia. }
  assert (Bs2 : (Rabs (B2R (add64 u v)) <= F * bpow radix2 (K + 5))%R).
  { rewrite Es. apply rnd_bound; [lia|apply fmt64_scale; [apply fmt64_B2R|lia]|exact Bs]. }
  assert (Bq : (Rabs (B2R (add64 u v) / B2R (akima_f m1 i)) <= bpow radix2 (K + 5))%R).
  { fold F. unfold Rdiv. rewrite Rabs_mult, Rabs_inv, (Rabs_pos_eq F) by lra. apply Rmult_le_reg_r with F; [exact Pos|]. rewrite Rmult_assoc, Rinv_l by lra. lra. }
  destruct (div64_ok (add64 u v) (akima_f m1 i) Fs) as (Eq & Fq); [fold F; lra|eapply Rle_trans; [exact Bq|apply bpow1000; lia]|].
  split; [exact Fq|]. rewrite Eq. apply rnd64_bpow; [lia|exact Bq].
Qed.
Lemma bs_bd i : (i < n)%nat -> bd (K + 5) (at_ bs i).
Proof. intros H. rewrite at_map by exact H. apply b_bd. exact H. Qed.
Lemma c_bd i : (i + 1 < n)%nat -> bd (K + 8) (akima_c points m bs i).
Proof.
  intros H. unfold akima_c. apply bd_div; [lia| |apply dx_abs; exact H]. apply (bd_sub_to (K + 7)); [lia| |apply (bd_le (K + 5)); [apply bs_bd; exact H|lia]].
  apply (bd_sub_to (K + 6)); [lia| |apply (bd_mul_to 1 (K + 5)); [lia|lia|exact bd_2|apply bs_bd; lia]].
  apply (bd_le (K + 3)); [apply (bd_mul_to 2 (K + 1)); [lia|lia|exact bd_3|apply m_bd; lia]|lia].
Qed.
Lemma d_bd i : (i + 1 < n)%nat -> bd (K + 7) (akima_d fpow points m bs i).
Proof.
  intros H. unfold akima_d. apply bd_div; [lia| |].
  - apply (bd_sub_to (K + 6)); [lia|apply (bd_add_to (K + 5)); [lia|apply bs_bd; lia|apply bs_bd; exact H]|].
    apply (bd_le (K + 2)); [apply (bd_mul_to 1 (K + 1)); [lia|lia|exact bd_2|apply m_bd; lia]|lia].
  - destruct (dx_ge i H) as (F & D1 & D2). destruct (proj1 Hpow (akima_dx points i) F) as (_ & Q).
    { rewrite Rabs_pos_eq by lra. eapply Rle_trans; [exact D2|apply bpow_le; lia]. }
    assert (X : (1 <= B2R (fpow (akima_dx points i) f64_2))%R).
    { rewrite <- f64_1_R. apply Q; [reflexivity|]. rewrite f64_1_R. rewrite <- (Rmult_1_l 1). apply Rmult_le_compat; lra. }
    rewrite Rabs_pos_eq; lra.
Qed.
Lemma at_finite d c b y x : bd (K + 7) d -> bd (K + 8) c -> bd (K + 5) b -> bd K y -> Z.abs x <= 2 ^ 31 -> is_finite (akima_at d c b y x) = true.
Proof.
  intros Hd Hc Hb Hy Hx. pose proof (bd_Z 31 x ltac:(lia) Hx) as X. unfold akima_at.
  apply (bd_add_to 231 232); [lia| |apply (bd_le K); [exact Hy|lia]].
  apply (bd_le (200 + 31)); [|lia]. apply bd_mul; [lia|lia| |exact X].
  apply (bd_add_to 199 200); [lia| |apply (bd_le (K + 5)); [exact Hb|lia]].
  apply (bd_le (168 + 31)); [|lia]. apply bd_mul; [lia|lia| |exact X].
  apply (bd_add_to 167 168); [lia| |apply (bd_le (K + 8)); [exact Hc|lia]].
  apply (bd_le (31 + (K + 7))); [|lia]. apply bd_mul; [lia|lia|exact X|exact Hd].
Qed.
Lemma mul_0_R x y : is_finite x = true -> is_finite y = true -> (B2R x * B2R y = 0)%R -> B2R (mul64 x y) = 0%R /\ is_finite (mul64 x y) = true.
Proof.
  intros Fx Fy E. destruct (mul64_ok x y Fx Fy) as (M & F); [rewrite E, Rabs_R0; apply bpow_ge_0|]. split; [|exact F]. rewrite M, E. apply rnd64_0.
Qed.
Lemma add_0_R x y k : is_finite x = true -> B2R x = 0%R -> 0 <= k <= 900 -> bd k y -> B2R (add64 x y) = B2R y /\ is_finite (add64 x y) = true.
Proof.
  intros Fx Ex Hk (Fy & By). destruct (add64_ok x y Fx Fy) as (A & F); [rewrite Ex, Rplus_0_l; eapply Rle_trans; [exact By|apply bpow1000; lia]|].
  split; [|exact F]. rewrite A, Ex, Rplus_0_l. apply rnd64_id, fmt64_B2R.
Qed.
Lemma at_0 d c b y : bd (K + 7) d -> bd (K + 8) c -> bd (K + 5) b -> bd K y -> B2R (akima_at d c b y 0) = B2R y.
Proof.
  intros Hd Hc Hb Hy. unfold akima_at. destruct (f64_of_Z_ok 0 ltac:(lia)) as (Z0 & F0). set (z := f64_of_Z 0) in *.
  destruct (mul_0_R z d F0 (proj1 Hd)) as (M1 & G1); [rewrite Z0; ring|].
  destruct (add_0_R _ c (K + 8) G1 M1 ltac:(lia) Hc) as (_ & G2).
  destruct (mul_0_R _ z G2 F0) as (M3 & G3); [rewrite Z0; ring|].
  destruct (add_0_R _ b (K + 5) G3 M3 ltac:(lia) Hb) as (_ & G4).
  destruct (mul_0_R _ z G4 F0) as (M5 & G5); [rewrite Z0; ring|].
  apply (add_0_R _ y K G5 M5 ltac:(lia) Hy).
Qed.

Lemma akima_ok : exists ys, akimaInterpolation fpow points = Ok ys /\ Z.of_nat (length ys) = last_time points + 1 /\ numbers ys /\ Forall (goes_through ys) points.
Proof.
  unfold akimaInterpolation. replace (n <? 3)%nat with false by (symmetry; apply Nat.ltb_ge; exact Hn). cbv zeta.
  pose proof (T_range 0 ltac:(lia)) as R0. rewrite int_ok_fits by lia. cbn [obind]. replace (last_time points + 1 <? 0) with false by lia.
  destruct (akima_loop _ _ _ _ _ _ _) as [ys c] eqn:E.
  destruct (loop_values _ _ _ _ _ _ _ _ _ E) as (Ec & V); [intros k Kr; pose proof (T_step k ltac:(lia)); lia|lia|].
  destruct (loop_count _ _ _ _ _ _ _ _ _ E) as (_ & L & _). cbn [Nat.add] in Ec. rewrite <- last_time_of in Ec. subst c.
  replace (last_time points + 1 <=? last_time points) with false by lia. rewrite Z.sub_diag.
  replace (last_time points + 1 - last_time points - 1) with 0 by lia. cbn [Z.to_nat repeat]. rewrite app_nil_r.
  eexists. split; [reflexivity|]. split; [rewrite app_length; cbn [length]; lia|].
  pose proof (d_bd (n - 2) ltac:(lia)) as D. pose proof (c_bd (n - 2) ltac:(lia)) as C. pose proof (bs_bd (n - 1) ltac:(lia)) as B. pose proof (Hval (n - 1) ltac:(lia)) as Y.
  split.
  - apply Forall_app. split; [|constructor; [|constructor]; apply at_finite; try assumption; lia].
    apply (loop_Forall _ _ _ _ _ _ _ _ _ _ E). intros k x Kr X. pose proof (T_range k ltac:(lia)).
    apply at_finite; [apply d_bd; lia|apply c_bd; lia|apply bs_bd; lia|apply Hval; lia|lia].
  - apply Forall_forall. intros p Ip. apply In_nth_error in Ip as (k & Ek). pose proof (proj1 (nth_error_Some points k) ltac:(congruence)) as Lk.
    destruct (time_nth _ _ _ Ek) as (Et & Ev). unfold goes_through. rewrite <- Et, <- Ev. pose proof (T_range k Lk) as Rk.
    destruct (Nat.eq_dec k (n - 1)) as [-> |Nk].
    + rewrite nth_error_app2; rewrite <- last_time_of in *; [|lia]. replace (Z.to_nat (last_time points) - length ys)%nat with 0%nat by lia. cbn [nth_error].
      eexists. split; [reflexivity|]. apply at_0; assumption.
    + pose proof (T_step k ltac:(lia)) as Sk. specialize (V k (T k) ltac:(lia) ltac:(lia)). rewrite Hfirst, Z.sub_0_r, Z.sub_diag in V.
      rewrite nth_error_app1 by (apply nth_error_Some; congruence). rewrite V. eexists. split; [reflexivity|].
      apply at_0; [apply d_bd; lia|apply c_bd; lia|apply bs_bd; lia|apply Hval; lia].
Qed.
End B.
