(** The search for peaks. *)
From Coq Require Import Reals Psatz Sorting.Sorted.
From Flocq Require Import Core.Core.
From Verif Require Import Base FloatBase FloatModel FloatSpec FloatProof Float64Proof ToolsModel SynthModel SynthProof SpihtModel SpihtHeader WaveletModel PeakModel PeakSpec.
Local Open Scope R_scope.

(** *** Everything is defined *)
Lemma at_ok x i : (i < length x)%nat -> at_ x i = Ok (nth i x f64_0).
Proof. intros H. unfold at_. rewrite (nth_error_nth' _ f64_0 H). reflexivity. Qed.
Lemma plateau_bounds l b : forall j, (j <= plateau_end l b j <= j + length l)%nat.
Proof. induction l as [|y l IH]; intros j; cbn [plateau_end length]; [lia|]. destruct (feq y b); [|lia]. specialize (IH (S j)). lia. Qed.
Lemma plateau_peak_lt n i ip : (1 <= n)%nat -> (plateau_peak n i ip < n)%nat.
Proof. intros H. unfold plateau_peak. cbv zeta. destruct (Nat.leb_spec n ((i + ip) / 2)); lia. Qed.
Lemma peaks_ok x : forall fuel i, (1 <= i)%nat -> (length x <= fuel + i)%nat -> (1 <= fuel)%nat -> exists ps, peaks_loop fuel x i = Ok ps /\ Forall (fun p => (fst p < length x)%nat) ps.
Proof.
  induction fuel as [|fuel IH]; intros i Hi Hf H1; [lia|]. cbn [peaks_loop]. destruct (Nat.ltb_spec i (length x - 1)) as [L|L]; [|exists []; auto].
  rewrite (at_ok x (i - 1)) by lia. rewrite (at_ok x i) by lia. cbn [obind].
  assert (Next : forall k, (i <= k)%nat -> exists ps, peaks_loop fuel x (S k) = Ok ps /\ Forall (fun p => (fst p < length x)%nat) ps) by (intros k Hk; apply IH; lia).
  assert (Emit : forall k l b, (i <= k)%nat -> (l < length x)%nat -> exists ps, (do r <- peaks_loop fuel x (S k); Ok ((l, b) :: r)) = Ok ps /\ Forall (fun p => (fst p < length x)%nat) ps).
  { intros k l b Hk Hl. destruct (Next k Hk) as (ps & -> & F). cbn [obind]. eexists. split; [reflexivity|]. constructor; assumption. }
  destruct (flt _ _); [|apply Next; lia]. rewrite (at_ok x (i + 1)) by lia. cbn [obind].
  destruct (flt _ _); [apply Emit; lia|]. destruct (feq _ _); [|apply Next; lia]. cbv zeta.
  set (ip := plateau_end _ _ _). pose proof (plateau_bounds (skipn (i + 1) x) (nth i x f64_0) (i + 1)) as B. fold ip in B.
  destruct (Nat.leb_spec (length x - 1) ip); [apply Emit; [lia|apply plateau_peak_lt; lia]|].
  rewrite (at_ok x (ip + 1)) by lia. cbn [obind]. destruct (flt _ _); [apply Emit; [lia|apply plateau_peak_lt; lia]|apply Next; lia].
Qed.
Lemma scan_ok x : forall js m v, Forall (fun j => (j < length x)%nat) js -> exists w, scan x js m v = Ok w /\ (w = v \/ In w js).
Proof.
  induction js as [|j js IH]; intros m v F; [exists v; auto|]. cbn [scan]. rewrite (at_ok x j) by exact (Forall_inv F). cbn [obind].
  destruct (fle _ _); [destruct (IH (nth j x f64_0) j (Forall_inv_tail F)) as (w & E & H)|destruct (IH m v (Forall_inv_tail F)) as (w & E & H)]; exists w; cbn [In]; intuition congruence.
Qed.
Lemma higher_in h l k : first_higher h l = Some k -> exists p, In p l /\ fst p = k /\ flt h (snd p) = true.
Proof. unfold first_higher. destruct (find (fun p => flt h (snd p)) l) as [p|] eqn:E; [|discriminate]. intros H. injection H as <-. apply find_some in E. exists p. tauto. Qed.
Lemma in_range n l : (forall j, In j l -> (j < n)%nat) -> Forall (fun j => (j < n)%nat) l.
Proof. intros H. apply Forall_forall, H. Qed.
Lemma prominence_ok x before after p : Forall (fun q => (fst q < length x)%nat) after -> (fst p < length x)%nat -> exists h, prominence x before after p = Ok h.
Proof.
  intros Fa Hp. unfold prominence. cbv zeta. set (jmin := match first_higher (snd p) before with Some l => l | None => 0%nat end).
  destruct (scan_ok x (rev (seq jmin (fst p - jmin))) (snd p) 0) as (l & -> & Hl); [apply in_range; intros j Hj; apply in_rev, in_seq in Hj; lia|]. cbn [obind].
  set (jmax := match first_higher (snd p) after with Some l => l | None => (length x - 1)%nat end).
  assert (Hm : (jmax < length x)%nat).
  { unfold jmax. destruct (first_higher (snd p) after) as [k|] eqn:E; [|lia]. apply higher_in in E. destruct E as (q & I & <- & _). rewrite Forall_forall in Fa. apply Fa, I. }
  destruct (scan_ok x (seq (S (fst p)) (jmax - fst p)) (snd p) 0) as (r & -> & Hr); [apply in_range; intros j Hj; apply in_seq in Hj; lia|]. cbn [obind].
  rewrite (at_ok x l), (at_ok x r). { cbn [obind]. eauto. }
  { destruct Hr as [->|Hr]; [lia|]. apply in_seq in Hr. lia. }
  { destruct Hl as [->|Hl]; [lia|]. apply in_rev, in_seq in Hl. lia. }
Qed.
Lemma prominences_ok x : forall ps before, Forall (fun q => (fst q < length x)%nat) ps ->
  exists qs, peakProminence x before ps = Ok qs /\ map fst qs = map fst ps.
Proof.
  induction ps as [|p ps IH]; intros before F; [exists []; auto|]. change (peakProminence x before (p :: ps)) with (do h <- prominence x before ps p; do r <- peakProminence x (p :: before) ps; Ok ((fst p, h) :: r)).
  destruct (prominence_ok x before ps p (Forall_inv_tail F) (Forall_inv F)) as (h & ->). cbn [obind].
  destruct (IH (p :: before) (Forall_inv_tail F)) as (qs & -> & E). cbn [obind]. eexists. split; [reflexivity|]. cbn [map fst]. rewrite E. reflexivity.
Qed.
Lemma heights_ok x : forall ps, Forall (fun q => (fst q < length x)%nat) ps -> heights x ps = Ok (map (fun p => (fst p, nth (fst p) x f64_0)) ps).
Proof. induction ps as [|p ps IH]; intros F; [reflexivity|]. cbn [heights]. rewrite (at_ok x _ (Forall_inv F)). cbn [obind]. rewrite (IH (Forall_inv_tail F)). reflexivity. Qed.
Lemma filter_forall {A} (P : A -> Prop) f l : Forall P l -> Forall P (filter f l).
Proof. intros H. rewrite Forall_forall in *. intros a Ha. apply filter_In in Ha. apply H, Ha. Qed.
Lemma by_fst (P : nat -> Prop) (qs ps : list peak) : map fst qs = map fst ps -> Forall (fun q => P (fst q)) ps -> Forall (fun q => P (fst q)) qs.
Proof. intros E F. apply Forall_map. rewrite E. apply Forall_map. exact F. Qed.
Theorem peaks_found x mp mh : exists ps, findPeaks x mp mh = Ok ps /\ Forall (fun p => (fst p < length x)%nat /\ snd p = nth (fst p) x f64_0) ps.
Proof.
  unfold findPeaks. destruct x as [|v x']; [exists []; auto|]. set (x := v :: x').
  destruct (peaks_ok x (length x) 1) as (all & E & F); [lia|lia|cbn; lia|]. unfold findAllPeakLocations. rewrite E. cbn [obind].
  set (high := filterPeakCriterion all mh). assert (Fh : Forall (fun p => (fst p < length x)%nat) high) by (apply filter_forall, F).
  destruct (prominences_ok x high [] Fh) as (qs & -> & Eq). cbn [obind].
  assert (Fq : Forall (fun p => (fst p < length x)%nat) (filterPeakCriterion qs mp)) by (apply filter_forall, (by_fst (fun i => (i < length x)%nat) _ _ Eq Fh)).
  rewrite (heights_ok x _ Fq). eexists. split; [reflexivity|]. apply Forall_map. eapply Forall_impl; [|exact Fq]. cbn. auto.
Qed.

(** *** Spectra without equal neighbours *)
Section Exact.
Variable x : list f64.
Hypothesis Hx : numbers x.
Hypothesis Hp : no_plateau x.
Let n := length x.
Let at0 i := nth i x f64_0.
Lemma fin i : is_finite (at0 i) = true.
Proof. unfold at0. destruct (Nat.lt_ge_cases i (length x)) as [H|H]; [unfold numbers in Hx; rewrite Forall_forall in Hx; apply (proj1 (Hx _ (nth_In x f64_0 H)))|rewrite nth_overflow by exact H; reflexivity]. Qed.
Lemma lt_val i j : flt (at0 i) (at0 j) = true <-> val x i < val x j.
Proof. apply flt_R; apply fin. Qed.
Lemma le_val m i : is_finite m = true -> fle m (at0 i) = true <-> B2R m <= val x i.
Proof. intros F. rewrite (fle_R m (at0 i) F (fin i)). fold (val x i). change (B2R (at0 i)) with (val x i). destruct (Rle_bool_spec (B2R m) (val x i)); split; intros H'; try reflexivity; try assumption; [discriminate|lra]. Qed.
Definition is_max (i : nat) : bool := flt (at0 (i - 1)) (at0 i) && flt (at0 (i + 1)) (at0 i).
Lemma is_max_iff i : (1 <= i)%nat -> (S i < n)%nat -> is_max i = true <-> local_max x i.
Proof. intros H1 H2. unfold is_max, local_max. rewrite Bool.andb_true_iff, !lt_val. replace (i + 1)%nat with (S i) by lia. fold n. tauto. Qed.
Lemma loop_exact : forall fuel i, (1 <= i)%nat -> (n <= fuel + i)%nat -> (1 <= fuel)%nat ->
  peaks_loop fuel x i = Ok (map (fun i => (i, at0 i)) (filter is_max (seq i (n - 1 - i)))).
Proof.
  induction fuel as [|fuel IH]; intros i Hi Hf H1; [lia|]. cbn [peaks_loop]. fold n. destruct (Nat.ltb_spec i (n - 1)) as [L|L]; [|replace (n - 1 - i)%nat with 0%nat by lia; reflexivity].
  rewrite (at_ok x (i - 1)) by (fold n; lia). rewrite (at_ok x i) by (fold n; lia). cbn [obind]. fold (at0 (i - 1)). fold (at0 i).
  replace (n - 1 - i)%nat with (S (n - 1 - S i)) by lia. cbn [seq filter]. specialize (IH (S i) ltac:(lia) ltac:(lia) ltac:(lia)).
  unfold is_max at 1. destruct (flt (at0 (i - 1)) (at0 i)) eqn:E1; cbn [andb]; [|exact IH].
  rewrite (at_ok x (i + 1)) by (fold n; lia). cbn [obind]. fold (at0 (i + 1)). destruct (flt (at0 (i + 1)) (at0 i)) eqn:E2.
  - rewrite IH. reflexivity.
  - destruct (feq (at0 (i + 1)) (at0 i)) eqn:E3; [exfalso|exact IH].
    apply (Hp i ltac:(fold n; lia)). replace (S i) with (i + 1)%nat by lia. unfold val. fold (at0 i). fold (at0 (i + 1)). pose proof (fin i). pose proof (fin (i + 1)).
    unfold feq in E3. rewrite Bcompare_correct in E3 by assumption. destruct (Rcompare_spec (B2R (at0 (i + 1))) (B2R (at0 i))); try discriminate. congruence.
Qed.

(** The largest bin of a range. *)
Lemma argmax lo : forall k, exists m, (lo <= m <= lo + k)%nat /\ forall j, (lo <= j <= lo + k)%nat -> val x j <= val x m.
Proof.
  induction k as [|k (m & Hm & H)]; [exists lo; split; [lia|]; intros j Hj; replace j with lo by lia; lra|].
  destruct (Rle_lt_dec (val x (lo + S k)) (val x m)) as [L|L].
  - exists m. split; [lia|]. intros j Hj. destruct (Nat.eq_dec j (lo + S k)) as [->|]; [exact L|]. apply H. lia.
  - exists (lo + S k)%nat. split; [lia|]. intros j Hj. destruct (Nat.eq_dec j (lo + S k)) as [->|]; [lra|]. apply Rle_trans with (val x m); [apply H; lia|lra].
Qed.
(** Between a bin that is not higher than [h] and one that is, on the way to a bin that is not, there is a peak. *)
Lemma peak_between lo hi h : (lo < hi)%nat -> (S hi < n)%nat -> val x lo <= h -> h < val x hi -> val x (S hi) <= h ->
  exists m, (lo < m <= hi)%nat /\ local_max x m /\ h < val x m.
Proof.
  intros L B H1 H2 H3. destruct (argmax lo (hi - lo)) as (m & Hm & A). replace (lo + (hi - lo))%nat with hi in * by lia.
  assert (G : h < val x m) by (specialize (A hi ltac:(lia)); lra).
  assert (m <> lo) by (intros ->; lra). exists m. split; [lia|]. split; [|exact G].
  split; [lia|]. split; [fold n; lia|]. split.
  - specialize (A (m - 1)%nat ltac:(lia)). pose proof (Hp (m - 1)%nat ltac:(fold n; lia)) as D. replace (S (m - 1)) with m in D by lia. lra.
  - destruct (Nat.eq_dec m hi) as [->|]; [lra|]. specialize (A (S m) ltac:(lia)). pose proof (Hp m ltac:(fold n; lia)). lra.
Qed.
Lemma peak_between_r lo hi h : (1 <= lo)%nat -> (lo < hi)%nat -> (hi < n)%nat -> val x (lo - 1) <= h -> h < val x lo -> val x hi <= h ->
  exists m, (lo <= m < hi)%nat /\ local_max x m /\ h < val x m.
Proof.
  intros L0 L B H1 H2 H3. destruct (argmax lo (hi - lo)) as (m & Hm & A). replace (lo + (hi - lo))%nat with hi in * by lia.
  assert (G : h < val x m) by (specialize (A lo ltac:(lia)); lra).
  assert (m <> hi) by (intros ->; lra). exists m. split; [lia|]. split; [|exact G].
  split; [lia|]. split; [fold n; lia|]. split.
  - destruct (Nat.eq_dec m lo) as [->|]; [lra|]. specialize (A (m - 1)%nat ltac:(lia)). pose proof (Hp (m - 1)%nat ltac:(fold n; lia)) as D. replace (S (m - 1)) with m in D by lia. lra.
  - specialize (A (S m) ltac:(lia)). pose proof (Hp m ltac:(fold n; lia)). lra.
Qed.
(** The reach exists and is unique. *)
Lemma left_exists i : exists a, reach_left x i a.
Proof.
  assert (G : forall k, (k <= i)%nat -> (forall j, (k <= j <= i)%nat -> val x j <= val x i) -> exists a, reach_left x i a).
  { induction k as [|k IH]; intros Hk H; [exists 0%nat; split; [lia|]; split; [exact H|left; reflexivity]|].
    destruct (Rle_lt_dec (val x k) (val x i)) as [L|L].
    - apply IH; [lia|]. intros j Hj. destruct (Nat.eq_dec j k) as [->|]; [exact L|apply H; lia].
    - exists (S k). split; [lia|]. split; [exact H|]. right. replace (S k - 1)%nat with k by lia. exact L. }
  apply (G i); [lia|]. intros j Hj. replace j with i by lia. lra.
Qed.
Lemma right_exists i : (i < n)%nat -> exists b, reach_right x i b.
Proof.
  intros Hi. assert (G : forall d k, (n - k <= d)%nat -> (i <= k < n)%nat -> (forall j, (i <= j <= k)%nat -> val x j <= val x i) -> exists b, reach_right x i b).
  { induction d as [|d IH]; intros k Hd Hk H; [lia|]. destruct (Nat.eq_dec (S k) n) as [E|E]; [exists k; split; [fold n; lia|]; split; [exact H|left; fold n; exact E]|].
    destruct (Rle_lt_dec (val x (S k)) (val x i)) as [L|L].
    - apply (IH (S k)); [lia|lia|]. intros j Hj. destruct (Nat.eq_dec j (S k)) as [->|]; [exact L|apply H; lia].
    - exists k. split; [fold n; lia|]. split; [exact H|]. right. exact L. }
  apply (G n i); [lia|lia|]. intros j Hj. replace j with i by lia. lra.
Qed.
Lemma left_unique i a a' : reach_left x i a -> reach_left x i a' -> a = a'.
Proof.
  intros (H1 & H2 & H3) (H1' & H2' & H3'). destruct (Nat.lt_total a a') as [L|[L|L]]; [|exact L|].
  - destruct H3' as [->|H3']; [lia|]. specialize (H2 (a' - 1)%nat ltac:(lia)). lra.
  - destruct H3 as [->|H3]; [lia|]. specialize (H2' (a - 1)%nat ltac:(lia)). lra.
Qed.
Lemma right_unique i b b' : reach_right x i b -> reach_right x i b' -> b = b'.
Proof.
  intros (H1 & H2 & H3) (H1' & H2' & H3'). destruct (Nat.lt_total b b') as [L|[L|L]]; [|exact L|].
  - destruct H3 as [H3|H3]; [lia|]. specialize (H2' (S b) ltac:(lia)). lra.
  - destruct H3' as [H3'|H3']; [lia|]. specialize (H2 (S b') ltac:(lia)). lra.
Qed.
Lemma lowest_unique a b m m' : lowest x a b m -> lowest x a b m' -> m = m'.
Proof. intros ((j & Hj & E) & H) ((j' & Hj' & E') & H'). specialize (H j' Hj'). specialize (H' j Hj). lra. Qed.
Lemma prominence_unique i p q : has_prominence x i p -> has_prominence x i q -> p = q.
Proof.
  intros (a & b & l & r & A & B & L & R & ->) (a' & b' & l' & r' & A' & B' & L' & R' & ->).
  rewrite (left_unique i a' a A' A) in L'. rewrite (right_unique i b' b B' B) in R'. rewrite (lowest_unique _ _ _ _ L L'), (lowest_unique _ _ _ _ R R'). reflexivity.
Qed.
(** The scan finds the lowest bin. *)
Lemma scan_lowest : forall js m v, is_finite m = true -> Forall (fun j => (j < n)%nat) js -> exists w, scan x js m v = Ok w /\
  ((w = v /\ forall j, In j js -> B2R m < val x j) \/ (In w js /\ val x w <= B2R m /\ forall j, In j js -> val x w <= val x j)).
Proof.
  induction js as [|j js IH]; intros m v Fm F; [exists v; split; [reflexivity|left; split; [reflexivity|intros ? []]]|].
  cbn [scan]. rewrite (at_ok x j) by exact (Forall_inv F). cbn [obind]. fold (at0 j). rewrite (fle_R (at0 j) m (fin j) Fm). change (B2R (at0 j)) with (val x j).
  destruct (Rle_bool_spec (val x j) (B2R m)) as [L|L].
  - destruct (IH (at0 j) j (fin j) (Forall_inv_tail F)) as (w & E & [[-> H]|(I & H1 & H2)]); exists w || exists j; (split; [exact E|right]).
    + split; [left; reflexivity|]. split; [exact L|]. intros k [->|Hk]; [lra|]. specialize (H k Hk). change (B2R (at0 j)) with (val x j) in H. lra.
    + change (B2R (at0 j)) with (val x j) in H1. split; [right; exact I|]. split; [lra|]. intros k [->|Hk]; [lra|apply H2, Hk].
  - destruct (IH m v Fm (Forall_inv_tail F)) as (w & E & [[-> H]|(I & H1 & H2)]); [exists v|exists w]; (split; [exact E|]).
    + left. split; [reflexivity|]. intros k [->|Hk]; [exact L|apply H, Hk].
    + right. split; [right; exact I|]. split; [exact H1|]. intros k [->|Hk]; [lra|apply H2, Hk].
Qed.
Lemma small i : Rabs (val x i) <= 1000000000.
Proof. unfold val. destruct (Nat.lt_ge_cases i (length x)) as [H|H]; [unfold numbers in Hx; rewrite Forall_forall in Hx; apply (proj2 (Hx _ (nth_In x f64_0 H)))|rewrite nth_overflow by exact H; cbn; rewrite Rabs_R0; lra]. Qed.
Lemma left_lowest i jm a : local_max x i -> (jm < i)%nat -> (jm = 0%nat \/ val x i < val x jm) -> (forall m, (jm < m < i)%nat -> local_max x m -> val x m <= val x i) ->
  reach_left x i a -> exists w, scan x (rev (seq jm (i - jm))) (at0 i) 0 = Ok w /\ (w < n)%nat /\ lowest x a i (val x w).
Proof.
  intros (L1 & L2 & L3 & L4) Hj Hb Hn (A1 & A2 & A3). fold n in L2.
  destruct (scan_lowest (rev (seq jm (i - jm))) (at0 i) 0 (fin i)) as (w & E & H); [apply in_range; intros j Hj'; apply in_rev, in_seq in Hj'; lia|].
  change (B2R (at0 i)) with (val x i) in H.
  assert (I : forall j, In j (rev (seq jm (i - jm))) <-> (jm <= j < i)%nat) by (intros j; rewrite <- in_rev, in_seq; lia).
  destruct H as [[_ H]|(W & H1 & H2)]; [specialize (H (i - 1)%nat (proj2 (I (i - 1)%nat) ltac:(lia))); lra|]. exists w. split; [exact E|]. apply I in W. split; [lia|].
  assert (Hi : val x w < val x i) by (specialize (H2 (i - 1)%nat (proj2 (I (i - 1)%nat) ltac:(lia))); lra).
  assert (High : forall j, (jm <= j < a)%nat -> val x i < val x j).
  { intros j Hj'. destruct A3 as [->|A3]; [lia|]. destruct (Rle_lt_dec (val x j) (val x i)) as [N|N]; [exfalso|exact N].
    assert (j <> (a - 1)%nat) by (intros ->; lra).
    destruct (peak_between j (a - 1) (val x i)) as (m & M1 & M2 & M3); [lia|lia|exact N|exact A3|replace (S (a - 1)) with a by lia; apply A2; lia|].
    specialize (Hn m ltac:(lia) M2). lra. }
  assert (Ja : (jm <= a)%nat). { destruct Hb as [->|Hb]; [lia|]. destruct (Nat.le_gt_cases jm a) as [G|G]; [exact G|]. specialize (A2 jm ltac:(lia)). lra. }
  split.
  - exists w. split; [|reflexivity]. split; [|lia]. destruct (Nat.le_gt_cases a w) as [G|G]; [exact G|]. specialize (High w ltac:(lia)). lra.
  - intros j Hj'. destruct (Nat.eq_dec j i) as [->|]; [lra|]. apply H2, I. lia.
Qed.
Lemma right_lowest i jm b : local_max x i -> (i < jm < n)%nat -> (S jm = n \/ val x i < val x jm) -> (forall m, (i < m < jm)%nat -> local_max x m -> val x m <= val x i) ->
  reach_right x i b -> exists w, scan x (seq (S i) (jm - i)) (at0 i) 0 = Ok w /\ (w < n)%nat /\ lowest x i b (val x w).
Proof.
  intros (L1 & L2 & L3 & L4) Hj Hb Hn (A1 & A2 & A3). fold n in L2, A1, A3.
  destruct (scan_lowest (seq (S i) (jm - i)) (at0 i) 0 (fin i)) as (w & E & H); [apply in_range; intros j Hj'; apply in_seq in Hj'; lia|].
  change (B2R (at0 i)) with (val x i) in H.
  assert (I : forall j, In j (seq (S i) (jm - i)) <-> (i < j <= jm)%nat) by (intros j; rewrite in_seq; lia).
  destruct H as [[_ H]|(W & H1 & H2)]; [specialize (H (S i) (proj2 (I (S i)) ltac:(lia))); lra|]. exists w. split; [exact E|]. apply I in W. split; [lia|].
  assert (Hi : val x w < val x i) by (specialize (H2 (S i) (proj2 (I (S i)) ltac:(lia))); lra).
  assert (High : forall j, (b < j <= jm)%nat -> val x i < val x j).
  { intros j Hj'. destruct A3 as [A3|A3]; [lia|]. destruct (Rle_lt_dec (val x j) (val x i)) as [N|N]; [exfalso|exact N].
    assert (j <> S b) by (intros ->; lra).
    destruct (peak_between_r (S b) j (val x i)) as (m & M1 & M2 & M3); [lia|lia|lia|replace (S b - 1)%nat with b by lia; apply A2; lia|exact A3|exact N|].
    specialize (Hn m ltac:(lia) M2). lra. }
  assert (Ja : (b <= jm)%nat). { destruct Hb as [Hb|Hb]; [lia|]. destruct (Nat.le_gt_cases b jm) as [G|G]; [exact G|]. specialize (A2 jm ltac:(lia)). lra. }
  split.
  - exists w. split; [|reflexivity]. split; [lia|]. destruct (Nat.le_gt_cases w b) as [G|G]; [exact G|]. specialize (High w ltac:(lia)). lra.
  - intros j Hj'. destruct (Nat.eq_dec j i) as [->|]; [lra|]. apply H2, I. lia.
Qed.
Lemma find_first {A} (f : A -> bool) : forall l a, find f l = Some a -> exists l1 l2, l = l1 ++ a :: l2 /\ f a = true /\ forall b, In b l1 -> f b = false.
Proof.
  induction l as [|c l IH]; intros a H; [discriminate|]. cbn [find] in H. destruct (f c) eqn:E.
  - injection H as <-. exists [], l. split; [reflexivity|]. split; [exact E|]. intros b [].
  - destruct (IH a H) as (l1 & l2 & -> & H1 & H2). exists (c :: l1), l2. split; [reflexivity|]. split; [exact H1|]. intros b [<-|Hb]; [exact E|apply H2, Hb].
Qed.
Lemma sorted_app {A} (R : A -> A -> Prop) : forall l1 a l2, StronglySorted R (l1 ++ a :: l2) -> Forall (R a) l2.
Proof. induction l1 as [|b l1 IH]; intros a l2 H; cbn [app] in H; apply StronglySorted_inv in H; [apply H|apply IH, H]. Qed.
Definition peak_of (i : nat) : peak := (i, at0 i).
(** The peaks in view: [before] from right to left, [ps] from left to right. *)
Definition view (mh : f64) (before ps : list peak) : Prop :=
  StronglySorted (fun p q => (fst q < fst p)%nat) before /\ StronglySorted (fun p q => (fst p < fst q)%nat) ps /\
  (forall p q, In p before -> In q ps -> (fst p < fst q)%nat) /\
  (forall p, In p before \/ In p ps -> p = peak_of (fst p) /\ local_max x (fst p) /\ fle mh (snd p) = true) /\
  (forall m, local_max x m -> fle mh (at0 m) = true -> In (peak_of m) before \/ In (peak_of m) ps).
Lemma max_R a b : is_finite a = true -> is_finite b = true -> B2R (max_ a b) = Rmax (B2R a) (B2R b) /\ is_finite (max_ a b) = true.
Proof.
  intros Fa Fb. unfold max_. destruct (flt b a) eqn:E.
  - apply flt_R in E; [|assumption|assumption]. split; [rewrite Rmax_left by lra; reflexivity|exact Fa].
  - split; [|exact Fb]. destruct (Rle_lt_dec (B2R a) (B2R b)) as [L|L]; [rewrite Rmax_right by exact L; reflexivity|]. apply flt_R in L; [congruence|assumption|assumption].
Qed.
Lemma prominence_exact mh before p ps : is_finite mh = true -> view mh before (p :: ps) ->
  exists h r, prominence x before ps p = Ok h /\ is_finite h = true /\ has_prominence x (fst p) r /\ B2R h = rnd64 r.
Proof.
  intros Fm (S1 & S2 & S3 & S4 & S5). destruct (S4 p (or_intror (or_introl eq_refl))) as (Ep & Lp & Hh). set (i := fst p) in *.
  assert (Hi : snd p = at0 i) by (rewrite Ep; reflexivity). rewrite Hi in Hh.
  assert (Li := Lp). destruct Li as (L1 & L2 & L3 & L4). fold n in L2.
  assert (Up : forall m, local_max x m -> val x i < val x m -> fle mh (at0 m) = true). { intros m _ Hm. apply (le_val mh m Fm). apply (le_val mh i Fm) in Hh. lra. }
  apply StronglySorted_inv in S2. destruct S2 as [S2 S2'].
  assert (Bef : forall q, In q before -> (fst q < i)%nat /\ snd q = at0 (fst q)). { intros q Hq. split; [apply S3; [exact Hq|left; reflexivity]|]. rewrite (proj1 (S4 q (or_introl Hq))) at 1. reflexivity. }
  assert (Aft : forall q, In q ps -> (i < fst q)%nat /\ snd q = at0 (fst q)). { intros q Hq. split; [rewrite Forall_forall in S2'; apply S2', Hq|]. rewrite (proj1 (S4 q (or_intror (or_intror Hq)))) at 1. reflexivity. }
  assert (Bin : forall m, (m < i)%nat -> local_max x m -> val x i < val x m -> In (peak_of m) before).
  { intros m Hm Lm Vm. destruct (S5 m Lm (Up m Lm Vm)) as [H|[H|H]]; [exact H| |]; exfalso.
    - unfold i in Hm. rewrite H in Hm. cbn in Hm. lia.
    - destruct (Aft _ H) as [H' _]. cbn in H'. lia. }
  assert (Ain : forall m, (i < m)%nat -> local_max x m -> val x i < val x m -> In (peak_of m) ps).
  { intros m Hm Lm Vm. destruct (S5 m Lm (Up m Lm Vm)) as [H|[H|H]]; [exfalso| exfalso|exact H].
    - destruct (Bef _ H) as [H' _]. cbn in H'. lia.
    - unfold i in Hm. rewrite H in Hm. cbn in Hm. lia. }
  destruct (left_exists i) as (a & Ra). destruct (right_exists i ltac:(lia)) as (b & Rb).
  unfold prominence. cbv zeta. fold i. rewrite Hi.
  assert (GL : exists w, scan x (rev (seq (match first_higher (at0 i) before with Some l => l | None => 0 end) (i - match first_higher (at0 i) before with Some l => l | None => 0 end))) (at0 i) 0 = Ok w /\ (w < n)%nat /\ lowest x a i (val x w)).
  { unfold first_higher. destruct (find (fun q => flt (at0 i) (snd q)) before) as [q|] eqn:E.
    - destruct (find_first _ _ _ E) as (l1 & l2 & El & F1 & F2). assert (Iq : In q before) by (rewrite El; apply in_elt). destruct (Bef q Iq) as [B1 B2].
      apply left_lowest; [exact Lp|exact B1|right; rewrite B2 in F1; apply lt_val, F1| |exact Ra].
      intros m Hm Lm. destruct (Rle_lt_dec (val x m) (val x i)) as [G|G]; [exact G|exfalso]. pose proof (Bin m ltac:(lia) Lm G) as Im. rewrite El in Im, S1. apply in_app_or in Im.
      destruct Im as [Im|[Im|Im]].
      + apply F2 in Im. cbn in Im. apply lt_val in G. congruence.
      + rewrite Im in Hm. cbn in Hm. lia.
      + apply sorted_app in S1. rewrite Forall_forall in S1. specialize (S1 _ Im). cbn in S1. lia.
    - apply left_lowest; [exact Lp|lia|left; reflexivity| |exact Ra]. intros m Hm Lm. destruct (Rle_lt_dec (val x m) (val x i)) as [G|G]; [exact G|exfalso].
      pose proof (find_none _ _ E _ (Bin m ltac:(lia) Lm G)) as N. cbn in N. apply lt_val in G. congruence. }
  assert (GR : exists w, scan x (seq (S i) (match first_higher (at0 i) ps with Some l => l | None => length x - 1 end - i)) (at0 i) 0 = Ok w /\ (w < n)%nat /\ lowest x i b (val x w)).
  { unfold first_higher. destruct (find (fun q => flt (at0 i) (snd q)) ps) as [q|] eqn:E.
    - destruct (find_first _ _ _ E) as (l1 & l2 & El & F1 & F2). assert (Iq : In q ps) by (rewrite El; apply in_elt). destruct (Aft q Iq) as [B1 B2].
      destruct (S4 q (or_intror (or_intror Iq))) as (_ & (_ & Q & _) & _). fold n in Q.
      apply right_lowest; [exact Lp|lia|right; rewrite B2 in F1; apply lt_val, F1| |exact Rb].
      intros m Hm Lm. destruct (Rle_lt_dec (val x m) (val x i)) as [G|G]; [exact G|exfalso]. pose proof (Ain m ltac:(lia) Lm G) as Im. rewrite El in Im, S2. apply in_app_or in Im.
      destruct Im as [Im|[Im|Im]].
      + apply F2 in Im. cbn in Im. apply lt_val in G. congruence.
      + rewrite Im in Hm. cbn in Hm. lia.
      + apply sorted_app in S2. rewrite Forall_forall in S2. specialize (S2 _ Im). cbn in S2. lia.
    - fold n. apply right_lowest; [exact Lp|lia|left; lia| |exact Rb]. intros m Hm Lm. destruct (Rle_lt_dec (val x m) (val x i)) as [G|G]; [exact G|exfalso].
      pose proof (find_none _ _ E _ (Ain m ltac:(lia) Lm G)) as N. cbn in N. apply lt_val in G. congruence. }
  destruct GL as (wl & EL & WL & LL), GR as (wr & ER & WR & LR). rewrite EL. cbn [obind]. rewrite ER. cbn [obind].
  rewrite (at_ok x wl) by exact WL. rewrite (at_ok x wr) by exact WR. cbn [obind]. fold (at0 wl). fold (at0 wr).
  destruct (max_R (at0 wl) (at0 wr) (fin wl) (fin wr)) as [M FM]. change (B2R (at0 wl)) with (val x wl) in M. change (B2R (at0 wr)) with (val x wr) in M.
  destruct (sub64_ok (at0 i) (max_ (at0 wl) (at0 wr)) (fin i) FM) as [D FD].
  { rewrite M. change (B2R (at0 i)) with (val x i). apply bound1000. pose proof (small i) as A. pose proof (small wl) as B. pose proof (small wr) as C. apply Raux.Rabs_le_inv in A, B, C.
    unfold Rmax. destruct (Rle_dec _ _); lra. }
  eexists. exists (val x i - Rmax (val x wl) (val x wr)). split; [reflexivity|]. split; [exact FD|]. split.
  - exists a, b, (val x wl), (val x wr). auto.
  - rewrite D, M. reflexivity.
Qed.
Lemma prominences_exact mh : is_finite mh = true -> forall ps before, view mh before ps ->
  exists qs, peakProminence x before ps = Ok qs /\ map fst qs = map fst ps /\
    Forall (fun q => is_finite (snd q) = true /\ exists r, has_prominence x (fst q) r /\ B2R (snd q) = rnd64 r) qs.
Proof.
  intros Fm. induction ps as [|p ps IH]; intros before V; [exists []; auto|].
  change (peakProminence x before (p :: ps)) with (do h <- prominence x before ps p; do r <- peakProminence x (p :: before) ps; Ok ((fst p, h) :: r)).
  destruct (prominence_exact mh before p ps Fm V) as (h & r & -> & Fh & P & E). cbn [obind].
  destruct (IH (p :: before)) as (qs & -> & Em & F).
  { destruct V as (S1 & S2 & S3 & S4 & S5). apply StronglySorted_inv in S2. destruct S2 as [S2 S2']. split; [|split; [exact S2|split; [|split]]].
    - constructor; [exact S1|]. apply Forall_forall. intros q Hq. apply S3; [exact Hq|left; reflexivity].
    - intros a b [<-|Ha] Hb; [rewrite Forall_forall in S2'; apply S2', Hb|apply S3; [exact Ha|right; exact Hb]].
    - intros q [[<-|H]|H]; apply S4; [right; left; reflexivity|left; exact H|right; right; exact H].
    - intros m Lm Hm. destruct (S5 m Lm Hm) as [H|[H|H]]; [left; right; exact H|left; left; exact H|right; exact H]. }
  cbn [obind]. exists ((fst p, h) :: qs). split; [reflexivity|]. split; [cbn [map fst]; rewrite Em; reflexivity|]. constructor; [|exact F]. cbn [fst snd]. split; [exact Fh|]. exists r. auto.
Qed.
Lemma sorted_filter {A} (R : A -> A -> Prop) f : forall l, StronglySorted R l -> StronglySorted R (filter f l).
Proof.
  induction l as [|a l IH]; intros H; [constructor|]. apply StronglySorted_inv in H. destruct H as [H1 H2]. cbn [filter]. destruct (f a); [|apply IH, H1].
  constructor; [apply IH, H1|]. apply Forall_forall. intros b Hb. apply filter_In in Hb. rewrite Forall_forall in H2. apply H2, Hb.
Qed.
Lemma sorted_seq : forall k i, StronglySorted lt (seq i k).
Proof. induction k as [|k IH]; intros i; [constructor|]. cbn [seq]. constructor; [apply IH|]. apply Forall_forall. intros j Hj. apply in_seq in Hj. lia. Qed.
Lemma sorted_map {A B} (R : B -> B -> Prop) (f : A -> B) : forall l, StronglySorted R (map f l) <-> StronglySorted (fun a b => R (f a) (f b)) l.
Proof.
  induction l as [|a l IH]; cbn [map]; [split; constructor|]. split; intros H; apply StronglySorted_inv in H; destruct H as [H1 H2]; constructor; try (apply IH; assumption).
  - apply (Forall_map f (R (f a)) l). exact H2.
  - apply (Forall_map f (R (f a)) l). exact H2.
Qed.
Lemma sorted_in_order : forall ps : list peak, StronglySorted (fun p q => (fst p < fst q)%nat) ps -> in_order ps.
Proof.
  induction ps as [|a ps IH]; intros H i j p q Hij Hp' Hq; [destruct i; discriminate|]. apply StronglySorted_inv in H. destruct H as [H1 H2]. destruct j as [|j]; [lia|]. cbn [nth_error] in Hq.
  destruct i as [|i]; cbn [nth_error] in Hp'.
  - injection Hp' as <-. rewrite Forall_forall in H2. apply H2. eapply nth_error_In, Hq.
  - apply (IH H1 i j p q); [lia|exact Hp'|exact Hq].
Qed.
Lemma all_exact : x <> [] -> findAllPeakLocations x = Ok (map peak_of (filter is_max (seq 1 (n - 2)))).
Proof. intros H. unfold findAllPeakLocations. fold n. rewrite loop_exact; [f_equal; f_equal; f_equal; f_equal; lia|lia|lia|]. unfold n. destruct x; [congruence|cbn; lia]. Qed.
Lemma all_in m : In m (filter is_max (seq 1 (n - 2))) <-> local_max x m.
Proof.
  rewrite filter_In, in_seq. split.
  - intros [H1 H2]. apply is_max_iff in H2; [exact H2|lia|lia].
  - intros H. assert (H' := H). destruct H' as (H1 & H2 & _). fold n in H2. split; [lia|]. apply is_max_iff; [lia|lia|exact H].
Qed.
Theorem search_exact mp mh : is_finite mp = true -> is_finite mh = true ->
  exists ps, findPeaks x mp mh = Ok ps /\ in_order ps /\
    forall i h, In (i, h) ps <-> local_max x i /\ h = nth i x f64_0 /\ B2R mh <= val x i /\ exists p, has_prominence x i p /\ B2R mp <= rnd64 p.
Proof.
  intros Fp Fm. assert (C : x = [] \/ x <> []) by (destruct x; [left; reflexivity|right; discriminate]). destruct C as [C|C].
  { exists []. split; [rewrite C; reflexivity|]. split; [intros i j p q _ H; destruct i; discriminate|]. intros i h. split; [intros []|]. intros ((_ & H & _) & _). rewrite C in H. cbn in H. lia. }
  assert (E : findPeaks x mp mh = (do all <- findAllPeakLocations x; do prominences <- peakProminence x [] (filterPeakCriterion all mh); heights x (filterPeakCriterion prominences mp))) by (destruct x; [congruence|reflexivity]).
  rewrite E, (all_exact C). cbn [obind]. set (high := filterPeakCriterion (map peak_of (filter is_max (seq 1 (n - 2)))) mh).
  assert (Hin : forall p, In p high <-> p = peak_of (fst p) /\ local_max x (fst p) /\ fle mh (at0 (fst p)) = true).
  { intros p. unfold high, filterPeakCriterion. rewrite filter_In, in_map_iff. split.
    - intros [(m & <- & H) H2]. apply all_in in H. cbn [peak_of fst snd] in *. auto.
    - intros (H1 & H2 & H3). split; [exists (fst p); split; [symmetry; exact H1|apply all_in, H2]|]. rewrite H1. exact H3. }
  assert (Hs : StronglySorted (fun p q => (fst p < fst q)%nat) high).
  { unfold high, filterPeakCriterion. apply sorted_filter. apply (sorted_map (fun p q => (fst p < fst q)%nat) peak_of). apply sorted_filter. apply sorted_seq. }
  destruct (prominences_exact mh Fm high []) as (qs & Eq & Em & F).
  { split; [constructor|]. split; [exact Hs|]. split; [intros p q []|]. split.
    - intros p [[]|H]. apply Hin in H. destruct H as (H1 & H2 & H3). split; [exact H1|]. split; [exact H2|]. rewrite H1. exact H3.
    - intros m Lm Hm. right. apply Hin. cbn. auto. }
  rewrite Eq. cbn [obind]. rewrite heights_ok.
  2:{ apply filter_forall. apply (by_fst (fun i => (i < length x)%nat) _ _ Em). apply Forall_forall. intros q Hq. apply Hin in Hq. destruct Hq as (_ & (_ & H & _) & _). lia. }
  eexists. split; [reflexivity|]. split.
  { apply sorted_in_order. apply (sorted_map (fun p q => (fst p < fst q)%nat) (fun p : peak => (fst p, nth (fst p) x f64_0))). unfold filterPeakCriterion. apply sorted_filter.
    cbn [fst]. apply (sorted_map lt (@fst nat f64)). rewrite Em. apply (sorted_map lt (@fst nat f64)). exact Hs. }
  intros i h. rewrite in_map_iff. unfold filterPeakCriterion. split.
  - intros (q & Ei & Hq). injection Ei as E1 E2. apply filter_In in Hq. destruct Hq as [Iq Hq]. rewrite Forall_forall in F. destruct (F q Iq) as (Fq & r & Pr & Er).
    assert (Iq' : In i (map fst high)) by (rewrite <- Em, <- E1; apply in_map, Iq). apply in_map_iff in Iq'. destruct Iq' as (p & Ep & Ip). apply Hin in Ip. destruct Ip as (_ & P2 & P3).
    rewrite Ep in P2, P3. split; [exact P2|]. split; [rewrite <- E2, E1; reflexivity|]. split; [apply (le_val mh i Fm), P3|]. exists r. rewrite E1 in Pr. split; [exact Pr|].
    rewrite (fle_R mp (snd q) Fp Fq), Er in Hq. destruct (Rle_bool_spec (B2R mp) (rnd64 r)) as [G|G]; [exact G|discriminate].
  - intros (Lm & -> & Hm & r & Pr & Hr). apply (le_val mh i Fm) in Hm. assert (I : In i (map fst qs)). { rewrite Em. change i with (fst (peak_of i)). apply in_map, Hin. cbn. auto. }
    apply in_map_iff in I. destruct I as (q & E1 & Iq). exists q. split; [rewrite E1; reflexivity|]. apply filter_In. split; [exact Iq|].
    rewrite Forall_forall in F. destruct (F q Iq) as (Fq & r' & Pr' & Er). rewrite E1 in Pr'. rewrite (prominence_unique i r' r Pr' Pr) in Er.
    rewrite (fle_R mp (snd q) Fp Fq), Er. apply Rle_bool_true, Hr.
Qed.
End Exact.
