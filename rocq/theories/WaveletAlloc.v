(** The distribution of the bits of a block over its bands. *)
From Coq Require Import Lia ZArith List.
From Verif Require Import Base FloatBase FloatModel FloatProof Float64Proof SpihtModel SpihtTree ToolsModel SynthModel WaveletModel.
Import ListNotations.
Local Open Scope Z_scope.
Ltac Zify.zify_post_hook ::= Z.div_mod_to_equations.

(** *** Bands *)
Lemma nth_map_seq {A} (f : nat -> A) n i d : (i < n)%nat -> nth i (map f (seq 0 n)) d = f i.
Proof.
  intros H. rewrite (nth_indep _ d (f 0%nat)) by (rewrite map_length, seq_length; exact H). rewrite map_nth, seq_nth by exact H. reflexivity.
Qed.
Definition band_start (bl b : nat) : nat := nth b (book_cumulative bl) 0%nat.
Lemma book_length bl : length (book bl) = S (dwtlevel bl).
Proof. unfold book. cbn [length]. now rewrite map_length, seq_length. Qed.
Lemma start_0 bl : band_start bl 0 = 0%nat. Proof. reflexivity. Qed.
Lemma start_S bl i : (i <= dwtlevel bl)%nat -> band_start bl (S i) = (bl / 2 ^ dwtlevel bl * 2 ^ i)%nat.
Proof.
  intros H. unfold band_start, book_cumulative. cbn [nth].
  apply (nth_map_seq (fun i => (bl / 2 ^ dwtlevel bl * 2 ^ i)%nat)). lia.
Qed.
Lemma book_nth bl b : (b <= dwtlevel bl)%nat -> band_start bl (S b) = (band_start bl b + nth b (book bl) 0)%nat.
Proof.
  intros H. unfold book. destruct b as [|i].
  - cbn [nth]. rewrite start_S, start_0 by lia. cbn [Nat.pow]. lia.
  - cbn [nth]. rewrite !start_S by lia.
    rewrite (nth_map_seq (fun i => (bl / 2 ^ dwtlevel bl * 2 ^ i)%nat)) by lia. rewrite Nat.pow_succ_r'. lia.
Qed.
Lemma start_mono bl a b : (a <= b)%nat -> (b <= S (dwtlevel bl))%nat -> (band_start bl a <= band_start bl b)%nat.
Proof.
  intros H. induction H as [|b H IH]; intros Hb; [lia|]. rewrite book_nth by lia. specialize (IH ltac:(lia)). lia.
Qed.
Lemma start_top bl : (band_start bl (S (dwtlevel bl)) <= bl)%nat.
Proof.
  rewrite start_S by lia. rewrite Nat.mul_comm. apply Nat.mul_div_le. apply Nat.pow_nonzero. lia.
Qed.
Lemma start_le bl b : (b <= S (dwtlevel bl))%nat -> (band_start bl b <= bl)%nat.
Proof. intros H. etransitivity; [apply (start_mono bl b (S (dwtlevel bl))); lia|apply start_top]. Qed.

(** *** The smallest element *)
Lemma findMin_scan (l : list f64) : forall m idx i,
  let '(m', idx', _) := fold_left (fun '(m, index, i) y => if flt y m then (y, i, S i) else (m, index, S i)) l (m, idx, i) in
  ((m', idx') = (m, idx) \/ exists k, (k < length l)%nat /\ idx' = (i + k)%nat /\ m' = nth k l f64_0).
Proof.
  induction l as [|y l IH]; intros m idx i; cbn [fold_left]; [left; reflexivity|].
  destruct (flt y m).
  - specialize (IH y i (S i)). destruct (fold_left _ l (y, i, S i)) as [[m' idx'] i']. right.
    destruct IH as [E|(k & Hk & -> & ->)]; [injection E as -> ->; exists 0%nat; cbn; repeat split; lia|].
    exists (S k). cbn. repeat split; lia.
  - specialize (IH m idx (S i)). destruct (fold_left _ l (m, idx, S i)) as [[m' idx'] i'].
    destruct IH as [E|(k & Hk & -> & ->)]; [left; exact E|]. right. exists (S k). cbn. repeat split; lia.
Qed.
Lemma findMinInd_lt (l : list f64) : l <> [] -> (findMinInd l < length l)%nat.
Proof.
  destruct l as [|x l]; [congruence|]. intros _. unfold findMinInd. pose proof (findMin_scan l x 0 1) as H.
  destruct (fold_left _ l (x, 0%nat, 1%nat)) as [[m' idx'] i']. cbn [length].
  destruct H as [E|(k & Hk & -> & _)]; [injection E as _ ->; lia|lia].
Qed.

(** *** Sums *)
Fixpoint zsum (l : list Z) : Z := match l with [] => 0 | x :: l' => x + zsum l' end.
Lemma zsum_set (l : list Z) : forall i v, (i < length l)%nat -> zsum (SpihtModel.set_at l i v) = zsum l - nth i l 0 + v.
Proof.
  induction l as [|x l IH]; intros [|i] v H; cbn [length] in H; try lia; cbn; [lia|]. rewrite IH by lia. lia.
Qed.
Lemma zsum_repeat n : zsum (repeat 0 n) = 0.
Proof. induction n; cbn; lia. Qed.
Lemma nonneg_set (l : list Z) : forall i v, 0 <= v -> Forall (fun b => 0 <= b) l -> Forall (fun b => 0 <= b) (SpihtModel.set_at l i v).
Proof.
  induction l as [|x l IH]; intros [|i] v H F; cbn; try (exact F || constructor).
  all: inversion_clear F; auto.
Qed.
Lemma nonneg_nth (l : list Z) i : Forall (fun b => 0 <= b) l -> 0 <= nth i l 0.
Proof. intros F. destruct (Nat.lt_ge_cases i (length l)) as [L|G]; [apply Forall_nth; assumption|rewrite nth_overflow by exact G; lia]. Qed.

Section Alloc.
Variables log10 pow2 : f64 -> f64.
Variable bl : nat.
Variable smr : nat -> f64 * f64.
Variable dwt : list f64.
Variable Q : f64.
Variable budget : Z.
Let lv := dwtlevel bl.
Let full := MAXBITS * Z.of_nat lv.
Let astep := alloc_step log10 pow2 bl smr dwt Q budget.

Definition shape (st : alloc) : Prop :=
  length (bitalloc st) = S lv /\ length (noiseenergy st) = S lv /\ length (dwt_quant st) = bl.
Lemma ratios_length st : shape st -> length (ratios log10 smr st) = S lv.
Proof.
  clear astep. intros (A & B & _). unfold ratios. rewrite map_length, combine_length, seq_length, combine_length. lia.
Qed.
Lemma index_lt st : shape st -> (findMinInd (ratios log10 smr st) <= lv)%nat.
Proof.
  clear astep. intros Sh. pose proof (ratios_length st Sh) as L.
  assert (findMinInd (ratios log10 smr st) < S lv)%nat; [|lia]. rewrite <- L. apply findMinInd_lt. intros E. rewrite E in L. discriminate.
Qed.

(** The counts add up to the running total, and all bands but the last have at most their share. *)
Definition balanced (st : alloc) : Prop :=
  shape st /\ bitalloc_sum st = zsum (bitalloc st) /\ Forall (fun b => 0 <= b) (bitalloc st) /\
  bitalloc_sum st <= Z.max 0 budget /\ bitalloc_sum st - nth lv (bitalloc st) 0 <= full.
Lemma start_balanced : balanced (alloc_start pow2 bl dwt).
Proof.
  unfold balanced, shape, alloc_start. cbn [bitalloc noiseenergy dwt_quant bitalloc_sum].
  rewrite !book_length, repeat_length, map_length, seq_length, repeat_length, zsum_repeat. fold lv.
  split; [repeat split|]. split; [reflexivity|]. split; [apply Forall_forall; intros x Hx; apply repeat_spec in Hx; lia|].
  split; [lia|]. assert (nth lv (repeat 0 (S lv)) 0 = 0) as ->; [|unfold full, MAXBITS; lia].
  apply nth_repeat.
Qed.

Lemma uniform_length inp start mx bits len out r : uniformQuant inp start mx bits len out = Ok r -> length r = length out.
Proof.
  unfold uniformQuant. destruct (shift1 bits); try discriminate. cbn [obind].
  destruct ((length inp <? start + len)%nat || (length out <? start + len)%nat) eqn:E; try discriminate.
  intros H. injection H as <-. apply Bool.orb_false_iff in E. destruct E as [E1 E2]. apply Nat.ltb_ge in E1, E2.
  rewrite !app_length, map_length, !firstn_length, !skipn_length. lia.
Qed.
Lemma step_balanced st st' : balanced st -> bitalloc_sum st < budget -> astep st = Ok st' ->
  balanced st' /\ bitalloc_sum st < bitalloc_sum st' <= budget.
Proof.
  intros (Sh & Sum & Pos & Le & Lst) Lt H. pose proof (index_lt st Sh) as Hi. destruct Sh as (A & B & C).
  unfold astep, alloc_step in H. set (index := findMinInd (ratios log10 smr st)) in *. fold lv in H. fold full in H.
  pose proof (nonneg_nth (bitalloc st) lv Pos) as Pl. pose proof (nonneg_nth (bitalloc st) index Pos) as Pi.
  destruct (Z.leb_spec full (bitalloc_sum st - nth lv (bitalloc st) 0)) as [G|L].
  - destruct (uniformQuant _ _ _ _ _ _) as [q| | |] eqn:E; try discriminate H. cbn [obind] in H. injection H as <-.
    apply uniform_length in E. unfold balanced, shape. cbn [bitalloc noiseenergy dwt_quant bitalloc_sum].
    rewrite !set_at_length, zsum_set by lia. rewrite set_at_nth by lia. rewrite Nat.eqb_refl.
    repeat split; try (assumption || lia). apply nonneg_set; [lia|exact Pos].
  - destruct (uniformQuant _ _ _ _ _ _) as [q| | |] eqn:E; try discriminate H. cbn [obind] in H. injection H as <-.
    apply uniform_length in E. unfold balanced, shape. cbn [bitalloc noiseenergy dwt_quant bitalloc_sum].
    rewrite !set_at_length, zsum_set by lia. rewrite set_at_nth by lia.
    repeat split; try (assumption || lia). { apply nonneg_set; [lia|exact Pos]. }
    destruct (Nat.eqb_spec lv index) as [->|N]; lia.
Qed.
Lemma loop_balanced fuel : forall st, balanced st -> (Z.to_nat (budget - bitalloc_sum st) < fuel)%nat ->
  alloc_loop log10 pow2 fuel bl smr dwt Q budget st <> NoFuel /\
  forall st', alloc_loop log10 pow2 fuel bl smr dwt Q budget st = Ok st' -> balanced st' /\ bitalloc_sum st' = Z.max 0 budget.
Proof.
  induction fuel as [|n IH]; intros st Ba Hf; [lia|]. cbn [alloc_loop].
  destruct (Z.ltb_spec (bitalloc_sum st) budget) as [L|G].
  - fold astep. destruct (astep st) as [st1| | |] eqn:E.
    + destruct (step_balanced st st1 Ba L E) as [Ba1 Hs]. cbn [obind]. apply IH; [exact Ba1|lia].
    + cbn [obind]. split; [discriminate|]. intros st' H. discriminate.
    + cbn [obind]. split; [discriminate|]. intros st' H. discriminate.
    + exfalso. unfold astep, alloc_step in E. destruct (_ <=? _) in E;
      unfold uniformQuant, shift1 in E;
      match type of E with context [(0 <=? ?b) && (?b <? 31)] => destruct ((0 <=? b) && (b <? 31)) end; try discriminate E; cbn [obind] in E;
      match type of E with context [if ?c then UB else _] => destruct c end; discriminate E.
  - split; [discriminate|]. intros st' H. injection H as <-. split; [exact Ba|].
    destruct Ba as (_ & Sum & Pos & Le & _). assert (0 <= zsum (bitalloc st)).
    { clear -Pos. induction Pos; cbn; lia. }
    lia.
Qed.
End Alloc.

Lemma allocate_sum log10 pow2 bl smr dwt Q bitbudget :
  allocate log10 pow2 bl smr dwt Q bitbudget <> NoFuel /\
  forall st, allocate log10 pow2 bl smr dwt Q bitbudget = Ok st ->
    length (bitalloc st) = S (dwtlevel bl) /\ length (dwt_quant st) = bl /\ Forall (fun b => 0 <= b) (bitalloc st) /\
    zsum (bitalloc st) = Z.max 0 (Z.min bitbudget (MAXBITS * Z.of_nat (S (dwtlevel bl)))).
Proof.
  unfold allocate. set (b := usable_budget bl bitbudget).
  assert (Eb : b = Z.min bitbudget (MAXBITS * Z.of_nat (S (dwtlevel bl)))).
  { unfold b, usable_budget. rewrite book_length. destruct (Z.ltb_spec (Z.of_nat (S (dwtlevel bl)) * MAXBITS) bitbudget); lia. }
  destruct (loop_balanced log10 pow2 bl smr dwt Q b (S (Z.to_nat b)) (alloc_start pow2 bl dwt)) as [A B].
  - apply start_balanced.
  - cbn [alloc_start bitalloc_sum]. rewrite Z.sub_0_r. lia.
  - split; [exact A|]. intros st H. destruct (B st H) as [((L1 & L2 & L3) & Sm & P & _) E].
    rewrite <- Sm, E, Eb. auto.
Qed.
