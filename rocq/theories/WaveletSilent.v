(** Blocks without signal. *)
From Coq Require Import Lia ZArith List Bool Reals.
From Flocq Require Import Core BinarySingleNaN.
From Verif Require Import Base FloatBase FloatModel ArithModel SpihtModel TypesModel ToolsModel SynthModel WaveletModel WaveletTransform WaveletInverse WaveletSpec WaveletAlloc WaveletCodec WaveletBlocks SpihtTree.
Import ListNotations.
Ltac Zify.zify_post_hook ::= Z.div_mod_to_equations.

Definition zero (x : f64) : Prop := exists s, x = B754_zero s.
Lemma zero_0 : zero f64_0. Proof. exists false. reflexivity. Qed.
Lemma zero_add a b : zero a -> zero b -> zero (add64 a b).
Proof. intros [s ->] [t ->]. destruct s, t; eexists; reflexivity. Qed.
Lemma zero_sub a b : zero a -> zero b -> zero (sub64 a b).
Proof. intros [s ->] [t ->]. destruct s, t; eexists; reflexivity. Qed.
Lemma zero_mul a b : zero a -> is_finite b = true -> zero (mul64 a b).
Proof. intros [s ->] F. destruct b; try discriminate; eexists; reflexivity. Qed.
Lemma zero_nth l i : Forall zero l -> zero (nth i l f64_0).
Proof. intros F. destruct (nth_in_or_default i l f64_0) as [I| ->]; [rewrite Forall_forall in F; apply F, I|apply zero_0]. Qed.
Definition finite (x : f64) : Prop := is_finite x = true.
Lemma finite_nth l i : Forall finite l -> is_finite (nth i l f64_0) = true.
Proof. intros F. destruct (nth_in_or_default i l f64_0) as [I| ->]; [rewrite Forall_forall in F; apply F, I|reflexivity]. Qed.
Lemma zero_conv inp h j : Forall zero inp -> Forall finite h -> zero (conv_at inp h j).
Proof.
  intros Fi Fh. unfold conv_at.
  assert (H0 : zero (if (j <? length inp)%nat then mul64 (nth j inp f64_0) (nth 0 h f64_0) else f64_0)).
  { destruct (_ <? _)%nat; [apply zero_mul; [apply zero_nth, Fi|apply finite_nth, Fh]|apply zero_0]. }
  revert H0. generalize (if (j <? length inp)%nat then mul64 (nth j inp f64_0) (nth 0 h f64_0) else f64_0).
  induction (seq 1 (length h - 1)) as [|i l IH]; intros a Ha; [exact Ha|]. cbn [fold_left]. apply IH.
  destruct (_ && _); [|exact Ha]. apply zero_add; [exact Ha|]. apply zero_mul; [apply zero_nth, Fi|apply finite_nth, Fh].
Qed.
Lemma Forall_firstn {A} (P : A -> Prop) n l : Forall P l -> Forall P (firstn n l).
Proof. intros F. rewrite <- (firstn_skipn n l) in F. apply Forall_app in F. apply F. Qed.
Lemma Forall_skipn {A} (P : A -> Prop) n l : Forall P l -> Forall P (skipn n l).
Proof. intros F. rewrite <- (firstn_skipn n l) in F. apply Forall_app in F. apply F. Qed.
Lemma zero_symconv x h y : Forall zero x -> Forall finite h -> symconv x h = Ok y -> Forall zero y.
Proof.
  intros Fx Fh. unfold symconv. destruct (_ <? _)%nat; [discriminate|]. intros E. injection E as <-.
  apply Forall_firstn, Forall_skipn. unfold conv1D. apply Forall_forall. intros v Hv. apply in_map_iff in Hv. destruct Hv as (j & <- & _).
  apply zero_conv; [|exact Fh]. apply Forall_app. split; [apply Forall_rev, Forall_firstn; apply (Forall_skipn _ 1 x Fx)|]. apply Forall_app. split; [exact Fx|]. apply Forall_rev, Forall_firstn, Forall_skipn, Fx.
Qed.
Lemma Forall_evens {A} (P : A -> Prop) n : forall l, (length l <= n)%nat -> Forall P l -> Forall P (evens l).
Proof.
  induction n as [|n IH]; intros l Hl F; [destruct l; [constructor|cbn in Hl; lia]|].
  destruct l as [|x [|y l]]; [constructor|cbn; exact F|]. cbn [evens]. inversion F as [|? ? Px F']; subst. inversion F' as [|? ? Py F'']; subst.
  constructor; [exact Px|]. apply IH; [cbn in Hl; lia|exact F''].
Qed.
Lemma finite_hp : Forall finite hp. Proof. repeat constructor. Qed.
Lemma finite_lp : Forall finite lp. Proof. repeat constructor. Qed.
Lemma zero_level x a b : Forall zero x -> dwt_level x = Ok (a, b) -> Forall zero a /\ Forall zero b.
Proof.
  intros F. unfold dwt_level. destruct (symconv x hp) as [h| | |] eqn:E1; try discriminate. cbn [obind].
  destruct (symconv x lp) as [l| | |] eqn:E2; try discriminate. cbn [obind]. destruct (Nat.odd _); [discriminate|]. intros E. injection E as <- <-.
  pose proof (zero_symconv _ _ _ F finite_hp E1) as Fh. pose proof (zero_symconv _ _ _ F finite_lp E2) as Fl.
  split; [apply (Forall_evens _ (length l)); [lia|exact Fl]|]. unfold odds. destruct h as [|v h]; [constructor|]. inversion Fh; subst. apply (Forall_evens _ (length h)); [lia|assumption].
Qed.
Lemma zero_levels n : forall x out y, Forall zero x -> Forall zero out -> dwt_levels n x out = Ok y -> Forall zero y.
Proof.
  induction n as [|n IH]; intros x out y Fx Fo; cbn [dwt_levels]; [intros E; injection E as <-; exact Fo|].
  destruct (dwt_level x) as [[a b]| | |] eqn:E; try discriminate. cbn [obind]. destruct (zero_level _ _ _ Fx E) as [Fa Fb].
  apply IH; [exact Fa|]. apply Forall_app. split; [exact Fa|]. apply Forall_app. split; [exact Fb|apply Forall_skipn, Fo].
Qed.
Lemma zero_DWT x n y : Forall zero x -> DWT x n = Ok y -> Forall zero y.
Proof. intros F. apply zero_levels; [exact F|]. apply Forall_forall. intros v Hv. apply repeat_spec in Hv. subst. apply zero_0. Qed.

Lemma zero_findMax l : Forall zero l -> findMax l = B754_zero false.
Proof.
  destruct l as [|x l]; [reflexivity|]. intros F. inversion F as [|? ? [s ->] F']; subst. cbn [findMax]. change (Babs (B754_zero s)) with (B754_zero false : f64).
  clear F s. induction F' as [|y l [s ->] F' IH]; [reflexivity|]. cbn [fold_left]. exact IH.
Qed.
Lemma zero_largest l : Forall zero l -> largestCoefficient l = Ok (B754_zero false).
Proof. intros F. unfold largestCoefficient. rewrite (zero_findMax _ F). reflexivity. Qed.

Section Silent.
Variables log10 pow2 : f64 -> f64.
Variable smr : nat -> f64 * f64.
Hypothesis Hpow : forall s, pow2 (B754_zero s) = B754_zero false.
Hypothesis Hinf : log10 (B754_infinity false) = B754_infinity false.
Hypothesis Hnan : log10 B754_nan = B754_nan.
Hypothesis Hen : forall i, flt (fst (smr i)) f64_0 = false.
Variable bl : nat.
Variable dwt : list f64.
Hypothesis Ld : length dwt = bl.
Hypothesis Hz : Forall zero dwt.
Notation lv := (dwtlevel bl).
Notation Q := (B754_zero false : f64).

Definition dull (r : f64) : Prop := r = B754_nan \/ r = B754_infinity false.
Lemma dull_ratio i : dull (ratio log10 smr (B754_zero false) i).
Proof.
  unfold ratio. pose proof (Hen i) as H. set (E := fst (smr i)) in *.
  assert (D : div64 E (B754_zero false) = B754_nan \/ div64 E (B754_zero false) = B754_infinity false).
  { destruct E as [s|[|]| |[|] m e He]; [left|discriminate H|right|left|discriminate H|right]; reflexivity. }
  destruct D as [-> | ->]; [rewrite Hnan; left; reflexivity|]. rewrite Hinf.
  destruct (snd (smr i)) as [s|[|]| |s m e He]; [right|right|left|left|right]; reflexivity.
Qed.
Lemma dull_first l : Forall dull l -> findMinInd l = 0%nat.
Proof.
  destruct l as [|x l]; [reflexivity|]. intros F. inversion F as [|? ? Dx F']; subst. unfold findMinInd. clear F. generalize 1%nat.
  induction F' as [|y l Dy F' IH]; intros i; [reflexivity|]. cbn [fold_left].
  replace (flt y x) with false by (destruct Dx as [-> | ->], Dy as [-> | ->]; reflexivity). apply IH.
Qed.
Lemma silent_noise quant a b : Forall zero quant -> noise_of pow2 dwt quant a b = B754_zero false.
Proof.
  intros Fq. unfold noise_of. change f64_0 with (B754_zero false : f64) at 3. induction (seq a (b - a)) as [|i l IH]; [reflexivity|]. cbn [fold_left].
  destruct (zero_sub _ _ (zero_nth dwt i Hz) (zero_nth quant i Fq)) as [s ->]. rewrite Hpow. exact IH.
Qed.
(** All bits so far are in the first band. *)
Definition silent (j : Z) (st : alloc) : Prop :=
  bitalloc st = j :: repeat 0%Z lv /\ bitalloc_sum st = j /\ Forall zero (dwt_quant st) /\ length (dwt_quant st) = bl /\ noiseenergy st = repeat (B754_zero false) (S lv).
Lemma start_silent : silent 0 (alloc_start pow2 bl dwt).
Proof.
  unfold silent, alloc_start. cbn [bitalloc bitalloc_sum dwt_quant noiseenergy]. rewrite book_length.
  assert (Fq : Forall zero (repeat f64_0 bl)) by (apply Forall_forall; intros v Hv; apply repeat_spec in Hv; subst; apply zero_0).
  split; [reflexivity|]. split; [reflexivity|]. split; [exact Fq|]. split; [apply repeat_length|].
  rewrite (map_ext _ (fun _ => B754_zero false)); [|intros b; apply silent_noise, Fq].
  generalize 0%nat. generalize (S lv). clear. induction n as [|n IH]; intros i; [reflexivity|]. cbn [seq map repeat]. rewrite IH. reflexivity.
Qed.
Lemma silent_ratios j st : silent j st -> Forall dull (ratios log10 smr st).
Proof.
  intros (Hb & _ & _ & _ & Hn). unfold ratios. apply Forall_forall. intros r Hr. apply in_map_iff in Hr. destruct Hr as ([i [b n]] & <- & I).
  apply in_combine_r in I. apply in_combine_r in I. rewrite Hn in I. apply repeat_spec in I. subst n. destruct (_ <=? _)%Z; [right; reflexivity|apply dull_ratio].
Qed.
Lemma silent_step j budget st : silent j st -> (0 <= j)%Z -> (j < 15 * Z.of_nat lv)%Z ->
  ((j < 30)%Z -> exists st', alloc_step log10 pow2 bl smr dwt Q budget st = Ok st' /\ silent (j + 1) st') /\
  ((30 <= j)%Z -> alloc_step log10 pow2 bl smr dwt Q budget st = UB).
Proof.
  intros S0 Hj Hl. pose proof (dull_first _ (silent_ratios _ _ S0)) as Ei. destruct S0 as (Hb & Hs & Fq & Lq & Hn).
  unfold alloc_step. rewrite Ei, Hb, Hs. 
  assert (En : nth lv (j :: repeat 0%Z lv) 0%Z = 0%Z) by (destruct lv; [cbn in Hl; lia|cbn [nth]; apply nth_repeat]).
  rewrite En. rewrite (proj2 (Z.leb_gt _ _)) by (unfold MAXBITS; lia). cbn [nth SpihtModel.set_at].
  unfold uniformQuant, shift1. split; intros H.
  - rewrite (proj2 (Z.leb_le _ _)) by lia. rewrite (proj2 (Z.ltb_lt _ _)) by lia. cbn [andb obind].
    change (nth 0 (book_cumulative bl) 0%nat) with 0%nat. cbn [Nat.add].
    pose proof (book_nth bl 0 ltac:(lia)) as Bn. pose proof (start_le bl 1 ltac:(lia)) as Bl. rewrite start_0 in Bn.
    rewrite Ld, Lq. change (nth 0 (book bl) 0%nat) with (hd 0%nat (book bl)) in Bn. set (n0 := hd 0%nat (book bl)) in *.
    change (nth 0 (book bl) 0%nat) with n0. rewrite (proj2 (Nat.ltb_ge _ _)) by lia. cbn [orb obind firstn app skipn].
    eexists. split; [reflexivity|].
    set (quant := map _ (firstn n0 dwt) ++ skipn n0 (dwt_quant st)).
    assert (Fz : Forall zero quant).
    { apply Forall_app. split; [|apply Forall_skipn, Fq]. apply Forall_forall. intros v Hv. apply in_map_iff in Hv. destruct Hv as (x & <- & _). exists false. reflexivity. }
    unfold silent. cbn [bitalloc bitalloc_sum dwt_quant noiseenergy]. split; [reflexivity|]. split; [reflexivity|]. split; [exact Fz|]. split.
    + unfold quant. rewrite app_length, map_length, firstn_length, skipn_length, Ld, Lq. lia.
    + rewrite Hn, silent_noise by exact Fz. reflexivity.
  - rewrite (proj2 (Z.ltb_ge _ _)) by lia. rewrite andb_false_r. reflexivity.
Qed.
Lemma silent_loop fuel : forall j budget st, silent j st -> (0 <= j)%Z -> (j <= budget)%Z -> (budget - j < Z.of_nat fuel)%Z ->
  ((budget <= 30)%Z -> (budget <= 15 * Z.of_nat lv)%Z -> exists st', alloc_loop log10 pow2 fuel bl smr dwt Q budget st = Ok st' /\ silent budget st') /\
  ((31 <= budget)%Z -> (3 <= lv)%nat -> (j <= 30)%Z -> alloc_loop log10 pow2 fuel bl smr dwt Q budget st = UB).
Proof.
  induction fuel as [|n IH]; intros j budget st S0 Hj Hb Hf; [lia|]. cbn [alloc_loop]. pose proof S0 as (_ & Hs & _). rewrite Hs.
  destruct (Z.ltb_spec j budget) as [Lt|Ge].
  - split; [intros B1 B2|intros B1 B2 B3].
    + destruct (silent_step j budget st S0 Hj ltac:(lia)) as [P _]. destruct (P ltac:(lia)) as (st' & -> & S1). cbn [obind]. apply (IH (j + 1)%Z); try assumption; lia.
    + destruct (silent_step j budget st S0 Hj ltac:(lia)) as [P N]. destruct (Z.eq_dec j 30) as [-> |Ne]; [rewrite N by lia; reflexivity|].
      destruct (P ltac:(lia)) as (st' & -> & S1). cbn [obind]. apply (IH (j + 1)%Z); try assumption; lia.
  - assert (Ej : j = budget) by lia. rewrite <- Ej. split; [intros; exists st; split; [reflexivity|exact S0]|intros; lia].
Qed.
Lemma silent_alloc budget : (0 <= budget)%Z ->
  ((budget <= 30)%Z -> (budget <= 15 * Z.of_nat lv)%Z -> exists st, allocate log10 pow2 bl smr dwt Q budget = Ok st /\ bitalloc st = budget :: repeat 0%Z lv) /\
  ((31 <= budget)%Z -> (3 <= lv)%nat -> allocate log10 pow2 bl smr dwt Q budget = UB).
Proof.
  intros Hb. unfold allocate, usable_budget. rewrite book_length. split; intros H1 H2.
  - rewrite (proj2 (Z.ltb_ge _ _)) by (unfold MAXBITS; lia).
    destruct (silent_loop (S (Z.to_nat budget)) 0 budget _ start_silent) as [P _]; try lia. destruct (P H1 H2) as (st & E & Sb & _). exists st. split; assumption.
  - assert (X : (31 <= (if (Z.of_nat (S lv) * MAXBITS <? budget)%Z then Z.of_nat (S lv) * MAXBITS else budget))%Z).
    { destruct (Z.ltb_spec (Z.of_nat (S lv) * MAXBITS) budget); unfold MAXBITS; lia. }
    set (b := if (Z.of_nat (S lv) * MAXBITS <? budget)%Z then _ else budget) in *.
    destruct (silent_loop (S (Z.to_nat b)) 0 b _ start_silent) as [_ P]; try lia. apply P; lia.
Qed.
End Silent.
