(** The quantised block when the next bit can always be given. *)
From Coq Require Import Reals Lra Lia ZArith List.
From Flocq Require Import Core BinarySingleNaN.
From Verif Require Import Base FloatBase FloatModel FloatProof Float64Proof SpihtModel SpihtTree ToolsModel SynthModel SpihtHeader WaveletModel WaveletSpec WaveletTransform WaveletFilter WaveletInverse WaveletQuant WaveletAlloc.
Import ListNotations.
Local Open Scope Z_scope.
Ltac Zify.zify_post_hook ::= Z.div_mod_to_equations.

Definition finite_ratio (r : f64) : Prop := is_nan r = false /\ r <> B754_infinity false.
Lemma lt_inf (y : f64) : finite_ratio y -> flt y (B754_infinity false) = true.
Proof. intros [A B]. destruct y as [s|[|]| |[|] m e H]; try reflexivity; try discriminate. congruence. Qed.
Lemma inf_lt (m : f64) : flt (B754_infinity false) m = false.
Proof. destruct m as [s|[|]| |[|] m e H]; reflexivity. Qed.
Lemma nan_lt (y m : f64) : flt y m = true -> is_nan y = false /\ is_nan m = false.
Proof. destruct y as [s|[|]| |[|] y e H], m as [s'|[|]| |[|] m e' H']; cbn; intros; try discriminate; auto. Qed.
Lemma lt_finite (y m : f64) : flt y m = true -> finite_ratio y.
Proof. intros H. split; [apply (nan_lt _ _ H)|]. intros ->. rewrite inf_lt in H. discriminate. Qed.

Lemma findMinInd_finite (l : list f64) : usable l -> finite_ratio (nth (findMinInd l) l f64_0).
Proof.
  intros [Hd Ex]. destruct l as [|x l]; [inversion Ex|]. cbn [hd] in Hd. unfold findMinInd.
  assert (G : forall l m idx i, is_nan m = false -> finite_ratio m \/ Exists finite_ratio l ->
    let '(m', _, _) := fold_left (fun '(m, index, i) y => if flt y m then (y, i, S i) else (m, index, S i)) l (m, idx, i) in finite_ratio m').
  { clear. induction l as [|y l IH]; intros m idx i N H; cbn [fold_left].
    - destruct H as [H|H]; [exact H|inversion H].
    - destruct (flt y m) eqn:E.
      + pose proof (lt_finite _ _ E) as P. apply IH; [apply P|left; exact P].
      + apply IH; [exact N|]. destruct H as [H|H]; [left; exact H|]. inversion_clear H as [? ? P|? ? P]; [|right; exact P].
        left. split; [exact N|]. intros ->. rewrite lt_inf in E by exact P. discriminate. }
  pose proof (findMin_scan l x 0 1) as Sc. specialize (G l x 0%nat 1%nat Hd).
  destruct (fold_left _ l (x, 0%nat, 1%nat)) as [[m' idx'] i'].
  assert (P : finite_ratio m'). { apply G. inversion_clear Ex as [? ? P|? ? P]; [left; exact P|right; exact P]. }
  destruct Sc as [E|(k & Hk & -> & ->)]; [injection E as -> ->; exact P|]. cbn [nth Nat.add]. exact P.
Qed.

Lemma combine_nth_lt {A B} : forall (l : list A) (l' : list B) i a b, (i < length l)%nat -> (i < length l')%nat -> nth i (combine l l') (a, b) = (nth i l a, nth i l' b).
Proof.
  induction l as [|x l IH]; intros [|y l'] i a b H1 H2; cbn [length] in *; try lia. destruct i; [reflexivity|]. cbn. apply IH; lia.
Qed.

Section Run.
Variables log10 pow2 : f64 -> f64.
Variable bl : nat.
Variable smr : nat -> f64 * f64.
Variable dwt : list f64.
Variable Q : f64.
Variable budget : Z.
Let lv := dwtlevel bl.
Hypothesis Lb : budget <= MAXBITS * Z.of_nat (S lv).
Hypothesis FQ : is_finite Q = true.
Hypothesis GQ : on_grid (B2R Q).
Hypothesis Ld : length dwt = bl.
Hypothesis Bd : all_bounded 1073741824 dwt.
Hypothesis ZQ : B2R Q = 0%R -> Forall (fun x => B2R x = 0%R) dwt.

Lemma ratio_full st i : shape bl st -> (i <= lv)%nat -> MAXBITS <= nth i (bitalloc st) 0 -> nth i (ratios log10 smr st) f64_0 = B754_infinity false.
Proof.
  intros (A & B & _) Hi F. fold lv in A, B. unfold ratios.
  set (f := fun '(i, (bits, noise)) => if MAXBITS <=? bits then B754_infinity false else ratio log10 smr noise i).
  assert (L : (i < length (combine (seq 0 (length (bitalloc st))) (combine (bitalloc st) (noiseenergy st))))%nat).
  { rewrite combine_length, seq_length, combine_length. lia. }
  rewrite (nth_indep _ f64_0 (f (0%nat, (0, f64_0)))) by (rewrite map_length; exact L).
  rewrite map_nth. rewrite combine_nth_lt by (rewrite ?seq_length, ?combine_length; lia).
  rewrite combine_nth_lt by lia. unfold f. rewrite (proj2 (Z.leb_le _ _) F). reflexivity.
Qed.

Lemma quantised_zero b x : B2R Q = 0%R -> B2R x = 0%R -> 0 <= b <= 15 -> quantised (B2R Q) b x f64_0.
Proof.
  intros E Ex Hb. exists 0. split; [reflexivity|]. unfold stands_for, step. rewrite E, Ex, Rabs_R0. change (B2R f64_0) with 0%R.
  replace (0 / IZR (2 ^ b))%R with 0%R by (unfold Rdiv; ring). pose proof (Z.pow_pos_nonneg 2 b ltac:(lia) ltac:(lia)).
  split; [ring|]. split; [change (Z.abs 0) with 0; lia|]. split; [lra|].
  rewrite !Rmult_0_r, Rminus_0_r, Rabs_R0, Rmult_0_l. repeat split; intros; try lra.
Qed.
Lemma quantised_start x : quantised (B2R Q) 0 x f64_0.
Proof.
  assert (P : (0 <= B2R Q)%R).
  { destruct GQ as (j & Hj & [->| ->]); assert (0 <= IZR j)%R by (apply IZR_le; lia); lra. }
  exists 0. split; [reflexivity|]. unfold stands_for, step. change (2 ^ 0) with 1. change (B2R f64_0) with 0%R.
  replace (B2R Q / 1)%R with (B2R Q) by field. rewrite !Rmult_0_l. split; [reflexivity|]. split; [change (Z.abs 0) with 0; lia|]. split; [lra|].
  replace (0 - B2R x)%R with (- B2R x)%R by ring. rewrite Rabs_Ropp. repeat split; intros; lra.
Qed.
Lemma grid_128 : B2R Q <> 0%R -> exists m, B2R Q = (IZR m / 128)%R /\ 1 <= m <= 2160.
Proof.
  intros NZ. destruct GQ as (j & Hj & [E|E]).
  - exists j. split; [exact E|]. assert (j <> 0) by (intros ->; apply NZ; rewrite E; lra). lia.
  - exists (128 + 16 * j). split; [rewrite E, plus_IZR, mult_IZR; lra|lia].
Qed.
Lemma quantise_any b x : In x dwt -> 0 <= b <= 15 ->
  quantised (B2R Q) b x (quantise Q (div64 Q (f64_of_Z (2 ^ b))) (mul64 (div64 Q (f64_of_Z (2 ^ b))) (f64_of_Z (2 ^ b - 1))) x).
Proof.
  intros Hx Hb. destruct (Req_dec (B2R Q) 0) as [Z0|NZ].
  - assert (Eq : feq Q f64_0 = true).
    { unfold feq, Beqb, SpecFloat.SFeqb. change (SpecFloat.SFcompare (B2SF Q) (B2SF f64_0)) with (Bcompare Q f64_0).
      rewrite Bcompare_correct by (assumption || reflexivity). change (B2R f64_0) with 0%R. rewrite Rcompare_Eq by exact Z0. reflexivity. }
    unfold quantise. rewrite Eq. apply quantised_zero; try assumption. specialize (ZQ Z0). rewrite Forall_forall in ZQ. apply ZQ, Hx.
  - destruct (grid_128 NZ) as (m & E & Hm). unfold all_bounded in Bd. rewrite Forall_forall in Bd. destruct (Bd x Hx) as [Fx Bx].
    destruct (quantise_ok Q m b FQ E Hm Hb x Fx Bx) as (z & A & B & C). exists z. auto.
Qed.

Definition quality (st : alloc) : Prop :=
  forall b i, (b <= lv)%nat -> (band_start bl b <= i < band_start bl (S b))%nat ->
    quantised (B2R Q) (nth b (bitalloc st) 0) (nth i dwt f64_0) (nth i (dwt_quant st) f64_0).
Definition fine (st : alloc) : Prop := balanced bl budget st /\ Forall (fun b => 0 <= b <= 15) (bitalloc st) /\ quality st.

Lemma start_fine : fine (alloc_start pow2 bl dwt).
Proof.
  split; [apply start_balanced|]. unfold alloc_start. cbn [bitalloc dwt_quant]. split.
  - apply Forall_forall. intros x Hx. apply repeat_spec in Hx. lia.
  - intros b i Hb Hi. cbn [bitalloc dwt_quant]. rewrite !nth_repeat. apply quantised_start.
Qed.
Lemma share_le (l : list Z) : Forall (fun b => 0 <= b <= 15) l -> zsum l <= 15 * Z.of_nat (length l).
Proof. induction 1; cbn [zsum length]; lia. Qed.
Lemma set_range (l : list Z) : forall i v, 0 <= v <= 15 -> Forall (fun b => 0 <= b <= 15) l -> Forall (fun b => 0 <= b <= 15) (SpihtModel.set_at l i v).
Proof. induction l as [|x l IH]; intros [|i] v H F; cbn; try (exact F || constructor). all: inversion_clear F; auto. Qed.

Lemma uniform_ok b start len out : 0 <= b <= 15 -> (start + len <= bl)%nat -> length out = bl ->
  exists r, uniformQuant dwt start Q b len out = Ok r /\ length r = bl /\
    (forall i, (start <= i < start + len)%nat -> quantised (B2R Q) b (nth i dwt f64_0) (nth i r f64_0)) /\
    (forall i, (i < start \/ start + len <= i)%nat -> nth i r f64_0 = nth i out f64_0).
Proof.
  intros Hb Hs Lo. unfold uniformQuant, shift1. rewrite (proj2 (Z.leb_le 0 b)), (proj2 (Z.ltb_lt b 31)) by lia. cbn [andb obind].
  rewrite (proj2 (Nat.ltb_ge _ _)) by lia. rewrite (proj2 (Nat.ltb_ge _ _)) by lia. cbn [orb].
  eexists. split; [reflexivity|]. set (q := quantise _ _ _).
  assert (L1 : length (firstn start out) = start) by (rewrite firstn_length; lia).
  assert (L2 : length (map q (firstn len (skipn start dwt))) = len) by (rewrite map_length, firstn_length, skipn_length; lia).
  split; [rewrite !app_length, L1, L2, skipn_length; lia|]. split.
  - intros i Hi. rewrite app_nth2 by lia. rewrite L1, app_nth1 by lia.
    rewrite (nth_indep (map q (firstn len (skipn start dwt))) f64_0 (q f64_0)) by lia. rewrite map_nth, nth_firstn_lt by lia. rewrite nth_skipn_add.
    replace (start + (i - start))%nat with i by lia. apply quantise_any; [apply nth_In; lia|exact Hb].
  - intros i [Hi|Hi].
    + rewrite app_nth1 by lia. apply nth_firstn_lt, Hi.
    + rewrite app_nth2 by lia. rewrite L1, app_nth2 by lia. rewrite L2, nth_skipn_add. f_equal. lia.
Qed.

Lemma step_fine st : fine st -> bitalloc_sum st < budget -> usable (ratios log10 smr st) ->
  exists st', alloc_step log10 pow2 bl smr dwt Q budget st = Ok st' /\ fine st'.
Proof.
  intros (Ba & Rg & Ql) Lt Us. pose proof (findMinInd_finite _ Us) as Fi.
  pose proof Ba as (Sh & Sum & Pos & Le & Lst). pose proof (index_lt log10 pow2 bl smr Q st Sh) as Hi. pose proof Sh as (A & B & C).
  assert (Bi : nth (findMinInd (ratios log10 smr st)) (bitalloc st) 0 < 15).
  { destruct (Z_lt_ge_dec (nth (findMinInd (ratios log10 smr st)) (bitalloc st) 0) 15) as [|G]; [assumption|]. exfalso.
    rewrite ratio_full in Fi by (assumption || unfold MAXBITS; lia). destruct Fi as [_ N]. congruence. }
  assert (Hstep : forall st', alloc_step log10 pow2 bl smr dwt Q budget st = Ok st' -> balanced bl budget st').
  { intros st' H. apply (step_balanced log10 pow2 bl smr dwt Q budget st st' Ba Lt H). }
  unfold alloc_step in *. fold lv in A, B, Lst, Hi. set (index := findMinInd (ratios log10 smr st)) in *. fold lv in Hstep |- *.
  assert (Pi : 0 <= nth index (bitalloc st) 0) by (apply nonneg_nth, Pos).
  pose proof (nonneg_nth (bitalloc st) lv Pos) as Pl.
  (* the bits of the band that is quantised next *)
  assert (Hbits : exists bits' sum', (if MAXBITS * Z.of_nat lv <=? bitalloc_sum st - nth lv (bitalloc st) 0
      then (SpihtModel.set_at (bitalloc st) lv (budget - MAXBITS * Z.of_nat lv), bitalloc_sum st + (budget - MAXBITS * Z.of_nat lv - nth lv (bitalloc st) 0))
      else (SpihtModel.set_at (bitalloc st) index (nth index (bitalloc st) 0 + 1), bitalloc_sum st + 1)) = (bits', sum') /\
      length bits' = S lv /\ Forall (fun b => 0 <= b <= 15) bits' /\ (forall b, (b <= lv)%nat -> b <> index -> nth b bits' 0 = nth b (bitalloc st) 0)).
  { destruct (Z.leb_spec (MAXBITS * Z.of_nat lv) (bitalloc_sum st - nth lv (bitalloc st) 0)) as [G|L].
    - assert (Ei : index = lv).
      { destruct (Nat.eq_dec index lv) as [E|N]; [exact E|]. exfalso.
        pose proof (share_le (SpihtModel.set_at (SpihtModel.set_at (bitalloc st) lv 15) index 15)) as Sl.
        rewrite zsum_set in Sl by (rewrite set_at_length; lia). rewrite zsum_set in Sl by lia. rewrite !set_at_length in Sl.
        rewrite set_at_nth in Sl by lia. rewrite (proj2 (Nat.eqb_neq index lv) N) in Sl.
        specialize (Sl ltac:(apply set_range; [lia|apply set_range; [lia|exact Rg]])). unfold MAXBITS in *. lia. }
      eexists _, _. split; [reflexivity|]. split; [rewrite set_at_length; exact A|]. split.
      + apply set_range; [|exact Rg]. unfold MAXBITS in *. lia.
      + intros b Hb N. rewrite set_at_nth by lia. rewrite (proj2 (Nat.eqb_neq b lv)) by congruence. reflexivity.
    - eexists _, _. split; [reflexivity|]. split; [rewrite set_at_length; exact A|]. split.
      + apply set_range; [lia|exact Rg].
      + intros b Hb N. rewrite set_at_nth by lia. rewrite (proj2 (Nat.eqb_neq b index) N). reflexivity. }
  destruct Hbits as (bits' & sum' & E & L' & R' & N'). rewrite E in Hstep |- *.
  assert (Bn : 0 <= nth index bits' 0 <= 15) by (apply Forall_nth; [exact R'|lia]).
  pose proof (book_nth bl index Hi) as Bk. fold (band_start bl index) in Hstep |- *.
  destruct (uniform_ok (nth index bits' 0) (band_start bl index) (nth index (book bl) 0%nat) (dwt_quant st) Bn) as (r & Er & Lr & In1 & Out1).
  { rewrite <- Bk. apply start_le. fold lv. lia. }
  { exact C. }
  rewrite Er in Hstep |- *. cbn [obind] in Hstep |- *. eexists. split; [reflexivity|].
  split; [apply Hstep; reflexivity|]. cbn [bitalloc dwt_quant]. split; [exact R'|].
  intros b i Hb Hbi. cbn [bitalloc dwt_quant]. destruct (Nat.eq_dec b index) as [->|N].
  - apply In1. lia.
  - rewrite N' by assumption. rewrite Out1; [apply Ql; assumption|].
    destruct (Nat.lt_ge_cases b index) as [Lti|Gti].
    + left. pose proof (start_mono bl (S b) index ltac:(lia) ltac:(fold lv; lia)). lia.
    + right. rewrite <- Bk. pose proof (start_mono bl (S index) b ltac:(lia) ltac:(fold lv; lia)). lia.
Qed.

Lemma loop_fine fuel : forall st, visited log10 pow2 bl smr dwt Q budget st -> fine st -> (Z.to_nat (budget - bitalloc_sum st) < fuel)%nat ->
  (forall st, visited log10 pow2 bl smr dwt Q budget st -> bitalloc_sum st < budget -> usable (ratios log10 smr st)) ->
  exists st', alloc_loop log10 pow2 fuel bl smr dwt Q budget st = Ok st' /\ fine st'.
Proof.
  induction fuel as [|n IH]; intros st V F Hf Us; [lia|]. cbn [alloc_loop].
  destruct (Z.ltb_spec (bitalloc_sum st) budget) as [L|G]; [|exists st; split; [reflexivity|exact F]].
  destruct (step_fine st F L (Us st V L)) as (st1 & E & F1). rewrite E. cbn [obind].
  apply IH; [apply (visited_next _ _ _ _ _ _ _ st st1 V L E)|exact F1| |exact Us].
  pose proof (step_balanced log10 pow2 bl smr dwt Q budget st st1 (proj1 F) L E). lia.
Qed.
End Run.

Lemma allocate_fine log10 pow2 bl smr dwt Q bitbudget :
  is_finite Q = true -> on_grid (B2R Q) -> length dwt = bl -> all_bounded 1073741824 dwt ->
  (B2R Q = 0%R -> Forall (fun x => B2R x = 0%R) dwt) ->
  always_usable log10 pow2 bl smr dwt Q bitbudget ->
  exists st, allocate log10 pow2 bl smr dwt Q bitbudget = Ok st /\ Forall (fun b => 0 <= b <= 15) (bitalloc st) /\
    forall b i, (b <= dwtlevel bl)%nat -> (band_start bl b <= i < band_start bl (S b))%nat ->
      quantised (B2R Q) (nth b (bitalloc st) 0) (nth i dwt f64_0) (nth i (dwt_quant st) f64_0).
Proof.
  intros FQ GQ Ld Bd ZQ Us. unfold allocate, always_usable in *. set (b := usable_budget bl bitbudget) in *.
  assert (Hb : b <= MAXBITS * Z.of_nat (S (dwtlevel bl))).
  { unfold b, usable_budget. rewrite book_length. destruct (Z.ltb_spec (Z.of_nat (S (dwtlevel bl)) * MAXBITS) bitbudget); lia. }
  destruct (loop_fine log10 pow2 bl smr dwt Q b Hb FQ GQ Ld Bd ZQ (S (Z.to_nat b)) (alloc_start pow2 bl dwt)) as (st & E & (Ba & R & Ql)).
  - constructor.
  - apply start_fine; assumption.
  - cbn [alloc_start bitalloc_sum]. rewrite Z.sub_0_r. lia.
  - exact Us.
  - exists st. auto.
Qed.
