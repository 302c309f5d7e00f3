(** Proofs about the arithmetic coder. *)
From Coq Require Import Reals Psatz.
From Flocq Require Import Core.Core.
From Verif Require Import Base FloatBase FloatModel FloatProof Float64Proof ToolsModel ToolsFloatProof
  ArithModel ArithSpec.
Ltac Zify.zify_post_hook ::= Z.div_mod_to_equations.
Local Open Scope Z_scope.

(** *** The part of the interval given to symbol 0 *)
Lemma f64_1024_R : B2R f64_1024 = 1024%R /\ is_finite f64_1024 = true.
Proof.
  split; [|reflexivity]. unfold f64_1024, B2R, F2R. cbn -[bpow]. change (-42) with (Z.opp 42).
  rewrite (bpow_inv 42) by lia. change (2 ^ 42) with 4398046511104. lra.
Qed.
Lemma f64_32_R : B2R f64_32 = 32%R /\ is_finite f64_32 = true.
Proof.
  split; [|reflexivity]. unfold f64_32, B2R, F2R. cbn -[bpow]. change (-47) with (Z.opp 47).
  rewrite (bpow_inv 47) by lia. change (2 ^ 47) with 140737488355328. lra.
Qed.

Section Ratio.
Local Open Scope R_scope.
Lemma big1000 x : Rabs x <= 4294967296 -> Rabs x <= bpow radix2 1000.
Proof.
  intros H. apply Rle_trans with (1 := H). apply Rle_trans with (bpow radix2 32); [cbn; lra|apply bpow_le; lia].
Qed.
(** A counter divided by its total, scaled by a representable factor. *)
Lemma ratio_range c t (k : f64) K : (0 <= c <= t)%Z -> (1 <= t <= 2 ^ 31)%Z ->
  B2R k = IZR K -> is_finite k = true -> (0 <= K <= 4096)%Z ->
  is_finite (mul64 (div64 (f64_of_Z c) (f64_of_Z t)) k) = true /\
  0 <= B2R (mul64 (div64 (f64_of_Z c) (f64_of_Z t)) k) <= IZR K.
Proof.
  intros Hc Ht Ek Fk HK.
  destruct (f64_of_Z_ok c ltac:(lia)) as [Ec Fc]. destruct (f64_of_Z_ok t ltac:(lia)) as [Et Ft].
  assert (Hc0 : 0 <= IZR c) by (apply (IZR_le 0); lia).
  assert (Hct : IZR c <= IZR t) by (apply IZR_le; lia).
  assert (Ht1 : 1 <= IZR t) by (apply (IZR_le 1); lia).
  assert (HK0 : 0 <= IZR K) by (apply (IZR_le 0); lia).
  assert (HK1 : IZR K <= 4096) by (apply (IZR_le _ 4096); lia).
  assert (Q : 0 <= IZR c / IZR t <= 1).
  { split; [apply Rmult_le_pos; [lra|left; apply Rinv_0_lt_compat; lra]|].
    apply Rmult_le_reg_r with (IZR t); [lra|]. unfold Rdiv. rewrite Rmult_assoc, Rinv_l by lra. lra. }
  destruct (div64_ok (f64_of_Z c) (f64_of_Z t) Fc) as [Ed Fd].
  { rewrite Et. lra. }
  { rewrite Ec, Et. apply big1000. rewrite Rabs_pos_eq by lra. lra. }
  rewrite Ec, Et in Ed.
  assert (D : 0 <= B2R (div64 (f64_of_Z c) (f64_of_Z t)) <= 1).
  { rewrite Ed. split; [rewrite <- rnd64_0; apply rnd64_le; lra|].
    rewrite <- (rnd64_id 1) by (apply (fmt64_Z 1); lia). apply rnd64_le. lra. }
  set (d := B2R (div64 (f64_of_Z c) (f64_of_Z t))) in *.
  assert (P : 0 <= d * IZR K <= IZR K).
  { split; [apply Rmult_le_pos; lra|]. rewrite <- (Rmult_1_l (IZR K)) at 2. apply Rmult_le_compat_r; lra. }
  destruct (mul64_ok _ k Fd Fk) as [Em Fm].
  { fold d. rewrite Ek. apply big1000. rewrite Rabs_pos_eq by lra. lra. }
  split; [exact Fm|]. rewrite Em, Ek. fold d. split.
  - rewrite <- rnd64_0. apply rnd64_le. lra.
  - rewrite <- (rnd64_id (IZR K)) at 2 by (apply fmt64_Z; lia). apply rnd64_le. lra.
Qed.
End Ratio.

Lemma part0_ok c t d : 0 <= c <= t -> 1 <= t <= 2 ^ 31 -> 2 <= d <= 1024 ->
  exists a, part0 (c, t) d = Ok a /\ 1 <= a < d.
Proof.
  intros Hc Ht Hd. unfold part0. cbn [fst snd].
  destruct f64_1024_R as [E1 F1].
  destruct (ratio_range c t f64_1024 1024 Hc Ht E1 F1 ltac:(lia)) as [Fm Bm].
  set (y := mul64 (div64 (f64_of_Z c) (f64_of_Z t)) f64_1024) in *.
  destruct (fround_R y) as [Ep Fp]. rewrite Fm in Fp.
  pose proof (Znearest_half (Zle_bool 0) (B2R y)) as Hz. set (P := Znearest (Zle_bool 0) (B2R y)) in *.
  apply Rabs_le_inv in Hz.
  assert (HP : 0 <= P <= 1024).
  { assert (A : -1 < P) by (apply lt_IZR; lra). assert (B : P < 1025) by (apply lt_IZR; lra). lia. }
  destruct (f64_of_Z_ok d ltac:(lia)) as [Ed Fd].
  destruct (mul64_ok (f64_of_Z d) (fround y) Fd Fp) as [Eq Fq].
  { rewrite Ed, Ep. rewrite <- mult_IZR. apply big1000. rewrite <- abs_IZR. apply (IZR_le _ 4294967296). nia. }
  rewrite Ed, Ep, <- mult_IZR in Eq. rewrite rnd64_id in Eq by (apply fmt64_Z; nia).
  unfold int_of_float. rewrite Fq, (trunc_int _ _ Eq).
  assert (Hk : 0 <= d * P <= 1024 * 1024) by nia.
  replace (d * P =? cast i32 (d * P)) with true.
  2:{ symmetry. apply Z.eqb_eq. unfold cast, i32, ct_signed, ct_width, to_signed.
      change (2 ^ (Z.of_nat 32 - 1)) with 2147483648. change (2 ^ Z.of_nat 32) with 4294967296.
      rewrite Z.mod_small by lia. lia. }
  cbn [obind]. unfold RANGE_MAX. rewrite Z.quot_div_nonneg by lia.
  assert (Ha : 0 <= d * P / 1024 <= d).
  { split; [apply Z.div_pos; lia|]. apply Z.div_le_upper_bound; nia. }
  eexists. split; [reflexivity|].
  destruct (d * P / 1024 =? 0) eqn:E0; [lia|]. destruct (d * P / 1024 =? d) eqn:E2; lia.
Qed.

Lemma rescale1_ok c t : 0 <= c <= t -> 1 <= t <= 2 ^ 31 ->
  exists k, rescale1 (c, t) = Ok (k, 32) /\ 1 <= k <= 31.
Proof.
  intros Hc Ht. unfold rescale1. cbn [fst snd]. destruct f64_32_R as [E1 F1].
  destruct (ratio_range c t f64_32 32 Hc Ht E1 F1 ltac:(lia)) as [Fm Bm].
  set (y := mul64 (div64 (f64_of_Z c) (f64_of_Z t)) f64_32) in *.
  unfold int_of_float. rewrite Fm. rewrite (Btrunc_floor y) by lra.
  assert (HF : 0 <= Zfloor (B2R y) <= 32).
  { split; [apply Zfloor_lub; apply Bm|]. apply le_IZR. eapply Rle_trans; [apply Zfloor_lb|apply Bm]. }
  set (k := Zfloor (B2R y)) in *.
  replace (k =? cast i32 k) with true.
  2:{ symmetry. apply Z.eqb_eq. unfold cast, i32, ct_signed, ct_width, to_signed.
      change (2 ^ (Z.of_nat 32 - 1)) with 2147483648. change (2 ^ Z.of_nat 32) with 4294967296.
      rewrite Z.mod_small by lia. lia. }
  cbn [obind]. unfold RESIZE_TOTAL. cbv zeta.
  destruct (k =? 0) eqn:E0; [exists 1; split; [reflexivity|lia]|].
  destruct (k =? 32) eqn:E2; eexists; (split; [reflexivity|lia]).
Qed.

(** *** Windows of a bit list *)
Fixpoint win (n : nat) (l : list Z) : Z :=
  match n with
  | O => 0
  | S n' => next_bit l * 2 ^ Z.of_nat n' + win n' (tl l)
  end.
Lemma tl_skipn {A} n : forall l : list A, tl (skipn n l) = skipn (S n) l.
Proof. induction n; intros [|x l]; try reflexivity. cbn [skipn]. apply IHn. Qed.
Lemma tl_skipn' {A} n : forall l : list A, skipn n (tl l) = skipn (S n) l.
Proof. intros [|x l]; [destruct n; reflexivity|reflexivity]. Qed.
Lemma win_last n : forall l, win (S n) l = 2 * win n l + next_bit (skipn n l).
Proof.
  induction n as [|n IH]; intros l.
  - cbn [win skipn]. change (2 ^ Z.of_nat 0) with 1. lia.
  - change (win (S (S n)) l) with (next_bit l * 2 ^ Z.of_nat (S n) + win (S n) (tl l)).
    rewrite IH, tl_skipn'. change (win (S n) l) with (next_bit l * 2 ^ Z.of_nat n + win n (tl l)).
    rewrite Nat2Z.inj_succ, Z.pow_succ_r by lia. ring.
Qed.
Lemma win_leading n : forall bs, leading n (Z.of_nat n - 1) bs = (win n bs, skipn n bs).
Proof.
  induction n as [|n IH]; intros bs; [reflexivity|]. cbn [leading].
  destruct bs as [|b bs].
  - f_equal. clear. assert (H : forall m, win m [] = 0).
    { induction m as [|m IHm]; [reflexivity|]. cbn [win next_bit tl]. lia. }
    rewrite H. reflexivity.
  - replace (Z.of_nat (S n) - 1 - 1) with (Z.of_nat n - 1) by lia. rewrite IH.
    cbn [win next_bit tl skipn]. do 2 f_equal. replace (Z.of_nat (S n) - 1) with (Z.of_nat n) by lia. reflexivity.
Qed.
Lemma win_run b n : forall x l, x = 0 \/ x = 1 -> 
  win (b + n) (repeat x b ++ l) = x * (2 ^ Z.of_nat b - 1) * 2 ^ Z.of_nat n + win n l.
Proof.
  induction b as [|b IH]; intros x l Hx.
  - cbn [repeat app Nat.add]. change (2 ^ Z.of_nat 0) with 1. lia.
  - cbn [repeat app Nat.add win next_bit tl]. rewrite IH by exact Hx.
    rewrite Nat2Z.inj_add, Z.pow_add_r by lia. rewrite Nat2Z.inj_succ, Z.pow_succ_r by lia.
    destruct Hx as [->| ->]; ring.
Qed.

(** The window of the decoder when the encoder has [b] bits pending and will still put out [l]. *)
Definition view (b : nat) (l : list Z) : Z := win (b + 10) l - 512 * (2 ^ Z.of_nat b - 1).

Lemma next_bit_range l : Forall bit l -> 0 <= next_bit l <= 1.
Proof. intros [|x l' H]; cbn; [lia|]. destruct H; lia. Qed.
Lemma Forall_skipn {A} (P : A -> Prop) n : forall l, Forall P l -> Forall P (skipn n l).
Proof. induction n; intros l F; [exact F|]. destruct F; [constructor|]. cbn. auto. Qed.
Lemma Forall_tl {A} (P : A -> Prop) l : Forall P l -> Forall P (tl l).
Proof. intros []; cbn; auto. Qed.
Lemma skipn_run {A} (x : A) b n l : skipn (b + n) (repeat x b ++ l) = skipn n l.
Proof. induction b; [reflexivity|]. cbn [Nat.add repeat app skipn]. exact IHb. Qed.

(** One shift of the decoder's window per shift of the encoder. *)
Lemma view_zero b l : 2 * view b (0 :: repeat 1 b ++ l) + next_bit (skipn (b + 10) (0 :: repeat 1 b ++ l)) = view 0 l
  /\ tl (skipn (b + 10) (0 :: repeat 1 b ++ l)) = skipn 10 l.
Proof.
  rewrite tl_skipn. split; [|exact (skipn_run 1 b 10 l)].
  unfold view. replace (2 * _ + _) with (win (S (b + 10)) (0 :: repeat 1 b ++ l) - 1024 * (2 ^ Z.of_nat b - 1))
    by (rewrite win_last; ring).
  cbn [win next_bit tl]. rewrite win_run by auto. change (2 ^ Z.of_nat 10) with 1024.
  change (win (0 + 10) l) with (win 10 l). change (2 ^ Z.of_nat 0) with 1. lia.
Qed.
Lemma view_one b l : 2 * (view b (1 :: repeat 0 b ++ l) - 512) + next_bit (skipn (b + 10) (1 :: repeat 0 b ++ l)) = view 0 l
  /\ tl (skipn (b + 10) (1 :: repeat 0 b ++ l)) = skipn 10 l.
Proof.
  rewrite tl_skipn. split; [|exact (skipn_run 0 b 10 l)].
  unfold view. replace (2 * _ + _) with (win (S (b + 10)) (1 :: repeat 0 b ++ l) - 1024 * 2 ^ Z.of_nat b)
    by (rewrite win_last; ring).
  cbn [win next_bit tl]. rewrite win_run by auto. rewrite Nat2Z.inj_add, Z.pow_add_r by lia.
  change (2 ^ Z.of_nat 10) with 1024.
  change (win (0 + 10) l) with (win 10 l). change (2 ^ Z.of_nat 0) with 1. lia.
Qed.
Lemma view_follow b l : 2 * (view b l - 256) + next_bit (skipn (b + 10) l) = view (S b) l
  /\ tl (skipn (b + 10) l) = skipn (S b + 10) l.
Proof.
  rewrite tl_skipn. split; [|reflexivity].
  unfold view. change (S b + 10)%nat with (S (b + 10)). rewrite win_last.
  rewrite Nat2Z.inj_succ, Z.pow_succ_r by lia. ring.
Qed.

(** *** Renormalisation *)
Definition inside (lower upper : Z) : Prop := 0 <= lower < upper /\ upper <= 1024.
Definition wide (lower upper : Z) : Prop := inside lower upper /\ lower < 512 < upper /\ 256 < upper - lower.

Lemma renorm_shift f : forall lo up b l u b' out, enc_renorm f lo up b = Ok (l, u, b', out) ->
  Forall bit out /\ forall T, Forall bit T -> l <= view b' T < u ->
  lo <= view b (out ++ T) < up /\
  dec_renorm f lo up (view b (out ++ T)) (skipn (b + 10) (out ++ T)) = Ok (l, u, view b' T, skipn (b' + 10) T).
Proof.
  induction f as [|f IH]; intros lo up b l u b' out H; [discriminate H|]. cbn [enc_renorm dec_renorm] in *.
  assert (Rep : forall x n, bit x -> Forall bit (repeat x n)).
  { intros x n Hx. apply Forall_forall. intros y Hy. apply repeat_spec in Hy. now subst. }
  destruct (up <=? HALF) eqn:E1.
  - destruct (enc_renorm f (2 * lo) (2 * up) 0) as [[[[l1 u1] f1] o1]| | |] eqn:E; try discriminate H.
    cbn [obind] in H. injection H as <- <- <- <-.
    destruct (IH _ _ _ _ _ _ _ E) as [Fo IH2].
    split; [apply Forall_cons; [left; reflexivity|]; apply Forall_app; split; [apply Rep; right; reflexivity|exact Fo]|].
    intros T FT HT. destruct (IH2 T FT HT) as [R D]. 
    replace ((0 :: repeat 1 b ++ o1) ++ T) with (0 :: repeat 1 b ++ (o1 ++ T)) by (cbn; now rewrite <- app_assoc).
    destruct (view_zero b (o1 ++ T)) as [V1 V2]. 
    assert (NB : 0 <= next_bit (skipn (b + 10) (0 :: repeat 1 b ++ o1 ++ T)) <= 1).
    { apply next_bit_range, Forall_skipn. apply Forall_cons; [left; reflexivity|].
      repeat (apply Forall_app; split); auto. apply Rep. right. reflexivity. }
    split; [lia|]. rewrite V1, V2. exact D.
  - destruct (HALF <=? lo) eqn:E2.
    + destruct (enc_renorm f (2 * (lo - HALF)) (2 * (up - HALF)) 0) as [[[[l1 u1] f1] o1]| | |] eqn:E; try discriminate H.
      cbn [obind] in H. injection H as <- <- <- <-.
      destruct (IH _ _ _ _ _ _ _ E) as [Fo IH2].
      split; [apply Forall_cons; [right; reflexivity|]; apply Forall_app; split; [apply Rep; left; reflexivity|exact Fo]|].
      intros T FT HT. destruct (IH2 T FT HT) as [R D]. 
      replace ((1 :: repeat 0 b ++ o1) ++ T) with (1 :: repeat 0 b ++ (o1 ++ T)) by (cbn; now rewrite <- app_assoc).
      destruct (view_one b (o1 ++ T)) as [V1 V2]. 
      assert (NB : 0 <= next_bit (skipn (b + 10) (1 :: repeat 0 b ++ o1 ++ T)) <= 1).
      { apply next_bit_range, Forall_skipn. apply Forall_cons; [right; reflexivity|].
        repeat (apply Forall_app; split); auto. apply Rep. left. reflexivity. }
      unfold HALF in *. split; [lia|]. rewrite V1, V2. exact D.
    + destruct ((FIRST_QTR <=? lo) && (up <=? THIRD_QTR)) eqn:E3.
      * destruct (IH _ _ _ _ _ _ _ H) as [Fo IH2]. split; [exact Fo|].
        intros T FT HT. destruct (IH2 T FT HT) as [R D]. 
        destruct (view_follow b (out ++ T)) as [V1 V2].
        assert (NB : 0 <= next_bit (skipn (b + 10) (out ++ T)) <= 1).
        { apply next_bit_range, Forall_skipn. apply Forall_app; split; assumption. }
        unfold FIRST_QTR in *. split; [lia|]. rewrite V1, V2. exact D.
      * injection H as <- <- <- <-. split; [constructor|]. intros T FT HT. cbn [app]. split; [exact HT|reflexivity].
Qed.

(** The loop runs at most ten times. *)
Lemma enc_renorm_ok k : forall f lo up b, inside lo up -> 1024 < (up - lo) * 2 ^ Z.of_nat k -> (k <= f)%nat ->
  exists l u b' out, enc_renorm f lo up b = Ok (l, u, b', out) /\ wide l u.
Proof.
  induction k as [|k IH]; intros f lo up b Hi Hk Hf; unfold inside in Hi.
  - change (2 ^ Z.of_nat 0) with 1 in Hk. lia.
  - destruct f as [|f]; [lia|]. cbn [enc_renorm]. unfold HALF, FIRST_QTR, THIRD_QTR.
    rewrite Nat2Z.inj_succ, Z.pow_succ_r in Hk by lia.
    destruct (up <=? 512) eqn:E1.
    + destruct (IH f (2 * lo) (2 * up) 0%nat) as (l & u & b' & out & E & W); [unfold inside; lia|lia|lia|].
      rewrite E. cbn [obind]. eauto 6.
    + destruct (512 <=? lo) eqn:E2.
      * destruct (IH f (2 * (lo - 512)) (2 * (up - 512)) 0%nat) as (l & u & b' & out & E & W); [unfold inside; lia|lia|lia|].
        rewrite E. cbn [obind]. eauto 6.
      * destruct ((256 <=? lo) && (up <=? 768)) eqn:E3.
        -- apply IH; [unfold inside; lia|lia|lia].
        -- exists lo, up, b, []. split; [reflexivity|]. unfold wide, inside. lia.
Qed.
Lemma dec_renorm_ok k : forall f lo up v bs, inside lo up -> Forall bit bs -> lo <= v < up ->
  1024 < (up - lo) * 2 ^ Z.of_nat k -> (k <= f)%nat ->
  exists l u v' bs', dec_renorm f lo up v bs = Ok (l, u, v', bs') /\ wide l u /\ l <= v' < u /\ Forall bit bs'.
Proof.
  induction k as [|k IH]; intros f lo up v bs Hi Hb Hv Hk Hf; unfold inside in Hi.
  - change (2 ^ Z.of_nat 0) with 1 in Hk. lia.
  - destruct f as [|f]; [lia|]. cbn [dec_renorm]. unfold HALF, FIRST_QTR, THIRD_QTR.
    rewrite Nat2Z.inj_succ, Z.pow_succ_r in Hk by lia.
    pose proof (next_bit_range bs Hb) as NB. pose proof (Forall_tl _ _ Hb) as TB.
    destruct (up <=? 512) eqn:E1; [apply IH; auto; unfold inside; lia|].
    destruct (512 <=? lo) eqn:E2; [apply IH; auto; unfold inside; lia|].
    destruct ((256 <=? lo) && (up <=? 768)) eqn:E3; [apply IH; auto; unfold inside; lia|].
    exists lo, up, v, bs. split; [reflexivity|]. unfold wide, inside. repeat split; auto; lia.
Qed.
Lemma renorm_fuel lo up : inside lo up -> 1024 < (up - lo) * 2 ^ Z.of_nat 11.
Proof. unfold inside. change (2 ^ Z.of_nat 11) with 2048. lia. Qed.

(** *** Counters *)
Lemma counter_set_length cs : forall c p, length (counter_set cs c p) = length cs.
Proof. induction cs; intros [|c] p; cbn; auto. Qed.
Lemma counter_set_Forall (P : Z * Z -> Prop) cs : forall c p, Forall P cs -> P p -> Forall P (counter_set cs c p).
Proof.
  induction cs as [|x cs IH]; intros [|c] p F Hp; cbn [counter_set]; auto; inversion F; subst; constructor; auto.
Qed.
Lemma counting_weaken n m cs : m <= n -> counting n cs -> counting m cs.
Proof. intros H [L F]. split; [exact L|]. eapply Forall_impl; [|exact F]. cbv beta. intros p Hp. lia. Qed.
Lemma counter_at_ok n cs c : counting n cs -> context c -> 0 <= n ->
  exists p, counter_at cs c = Ok p /\ 0 <= fst p <= snd p /\ 1 <= snd p /\ snd p + n < 2 ^ 31.
Proof.
  intros [L F] Hc Hn. unfold context in Hc. unfold counter_at. replace (c <? 0) with false by lia.
  destruct (nth_error cs (Z.to_nat c)) as [p|] eqn:E; [|apply nth_error_None in E; lia].
  exists p. split; [reflexivity|]. rewrite Forall_forall in F. apply (F p). now apply nth_error_In in E.
Qed.
Lemma count_ok n cs c p x : counting (n + 1) cs -> 0 <= n -> counter_at cs c = Ok p -> counting n (count_symbol cs c p x).
Proof.
  intros [L F] Hn Hp. unfold counter_at in Hp. destruct (c <? 0); [discriminate Hp|].
  destruct (nth_error cs (Z.to_nat c)) as [q|] eqn:E; [|discriminate Hp]. injection Hp as ->.
  apply nth_error_In in E. rewrite Forall_forall in F. pose proof (F p E) as Hp.
  unfold count_symbol. split; [rewrite counter_set_length; exact L|].
  apply counter_set_Forall.
  - apply Forall_forall. intros q Hq. specialize (F q Hq). lia.
  - cbn [fst snd]. destruct (x =? 0); cbn [fst snd]; lia.
Qed.

(** *** Symbols *)
Definition ready (s : enc_state) : Prop := wide (en_lower s) (en_upper s).

Lemma enc_symbol_ok n s x c : ready s -> counting (n + 1) (en_counters s) -> 0 <= n -> context c ->
  exists s' out, enc_symbol s x c = Ok (s', out) /\ ready s' /\ counting n (en_counters s').
Proof.
  intros R C Hn Hc. unfold enc_symbol.
  destruct (counter_at_ok _ _ _ C Hc ltac:(lia)) as (p & Ep & P1 & P2 & P3). rewrite Ep. cbn [obind].
  unfold ready, wide, inside in R. destruct p as [cz t]. cbn [fst snd] in *.
  destruct (part0_ok cz t (en_upper s - en_lower s)) as (a & Ea & Ha); [lia|lia|lia|]. rewrite Ea. cbn [obind].
  set (lu := if x =? 0 then (en_lower s, en_lower s + a) else (en_lower s + a, en_upper s)).
  assert (Hlu : inside (fst lu) (snd lu)) by (unfold lu, inside; destruct (x =? 0); cbn [fst snd]; lia).
  destruct lu as [lo up]. cbn [fst snd] in Hlu.
  destruct (enc_renorm_ok 11 RENORM lo up (en_follow s) Hlu (renorm_fuel _ _ Hlu) ltac:(cbv; lia)) as (l & u & b & out & E & W).
  rewrite E. cbn [obind]. eexists _, _. split; [reflexivity|]. split; [exact W|]. 
  cbn [en_counters]. apply count_ok; assumption.
Qed.
Lemma enc_symbols_ok symbols : forall ctx n s, ready s -> counting (n + Z.of_nat (length symbols)) (en_counters s) -> 0 <= n ->
  Forall context ctx -> (length symbols <= length ctx)%nat ->
  exists s' out, enc_symbols s symbols ctx = Ok (s', out) /\ ready s' /\ counting n (en_counters s').
Proof.
  induction symbols as [|x symbols IH]; intros ctx n s R C Hn Fc L; cbn [enc_symbols length] in *.
  - exists s, []. split; [reflexivity|]. split; [exact R|]. rewrite Z.add_0_r in C. exact C.
  - destruct ctx as [|c ctx]; cbn [length] in L; [lia|]. inversion Fc as [|? ? Hc Fc']; subst.
    destruct (enc_symbol_ok (n + Z.of_nat (length symbols)) s x c R) as (s1 & o1 & E1 & R1 & C1); [|lia|exact Hc|].
    { eapply counting_weaken; [|exact C]. lia. }
    rewrite E1. cbn [obind].
    destruct (IH ctx n s1 R1 C1 Hn Fc' ltac:(lia)) as (s2 & o2 & E2 & R2 & C2).
    rewrite E2. cbn [obind]. eauto 6.
Qed.

Definition mirror (s : enc_state) (l : list Z) : dec_state :=
  Dec (en_lower s) (en_upper s) (view (en_follow s) l) (skipn (en_follow s + 10) l) (en_counters s).

Lemma enc_symbol_mirror s x c s' out : ready s -> bit x -> enc_symbol s x c = Ok (s', out) ->
  Forall bit out /\ forall T, Forall bit T -> en_lower s' <= view (en_follow s') T < en_upper s' ->
  (exists n, counting (n + 1) (en_counters s) /\ 0 <= n) ->
  en_lower s <= view (en_follow s) (out ++ T) < en_upper s /\
  arith_decode (mirror s (out ++ T)) c = Ok (x, mirror s' T).
Proof.
  intros R Hx H. unfold enc_symbol in H.
  destruct (counter_at (en_counters s) c) as [p| | |] eqn:Ep; try discriminate H. cbn [obind] in H.
  destruct (part0 p (en_upper s - en_lower s)) as [a| | |] eqn:Ea; try discriminate H. cbn [obind] in H.
  set (lu := if x =? 0 then (en_lower s, en_lower s + a) else (en_lower s + a, en_upper s)) in H.
  destruct lu as [lo up] eqn:Elu.
  destruct (enc_renorm RENORM lo up (en_follow s)) as [[[[l u] b] o]| | |] eqn:Er; try discriminate H.
  cbn [obind] in H. injection H as <- <-. cbn [en_lower en_upper en_follow en_counters mirror].
  destruct (renorm_shift _ _ _ _ _ _ _ _ Er) as [Fo Sh]. split; [exact Fo|].
  intros T FT HT (n & C & Hn). destruct (Sh T FT HT) as [V D].
  assert (Ha : 1 <= a < en_upper s - en_lower s).
  { unfold ready, wide, inside in R.
    unfold counter_at in Ep. destruct (c <? 0); [discriminate Ep|].
    destruct (nth_error (en_counters s) (Z.to_nat c)) as [q|] eqn:E; [|discriminate Ep]. injection Ep as ->.
    apply nth_error_In in E. destruct C as [_ F]. rewrite Forall_forall in F. specialize (F p E).
    destruct p as [cz t]. cbn [fst snd] in F.
    destruct (part0_ok cz t (en_upper s - en_lower s)) as (a' & Ea' & Ha); [lia|lia|lia|].
    rewrite Ea in Ea'. injection Ea' as ->. exact Ha. }
  unfold arith_decode. cbn [de_lower de_upper de_leading de_rest de_counters]. 
  unfold mirror. cbn [de_lower de_upper de_leading de_rest de_counters].
  rewrite Ep. cbn [obind]. rewrite Ea. cbn [obind].
  unfold lu in Elu. destruct Hx as [-> | ->].
  - change (0 =? 0) with true in Elu. cbn iota in Elu. injection Elu as <- <-.
    replace (view (en_follow s) (o ++ T) - en_lower s <? a) with true by lia.
    rewrite D. cbn [obind en_lower en_upper en_follow en_counters]. split; [lia|reflexivity].
  - change (1 =? 0) with false in Elu. cbn iota in Elu. injection Elu as <- <-.
    replace (view (en_follow s) (o ++ T) - en_lower s <? a) with false by lia.
    rewrite D. cbn [obind en_lower en_upper en_follow en_counters]. split; [lia|reflexivity].
Qed.

(** The decoder with the rest of the stream repeats the symbols of the encoder. *)
Lemma enc_symbols_mirror symbols : forall ctx s s' out n, ready s -> Forall bit symbols ->
  counting (n + Z.of_nat (length symbols)) (en_counters s) -> 0 <= n -> Forall context ctx ->
  enc_symbols s symbols ctx = Ok (s', out) ->
  Forall bit out /\ ready s' /\ forall T, Forall bit T -> en_lower s' <= view (en_follow s') T < en_upper s' ->
  en_lower s <= view (en_follow s) (out ++ T) < en_upper s /\
  serves (mirror s (out ++ T)) (combine symbols ctx).
Proof.
  induction symbols as [|x symbols IH]; intros ctx s s' out n R Fx C Hn Fc H; cbn [enc_symbols length combine serves] in *.
  - injection H as <- <-. split; [constructor|]. split; [exact R|]. intros T FT HT. split; [exact HT|exact I].
  - destruct ctx as [|c ctx]; [discriminate H|]. inversion Fc as [|? ? Hc Fc']; subst. inversion Fx as [|? ? Hx Fx']; subst.
    assert (C1 : counting (n + Z.of_nat (length symbols) + 1) (en_counters s)) by (eapply counting_weaken; [|exact C]; lia).
    destruct (enc_symbol_ok (n + Z.of_nat (length symbols)) s x c R C1 ltac:(lia) Hc) as (s1 & o1 & E1 & R1 & C2).
    rewrite E1 in H. cbn [obind] in H.
    destruct (enc_symbols s1 symbols ctx) as [[s2 o2]| | |] eqn:E2; try discriminate H. cbn [obind] in H.
    injection H as <- <-.
    destruct (enc_symbol_mirror s x c s1 o1 R Hx E1) as [F1 M1].
    destruct (IH ctx s1 s2 o2 n R1 Fx' C2 Hn Fc' E2) as (F2 & R2 & M2).
    split; [apply Forall_app; auto|]. split; [exact R2|]. intros T FT HT. rewrite <- app_assoc.
    destruct (M2 T FT HT) as [V2 S2]. 
    destruct (M1 (o2 ++ T)) as [V1 D1]; [apply Forall_app; auto|exact V2|exists (n + Z.of_nat (length symbols)); split; [exact C1|lia]|].
    split; [exact V1|]. cbn [combine serves]. eauto.
Qed.

(** The remainder selects a number inside the last interval. *)
Lemma remainder_ok s : ready s -> exists T, remainder s = Ok T /\ Forall bit T /\
  en_lower s <= view (en_follow s) T < en_upper s.
Proof.
  unfold ready, wide, inside. intros H. unfold remainder.
  destruct (0 <? en_follow s)%nat eqn:E.
  - exists [1]. split; [reflexivity|]. split; [repeat constructor; right; reflexivity|].
    unfold view. replace (en_follow s + 10)%nat with (S (en_follow s + 9)) by lia. cbn [win next_bit tl].
    assert (Z0 : forall m, win m [] = 0) by (induction m; cbn [win next_bit tl]; lia). rewrite Z0.
    rewrite Nat2Z.inj_add, Z.pow_add_r by lia. change (2 ^ Z.of_nat 9) with 512. lia.
  - assert (E0 : en_follow s = 0%nat) by lia. rewrite E0.
    change RENORM with 11%nat. cbn [remainder_loop]. unfold HALF. destruct (0 <? en_lower s) eqn:El.
    + replace (512 <? en_upper s) with true by lia. replace (0 <? en_lower s - 512) with false by lia. cbn [obind].
      exists [1]. split; [reflexivity|]. split; [repeat constructor; right; reflexivity|].
      change (view 0 [1]) with 512. lia.
    + exists []. split; [reflexivity|]. split; [constructor|]. change (view 0 []) with 0. lia.
Qed.

(** *** Zeros at the end *)
Definition same_bits (l l' : list Z) : Prop := forall n, nth n l 0 = nth n l' 0.
Lemma same_next l l' : same_bits l l' -> next_bit l = next_bit l' /\ same_bits (tl l) (tl l').
Proof.
  intros H. split.
  - specialize (H 0%nat). destruct l, l'; cbn in *; auto.
  - intros n. specialize (H (S n)). destruct l, l'; cbn in *; auto; destruct n; auto.
Qed.
Lemma dec_renorm_same f : forall lo up v l l' r, same_bits l l' -> dec_renorm f lo up v l = Ok r ->
  exists r', dec_renorm f lo up v l' = Ok r' /\ fst r' = fst r /\ same_bits (snd r) (snd r').
Proof.
  induction f as [|f IH]; intros lo up v l l' r S H; [discriminate H|]. cbn [dec_renorm] in *.
  destruct (same_next _ _ S) as [N S']. rewrite <- N.
  destruct (up <=? HALF); [eapply IH; eauto|]. destruct (HALF <=? lo); [eapply IH; eauto|].
  destruct ((FIRST_QTR <=? lo) && (up <=? THIRD_QTR)); [eapply IH; eauto|].
  injection H as <-. eexists. split; [reflexivity|]. split; [reflexivity|exact S].
Qed.
Definition with_rest (s : dec_state) (l : list Z) : dec_state :=
  Dec (de_lower s) (de_upper s) (de_leading s) l (de_counters s).
Lemma serves_same l : forall s r, same_bits (de_rest s) r -> serves s l -> serves (with_rest s r) l.
Proof.
  induction l as [|[x c] l IH]; intros s r S H; cbn [serves] in *; [exact I|].
  destruct H as (s' & D & Sv). unfold arith_decode in *. cbn [with_rest de_lower de_upper de_leading de_rest de_counters] in *.
  destruct (counter_at (de_counters s) c) as [p| | |]; try discriminate D. cbn [obind] in *.
  destruct (part0 p (de_upper s - de_lower s)) as [a| | |]; try discriminate D. cbn [obind] in *.
  destruct (if de_leading s - de_lower s <? a then _ else _) as [[y lo] up].
  destruct (dec_renorm RENORM lo up (de_leading s) (de_rest s)) as [[[[l1 u1] v1] b1]| | |] eqn:E; try discriminate D.
  destruct (dec_renorm_same _ _ _ _ _ _ _ S E) as ([[[l2 u2] v2] b2] & E2 & F & Sb). cbn [fst snd] in F, Sb.
  injection F as -> -> ->. rewrite E2. cbn [obind] in *. injection D as <- <-.
  eexists. split; [reflexivity|]. apply (IH _ b2) in Sv; [exact Sv|exact Sb].
Qed.
Lemma cut_zeros_same l k : same_bits l (cut_zeros l ++ repeat 0 k).
Proof.
  intros n. revert n. induction l as [|x l IH]; intros n; cbn [cut_zeros app].
  - cbn. destruct n; (destruct k; [reflexivity|]); cbn; [reflexivity|].
    assert (H : forall m k, nth m (repeat 0 k) 0 = 0) by (induction m; intros [|q]; cbn; auto). now rewrite H.
  - destruct (cut_zeros l) as [|y r] eqn:E.
    + destruct (x =? 0) eqn:Ex.
      * assert (H : forall m q, nth m (repeat 0 q) 0 = 0) by (induction m; intros [|q]; cbn; auto).
        cbn [app] in *. destruct n; [rewrite H; cbn; lia|]. cbn [nth]. rewrite IH, !H. reflexivity.
      * destruct n; [reflexivity|]. cbn [app nth]. apply IH.
    + destruct n; [reflexivity|]. cbn [app nth]. apply IH.
Qed.
Lemma win_same n : forall l l', same_bits l l' -> win n l = win n l' /\ same_bits (skipn n l) (skipn n l').
Proof.
  induction n as [|n IH]; intros l l' S; [split; [reflexivity|exact S]|].
  destruct (same_next _ _ S) as [N S']. cbn [win]. rewrite N. destruct (IH _ _ S') as [-> Sk].
  split; [reflexivity|]. rewrite !tl_skipn' in Sk. exact Sk.
Qed.
Lemma init_mirror cs l : initDecoding cs l = mirror (Enc 0 RANGE_MAX 0 cs) l.
Proof.
  unfold initDecoding, mirror. change 9 with (Z.of_nat 10 - 1). rewrite win_leading.
  cbn [en_lower en_upper en_follow en_counters]. f_equal. unfold view. cbn [Nat.add]. change (2 ^ Z.of_nat 0) with 1. lia.
Qed.

Lemma start_ready cs : ready (Enc 0 RANGE_MAX 0 cs).
Proof. unfold ready, wide, inside, RANGE_MAX. cbn [en_lower en_upper]. lia. Qed.

(** Decoding what was encoded, whatever zeros follow. *)
Lemma lossless cs symbols ctx out cs' k : counting (Z.of_nat (length symbols)) cs ->
  Forall bit symbols -> Forall context ctx ->
  arith_encode cs symbols ctx = Ok (out, cs') ->
  serves (initDecoding cs (out ++ repeat 0 k)) (combine symbols ctx).
Proof.
  intros C Fs Fc H. unfold arith_encode in H.
  destruct (enc_symbols (Enc 0 RANGE_MAX 0 cs) symbols ctx) as [[s o1]| | |] eqn:E; try discriminate H. cbn [obind] in H.
  destruct (enc_symbols_mirror symbols ctx _ s o1 0 (start_ready cs) Fs C ltac:(lia) Fc E) as (F1 & R & M).
  destruct (remainder_ok s R) as (T & ER & FT & VT). rewrite ER in H. cbn [obind] in H.
  destruct (M T FT VT) as [_ Sv].
  destruct (cut_zeros (o1 ++ T)) as [|y r] eqn:Ez; [discriminate H|].
  destruct (rescaleCounter (en_counters s)); try discriminate H. cbn [obind] in H. injection H as <- _.
  rewrite init_mirror. pose proof (cut_zeros_same (o1 ++ T) k) as S. rewrite Ez in S.
  destruct (win_same 10 _ _ S) as [W Sk].
  apply (serves_same _ _ (skipn 10 ((y :: r) ++ repeat 0 k))) in Sv; [|exact Sk].
  unfold with_rest, mirror in Sv. cbn [de_lower de_upper de_leading de_rest de_counters en_lower en_upper en_follow en_counters] in Sv.
  unfold mirror. cbn [en_lower en_upper en_follow en_counters]. unfold view in *. cbn [Nat.add] in *. rewrite <- W. exact Sv.
Qed.
Lemma serves_all l : forall s, serves s l -> exists s', decode_all s (map snd l) = Ok (map fst l, s').
Proof.
  induction l as [|[x c] l IH]; intros s H; cbn [serves map decode_all fst snd] in *; [eauto|].
  destruct H as (s1 & D & S). rewrite D. cbn [obind]. destruct (IH s1 S) as (s2 & E). rewrite E. cbn [obind]. eauto.
Qed.
Lemma combine_snd (a b : list Z) : length a = length b -> map fst (combine a b) = a /\ map snd (combine a b) = b.
Proof.
  revert b. induction a as [|x a IH]; intros [|y b] H; cbn in *; try discriminate H; auto.
  destruct (IH b ltac:(lia)) as [-> ->]. auto.
Qed.
Lemma decoded cs symbols ctx out cs' k : counting (Z.of_nat (length symbols)) cs ->
  Forall bit symbols -> Forall context ctx -> length ctx = length symbols ->
  arith_encode cs symbols ctx = Ok (out, cs') ->
  exists s, decode_all (initDecoding cs (out ++ repeat 0 k)) ctx = Ok (symbols, s).
Proof.
  intros C Fs Fc L H. pose proof (lossless _ _ _ _ _ k C Fs Fc H) as S.
  destruct (serves_all _ _ S) as (s & E). destruct (combine_snd symbols ctx ltac:(lia)) as [E1 E2].
  rewrite E1, E2 in E. eauto.
Qed.

(** *** When the encoder returns *)
Lemma rescale_ok n cs : counting n cs -> 0 <= n -> exists cs', rescaleCounter cs = Ok cs' /\
  length cs' = 7%nat /\ Forall (fun p => 1 <= fst p <= 31 /\ snd p = 32) cs'.
Proof.
  intros [L F] Hn. rewrite <- L. clear L. induction F as [|[c t] cs Hp F IH]; cbn [rescaleCounter length].
  - exists []. repeat split. constructor.
  - cbn [fst snd] in Hp. destruct (rescale1_ok c t) as (k & E & Hk); [lia|lia|]. rewrite E. cbn [obind].
    destruct IH as (cs' & E' & L' & F'). rewrite E'. cbn [obind]. eexists. split; [reflexivity|].
    split; [cbn; lia|]. constructor; [cbn; lia|exact F'].
Qed.

(** A decoder that only sees zeros answers 0. *)
Lemma zeros_answer c s x s' : de_lower s = 0 -> de_leading s = 0 -> same_bits (de_rest s) [] ->
  (exists n, counting (n + 1) (de_counters s) /\ 0 <= n) -> 2 <= de_upper s <= 1024 ->
  arith_decode s c = Ok (x, s') ->
  x = 0 /\ de_lower s' = 0 /\ de_leading s' = 0 /\ same_bits (de_rest s') [].
Proof.
  intros L V S (n & C & Hn) U H. unfold arith_decode in H.
  destruct (counter_at (de_counters s) c) as [p| | |] eqn:Ep; try discriminate H. cbn [obind] in H.
  rewrite L, V in H. 
  assert (Ha : exists a, part0 p (de_upper s - 0) = Ok a /\ 1 <= a).
  { unfold counter_at in Ep. destruct (c <? 0); [discriminate Ep|].
    destruct (nth_error (de_counters s) (Z.to_nat c)) as [q|] eqn:E; [|discriminate Ep]. injection Ep as ->.
    apply nth_error_In in E. destruct C as [_ F]. rewrite Forall_forall in F. specialize (F p E).
    destruct p as [cz t]. cbn [fst snd] in F.
    destruct (part0_ok cz t (de_upper s - 0)) as (a & Ea & Ha); [lia|lia|lia|]. exists a. split; [exact Ea|lia]. }
  destruct Ha as (a & Ea & Ha). rewrite Ea in H. cbn [obind] in H.
  replace (0 - 0 <? a) with true in H by lia. cbn [Z.add] in H.
  assert (G : forall f up bs r, same_bits bs [] -> dec_renorm f 0 up 0 bs = Ok r ->
              fst (fst (fst r)) = 0 /\ snd (fst r) = 0 /\ same_bits (snd r) []).
  { induction f as [|f IH]; intros up bs r Sb Hr; [discriminate Hr|]. cbn [dec_renorm] in Hr.
    destruct (same_next _ _ Sb) as [N S']. cbn [next_bit tl] in N, S'. rewrite N in Hr.
    destruct (up <=? HALF); [apply (IH _ _ _ S' Hr)|]. unfold HALF, FIRST_QTR in Hr.
    change (512 <=? 0) with false in Hr. change (256 <=? 0) with false in Hr. cbn [andb] in Hr.
    injection Hr as <-. cbn [fst snd]. auto. }
  destruct (dec_renorm RENORM 0 a 0 (de_rest s)) as [[[[l u] v] bs]| | |] eqn:E; try discriminate H.
  cbn [obind] in H. injection H as <- <-. destruct (G _ _ _ _ S E) as (G1 & G2 & G3). cbn [fst snd] in *.
  cbn [de_lower de_leading de_rest]. auto.
Qed.
(** The interval and the window of the decoder, whatever it reads. *)
Definition dec_ready (s : dec_state) : Prop :=
  wide (de_lower s) (de_upper s) /\ de_lower s <= de_leading s < de_upper s /\ Forall bit (de_rest s).
Lemma decode_ok n s c : dec_ready s -> counting (n + 1) (de_counters s) -> 0 <= n -> context c ->
  exists x s', arith_decode s c = Ok (x, s') /\ bit x /\ dec_ready s' /\ counting n (de_counters s').
Proof.
  intros (W & V & B) C Hn Hc. unfold arith_decode.
  destruct (counter_at_ok _ _ _ C Hc ltac:(lia)) as (p & Ep & P1 & P2 & P3). rewrite Ep. cbn [obind].
  unfold wide, inside in W. destruct p as [cz t]. cbn [fst snd] in *.
  destruct (part0_ok cz t (de_upper s - de_lower s)) as (a & Ea & Ha); [lia|lia|lia|]. rewrite Ea. cbn [obind].
  destruct (de_leading s - de_lower s <? a) eqn:Ev.
  - destruct (dec_renorm_ok 11 RENORM (de_lower s) (de_lower s + a) (de_leading s) (de_rest s)) as (l & u & v & bs & E & W' & V' & B');
      [unfold inside; lia|exact B|lia|apply renorm_fuel; unfold inside; lia|cbv; lia|].
    rewrite E. cbn [obind]. eexists _, _. split; [reflexivity|]. split; [left; reflexivity|].
    split; [split; [exact W'|split; [exact V'|exact B']]|]. apply count_ok; assumption.
  - destruct (dec_renorm_ok 11 RENORM (de_lower s + a) (de_upper s) (de_leading s) (de_rest s)) as (l & u & v & bs & E & W' & V' & B');
      [unfold inside; lia|exact B|lia|apply renorm_fuel; unfold inside; lia|cbv; lia|].
    rewrite E. cbn [obind]. eexists _, _. split; [reflexivity|]. split; [right; reflexivity|].
    split; [split; [exact W'|split; [exact V'|exact B']]|]. apply count_ok; assumption.
Qed.
Lemma decode_all_ok ctx : forall n s, dec_ready s -> counting (n + Z.of_nat (length ctx)) (de_counters s) -> 0 <= n ->
  Forall context ctx ->
  exists xs s', decode_all s ctx = Ok (xs, s') /\ length xs = length ctx /\ Forall bit xs /\ dec_ready s' /\ counting n (de_counters s').
Proof.
  induction ctx as [|c ctx IH]; intros n s R C Hn F; cbn [decode_all length] in *.
  - rewrite Z.add_0_r in C. exists [], s. repeat split; auto; apply R || apply C.
  - inversion F as [|? ? Hc F']; subst.
    destruct (decode_ok (n + Z.of_nat (length ctx)) s c R) as (x & s1 & E & Bx & R1 & C1); [|lia|exact Hc|].
    { eapply counting_weaken; [|exact C]. lia. }
    rewrite E. cbn [obind]. destruct (IH n s1 R1 C1 Hn F') as (xs & s2 & E2 & L & Fx & R2 & C2).
    rewrite E2. cbn [obind]. exists (x :: xs), s2. repeat split; auto; try apply R2; try apply C2.
    cbn. now rewrite L.
Qed.
Lemma win_range n : forall l, Forall bit l -> 0 <= win n l < 2 ^ Z.of_nat n.
Proof.
  induction n as [|n IH]; intros l F; [cbn; lia|]. cbn [win]. pose proof (next_bit_range l F).
  specialize (IH _ (Forall_tl _ _ F)). rewrite Nat2Z.inj_succ, Z.pow_succ_r by lia. nia.
Qed.
Lemma init_ready cs l : Forall bit l -> dec_ready (initDecoding cs l).
Proof.
  intros F. rewrite init_mirror. unfold dec_ready, mirror. cbn [de_lower de_upper de_leading de_rest en_lower en_upper en_follow].
  split; [apply (start_ready cs)|]. split; [|apply Forall_skipn, F].
  unfold view. cbn [Nat.add]. change (2 ^ Z.of_nat 0) with 1. pose proof (win_range 10 l F). unfold RANGE_MAX.
  change (2 ^ Z.of_nat 10) with 1024 in *. lia.
Qed.

(** A stream without a 1 stands for zeros only. *)
Lemma zeros_serve l : forall n s, de_lower s = 0 -> de_leading s = 0 -> same_bits (de_rest s) [] ->
  counting (n + Z.of_nat (length l)) (de_counters s) -> 0 <= n -> dec_ready s -> Forall context (map snd l) ->
  serves s l -> Forall (fun p => fst p = 0) l.
Proof.
  induction l as [|[x c] l IH]; intros n s L V S C Hn R Fc H; [constructor|]. cbn [serves map snd length] in *.
  inversion Fc as [|? ? Hc Fc']; subst. destruct H as (s' & D & Sv).
  assert (C' : counting (n + Z.of_nat (length l) + 1) (de_counters s)) by (eapply counting_weaken; [|exact C]; lia).
  destruct (zeros_answer c s x s' L V S) as (Hx & L' & V' & S'); auto.
  { exists (n + Z.of_nat (length l)). split; [exact C'|lia]. }
  { destruct R as [W _]. unfold wide, inside in W. lia. }
  destruct (decode_ok (n + Z.of_nat (length l)) s c R C' ltac:(lia) Hc) as (x2 & s2 & D2 & _ & R2 & C2).
  rewrite D in D2. injection D2 as <- <-.
  constructor; [exact Hx|]. apply (IH n s'); auto.
Qed.
(** Zeros only are put out as zeros only. *)
Lemma zeros_out symbols : forall ctx s s' out, en_lower s = 0 -> en_follow s = 0%nat -> Forall (fun x => x = 0) symbols ->
  enc_symbols s symbols ctx = Ok (s', out) -> en_lower s' = 0 /\ en_follow s' = 0%nat /\ Forall (fun x => x = 0) out.
Proof.
  induction symbols as [|x symbols IH]; intros ctx s s' out L B F H; cbn [enc_symbols] in H.
  - injection H as <- <-. auto.
  - destruct ctx as [|c ctx]; [discriminate H|]. inversion F as [|? ? Hx F']; subst.
    destruct (enc_symbol s 0 c) as [[s1 o1]| | |] eqn:E; try discriminate H. cbn [obind] in H.
    destruct (enc_symbols s1 symbols ctx) as [[s2 o2]| | |] eqn:E2; try discriminate H. cbn [obind] in H. injection H as <- <-.
    assert (G : en_lower s1 = 0 /\ en_follow s1 = 0%nat /\ Forall (fun x => x = 0) o1).
    { unfold enc_symbol in E. destruct (counter_at (en_counters s) c) as [p| | |]; try discriminate E. cbn [obind] in E.
      destruct (part0 p (en_upper s - en_lower s)) as [a| | |]; try discriminate E. cbn [obind] in E.
      change (0 =? 0) with true in E. cbn iota in E. rewrite L, B in E. cbn [Z.add] in E.
      assert (G : forall f up r, enc_renorm f 0 up 0 = Ok r -> 
                  fst (fst (fst r)) = 0 /\ snd (fst r) = 0%nat /\ Forall (fun x => x = 0) (snd r)).
      { induction f as [|f IHf]; intros up r Hr; [discriminate Hr|]. cbn [enc_renorm] in Hr.
        destruct (up <=? HALF).
        - change (2 * 0) with 0 in Hr. destruct (enc_renorm f 0 (2 * up) 0) as [[[[l1 u1] b1] r1]| | |] eqn:Er; try discriminate Hr.
          cbn [obind] in Hr. injection Hr as <-. destruct (IHf _ _ Er) as (A & B2 & C2). cbn [fst snd] in *.
          split; [exact A|]. split; [exact B2|]. constructor; auto.
        - unfold HALF, FIRST_QTR in Hr. change (512 <=? 0) with false in Hr. change (256 <=? 0) with false in Hr.
          cbn [andb] in Hr. injection Hr as <-. cbn [fst snd]. auto. }
      destruct (enc_renorm RENORM 0 a 0) as [[[[l1 u1] b1] r1]| | |] eqn:Er; try discriminate E. cbn [obind] in E.
      injection E as <- <-. cbn [en_lower en_follow]. apply (G _ _ _ Er). }
    destruct G as (L1 & B1 & F1). destruct (IH ctx s1 s2 o2 L1 B1 F' E2) as (L2 & B2 & F2).
    split; [exact L2|]. split; [exact B2|]. apply Forall_app; auto.
Qed.
Lemma cut_zeros_none l : Forall (fun x => x = 0) l -> cut_zeros l = [].
Proof. induction 1 as [|x l -> F IH]; [reflexivity|]. cbn [cut_zeros]. rewrite IH. reflexivity. Qed.

Lemma encode_returns cs symbols ctx : counting (Z.of_nat (length symbols)) cs ->
  Forall bit symbols -> Forall context ctx -> length ctx = length symbols ->
  (Exists (fun x => x = 1) symbols /\ exists out cs', arith_encode cs symbols ctx = Ok (out, cs') /\
     Forall bit out /\ last out 0 = 1 /\ length cs' = 7%nat /\ Forall (fun p => 1 <= fst p <= 31 /\ snd p = 32) cs')
  \/ (Forall (fun x => x = 0) symbols /\ arith_encode cs symbols ctx = Throw).
Proof.
  intros C Fs Fc L.
  destruct (enc_symbols_ok symbols ctx 0 _ (start_ready cs) C ltac:(lia) Fc ltac:(lia)) as (s & o1 & E & R & C2).
  destruct (enc_symbols_mirror symbols ctx _ s o1 0 (start_ready cs) Fs C ltac:(lia) Fc E) as (F1 & _ & M).
  destruct (remainder_ok s R) as (T & ER & FT & VT). destruct (M T FT VT) as [_ Sv].
  destruct (rescale_ok 0 _ C2 ltac:(lia)) as (cs' & Ecs & Lcs & Fcs).
  assert (Dec : Forall (fun x => x = 0) symbols \/ Exists (fun x => x = 1) symbols).
  { clear - Fs. induction Fs as [|x l Hx F IH]; [left; constructor|]. destruct Hx as [->| ->].
    - destruct IH; [left; constructor; auto|right; now apply Exists_cons_tl].
    - right. now apply Exists_cons_hd. }
  unfold arith_encode. rewrite E. cbn [obind]. rewrite ER. cbn [obind].
  destruct Dec as [Z|X].
  - right. split; [exact Z|].
    destruct (zeros_out symbols ctx (Enc 0 RANGE_MAX 0 cs) s o1 eq_refl eq_refl Z E) as (L1 & B1 & F0).
    assert (T = []) as ->.
    { unfold remainder in ER. rewrite B1, L1 in ER. change RENORM with 11%nat in ER. cbn in ER. now injection ER as <-. }
    rewrite app_nil_r, (cut_zeros_none _ F0). reflexivity.
  - left. split; [exact X|].
    destruct (cut_zeros (o1 ++ T)) as [|y r] eqn:Ez.
    + exfalso. pose proof (cut_zeros_same (o1 ++ T) 0) as S. rewrite Ez in S. cbn [app repeat] in S.
      destruct (win_same 10 _ _ S) as [W Sk].
      assert (F : Forall (fun p => fst p = 0) (combine symbols ctx)).
      { apply (zeros_serve _ 0 (mirror (Enc 0 RANGE_MAX 0 cs) (o1 ++ T))); auto.
        - unfold mirror. cbn [de_leading en_follow]. unfold view. cbn [Nat.add]. rewrite W. reflexivity.
        - cbn [mirror de_counters en_counters]. rewrite combine_length, L, Nat.min_id. exact C.
        - lia.
        - rewrite <- init_mirror. apply init_ready. apply Forall_app; auto.
        - destruct (combine_snd symbols ctx ltac:(lia)) as [_ ->]. exact Fc. }
      destruct (combine_snd symbols ctx ltac:(lia)) as [E1 _].
      apply Exists_exists in X. destruct X as (x & Hin & ->). rewrite <- E1 in Hin. apply in_map_iff in Hin.
      destruct Hin as (p & Hp & Hin). rewrite Forall_forall in F. specialize (F p Hin). lia.
    + rewrite Ecs. cbn [obind]. eexists _, _. split; [reflexivity|].
      assert (Fy : forall l, Forall bit l -> Forall bit (cut_zeros l)).
      { induction 1 as [|x l Hx F IH]; [constructor|]. cbn [cut_zeros]. destruct (cut_zeros l).
        - destruct (x =? 0); [constructor|]. constructor; [exact Hx|constructor].
        - constructor; auto. }
      assert (Ly : forall l, Forall bit l -> cut_zeros l <> [] -> last (cut_zeros l) 0 = 1).
      { induction 1 as [|x l Hx F IH]; [intros H; now elim H|]. cbn [cut_zeros]. destruct (cut_zeros l) as [|z q].
        - destruct (x =? 0) eqn:Ex; [congruence|]. intros _. cbn. destruct Hx; lia.
        - intros _. change (last (x :: z :: q) 0) with (last (z :: q) 0). apply IH. discriminate. }
      assert (FF : Forall bit (o1 ++ T)) by (apply Forall_app; auto).
      rewrite <- Ez. split; [apply Fy, FF|]. split; [apply Ly; [exact FF|rewrite Ez; discriminate]|]. split; assumption.
Qed.

(** *** Bytes *)
Lemma byte_of_spec n : forall k bs, Forall bit bs -> 0 < k ->
  exists v, byte_of n k bs = (k * v, skipn n bs) /\ 0 <= v < 2 ^ Z.of_nat n /\
    bits_of_byte n v = firstn n bs ++ repeat 0 (n - length bs).
Proof.
  induction n as [|n IH]; intros k bs F Hk; cbn [byte_of bits_of_byte].
  - exists 0. split; [f_equal; lia|]. split; [cbn; lia|]. reflexivity.
  - destruct F as [|b bs Hb F].
    + exists 0. split; [f_equal; lia|]. rewrite Nat2Z.inj_succ, Z.pow_succ_r by lia.
      split; [pose proof (Z.pow_pos_nonneg 2 (Z.of_nat n)); lia|].
      cbn [firstn app length]. change (0 mod 2) with 0. change (0 / 2) with 0.
      rewrite Nat.sub_0_r. cbn [repeat]. f_equal. clear. induction n; [reflexivity|]. cbn. now f_equal.
    + destruct (IH (2 * k) bs F ltac:(lia)) as (v & E & R & Sb). rewrite E.
      exists (b + 2 * v). rewrite Nat2Z.inj_succ, Z.pow_succ_r by lia.
      assert (Eb : (if b =? 1 then k else 0) = k * b) by (destruct Hb as [->| ->]; cbn [Z.eqb Pos.eqb]; lia).
      split; [rewrite Eb; cbn [skipn]; f_equal; ring|].
      split; [destruct Hb; lia|].
      replace ((b + 2 * v) mod 2) with b by (destruct Hb; lia).
      replace ((b + 2 * v) / 2) with v by (destruct Hb; lia).
      cbn [firstn app length]. f_equal. rewrite Sb. reflexivity.
Qed.
Lemma bytes_from_spec n : forall bs, Forall bit bs -> 
  flat_map (bits_of_byte 8) (bytes_from n bs) = firstn (8 * n) bs ++ repeat 0 (8 * n - length bs) /\
  Forall (fun v => 0 <= v < 256) (bytes_from n bs) /\ length (bytes_from n bs) = n.
Proof.
  induction n as [|n IH]; intros bs F; cbn [bytes_from].
  - cbn. repeat split. constructor.
  - destruct (byte_of_spec 8 1 bs F ltac:(lia)) as (v & E & R & Sb). rewrite E. rewrite Z.mul_1_l.
    cbn [flat_map length]. destruct (IH (skipn 8 bs) (Forall_skipn _ 8 _ F)) as (A & B & C2).
    rewrite A, Sb. split; [|split; [constructor; [exact R|exact B]|now rewrite C2]].
    replace (8 * S n)%nat with (8 + 8 * n)%nat by lia. rewrite skipn_length.
    destruct (Nat.le_gt_cases (length bs) 8) as [Hl|Hl].
    + rewrite (skipn_all2 bs) by exact Hl. rewrite firstn_nil. rewrite !firstn_all2 by lia. cbn [app].
      rewrite <- app_assoc, <- repeat_app. do 2 f_equal. lia.
    + replace (8 - length bs)%nat with 0%nat by lia. cbn [repeat]. rewrite app_nil_r.
      rewrite app_assoc. f_equal; [|f_equal; lia].
      rewrite <- (firstn_skipn 8 bs) at 3. rewrite firstn_app. rewrite firstn_firstn.
      rewrite firstn_length. replace (Nat.min (8 + 8 * n) 8) with 8%nat by lia.
      replace (8 + 8 * n - Nat.min 8 (length bs))%nat with (8 * n)%nat by lia. reflexivity.
Qed.
Lemma bytes_round bs : Forall bit bs ->
  exists k, (k < 8)%nat /\ convert2bits (convert2bytes bs) = bs ++ repeat 0 k /\
    Forall (fun v => 0 <= v < 256) (convert2bytes bs).
Proof.
  intros F. unfold convert2bits, convert2bytes. set (n := ((length bs + 7) / 8)%nat).
  assert (Hn : (length bs <= 8 * n < length bs + 8)%nat).
  { unfold n. pose proof (Nat.div_mod (length bs + 7) 8 ltac:(lia)).
    pose proof (Nat.mod_upper_bound (length bs + 7) 8 ltac:(lia)). lia. }
  destruct (bytes_from_spec n bs F) as (A & B & _). exists (8 * n - length bs)%nat.
  split; [lia|]. split; [|exact B]. rewrite A. now rewrite firstn_all2 by lia.
Qed.
Lemma bits_of_byte_bits n : forall v, Forall bit (bits_of_byte n v) /\ length (bits_of_byte n v) = n.
Proof.
  induction n as [|n IH]; intros v; [split; [constructor|reflexivity]|]. cbn [bits_of_byte length]. destruct (IH (v / 2)) as [A ->].
  split; [|reflexivity]. constructor; [|exact A]. unfold bit. lia.
Qed.
Lemma byte_bits_value n : forall v k r, 0 <= v < 2 ^ Z.of_nat n -> byte_of n k (bits_of_byte n v ++ r) = (k * v, r).
Proof.
  induction n as [|n IH]; intros v k r Hv.
  - change (2 ^ Z.of_nat 0) with 1 in Hv. cbn [byte_of bits_of_byte app]. replace v with 0 by lia. now rewrite Z.mul_0_r.
  - cbn [bits_of_byte app byte_of]. rewrite Nat2Z.inj_succ, Z.pow_succ_r in Hv by lia.
    rewrite IH by lia. f_equal.
    transitivity (k * (v mod 2 + 2 * (v / 2))); [|f_equal; lia].
    assert (Hm : v mod 2 = 0 \/ v mod 2 = 1) by lia. destruct Hm as [-> | ->]; cbn [Z.eqb Pos.eqb]; ring.
Qed.
Lemma bits_round bytes : Forall (fun v => 0 <= v < 256) bytes -> convert2bytes (convert2bits bytes) = bytes.
Proof.
  intros F. unfold convert2bytes, convert2bits.
  assert (L : length (flat_map (bits_of_byte 8) bytes) = (8 * length bytes)%nat).
  { clear F. induction bytes as [|v bytes IH]; [reflexivity|]. cbn [flat_map]. rewrite app_length, IH.
    rewrite (proj2 (bits_of_byte_bits 8 v)). cbn [length]. lia. }
  rewrite L. replace ((8 * length bytes + 7) / 8)%nat with (length bytes).
  2:{ symmetry. replace (8 * length bytes + 7)%nat with (7 + length bytes * 8)%nat by lia. rewrite Nat.div_add by lia. reflexivity. }
  clear L. induction F as [|v bytes Hv F IH]; [reflexivity|]. cbn [flat_map length bytes_from].
  rewrite byte_bits_value by exact Hv. rewrite Z.mul_1_l, IH. reflexivity.
Qed.

(** *** The counters of both sides *)
Fixpoint counted (cs : counters) (symbols ctx : list Z) : outcome counters :=
  match symbols, ctx with
  | x :: symbols', c :: ctx' => do p <- counter_at cs c; counted (count_symbol cs c p x) symbols' ctx'
  | _, _ => Ok cs
  end.
Lemma enc_counted symbols : forall ctx s s' out, enc_symbols s symbols ctx = Ok (s', out) ->
  counted (en_counters s) symbols ctx = Ok (en_counters s').
Proof.
  induction symbols as [|x symbols IH]; intros ctx s s' out H; cbn [enc_symbols counted] in *.
  - injection H as <- _. reflexivity.
  - destruct ctx as [|c ctx]; [discriminate H|].
    destruct (enc_symbol s x c) as [[s1 o1]| | |] eqn:E; try discriminate H. cbn [obind] in H.
    destruct (enc_symbols s1 symbols ctx) as [[s2 o2]| | |] eqn:E2; try discriminate H. cbn [obind] in H. injection H as <- _.
    unfold enc_symbol in E. destruct (counter_at (en_counters s) c) as [p| | |]; try discriminate E. cbn [obind] in *.
    destruct (part0 p (en_upper s - en_lower s)); try discriminate E. cbn [obind] in E.
    destruct (if x =? 0 then _ else _) as [lo up].
    destruct (enc_renorm RENORM lo up (en_follow s)) as [[[[l u] b] o]| | |]; try discriminate E. cbn [obind] in E.
    injection E as <- _. exact (IH _ _ _ _ E2).
Qed.
Lemma dec_counted ctx : forall symbols s s', decode_all s ctx = Ok (symbols, s') ->
  counted (de_counters s) symbols ctx = Ok (de_counters s').
Proof.
  induction ctx as [|c ctx IH]; intros symbols s s' H; cbn [decode_all] in *.
  - injection H as <- <-. reflexivity.
  - destruct (arith_decode s c) as [[x s1]| | |] eqn:E; try discriminate H. cbn [obind] in H.
    destruct (decode_all s1 ctx) as [[xs s2]| | |] eqn:E2; try discriminate H. cbn [obind] in H. injection H as <- <-.
    cbn [counted]. unfold arith_decode in E.
    destruct (counter_at (de_counters s) c) as [p| | |]; try discriminate E. cbn [obind] in *.
    destruct (part0 p (de_upper s - de_lower s)); try discriminate E. cbn [obind] in E.
    destruct (if _ <? _ then _ else _) as [[y lo] up].
    destruct (dec_renorm RENORM lo up (de_leading s) (de_rest s)) as [[[[l u] v] b]| | |]; try discriminate E. cbn [obind] in E.
    injection E as <- <-. exact (IH _ _ _ E2).
Qed.
Lemma decoded_counters cs symbols ctx out cs' k : counting (Z.of_nat (length symbols)) cs ->
  Forall bit symbols -> Forall context ctx -> length ctx = length symbols ->
  arith_encode cs symbols ctx = Ok (out, cs') ->
  exists s, decode_all (initDecoding cs (out ++ repeat 0 k)) ctx = Ok (symbols, s) /\ rescaleCounter (de_counters s) = Ok cs'.
Proof.
  intros C Fs Fc L H. destruct (decoded _ _ _ _ _ k C Fs Fc L H) as (s & D). exists s. split; [exact D|].
  pose proof (dec_counted _ _ _ _ D) as Cd. rewrite init_mirror in Cd. cbn [mirror de_counters en_counters] in Cd.
  unfold arith_encode in H. destruct (enc_symbols _ symbols ctx) as [[s2 o]| | |] eqn:E; try discriminate H. cbn [obind] in H.
  pose proof (enc_counted _ _ _ _ _ E) as Ce. cbn [en_counters] in Ce. rewrite Cd in Ce. injection Ce as ->.
  destruct (remainder s2) as [T| | |]; try discriminate H. cbn [obind] in H.
  destruct (cut_zeros (o ++ T)); [discriminate H|].
  destruct (rescaleCounter (en_counters s2)); try discriminate H. cbn [obind] in H. now injection H as _ ->.
Qed.
(** The interval before any symbol of a message. *)
Lemma enc_interval cs pre post ctx s out : counting (Z.of_nat (length (pre ++ post))) cs -> Forall context ctx ->
  length ctx = length (pre ++ post) ->
  enc_symbols (Enc 0 RANGE_MAX 0 cs) pre (firstn (length pre) ctx) = Ok (s, out) -> wide (en_lower s) (en_upper s).
Proof.
  intros C Fc L H. rewrite app_length in *.
  destruct (enc_symbols_ok pre (firstn (length pre) ctx) (Z.of_nat (length post)) _ (start_ready cs)) as (s' & o' & E & R & _).
  - eapply counting_weaken; [|exact C]. lia.
  - lia.
  - rewrite <- (firstn_skipn (length pre) ctx) in Fc. apply Forall_app in Fc. apply Fc.
  - rewrite firstn_length. lia.
  - rewrite E in H. injection H as <- <-. exact R.
Qed.
Lemma enc_states cs symbols ctx c : counting (Z.of_nat (length symbols) + 1) cs -> Forall context ctx -> length ctx = length symbols ->
  context c ->
  exists s out p a, enc_symbols (Enc 0 RANGE_MAX 0 cs) symbols ctx = Ok (s, out) /\
    0 <= en_lower s /\ en_upper s <= 1024 /\ 256 < en_upper s - en_lower s /\
    counter_at (en_counters s) c = Ok p /\ part0 p (en_upper s - en_lower s) = Ok a /\
    0 < a < en_upper s - en_lower s.
Proof.
  intros C Fc L Hc.
  destruct (enc_symbols_ok symbols ctx 1 _ (start_ready cs)) as (s & o & E & R & C2);
    [eapply counting_weaken; [|exact C]; lia|lia|exact Fc|lia|].
  destruct (counter_at_ok _ _ _ C2 Hc ltac:(lia)) as (p & Ep & P1 & P2 & P3).
  unfold ready, wide, inside in R. destruct p as [cz t]. cbn [fst snd] in *.
  destruct (part0_ok cz t (en_upper s - en_lower s)) as (a & Ea & Ha); [lia|lia|lia|].
  exists s, o, (cz, t), a. repeat split; auto; lia.
Qed.
Lemma dec_states cs bs ctx : Forall bit bs -> counting (Z.of_nat (length ctx)) cs -> Forall context ctx ->
  exists xs s, decode_all (initDecoding cs bs) ctx = Ok (xs, s) /\ length xs = length ctx /\ Forall bit xs /\
    0 <= de_lower s <= de_leading s /\ de_leading s < de_upper s /\ de_upper s <= 1024 /\ 256 < de_upper s - de_lower s.
Proof.
  intros Fb C Fc. destruct (decode_all_ok ctx 0 (initDecoding cs bs) (init_ready cs bs Fb)) as (xs & s & E & L & Fx & R & _).
  - rewrite init_mirror. exact C.
  - lia.
  - exact Fc.
  - exists xs, s. destruct R as (W & V & _). unfold wide, inside in W. repeat split; auto; lia.
Qed.
Lemma reset_counting n : 0 <= n < 2 ^ 31 - 16 -> counting n resetCounter.
Proof.
  intros H. split; [reflexivity|]. unfold resetCounter, RESET_TOTAL. apply Forall_forall. intros p Hp. apply repeat_spec in Hp.
  subst p. cbn [fst snd]. change (16 / 2) with 8. lia.
Qed.
