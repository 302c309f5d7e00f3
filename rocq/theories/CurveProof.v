(** Proofs about curve bands. *)
From Coq Require Import Reals Psatz Sorting.Sorted.
From Flocq Require Import Core.Core.
From Verif Require Import Base FloatBase FloatModel FloatSpec FloatProof Float64Proof TypesModel ToolsModel ToolsFloatProof
  SynthModel SynthProof SynthIndex CurveModel CurveSpec.
Local Open Scope Z_scope.
Ltac Zify.zify_post_hook ::= Z.div_mod_to_equations.

(** ** Ticks *)
Lemma tick_bounds N fs t : 0 < fs -> t = (2 * N + fs) / (2 * fs) -> (2 * t - 1) * fs <= 2 * N /\ 2 * N + 1 <= (2 * t + 1) * fs.
Proof.
  intros H E. pose proof (Z.div_mod (2 * N + fs) (2 * fs) ltac:(lia)) as D. pose proof (Z.mod_pos_bound (2 * N + fs) (2 * fs) ltac:(lia)) as M.
  rewrite <- E in D. nia.
Qed.
Lemma tick_nearest (N fs : Z) : 0 <= N < 2 ^ 52 -> 0 < fs < 2 ^ 32 ->
  Znearest (Zle_bool 0) (rnd64 (IZR N / IZR fs)) = (2 * N + fs) / (2 * fs).
Proof.
  intros HN Hfs. remember ((2 * N + fs) / (2 * fs)) as t eqn:Et.
  destruct (tick_bounds N fs t ltac:(lia) Et) as [T1 T2].
  assert (T0 : 0 <= t) by (subst t; apply Z.div_pos; lia).
  assert (T3 : t < 2 ^ 52 + 1) by (subst t; apply Z.div_lt_upper_bound; nia).
  assert (Rfs : (1 <= IZR fs)%R) by (apply (IZR_le 1); lia).
  assert (RN : (0 <= IZR N <= 4503599627370495)%R) by (split; [apply (IZR_le 0)|apply (IZR_le _ 4503599627370495)]; lia).
  assert (Rt : (0 <= IZR t)%R) by (apply (IZR_le 0); lia).
  apply IZR_le in T1, T2. rewrite !mult_IZR, minus_IZR, mult_IZR in T1. rewrite plus_IZR, !mult_IZR, plus_IZR, mult_IZR in T2.
  set (q := (IZR N / IZR fs)%R). assert (Eq : (IZR N = q * IZR fs)%R) by (unfold q; field; lra).
  assert (Q1 : (IZR t - / 2 <= q)%R) by (rewrite Eq in T1; nra).
  assert (Q2 : (q + / (2 * IZR fs) <= IZR t + / 2)%R).
  { assert (I : (/ (2 * IZR fs) * IZR fs = / 2)%R) by (field; lra). rewrite Eq in T2. assert (0 < / (2 * IZR fs))%R by (apply Rinv_0_lt_compat; lra). nra. }
  assert (Q0 : (0 <= q)%R) by (unfold q; apply Rmult_le_pos; [lra|apply Rlt_le, Rinv_0_lt_compat; lra]).
  set (x := rnd64 q).
  assert (X1 : (IZR t - / 2 <= x)%R).
  { assert (F : fmt64 (IZR t - / 2)).
    { replace (IZR t - / 2)%R with (IZR (2 * t - 1) * bpow radix2 (-1))%R by (rewrite minus_IZR, mult_IZR; cbn; lra). apply fmt_Z; lia. }
    rewrite <- (rnd64_id _ F). apply rnd64_le, Q1. }
  assert (X2 : (x < IZR t + / 2)%R).
  { destruct (Rlt_or_le q (/ 4)) as [Lq|Lq].
    - assert (x <= / 4)%R; [|lra]. unfold x. rewrite <- (rnd64_id (/ 4)); [apply rnd64_le; lra|].
      replace (/ 4)%R with (IZR 1 * bpow radix2 (-2))%R by (cbn; lra). apply fmt_Z; lia.
    - destruct (rel64 q) as (e & He & E).
      { apply bpow_1022. lra. }
      unfold x. rewrite E. apply Rabs_le_inv in He. unfold u53 in He.
      assert (I : (q * IZR fs * / 9007199254740992 < / 2)%R) by (rewrite <- Eq; lra).
      assert (J : (q * / 9007199254740992 < / (2 * IZR fs))%R).
      { apply (Rmult_lt_reg_r (IZR fs)); [lra|]. replace (/ (2 * IZR fs) * IZR fs)%R with (/ 2)%R by (field; lra). lra. }
      nra. }
  destruct (Rle_lt_or_eq_dec _ _ X1) as [X1'|X1'].
  - apply Znearest_imp. apply Rabs_lt. lra.
  - assert (t <> 0) by (intros ->; assert (0 <= x)%R by (unfold x; rewrite <- rnd64_0; apply rnd64_le, Q0); lra).
    assert (Fl : Zfloor x = t - 1) by (apply Zfloor_imp; rewrite <- X1', plus_IZR, minus_IZR; lra).
    assert (Ce : Zceil x = t) by (apply Zceil_imp; rewrite <- X1', minus_IZR; lra).
    unfold Znearest. rewrite Fl, minus_IZR. rewrite Rcompare_Eq by lra. replace (0 <=? t - 1) with true by lia. exact Ce.
Qed.
Lemma tick_of_ok ts fs i : 0 < ts < 2 ^ 32 -> 0 < fs < 2 ^ 32 -> ts * Z.of_nat i < 2 ^ 52 -> tick ts fs i < 2 ^ 31 ->
  tick_of ts (f64_of_Z fs) (Z.of_nat i) = Ok (tick ts fs i) /\ 0 <= tick ts fs i.
Proof.
  intros Hts Hfs Hi Ht. unfold tick_of, tick in *. replace (2 * ts * Z.of_nat i) with (2 * (ts * Z.of_nat i)) in * by ring.
  assert (Hi0 : Z.of_nat i < 2 ^ 52) by nia.
  destruct (f64_of_Z_ok ts ltac:(lia)) as [E1 F1]. destruct (f64_of_Z_ok (Z.of_nat i) ltac:(lia)) as [E2 F2]. destruct (f64_of_Z_ok fs ltac:(lia)) as [E3 F3].
  assert (B52 : forall z, 0 <= z < 2 ^ 52 -> (Rabs (IZR z) <= bpow radix2 1000)%R).
  { intros z Hz. rewrite <- abs_IZR. apply Rle_trans with (bpow radix2 52); [|apply bpow_le; lia]. rewrite bpow_IZR by lia. apply IZR_le. lia. }
  destruct (mul64_ok (f64_of_Z ts) (f64_of_Z (Z.of_nat i)) F1 F2) as [E4 F4]; [rewrite E1, E2, <- mult_IZR; apply B52; nia|].
  rewrite E1, E2, <- mult_IZR, rnd64_id in E4 by (apply fmt64_Z; nia). set (N := ts * Z.of_nat i) in *. assert (HN : 0 <= N < 2 ^ 52) by (unfold N in *; nia).
  assert (Rfs : (1 <= IZR fs)%R) by (apply (IZR_le 1); lia). assert (RN : (0 <= IZR N)%R) by (apply (IZR_le 0); lia).
  destruct (div64_ok (mul64 (f64_of_Z ts) (f64_of_Z (Z.of_nat i))) (f64_of_Z fs) F4) as [E5 F5]; [rewrite E3; lra| |].
  { rewrite E3, E4. apply Rle_trans with (2 := B52 N HN). assert (0 < / IZR fs <= 1)%R by (split; [apply Rinv_0_lt_compat; lra|rewrite <- Rinv_1; apply Rinv_le_contravar; lra]).
    unfold Rdiv. rewrite !Rabs_pos_eq by nra. nra. }
  rewrite E3, E4 in E5. set (x := div64 _ _) in *. destruct (fround_R x) as [E6 F6]. rewrite E5, tick_nearest in E6 by assumption. rewrite F5 in F6.
  assert (T0 : 0 <= (2 * N + fs) / (2 * fs)) by (apply Z.div_pos; lia). split; [|exact T0].
  unfold int_of_float. rewrite F6, (trunc_int _ _ E6). rewrite cast_i32 by lia. rewrite Z.eqb_refl. reflexivity.
Qed.
Lemma tick_mono ts fs i j : 0 <= ts -> 0 < fs -> (i <= j)%nat -> tick ts fs i <= tick ts fs j.
Proof. intros H1 H2 H. unfold tick. apply Z.div_le_mono; nia. Qed.
Lemma tick_0 ts fs : 0 < fs -> tick ts fs 0 = 0.
Proof. intros H. unfold tick. apply Z.div_small. lia. Qed.

(** ** Salient samples *)
Lemma is_extremum_turns a v b : is_extremum a v b = true <-> turns a v b.
Proof.
  unfold is_extremum, turns, nearly_equal. change (fle (Babs (sub64 v a)) _) with (is_eq v a). change (fle (Babs (sub64 v b)) _) with (is_eq v b).
  rewrite andb_true_iff, orb_true_iff, !andb_true_iff, negb_true_iff, andb_false_iff.
  destruct (is_eq v a), (is_eq v b); intuition congruence.
Qed.
Definition sample (l : list f64) (i : nat) : point := (Z.of_nat i, nth i l f64_0).
Lemma nth_error_app_at {A} (pre : list A) x r : nth_error (pre ++ x :: r) (length pre) = Some x.
Proof. rewrite nth_error_app2 by lia. rewrite Nat.sub_diag. reflexivity. Qed.
(** The points found from sample [S (length pre)] on are those of the salient samples [is]. *)
Lemma extrema_loop_ok : forall rest pre a v l ps e, l = pre ++ a :: v :: rest ->
  extrema_loop (Z.of_nat (S (length pre))) a v rest = (ps, e) ->
  exists is, ps ++ [e] = map (sample l) is /\ StronglySorted lt is /\
    (forall i, In i is <-> (length pre < i)%nat /\ salient l i).
Proof.
  induction rest as [|b rest IH]; intros pre a v l ps e El H; cbn [extrema_loop] in H.
  - injection H as <- <-. exists [S (length pre)]. split; [|split].
    + cbn [map app]. unfold sample. f_equal. f_equal. rewrite El. change (pre ++ [a; v]) with (pre ++ [a] ++ [v]). rewrite app_assoc.
      rewrite app_nth2 by (rewrite app_length; cbn; lia). rewrite app_length. cbn [length]. replace (S (length pre) - (length pre + 1))%nat with 0%nat by lia. reflexivity.
    + repeat constructor.
    + intros i. assert (L : length l = S (S (length pre))) by (rewrite El, app_length; cbn; lia). split.
      * intros [<-|[]]. split; [lia|]. split; [lia|]. right. left. lia.
      * intros [H1 [H2 _]]. left. lia.
  - destruct (extrema_loop (Z.of_nat (S (length pre)) + 1) v b rest) as [ps' e'] eqn:E.
    assert (L : (S (S (length pre)) < length l)%nat) by (rewrite El, app_length; cbn; lia).
    assert (N0 : nth_error l (length pre) = Some a) by (rewrite El; apply nth_error_app_at).
    assert (N1 : nth_error l (S (length pre)) = Some v).
    { rewrite El. change (pre ++ a :: v :: b :: rest) with (pre ++ [a] ++ v :: b :: rest). rewrite app_assoc. replace (S (length pre)) with (length (pre ++ [a])) by (rewrite app_length; cbn; lia). apply nth_error_app_at. }
    assert (N2 : nth_error l (S (S (length pre))) = Some b).
    { rewrite El. change (pre ++ a :: v :: b :: rest) with (pre ++ [a; v] ++ b :: rest). rewrite app_assoc. replace (S (S (length pre))) with (length (pre ++ [a; v])) by (rewrite app_length; cbn; lia). apply nth_error_app_at. }
    destruct (IH (pre ++ [a]) v b l ps' e') as (is & M & Srt & I).
    { rewrite El, <- app_assoc. reflexivity. }
    { rewrite app_length. cbn [length]. replace (Z.of_nat (S (length pre + 1))) with (Z.of_nat (S (length pre)) + 1) by lia. exact E. }
    rewrite app_length in I. cbn [length] in I.
    assert (Q : forall i, (length pre < i)%nat -> salient l i -> i = S (length pre) \/ In i is).
    { intros i Hi Hs. destruct (Nat.eq_dec i (S (length pre))) as [|Hn]; [left; assumption|]. right. apply I. split; [lia|exact Hs]. }
    destruct (is_extremum a v b) eqn:X; injection H as <- <-.
    + apply is_extremum_turns in X.
      assert (Sal : salient l (S (length pre))) by (split; [lia|]; right; right; exists a, v, b, (length pre); auto).
      exists (S (length pre) :: is). split; [|split].
      * cbn [map app]. rewrite <- M. unfold sample. rewrite (nth_error_nth _ _ _ N1). reflexivity.
      * constructor; [exact Srt|]. apply Forall_forall. intros i Hi. apply I in Hi. lia.
      * intros i. split; [intros [<-|Hi]; [split; [lia|exact Sal]|apply I in Hi; split; [lia|apply Hi]]|].
        intros [Hi Hs]. destruct (Q i Hi Hs) as [->|Hin]; [left; reflexivity|right; exact Hin].
    + exists is. split; [exact M|]. split; [exact Srt|]. intros i. split; [intros Hi; apply I in Hi; split; [lia|apply Hi]|].
      intros [Hi Hs]. destruct (Q i Hi Hs) as [->|Hin]; [|exact Hin]. exfalso.
      destruct Hs as [_ [H|[H|(a' & v' & b' & j & Ej & H1 & H2 & H3 & Ht)]]]; [lia|lia|].
      injection Ej as <-. assert (a' = a) by congruence. assert (v' = v) by congruence. assert (b' = b) by congruence. subst. apply is_extremum_turns in Ht. congruence.
Qed.
Lemma localExtrema_ok l : (2 <= length l)%nat ->
  exists is, localExtrema l true = map (sample l) is /\ StronglySorted lt is /\ forall i, In i is <-> salient l i.
Proof.
  intros H. destruct l as [|x [|y l]]; cbn [length] in H; [lia|lia|].
  assert (S0 : salient (x :: y :: l) 0) by (split; [cbn; lia|left; reflexivity]).
  assert (G : exists ps e, extrema_loop 1 x y l = (ps, e) /\ localExtrema (x :: y :: l) true = (0, x) :: ps ++ [e]).
  { destruct l as [|z l]; [exists [], (1, y); split; reflexivity|]. unfold localExtrema. destruct (extrema_loop 1 x y (z :: l)) as [ps e]. exists ps, e. auto. }
  destruct G as (ps & e & E & ->). destruct (extrema_loop_ok l [] x y (x :: y :: l) ps e eq_refl E) as (is & M & Srt & I).
  exists (0%nat :: is). split; [cbn [map]; rewrite <- M; reflexivity|]. split.
  - constructor; [exact Srt|]. apply Forall_forall. intros i Hi. apply I in Hi. cbn in Hi. lia.
  - intros i. split; [intros [<-|Hi]; [exact S0|apply I in Hi; apply Hi]|]. intros Hs. destruct i as [|i]; [left; reflexivity|]. right. apply I. split; [cbn; lia|exact Hs].
Qed.

(** ** Keyframes *)
Definition is_last (T : nat -> Z) (done : list nat) (i : nat) : Prop := In i done /\ forall j, In j done -> T j = T i -> (j <= i)%nat.
Section Loop.
Variables (ts fs : Z) (l : list f64).
Let T := tick ts fs.
Let K := keyframe_at ts fs l.
Hypothesis pos_ok : forall i, (i < length l)%nat -> tick_of ts (f64_of_Z fs) (Z.of_nat i) = Ok (T i) /\ 0 <= T i.
Hypothesis mono : forall i j, (i <= j)%nat -> T i <= T j.
Lemma replace_last_snoc k kfs k' : replace_last k (kfs ++ [k']) = kfs ++ [k].
Proof.
  unfold replace_last. rewrite removelast_last. destruct (kfs ++ [k']) eqn:E; [destruct kfs; discriminate|]. reflexivity.
Qed.
Lemma curve_loop_ok : forall todo done sel,
  StronglySorted lt (done ++ todo) -> Forall (fun i => (i < length l)%nat) (done ++ todo) ->
  StronglySorted (fun i j => T i < T j) sel -> (forall i, In i sel <-> is_last T done i) ->
  (done <> [] -> exists sel' i, sel = sel' ++ [i] /\ (forall j, In j done -> (j <= i)%nat)) ->
  exists sel2, curve_loop ts (f64_of_Z fs) (match sel with [] => -1 | _ => T (last sel 0%nat) end) (map (sample l) todo) (map K sel) = Ok (map K sel2) /\
    StronglySorted (fun i j => T i < T j) sel2 /\ (forall i, In i sel2 <-> is_last T (done ++ todo) i).
Proof.
  induction todo as [|i todo IH]; intros done sel Hs Hb Hsel Hin Hlast.
  - exists sel. rewrite app_nil_r in *. auto.
  - cbn [map curve_loop]. unfold sample at 1 2. cbn [fst snd].
    assert (Hi : (i < length l)%nat) by (rewrite Forall_forall in Hb; apply Hb, in_or_app; right; left; reflexivity).
    destruct (pos_ok i Hi) as [-> P0]. cbn [obind].
    assert (Lt : forall j, In j done -> (j < i)%nat).
    { intros j Hj. clear - Hs Hj. induction done as [|d done IHd]; [destruct Hj|]. cbn [app] in Hs. apply StronglySorted_inv in Hs as [Hs Hf].
      destruct Hj as [<-|Hj]; [|apply IHd; assumption]. rewrite Forall_forall in Hf. apply Hf, in_or_app. right. left. reflexivity. }
    assert (Assoc : done ++ i :: todo = (done ++ [i]) ++ todo) by (rewrite <- app_assoc; reflexivity).
    destruct done as [|d done'].
    + assert (sel = []) by (destruct sel as [|s sel]; [reflexivity|]; destruct (proj1 (Hin s) (or_introl eq_refl)) as [[] _]). subst sel.
      replace (-1 <? T i) with true by lia. cbn [map app].
      destruct (IH [i] [i]) as (sel2 & E & S2 & I2); [exact Hs|exact Hb|repeat constructor| |intros _; exists [], i; split; [reflexivity|intros j [<-|[]]; lia]|].
      * intros j. unfold is_last. split; [intros [<-|[]]; split; [left; reflexivity|intros k [<-|[]]; lia]|intros [[<-|[]] _]; left; reflexivity].
      * exists sel2. split; [exact E|]. split; [exact S2|exact I2].
    + destruct (Hlast ltac:(discriminate)) as (sel' & m & -> & Hm). set (done := d :: done') in *.
      assert (Im : is_last T done m) by (apply Hin, in_or_app; right; left; reflexivity).
      assert (Tm : T m <= T i) by (apply mono, Nat.lt_le_incl, Lt, Im).
      assert (Last : match sel' ++ [m] with [] => -1 | _ => T (last (sel' ++ [m]) 0%nat) end = T m) by (rewrite last_last; destruct sel'; reflexivity).
      rewrite Last. clear Last.
      assert (Below : forall j, In j sel' -> T j < T m).
      { clear - Hsel. induction sel' as [|s sel' IHs]; intros j Hj; [destruct Hj|]. cbn [app] in Hsel. apply StronglySorted_inv in Hsel as [Hsel Hf].
        destruct Hj as [<-|Hj]; [rewrite Forall_forall in Hf; apply Hf, in_or_app; right; left; reflexivity|apply IHs; assumption]. }
      assert (Max : forall j, In j done -> T j <= T m) by (intros j Hj; apply mono, Hm, Hj).
      assert (Nil : forall x, match sel' ++ [m] with [] => x | _ => T i end = T i) by (intros; destruct sel'; reflexivity).
      destruct (Z.ltb_spec (T m) (T i)) as [L|L].
      * destruct (IH (done ++ [i]) ((sel' ++ [m]) ++ [i])) as (sel2 & E & S2 & I2).
        -- rewrite <- Assoc. exact Hs.
        -- rewrite <- Assoc. exact Hb.
        -- clear - Hsel Below L. assert (F : Forall (fun j => T j < T i) (sel' ++ [m])).
           { apply Forall_app. split; [apply Forall_forall; intros j Hj; specialize (Below j Hj); lia|repeat constructor; exact L]. }
           induction Hsel as [|s r Hr IHr Hf]; [repeat constructor|]. inversion F; subst. cbn [app]. constructor; [apply IHr; assumption|]. apply Forall_app. split; [exact Hf|repeat constructor; assumption].
        -- intros j. rewrite in_app_iff, Hin. unfold is_last. rewrite in_app_iff. split.
           ++ intros [[H1 H2]|[<-|[]]].
              ** split; [left; exact H1|]. intros k Hk Ek. apply in_app_iff in Hk as [Hk|[<-|[]]]; [apply H2; assumption|]. specialize (Max j H1). lia.
              ** split; [right; left; reflexivity|]. intros k Hk Ek. apply in_app_iff in Hk as [Hk|[<-|[]]]; [apply Nat.lt_le_incl, Lt, Hk|lia].
           ++ intros [[H1|[<-|[]]] H2]; [left; split; [exact H1|]; intros k Hk; apply H2, in_or_app; left; exact Hk|right; left; reflexivity].
        -- intros _. exists (sel' ++ [m]), i. split; [reflexivity|]. intros j Hj. apply in_app_iff in Hj as [Hj|[<-|[]]]; [apply Nat.lt_le_incl, Lt, Hj|lia].
        -- exists sel2. rewrite Assoc. split; [|split; [exact S2|exact I2]]. rewrite <- E. rewrite last_last, (map_app K (sel' ++ [m]) [i]).
           destruct ((sel' ++ [m]) ++ [i]) eqn:Z; [destruct sel'; discriminate Z|]. reflexivity.
      * assert (Ti : T i = T m) by lia. rewrite Ti, Z.eqb_refl.
        destruct (IH (done ++ [i]) (sel' ++ [i])) as (sel2 & E & S2 & I2).
        -- rewrite <- Assoc. exact Hs.
        -- rewrite <- Assoc. exact Hb.
        -- clear - Hsel Below Ti. assert (F : Forall (fun j => T j < T i) sel') by (apply Forall_forall; intros j Hj; specialize (Below j Hj); lia).
           assert (Hr : StronglySorted (fun i j => T i < T j) sel').
           { clear - Hsel. induction sel' as [|s r IHr]; [constructor|]. cbn [app] in Hsel. apply StronglySorted_inv in Hsel as [H1 H2]. constructor; [apply IHr, H1|]. apply Forall_app in H2. apply H2. }
           clear Hsel Below. induction Hr as [|s r Hr IHr Hf]; [repeat constructor|]. inversion F; subst. cbn [app]. constructor; [apply IHr; assumption|]. apply Forall_app. split; [exact Hf|repeat constructor; assumption].
        -- intros j. split.
           ++ intros H. apply in_app_iff in H as [H|[<-|[]]].
              ** assert (Hj : is_last T done j) by (apply Hin, in_or_app; left; exact H). destruct Hj as [H1 H2]. split; [apply in_or_app; left; exact H1|].
                 intros k Hk Ek. apply in_app_iff in Hk as [Hk|[<-|[]]]; [apply H2; assumption|]. specialize (Below j H). lia.
              ** split; [apply in_or_app; right; left; reflexivity|]. intros k Hk Ek. apply in_app_iff in Hk as [Hk|[<-|[]]]; [apply Nat.lt_le_incl, Lt, Hk|lia].
           ++ intros [H1 H2]. apply in_or_app. apply in_app_iff in H1 as [H1|[<-|[]]]; [|right; left; reflexivity]. left.
              assert (Hj : is_last T done j) by (split; [exact H1|]; intros k Hk; apply H2, in_or_app; left; exact Hk). apply Hin, in_app_iff in Hj as [Hj|[<-|[]]]; [exact Hj|].
              specialize (H2 i ltac:(apply in_or_app; right; left; reflexivity) Ti). specialize (Lt m H1). lia.
        -- intros _. exists sel', i. split; [reflexivity|]. intros j Hj. apply in_app_iff in Hj as [Hj|[<-|[]]]; [apply Nat.lt_le_incl, Lt, Hj|lia].
        -- exists sel2. rewrite Assoc. split; [|split; [exact S2|exact I2]]. rewrite <- E. rewrite last_last, !map_app. cbn [map].
           rewrite replace_last_snoc. replace (T m <? T m) with false by lia. rewrite <- Ti.
           destruct (sel' ++ [i]) eqn:Z; [destruct sel'; discriminate Z|]. reflexivity.
Qed.
End Loop.

(** ** The band *)
Lemma keyframes_of_signal ts fs l : 0 < ts < 2 ^ 32 -> 0 < fs < 2 ^ 31 -> ts * vec_size l < 2 ^ 52 -> tick ts fs (length l) < 2 ^ 31 ->
  exists kfs, curve_loop ts (f64_of_Z fs) (-1) (localExtrema l true) [] = Ok kfs /\ increasing kfs /\
    forall k, In k kfs <-> exists i, last_of_tick ts fs l i /\ k = keyframe_at ts fs l i.
Proof.
  intros Hts Hfs Hl Ht. unfold vec_size in Hl.
  assert (P : forall i, (i <= length l)%nat -> tick_of ts (f64_of_Z fs) (Z.of_nat i) = Ok (tick ts fs i) /\ 0 <= tick ts fs i).
  { intros i Hi. apply tick_of_ok; try lia; [nia|]. pose proof (tick_mono ts fs i (length l) ltac:(lia) ltac:(lia) Hi). lia. }
  destruct l as [|x [|y l']].
  - exists []. split; [reflexivity|]. split; [intros i j a b ta tb _ H; destruct i; discriminate|]. intros k. split; [intros []|].
    intros (i & [[H _] _] & _). cbn in H. lia.
  - destruct (P 0%nat ltac:(cbn; lia)) as [E0 _]. rewrite tick_0 in E0 by lia. change (Z.of_nat 0) with 0 in E0. exists [keyframe_at ts fs [x] 0].
    split; [unfold localExtrema, curve_loop; cbn [fst snd]; rewrite E0; cbn [obind]; change (-1 <? 0) with true; change (0 <? 0) with false; change (0 =? 0) with true; cbv iota; unfold keyframe_at; rewrite tick_0 by lia; reflexivity|].
    split.
    + intros [|i] [|j] a b ta tb Hij Ha Hb; try lia; destruct j; discriminate Hb.
    + assert (S0 : salient [x] 0) by (split; [cbn; lia|left; reflexivity]). intros k. split.
      * intros [<-|[]]. exists 0%nat. split; [|reflexivity]. split; [exact S0|]. intros j [Hj _] _. cbn in Hj. lia.
      * intros (i & [[Hi _] _] & ->). cbn in Hi. replace i with 0%nat by lia. left. reflexivity.
  - set (l := x :: y :: l') in *. destruct (localExtrema_ok l) as (is & -> & Sis & Iis); [cbn; lia|].
    assert (Fis : Forall (fun i => (i < length l)%nat) is) by (apply Forall_forall; intros i Hi; apply Iis in Hi; apply Hi).
    destruct (curve_loop_ok ts fs l (fun i Hi => P i (Nat.lt_le_incl _ _ Hi)) (fun i j => tick_mono ts fs i j ltac:(lia) ltac:(lia)) is [] []) as (sel & E & Ssel & Isel);
      [exact Sis|exact Fis|constructor| |intros []; reflexivity|].
    { intros i. split; [intros []|intros [[] _]]. }
    cbn [map] in E. exists (map (keyframe_at ts fs l) sel). split; [exact E|]. split.
    + intros i j a b ta tb Hij Ha Hb Ta Tb. rewrite nth_error_map in Ha, Hb.
      destruct (nth_error sel i) as [p|] eqn:Ei; [|discriminate]. destruct (nth_error sel j) as [q|] eqn:Ej; [|discriminate].
      injection Ha as <-. injection Hb as <-. cbn [k_pos keyframe_at] in Ta, Tb. injection Ta as <-. injection Tb as <-.
      clear - Ssel Ei Ej Hij. revert i j Ei Ej Hij. induction Ssel as [|s r Hr IHr Hf]; intros i j Ei Ej Hij; [destruct i; discriminate|].
      destruct i as [|i], j as [|j]; try lia.
      * injection Ei as <-. rewrite Forall_forall in Hf. apply Hf. eapply nth_error_In, Ej.
      * apply (IHr i j); [exact Ei|exact Ej|lia].
    + intros k. rewrite in_map_iff. unfold last_of_tick. split.
      * intros (i & <- & Hi). apply Isel in Hi. exists i. split; [|reflexivity]. destruct Hi as [H1 H2]. split; [apply Iis, H1|]. intros j Hj. apply H2, Iis, Hj.
      * intros (i & [H1 H2] & ->). exists i. split; [reflexivity|]. apply Isel. split; [apply Iis, H1|]. intros j Hj. apply H2, Iis, Hj.
Qed.
Lemma signal_band ts fs l : 0 < ts < 2 ^ 32 -> 0 < fs < 2 ^ 31 -> ts * vec_size l < 2 ^ 52 -> tick ts fs (length l) < 2 ^ 31 ->
  exists b e, curveBand l fs ts = Ok (true, b) /\ b_type b = CurveB /\ b_up b = fs /\ b_effects b = [e] /\ e_pos e = 0 /\ increasing (e_kfs e) /\
    forall k, In k (e_kfs e) <-> exists i, last_of_tick ts fs l i /\ k = keyframe_at ts fs l i.
Proof.
  intros Hts Hfs Hl Ht. destruct (keyframes_of_signal ts fs l Hts Hfs Hl Ht) as (kfs & E & Inc & I).
  unfold curveBand, convertToCurveBand. destruct (f64_of_Z_ok fs ltac:(lia)) as [Ef Ff].
  assert (Pf : (0 < IZR fs)%R) by (apply (IZR_lt 0); lia).
  rewrite fle_R by (assumption || reflexivity). rewrite Ef. change (B2R f64_0) with 0%R. rewrite Rle_bool_false by exact Pf.
  unfold int_of_float. rewrite Ff, (trunc_int _ _ Ef), cast_i32, Z.eqb_refl by lia. cbn [obind]. rewrite E. cbn [obind].
  eexists _, _. split; [reflexivity|]. cbn [b_type b_up b_effects insert_effect MetaModel.band0]. split; [reflexivity|]. split; [reflexivity|]. split; [reflexivity|]. split; [reflexivity|]. auto.
Qed.
(** The first keyframe is at 0, and the last sample is always one. *)
Lemma salient_first l : l <> [] -> salient l 0.
Proof. intros H. split; [destruct l; [contradiction|cbn; lia]|left; reflexivity]. Qed.
Lemma last_sample ts fs l n : length l = S n -> last_of_tick ts fs l n.
Proof. intros H. split; [split; [lia|right; left; lia]|]. intros j [Hj _] _. lia. Qed.
(** Every salient sample is represented at its tick. *)
Lemma represented ts fs l i : 0 <= ts -> 0 < fs -> salient l i -> exists j, last_of_tick ts fs l j /\ tick ts fs j = tick ts fs i.
Proof.
  intros Hts Hfs Hi.
  assert (G : forall n i, (length l <= i + n)%nat -> salient l i -> exists j, last_of_tick ts fs l j /\ tick ts fs j = tick ts fs i).
  { clear i Hi. induction n as [|n IH]; intros i Hn Hi; [destruct Hi; lia|].
    destruct (Classical_Prop.classic (exists j, salient l j /\ tick ts fs j = tick ts fs i /\ (i < j)%nat)) as [(j & Hj & Ej & Lj)|N].
    - destruct (IH j ltac:(lia) Hj) as (k & Hk & Ek). exists k. split; [exact Hk|congruence].
    - exists i. split; [|reflexivity]. split; [exact Hi|]. intros j Hj Ej. destruct (le_lt_dec j i) as [L|L]; [exact L|]. exfalso. apply N. exists j. auto. }
  apply (G (length l) i); [lia|exact Hi].
Qed.
