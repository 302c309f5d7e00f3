(** Proofs about the tools: options, OHM files, WAV interleaving, powers of two. *)
From Verif Require Import Base BitsModel BitsProof TypesModel SemanticModel FloatBase FloatModel
  ToolsModel ToolsSpec.
Ltac Zify.zify_post_hook ::= Z.div_mod_to_equations.

(** *** Strings *)
Lemma str_eqb_iff a : forall b, str_eqb a b = true <-> a = b.
Proof.
  induction a as [|x a IH]; intros [|y b]; cbn [str_eqb]; try (split; congruence).
  rewrite andb_true_iff, IH, Z.eqb_eq. split; [intros [-> ->]; reflexivity|intros E; injection E; auto].
Qed.
Lemma str_eqb_same a : str_eqb a a = true.
Proof. now apply str_eqb_iff. Qed.

(** *** Options *)
Lemma find_token_some ts o : forall r, find_token ts o = Some r <->
  exists pre, ts = pre ++ o :: r /\ ~ In o pre.
Proof.
  induction ts as [|t ts IH]; intros r; cbn [find_token].
  - split; [discriminate|]. intros (pre & E & _). destruct pre; discriminate E.
  - destruct (str_eqb t o) eqn:E.
    + apply str_eqb_iff in E. subst t. split.
      * intros E. injection E as <-. exists []. split; [reflexivity|intros []].
      * intros ([|p pre] & E & N); [injection E as <-; reflexivity|].
        injection E as <- _. destruct N. now left.
    + assert (N : t <> o) by (intros C; apply str_eqb_iff in C; congruence).
      rewrite IH. split.
      * intros (pre & -> & Np). exists (t :: pre). split; [reflexivity|]. intros [C|C]; auto.
      * intros ([|p pre] & E' & Np); [injection E' as -> _; congruence|].
        injection E' as -> ->. exists pre. split; [reflexivity|]. intros C. apply Np. now right.
Qed.
Lemma find_token_none ts o : find_token ts o = None <-> ~ In o ts.
Proof.
  induction ts as [|t ts IH]; cbn [find_token].
  - split; auto.
  - destruct (str_eqb t o) eqn:E.
    + apply str_eqb_iff in E. subst. split; [discriminate|]. intros N. destruct N. now left.
    + assert (N : t <> o) by (intros C; apply str_eqb_iff in C; congruence).
      rewrite IH. split; [intros H [C|C]; auto|intros H C; apply H; now right].
Qed.

Lemma option_value ts o v post pre : ts = pre ++ o :: v :: post -> ~ In o pre -> getCmdOption ts o = v.
Proof.
  intros E N. unfold getCmdOption. 
  assert (H : find_token ts o = Some (v :: post)) by (apply find_token_some; eauto). now rewrite H.
Qed.
Lemma option_last pre o : ~ In o pre -> getCmdOption (pre ++ [o]) o = [].
Proof.
  intros N. unfold getCmdOption. 
  assert (H : find_token (pre ++ [o]) o = Some []) by (apply find_token_some; eauto). now rewrite H.
Qed.
Lemma option_absent ts o : ~ In o ts -> getCmdOption ts o = [].
Proof. intros N. unfold getCmdOption. apply find_token_none in N. now rewrite N. Qed.
Lemma option_exists ts o : cmdOptionExists ts o = true <-> In o ts.
Proof.
  unfold cmdOptionExists. destruct (find_token ts o) as [r|] eqn:E.
  - apply find_token_some in E. destruct E as (pre & -> & _). split; [|reflexivity].
    intros _. apply in_or_app. right. now left.
  - apply find_token_none in E. split; [discriminate|contradiction].
Qed.

Lemma rfind_none s c : rfind s c = None <-> ~ In c s.
Proof.
  induction s as [|x s IH]; cbn [rfind]; [split; auto|].
  destruct (rfind s c) as [i|] eqn:E.
  - split; [discriminate|]. intros N. exfalso.
    assert (H : ~ In c s) by (intros C; apply N; now right). apply IH in H. discriminate H.
  - assert (Ns : ~ In c s) by now apply IH.
    destruct (x =? c) eqn:Ex.
    + split; [discriminate|]. intros N. destruct N. left. lia.
    + split; [|auto]. intros _ [C|C]; [lia|auto].
Qed.
Lemma rfind_some a c ext : ~ In c ext -> rfind (a ++ c :: ext) c = Some (length a).
Proof.
  intros N. induction a as [|x a IH]; cbn [rfind app].
  - assert (H : rfind ext c = None) by now apply rfind_none. rewrite H, Z.eqb_refl. reflexivity.
  - now rewrite IH.
Qed.
Lemma file_ext base ext : ~ In 46 ext -> getFileExt (base ++ 46 :: ext) = ext.
Proof.
  intros N. unfold getFileExt. rewrite rfind_some by exact N.
  rewrite app_length. cbn [length].
  replace (skipn (length base + 1) (base ++ 46 :: ext)) with ext.
  - apply firstn_all2. lia.
  - rewrite skipn_app, skipn_all2 by lia.
    replace (length base + 1 - length base)%nat with 1%nat by lia. reflexivity.
Qed.
Lemma file_no_ext f : ~ In 46 f -> getFileExt f = [].
Proof. intros N. unfold getFileExt. apply rfind_none in N. now rewrite N. Qed.

Lemma is_number s : isNumber s = true <-> s <> [] /\ Forall (fun c => 48 <= c <= 57) s.
Proof.
  unfold isNumber. rewrite andb_true_iff.
  assert (H : Nat.eqb (length (skip_digits s)) 0 = true <-> Forall (fun c => 48 <= c <= 57) s).
  { induction s as [|c s IH]; cbn [skip_digits].
    - split; [constructor|reflexivity].
    - unfold isdigit. destruct ((48 <=? c) && (c <=? 57)) eqn:E.
      + rewrite IH. split; [intros F; constructor; [lia|exact F]|intros F; now inversion F].
      + split; [discriminate|]. intros F. inversion F; subst. lia. }
  rewrite H. destruct s; cbn; split; intros [A B]; split; auto; discriminate.
Qed.

(** *** Powers of two *)
Lemma land_pred n : 0 < n -> Z.land n (n - 1) = 0 <-> exists k, 0 <= k /\ n = 2 ^ k.
Proof.
  intros Hn. split.
  - intros E. exists (Z.log2 n). split; [apply Z.log2_nonneg|].
    destruct (Z.log2_spec n Hn) as [L1 L2].
    destruct (Z.eq_dec n (2 ^ Z.log2 n)) as [|N]; [assumption|exfalso].
    assert (T1 : Z.testbit n (Z.log2 n) = true) by (apply Z.bit_log2; exact Hn).
    assert (L : Z.log2 (n - 1) = Z.log2 n).
    { apply Z.log2_unique; [apply Z.log2_nonneg|]. lia. }
    assert (T2 : Z.testbit (n - 1) (Z.log2 n) = true).
    { rewrite <- L. apply Z.bit_log2. 
      assert (0 < 2 ^ Z.log2 n) by (apply Z.pow_pos_nonneg; [lia|apply Z.log2_nonneg]). lia. }
    assert (T : Z.testbit (Z.land n (n - 1)) (Z.log2 n) = true) by now rewrite Z.land_spec, T1, T2.
    rewrite E, Z.bits_0 in T. discriminate T.
  - intros (k & Hk & ->).
    replace (2 ^ k - 1) with (Z.ones k) by (rewrite Z.ones_equiv; lia).
    rewrite Z.land_ones by exact Hk. apply Z.mod_same. 
    assert (0 < 2 ^ k) by (apply Z.pow_pos_nonneg; lia). lia.
Qed.
Lemma power_of_two n : - 2 ^ 31 < n < 2 ^ 31 ->
  exists b, isPowerOfTwo n = Ok b /\ (b = true <-> exists k, 0 <= k /\ n = 2 ^ k).
Proof.
  intros H. unfold isPowerOfTwo. destruct (n =? 0) eqn:E0.
  - exists false. split; [reflexivity|]. split; [discriminate|]. intros (k & Hk & E).
    assert (0 < 2 ^ k) by (apply Z.pow_pos_nonneg; lia). lia.
  - replace (n - 1 <? - 2 ^ 31) with false by lia.
    eexists. split; [reflexivity|]. rewrite Z.eqb_eq.
    destruct (Z_lt_le_dec 0 n) as [P|N]; [apply land_pred; exact P|].
    split.
    + intros E. assert (Hs : Z.land n (n - 1) < 0) by (apply Z.land_neg; lia). lia.
    + intros (k & Hk & E). assert (0 < 2 ^ k) by (apply Z.pow_pos_nonneg; lia). lia.
Qed.

(** *** OHM files *)
Lemma read_bytes_exact n a f : length a = n -> read_bytes n (a ++ f) = (a, f).
Proof.
  intros <-. rewrite read_bytes_spec by (rewrite app_length; lia). f_equal.
  - rewrite firstn_app, Nat.sub_diag, firstn_all. cbn [firstn]. apply app_nil_r.
  - rewrite skipn_app, Nat.sub_diag, skipn_all. reflexivity.
Qed.

Lemma fillString_length s n : length (fillString s n) = n.
Proof.
  unfold fillString. destruct (length s <=? n)%nat eqn:E; rewrite app_length, repeat_length.
  - lia.
  - rewrite firstn_length. lia.
Qed.
Lemma fillString_eq s n : fillString s n = firstn n s ++ repeat 0 (n - length (firstn n s)).
Proof.
  unfold fillString. destruct (length s <=? n)%nat eqn:E; [|reflexivity].
  rewrite firstn_all2 by lia. reflexivity.
Qed.

Lemma last_cons_ne {A} (x : A) l d : l <> [] -> last (x :: l) d = last l d.
Proof. destruct l; [congruence|reflexivity]. Qed.
Lemma erase_nul_split s : exists k, s = erase_nul s ++ repeat 0 k /\ last (erase_nul s) 1 <> 0.
Proof.
  induction s as [|c s (k & E & L)]; cbn [erase_nul].
  - exists 0%nat. split; [reflexivity|]. cbn. lia.
  - destruct (erase_nul s) as [|x r] eqn:Er.
    + destruct (c =? 0) eqn:E0.
      * exists (S k). split; [|cbn; lia]. rewrite E at 1. cbn. f_equal. lia.
      * exists k. split; [rewrite E at 1; reflexivity|]. cbn. lia.
    + exists k. split; [rewrite E at 1; reflexivity|]. rewrite last_cons_ne by discriminate. exact L.
Qed.
Lemma last_repeat k : last (repeat 0 (S k)) 1 = 0.
Proof. induction k; [reflexivity|]. change (repeat 0 (S (S k))) with (0 :: repeat 0 (S k)).
  rewrite last_cons_ne by discriminate. exact IHk. Qed.
Lemma last_app_zeros t k : last (t ++ repeat 0 (S k)) 1 = 0.
Proof.
  induction t as [|x t IH]; [apply last_repeat|]. cbn [app]. rewrite last_cons_ne; [exact IH|].
  destruct t; discriminate.
Qed.
Lemma zeros_prefix a : forall k x, repeat 0 k = a ++ x -> a = repeat 0 (length a).
Proof.
  induction a as [|y a IH]; intros k x E; [reflexivity|]. destruct k as [|k]; [discriminate E|].
  cbn [repeat app length] in *. injection E as <- E. f_equal. eapply IH, E.
Qed.
Lemma split_unique t : forall t' k k', last t 1 <> 0 -> last t' 1 <> 0 -> 
  t ++ repeat 0 k = t' ++ repeat 0 k' -> t = t'.
Proof.
  induction t as [|x t IH]; intros t' k k' L L' E.
  - destruct t' as [|y t']; [reflexivity|exfalso]. cbn [app] in E. apply L'.
    rewrite (zeros_prefix (y :: t') _ _ E). apply last_repeat.
  - destruct t' as [|y t'].
    + exfalso. symmetry in E. cbn [app] in E. apply L.
      rewrite (zeros_prefix (x :: t) _ _ E). apply last_repeat.
    + cbn [app] in E. injection E as -> E. f_equal.
      destruct t as [|x' t]; destruct t' as [|y' t'].
      * reflexivity.
      * apply (IH (y' :: t') k k'); [cbn; lia| |exact E]. rewrite last_cons_ne in L' by discriminate. exact L'.
      * apply (IH [] k k'); [|cbn; lia|exact E]. rewrite last_cons_ne in L by discriminate. exact L.
      * apply (IH (y' :: t') k k'); [| |exact E]; rewrite last_cons_ne in L, L' by discriminate; assumption.
Qed.

Lemma erase_fill n s : cut_to n s (erase_nul (fillString s n)).
Proof.
  destruct (erase_nul_split (fillString s n)) as (k & E & L). split; [exact L|].
  rewrite fillString_eq in E.
  destruct (erase_nul_split (firstn n s)) as (k1 & E1 & L1).
  exists k1. rewrite E1 at 1. f_equal.
  rewrite E1 in E at 1. rewrite <- app_assoc, <- repeat_app in E.
  rewrite fillString_eq. eapply split_unique; [exact L1| |exact E]. rewrite <- fillString_eq. 
  rewrite fillString_eq. rewrite fillString_eq in L. exact L.
Qed.
Lemma cut_fits n s t : fits n s -> cut_to n s t -> t = s.
Proof.
  intros [Hl L] [Lt (k & E)]. rewrite firstn_all2 in E by exact Hl.
  symmetry. apply (split_unique s t 0 k); [exact L|exact Lt|]. cbn [repeat]. rewrite app_nil_r. exact E.
Qed.

Lemma short_round v : - 2 ^ 15 <= v < 2 ^ 15 -> bytes_short (short_bytes v) = v.
Proof.
  intros H. unfold short_bytes, bytes_short. cbv zeta.
  replace (to_unsigned 16 v / 256 * 256 + to_unsigned 16 v mod 256) with (to_unsigned 16 v) by lia.
  unfold to_signed, to_unsigned. change (Z.of_nat 16) with 16. lia.
Qed.
Lemma word_round w : word w -> bytes_word (word_bytes w) = w.
Proof. unfold word. intros H. unfold word_bytes, bytes_word. lia. Qed.

Lemma testbit_signed w z i : (0 < w)%nat -> 0 <= i ->
  Z.testbit (to_signed w z) i = Z.testbit z (Z.min i (Z.of_nat w - 1)).
Proof.
  intros Hw Hi. set (m := Z.of_nat w - 1). assert (Hm : 0 <= m) by lia.
  assert (Em : Z.of_nat w = m + 1) by lia.
  unfold to_signed. rewrite Em. replace (m + 1 - 1) with m by lia.
  assert (E : exists q, (z + 2 ^ m) mod 2 ^ (m + 1) - 2 ^ m = z - q * 2 ^ (m + 1)).
  { exists ((z + 2 ^ m) / 2 ^ (m + 1)). 
    pose proof (Z.div_mod (z + 2 ^ m) (2 ^ (m + 1)) ltac:(apply Z.pow_nonzero; lia)). lia. }
  assert (B : - 2 ^ m <= (z + 2 ^ m) mod 2 ^ (m + 1) - 2 ^ m < 2 ^ m).
  { pose proof (Z.mod_pos_bound (z + 2 ^ m) (2 ^ (m + 1)) ltac:(apply Z.pow_pos_nonneg; lia)).
    rewrite Z.pow_add_r in * by lia. change (2 ^ 1) with 2 in *. lia. }
  destruct E as (q & E). set (r := (z + 2 ^ m) mod 2 ^ (m + 1) - 2 ^ m) in *.
  assert (Low : forall j, 0 <= j <= m -> Z.testbit r j = Z.testbit z j).
  { intros j Hj. rewrite E. 
    assert (Hmod : (z - q * 2 ^ (m + 1)) mod 2 ^ (m + 1) = z mod 2 ^ (m + 1)).
    { replace (z - q * 2 ^ (m + 1)) with (z + (- q) * 2 ^ (m + 1)) by ring. apply Z.mod_add.
      apply Z.pow_nonzero; lia. }
    rewrite <- (Z.mod_pow2_bits_low (z - q * 2 ^ (m + 1)) (m + 1) j) by lia.
    rewrite Hmod. apply Z.mod_pow2_bits_low. lia. }
  destruct (Z_le_gt_dec i m) as [Hle|Hgt].
  - rewrite Z.min_l by exact Hle. apply Low. lia.
  - rewrite Z.min_r by lia. rewrite <- Low by lia.
    assert (Sgn : forall j, m <= j -> Z.testbit r j = (r <? 0)).
    { intros j Hj. destruct (r <? 0) eqn:En.
      - assert (Er : r = - (- r)) by lia. rewrite Er, Z.bits_opp by lia.
        destruct (Z.eq_dec (Z.pred (- r)) 0) as [E0|N0]; [rewrite E0, Z.bits_0; reflexivity|].
        rewrite Z.bits_above_log2; [reflexivity|lia|].
        apply Z.lt_le_trans with m; [|exact Hj]. apply Z.log2_lt_pow2; lia.
      - destruct (Z.eq_dec r 0) as [E0|N0]; [rewrite E0; apply Z.bits_0|].
        apply Z.bits_above_log2; [lia|]. apply Z.lt_le_trans with m; [|exact Hj].
        apply Z.log2_lt_pow2; lia. }
    rewrite (Sgn i), (Sgn m) by lia. reflexivity.
Qed.
Lemma testbit_byte m k i : 0 <= k -> 0 <= i -> 
  Z.testbit ((m / 2 ^ k) mod 256) i = (i <? 8) && Z.testbit m (i + k).
Proof.
  intros Hk Hi. change 256 with (2 ^ 8). destruct (i <? 8) eqn:E; cbn [andb].
  - rewrite Z.mod_pow2_bits_low by lia. rewrite Z.div_pow2_bits by lia. reflexivity.
  - apply Z.mod_pow2_bits_high. lia.
Qed.
Lemma const_bits c lo i : 0 <= i -> 0 <= lo -> c = Z.shiftl (Z.ones (32 - lo)) lo -> lo <= 32 ->
  Z.testbit c i = (lo <=? i) && (i <? 32).
Proof.
  intros Hi Hlo -> H32. destruct (lo <=? i) eqn:E; cbn [andb].
  - rewrite Z.shiftl_spec by lia. destruct (i <? 32) eqn:E2.
    + apply Z.ones_spec_low. lia.
    + apply Z.ones_spec_high. lia.
  - apply Z.shiftl_spec_low. lia.
Qed.

Lemma mask_smeared m : word m -> bytes_mask (rev (word_bytes m)) = smeared m.
Proof.
  unfold word. intros H.
  assert (Hhigh : forall i, 32 <= i -> Z.testbit m i = false).
  { intros i Hi. destruct (Z.eq_dec m 0) as [->|N]; [apply Z.bits_0|].
    apply Z.bits_above_log2; [lia|]. apply Z.lt_le_trans with 32; [|exact Hi]. apply Z.log2_lt_pow2; lia. }
  unfold word_bytes, bytes_mask. cbn [rev app].
  replace m with (m / 2 ^ 0) at 4 by (change (2 ^ 0) with 1; apply Z.div_1_r).
  change 16777216 with (2 ^ 24). change 65536 with (2 ^ 16).
  replace (m / 256) with (m / 2 ^ 8) by reflexivity.
  unfold smeared. apply Z.bits_inj'. intros i Hi.
  unfold to_unsigned. change (Z.of_nat 32) with 32.
  destruct (Z_lt_ge_dec i 32) as [Hlt|Hge].
  2:{ rewrite Z.mod_pow2_bits_high by lia. rewrite !Z.lor_spec, Hhigh by lia.
      assert (C : forall (b : bool) c lo, c = Z.shiftl (Z.ones (32 - lo)) lo -> 0 <= lo <= 32 -> 
                  Z.testbit (if b then c else 0) i = false).
      { intros [|] c lo Ec Hl; [|apply Z.bits_0]. rewrite (const_bits c lo) by (exact Ec || lia). lia. }
      rewrite (C _ 0xFFFFFF00 8), (C _ 0xFFFF0000 16), (C _ 0xFF000000 24) by (reflexivity || lia).
      reflexivity. }
  rewrite Z.mod_pow2_bits_low by lia. rewrite !Z.lor_spec.
  rewrite !(testbit_signed 32) by lia. change (Z.of_nat 32 - 1) with 31. rewrite Z.min_l by lia.
  rewrite !Z.shiftl_spec by lia.
  assert (S8 : forall z j, 0 <= j -> Z.testbit (to_signed 8 z) j = Z.testbit z (Z.min j 7))
    by (intros; apply (testbit_signed 8); lia).
  assert (Ng : forall z j, j < 0 -> Z.testbit z j = false) by (intros; now apply Z.testbit_neg_r).
  assert (C : forall (b : bool) c lo, c = Z.shiftl (Z.ones (32 - lo)) lo -> 0 <= lo <= 32 -> 
                  Z.testbit (if b then c else 0) i = b && (lo <=? i)).
  { intros [|] c lo Ec Hl; [|apply Z.bits_0]. rewrite (const_bits c lo) by (exact Ec || lia). lia. }
  rewrite (C _ 0xFFFFFF00 8), (C _ 0xFFFF0000 16), (C _ 0xFF000000 24) by (reflexivity || lia).
  rewrite (S8 _ i) by lia.
  destruct (Z_lt_ge_dec i 8) as [L8|G8].
  { rewrite (Ng _ (i - 24)), (Ng _ (i - 16)), (Ng _ (i - 8)) by lia.
    rewrite testbit_byte by lia. rewrite Z.min_l by lia. replace (i + 0) with i by lia.
    replace (8 <=? i) with false by lia. replace (16 <=? i) with false by lia.
    replace (24 <=? i) with false by lia. replace (i <? 8) with true by lia.
    destruct (Z.testbit m i), (Z.testbit m 7), (Z.testbit m 15), (Z.testbit m 23); reflexivity. }
  destruct (Z_lt_ge_dec i 16) as [L16|G16].
  { rewrite (Ng _ (i - 24)), (Ng _ (i - 16)) by lia.
    rewrite (S8 _ (i - 8)) by lia. rewrite !testbit_byte by lia.
    rewrite (Z.min_l (i - 8)), (Z.min_r i) by lia.
    replace (i - 8 + 8) with i by lia. change (7 + 0) with 7.
    replace (i - 8 <? 8) with true by lia. change (7 <? 8) with true.
    replace (8 <=? i) with true by lia. replace (16 <=? i) with false by lia.
    replace (24 <=? i) with false by lia.
    destruct (Z.testbit m i), (Z.testbit m 7), (Z.testbit m 15), (Z.testbit m 23); reflexivity. }
  destruct (Z_lt_ge_dec i 24) as [L24|G24].
  { rewrite (Ng _ (i - 24)) by lia.
    rewrite (S8 _ (i - 8)), (S8 _ (i - 16)) by lia. rewrite !testbit_byte by lia.
    rewrite (Z.min_l (i - 16)), (Z.min_r i), (Z.min_r (i - 8)) by lia.
    replace (i - 16 + 16) with i by lia. change (7 + 0) with 7. change (7 + 8) with 15.
    replace (i - 16 <? 8) with true by lia. change (7 <? 8) with true.
    replace (8 <=? i) with true by lia. replace (16 <=? i) with true by lia.
    replace (24 <=? i) with false by lia.
    destruct (Z.testbit m i), (Z.testbit m 7), (Z.testbit m 15), (Z.testbit m 23); reflexivity. }
  rewrite (S8 _ (i - 8)), (S8 _ (i - 16)), (S8 _ (i - 24)) by lia. rewrite !testbit_byte by lia.
  rewrite (Z.min_l (i - 24)), (Z.min_r i), (Z.min_r (i - 8)), (Z.min_r (i - 16)) by lia.
  replace (i - 24 + 24) with i by lia. change (7 + 0) with 7. change (7 + 8) with 15.
  change (7 + 16) with 23.
  replace (i - 24 <? 8) with true by lia. change (7 <? 8) with true.
  replace (8 <=? i) with true by lia. replace (16 <=? i) with true by lia.
  replace (24 <=? i) with true by lia.
  destruct (Z.testbit m i), (Z.testbit m 7), (Z.testbit m 15), (Z.testbit m 23); reflexivity.
Qed.
Lemma smeared_plain m : plain_mask m -> smeared m = m.
Proof. intros (A & B & C). unfold smeared. rewrite A, B, C. cbn [Z.lor]. apply Z.lor_0_r. Qed.

Lemma load_channels_ok cs : Forall channel_words cs -> forall f,
  exists cs', load_channels (length cs) (flat_map channel_bytes cs ++ f) = (cs', f) /\
              Forall2 channel_loaded cs cs'.
Proof.
  induction cs as [|k cs IH]; intros F f; cbn [length load_channels flat_map app].
  - exists []. split; [reflexivity|constructor].
  - inversion F as [|? ? [Hg Hm] F']; subst. destruct (IH F' f) as (cs' & E & R).
    unfold channel_bytes at 1. rewrite <- !app_assoc.
    rewrite read_bytes_exact by apply fillString_length.
    rewrite (read_bytes_exact 4) by reflexivity.
    rewrite (read_bytes_exact 4) by reflexivity.
    rewrite E. eexists. split; [reflexivity|]. constructor; [|exact R].
    unfold channel_loaded. cbn [k_desc k_gain k_mask]. split; [apply erase_fill|].
    split; [apply word_round, Hg|apply mask_smeared, Hm].
Qed.
Lemma load_elements_ok es : 
  Forall (fun l => counted (l_count l) (l_channels l) /\ Forall channel_words (l_channels l)) es ->
  forall f, exists es', load_elements (length es) (flat_map element_bytes es ++ f) = (es', f) /\
              Forall2 element_loaded es es'.
Proof.
  induction es as [|l es IH]; intros F f; cbn [length load_elements flat_map app].
  - exists []. split; [reflexivity|constructor].
  - inversion F as [|? ? [[Hc Hb] Hk] F']; subst. destruct (IH F' f) as (es' & E & R).
    unfold element_bytes at 1. rewrite <- !app_assoc.
    rewrite (read_bytes_exact fileNameByteSize) by apply fillString_length.
    rewrite (read_bytes_exact descriptionByteSize) by apply fillString_length.
    rewrite (read_bytes_exact 2) by reflexivity.
    rewrite short_round by lia.
    cbv zeta. replace (Z.to_nat (l_count l)) with (length (l_channels l)) by lia.
    destruct (load_channels_ok (l_channels l) Hk (flat_map element_bytes es ++ f)) as (cs' & Ec & Rc).
    rewrite Ec, E. eexists. split; [reflexivity|]. constructor; [|exact R].
    unfold element_loaded. cbn [l_file l_desc l_count l_channels]. 
    split; [apply erase_fill|]. split; [apply erase_fill|]. split; [reflexivity|exact Rc].
Qed.

Lemma ohm_loaded o o0 : o_header o = OHM_HEADER -> - 2 ^ 15 <= o_version o < 2 ^ 15 ->
  Z.of_nat (length (o_elements o)) < 2 ^ 15 ->
  Forall (fun l => counted (l_count l) (l_channels l) /\ Forall channel_words (l_channels l)) (o_elements o) ->
  exists f d es, writeFile o = Ok f /\
    loadFile o0 (Some f) = (true, Ohm OHM_HEADER (o_version o) d (o_elements o0 ++ es)) /\
    cut_to 32 (o_desc o) d /\ Forall2 element_loaded (o_elements o) es.
Proof.
  intros Hh Hv Hn F.
  destruct (load_elements_ok _ F []) as (es & E & R). rewrite app_nil_r in E.
  unfold writeFile. rewrite Hh. cbn [OHM_HEADER length Nat.ltb Nat.leb app firstn].
  eexists. exists (erase_nul (fillString (o_desc o) 32)), es. split; [reflexivity|].
  split; [|split; [apply erase_fill|exact R]].
  unfold loadFile. 
  change (79 :: 72 :: 77 :: 32 :: ?r) with (OHM_HEADER ++ r).
  change (OHM_HEADER ++ ?r) with (79 :: ([72; 77; 32] ++ r)) at 1. cbv iota.
  change (79 :: ([72; 77; 32] ++ ?r)) with (OHM_HEADER ++ r).
  rewrite (read_bytes_exact 4 OHM_HEADER) by reflexivity.
  rewrite str_eqb_same.
  rewrite (read_bytes_exact 2) by reflexivity.
  rewrite (read_bytes_exact 2) by reflexivity.
  rewrite (read_bytes_exact descriptionByteSize) by apply fillString_length.
  rewrite !short_round by lia. rewrite Nat2Z.id, E. reflexivity.
Qed.

Lemma Forall2_same {A} (P : A -> Prop) (R : A -> A -> Prop) l : Forall P l -> 
  (forall x y, P x -> R x y -> y = x) -> forall l', Forall2 R l l' -> l' = l.
Proof.
  intros F H l' R2. induction R2; [reflexivity|]. inversion F; subst. f_equal; [now apply H|now apply IHR2].
Qed.
Lemma channel_same k k' : channel_fits k -> channel_loaded k k' -> k' = k.
Proof.
  intros (Hd & _ & Hw & Hp) (L1 & L2 & L3). apply (cut_fits _ _ _ Hd) in L1.
  rewrite smeared_plain in L3 by exact Hp. destruct k, k'; cbn in *. congruence.
Qed.
Lemma element_same l l' : element_fits l -> element_loaded l l' -> l' = l.
Proof.
  intros (Hf & Hd & _ & Hk) (L1 & L2 & L3 & L4). apply (cut_fits _ _ _ Hf) in L1.
  apply (cut_fits _ _ _ Hd) in L2. apply (Forall2_same _ _ _ Hk channel_same) in L4.
  destruct l, l'; cbn in *. congruence.
Qed.
Lemma ohm_round o o0 : ohm_fits o ->
  exists f, writeFile o = Ok f /\
    loadFile o0 (Some f) = (true, Ohm (o_header o) (o_version o) (o_desc o) (o_elements o0 ++ o_elements o)).
Proof.
  intros (Hh & Hv & Hd & Hn & He).
  destruct (ohm_loaded o o0 Hh Hv Hn) as (f & d & es & W & L & Cd & R).
  { eapply Forall_impl; [|exact He]. intros l (_ & _ & Hc & Hk). split; [exact Hc|].
    eapply Forall_impl; [|exact Hk]. intros k (_ & Hg & Hw & _). split; assumption. }
  exists f. split; [exact W|]. rewrite L. apply (cut_fits _ _ _ Hd) in Cd.
  apply (Forall2_same _ _ _ He element_same) in R. subst. now rewrite Hh.
Qed.

(** *** WAV interleaving *)
Lemma set_at_ok l : forall k w, (k < length l)%nat ->
  exists l', set_at l k w = Ok l' /\ length l' = length l /\
    forall j, nth_error l' j = if Nat.eqb j k then Some w else nth_error l j.
Proof.
  induction l as [|x l IH]; intros k w H; cbn [length] in H; [lia|].
  destruct k as [|k]; cbn [set_at].
  - eexists. split; [reflexivity|]. split; [reflexivity|]. intros [|j]; reflexivity.
  - destruct (IH k w ltac:(lia)) as (l' & E & L & N). rewrite E. cbn [obind].
    eexists. split; [reflexivity|]. split; [cbn; lia|]. intros [|j]; [reflexivity|apply N].
Qed.

Definition at_channel (n c i : nat) (ws : list Z) (k : nat) (other : option Z) : option Z :=
  if Nat.eqb (Nat.modulo k n) c && (i <=? Nat.div k n)%nat && (Nat.div k n <? i + length ws)%nat
  then nth_error ws (Nat.div k n - i) else other.

Lemma divmod_at n c i k : (c < n)%nat -> 
  (k = i * n + c <-> Nat.modulo k n = c /\ Nat.div k n = i)%nat.
Proof.
  intros Hc. split.
  - intros ->. split.
    + rewrite Nat.add_comm, Nat.mod_add by lia. apply Nat.mod_small, Hc.
    + rewrite Nat.add_comm, Nat.div_add by lia. rewrite Nat.div_small by exact Hc. reflexivity.
  - intros [H1 H2]. pose proof (Nat.div_mod k n ltac:(lia)). nia.
Qed.

Lemma save_samples_ok conv n c (b : list f64) : forall ws i out, (c < n)%nat ->
  sample_words conv b = Ok ws -> ((i + length b) * n <= length out)%nat ->
  exists out', save_samples conv n c i b out = Ok out' /\ length out' = length out /\
    forall k, nth_error out' k = at_channel n c i ws k (nth_error out k).
Proof.
  induction b as [|v b IH]; intros ws i out Hc Hs Hl; cbn [sample_words save_samples] in *.
  - injection Hs as <-. exists out. split; [reflexivity|]. split; [reflexivity|]. intros k.
    unfold at_channel. cbn [length]. 
    replace ((i <=? k / n)%nat && (k / n <? i + 0)%nat) with false by lia.
    rewrite <- andb_assoc. replace ((i <=? k / n)%nat && (k / n <? i + 0)%nat) with false by lia.
    now rewrite andb_false_r.
  - destruct (sample_word conv v) as [w| | |]; try discriminate Hs. cbn [obind] in *.
    destruct (sample_words conv b) as [ws'| | |]; try discriminate Hs. cbn [obind] in Hs.
    injection Hs as <-. cbn [length] in Hl.
    destruct (set_at_ok out (i * n + c) w ltac:(nia)) as (o1 & E1 & L1 & N1).
    rewrite E1. cbn [obind].
    destruct (IH ws' (S i) o1 Hc eq_refl ltac:(nia)) as (o2 & E2 & L2 & N2).
    exists o2. split; [exact E2|]. split; [lia|]. intros k. rewrite N2, N1. unfold at_channel.
    cbn [length]. destruct (Nat.eqb (k mod n) c) eqn:Em; cbn [andb].
    2:{ destruct (Nat.eqb k (i * n + c)) eqn:Ek; [|reflexivity].
        apply Nat.eqb_eq in Ek. apply divmod_at in Ek; [|exact Hc]. lia. }
    apply Nat.eqb_eq in Em.
    destruct (Nat.eq_dec (k / n) i) as [Ei|Ni].
    + replace ((S i <=? k / n)%nat) with false by lia. cbn [andb].
      assert (Ek : (k = i * n + c)%nat) by (apply divmod_at; auto). rewrite Ek at 1. rewrite Nat.eqb_refl.
      replace ((i <=? k / n)%nat) with true by lia. 
      replace ((k / n <? i + S (length ws'))%nat) with true by lia. cbn [andb].
      rewrite Ei, Nat.sub_diag. reflexivity.
    + assert (Ek : Nat.eqb k (i * n + c) = false).
      { apply Nat.eqb_neq. intros C. apply divmod_at in C; [lia|exact Hc]. }
      rewrite Ek.
      destruct ((S i <=? k / n)%nat && (k / n <? S i + length ws')%nat) eqn:E3.
      * replace ((i <=? k / n)%nat && (k / n <? i + S (length ws'))%nat) with true by lia.
        replace (k / n - i)%nat with (S (k / n - S i)) by lia. reflexivity.
      * replace ((i <=? k / n)%nat && (k / n <? i + S (length ws'))%nat) with false by lia. reflexivity.
Qed.

Lemma sample_words_length conv b : forall ws, sample_words conv b = Ok ws -> length ws = length b.
Proof.
  induction b as [|v b IH]; intros ws H; cbn [sample_words] in H; [now injection H as <-|].
  destruct (sample_word conv v); try discriminate H. cbn [obind] in H.
  destruct (sample_words conv b); try discriminate H. cbn [obind] in H. injection H as <-.
  cbn. f_equal. now apply IH.
Qed.

Lemma save_channels_ok conv n m buff wss : Forall2 (fun b ws => sample_words conv b = Ok ws) buff wss ->
  Forall (fun b => length b = m) buff -> forall c out, (c + length buff <= n)%nat -> (length out = m * n)%nat ->
  exists out', save_channels conv n c buff out = Ok out' /\ length out' = length out /\
    forall k, (k < m * n)%nat -> nth_error out' k = 
      if (c <=? k mod n)%nat && (k mod n <? c + length buff)%nat 
      then nth_error (nth (k mod n - c) wss []) (k / n) else nth_error out k.
Proof.
  induction 1 as [|b ws buff wss Hb H IH]; intros F c out Hc Hl; cbn [save_channels length] in *.
  - exists out. split; [reflexivity|]. split; [reflexivity|]. intros k _.
    replace ((c <=? k mod n)%nat && (k mod n <? c + 0)%nat) with false by lia. reflexivity.
  - inversion F as [|? ? Hm F']; subst.
    destruct (save_samples_ok conv n c b ws 0 out ltac:(lia) Hb ltac:(lia)) as (o1 & E1 & L1 & N1).
    rewrite E1. cbn [obind].
    destruct (IH F' (S c) o1 ltac:(lia) ltac:(lia)) as (o2 & E2 & L2 & N2).
    exists o2. split; [exact E2|]. split; [lia|]. intros k Hk. rewrite N2, N1 by exact Hk.
    assert (Hdiv : (k / n < length b)%nat) by (apply Nat.div_lt_upper_bound; lia).
    unfold at_channel. rewrite (sample_words_length _ _ _ Hb).
    destruct (Nat.eq_dec (k mod n) c) as [Em|Nm].
    + replace ((S c <=? k mod n)%nat) with false by lia. cbn [andb].
      rewrite Em, Nat.eqb_refl. replace (c <=? c)%nat with true by lia.
      replace (c <? c + S (length buff))%nat with true by lia. cbn [andb].
      change (0 <=? k / n)%nat with true. apply Nat.ltb_lt in Hdiv. cbn [Nat.add]. rewrite Hdiv.
      cbn [andb]. rewrite Nat.sub_0_r, Nat.sub_diag. reflexivity.
    + replace (Nat.eqb (k mod n) c) with false by lia. cbn [andb].
      destruct ((S c <=? k mod n)%nat && (k mod n <? S c + length buff)%nat) eqn:E3.
      * replace ((c <=? k mod n)%nat && (k mod n <? c + S (length buff))%nat) with true by lia.
        replace (k mod n - c)%nat with (S (k mod n - S c)) by lia. reflexivity.
      * replace ((c <=? k mod n)%nat && (k mod n <? c + S (length buff))%nat) with false by lia. reflexivity.
Qed.

Lemma push_at_map {A} (g : nat -> list A) (v : A) n : forall s c, (c < n)%nat ->
  push_at (map g (seq s n)) c v = Ok (map (fun d => if Nat.eqb d (s + c) then g d ++ [v] else g d) (seq s n)).
Proof.
  induction n as [|n IH]; intros s c Hc; [lia|]. cbn [seq map]. destruct c as [|c]; cbn [push_at].
  - rewrite Nat.add_0_r, Nat.eqb_refl. do 2 f_equal. apply map_ext_in. intros d Hd. apply in_seq in Hd.
    replace (Nat.eqb d s) with false by lia. reflexivity.
  - rewrite IH by lia. cbn [obind]. replace (Nat.eqb s (s + S c)) with false by lia. 
    do 2 f_equal. apply map_ext. intros d. replace (S s + c)%nat with (s + S c)%nat by lia. reflexivity.
Qed.
Lemma distribute_app {A} n (s1 s2 : list A) : forall k b,
  distribute n k (s1 ++ s2) b = do b' <- distribute n k s1 b; distribute n (k + length s1) s2 b'.
Proof.
  induction s1 as [|v s1 IH]; intros k b; cbn [distribute app length obind].
  - now rewrite Nat.add_0_r.
  - destruct (Nat.eqb n 0); [reflexivity|]. destruct (push_at b (k mod n) v); try reflexivity.
    cbn [obind]. rewrite IH. replace (S k + length s1)%nat with (k + S (length s1))%nat by lia. reflexivity.
Qed.
Lemma distribute_seq {A} (g : nat -> A) n : (0 < n)%nat -> forall K,
  distribute n 0 (map g (seq 0 K)) (repeat [] n) =
  Ok (map (fun c => map g (filter (fun k => Nat.eqb (k mod n) c) (seq 0 K))) (seq 0 n)).
Proof.
  intros Hn. induction K as [|K IH].
  - cbn [seq map distribute filter]. f_equal. clear. generalize 0%nat.
    induction n; intros s; [reflexivity|]. cbn. f_equal. apply IHn.
  - rewrite seq_S, map_app, distribute_app, IH. cbn [obind Nat.add map distribute].
    rewrite map_length, seq_length. replace (Nat.eqb n 0) with false by lia.
    rewrite push_at_map by (apply Nat.mod_upper_bound; lia). cbn [obind Nat.add]. f_equal.
    apply map_ext. intros c. rewrite filter_app, map_app. cbn [filter map].
    rewrite (Nat.eqb_sym c). destruct (Nat.eqb (K mod n) c); cbn [map]; [reflexivity|now rewrite app_nil_r].
Qed.
Lemma filter_mod n c m : (c < n)%nat -> 
  filter (fun k => Nat.eqb (k mod n) c) (seq 0 (m * n)) = map (fun i => i * n + c)%nat (seq 0 m).
Proof.
  intros Hc. induction m as [|m IH]; [reflexivity|].
  rewrite seq_S, map_app. cbn [map Nat.add]. rewrite <- IH. clear IH.
  replace (S m * n)%nat with (m * n + n)%nat by lia. rewrite seq_app, filter_app. f_equal.
  cbn [Nat.add].
  assert (G : forall t r, (r + t = n)%nat -> 
    filter (fun k => Nat.eqb (k mod n) c) (seq (m * n + r) t) = if (r <=? c)%nat then [(m * n + c)%nat] else []).
  { induction t as [|t IHt]; intros r Hr; cbn [seq filter].
    - replace (r <=? c)%nat with false by lia. reflexivity.
    - assert (Em : ((m * n + r) mod n = r)%nat).
      { rewrite Nat.add_comm, Nat.mod_add by lia. apply Nat.mod_small. lia. }
      rewrite Em. clear Em. replace (S (m * n + r)) with (m * n + S r)%nat by lia. rewrite IHt by lia.
      destruct (Nat.eqb r c) eqn:E.
      + replace (S r <=? c)%nat with false by lia. replace (r <=? c)%nat with true by lia.
        do 2 f_equal. lia.
      + destruct (S r <=? c)%nat eqn:E2; [replace (r <=? c)%nat with true by lia|replace (r <=? c)%nat with false by lia]; reflexivity. }
  specialize (G n 0%nat ltac:(lia)). rewrite Nat.add_0_r in G. rewrite G. reflexivity.
Qed.

Lemma list_of_nth (l : list Z) : map (fun k => nth k l 0) (seq 0 (length l)) = l.
Proof.
  induction l as [|x l IH]; [reflexivity|]. cbn [length seq map nth]. f_equal.
  rewrite <- seq_shift, map_map. exact IH.
Qed.
Lemma list_of_nth' {A} (l : list (list A)) : map (fun k => nth k l []) (seq 0 (length l)) = l.
Proof.
  induction l as [|x l IH]; [reflexivity|]. cbn [length seq map nth]. f_equal.
  rewrite <- seq_shift, map_map. exact IH.
Qed.
Lemma Forall2_len {A B} (R : A -> B -> Prop) l l' : Forall2 R l l' -> length l = length l'.
Proof. induction 1; cbn; congruence. Qed.
Lemma Forall2_nth {A B} (R : A -> B -> Prop) l l' : Forall2 R l l' -> forall c d d', (c < length l)%nat ->
  R (nth c l d) (nth c l' d').
Proof. induction 1; intros [|c] d d' Hc; cbn in *; try lia; auto. apply IHForall2. lia. Qed.

Lemma interleave conv buff wss m : buff <> [] -> Forall (fun b => length b = m) buff ->
  Forall2 (fun b ws => saveMono conv b = Ok ws) buff wss ->
  exists out, saveFile conv buff = Ok (Some out) /\ length out = (m * length buff)%nat /\
    loadSamples (length buff) out = Ok wss.
Proof.
  intros Hne F H. destruct buff as [|b0 bs]; [congruence|]. set (n := length (b0 :: bs)).
  assert (Hn : (0 < n)%nat) by (unfold n; cbn; lia).
  assert (H0 : length b0 = m) by now inversion F.
  unfold saveFile. fold n. rewrite H0.
  assert (Hall : forallb (fun b => Nat.eqb (length b) m) bs = true).
  { apply forallb_forall. intros b Hb. apply Nat.eqb_eq. rewrite Forall_forall in F. apply F. now right. }
  rewrite Hall. unfold saveMono in H.
  destruct (save_channels_ok conv n m (b0 :: bs) wss H F 0 (repeat 0 (n * m)) ltac:(fold n; lia)
              ltac:(rewrite repeat_length; lia)) as (out & E & L & N).
  rewrite E. cbn [obind]. exists out. rewrite repeat_length in L. split; [reflexivity|]. split; [lia|].
  assert (Lw : length wss = n) by (symmetry; exact (Forall2_len _ _ _ H)).
  assert (Lc : forall c, (c < n)%nat -> length (nth c wss []) = m).
  { intros c Hc. pose proof (Forall2_nth _ _ _ H c [] [] Hc) as Hs. cbn beta in Hs.
    apply sample_words_length in Hs. rewrite Hs. rewrite Forall_forall in F. apply F. apply nth_In. exact Hc. }
  rewrite <- (list_of_nth out) at 1. unfold loadSamples. rewrite distribute_seq by exact Hn. f_equal.
  rewrite <- (list_of_nth' wss), Lw. apply map_ext_in. intros c Hc. apply in_seq in Hc.
  rewrite L, (Nat.mul_comm n m), filter_mod, map_map by lia.
  rewrite <- (list_of_nth (nth c wss [])), Lc by lia. apply map_ext_in. intros i Hi. apply in_seq in Hi.
  assert (Hk : (i * n + c < m * n)%nat) by nia.
  destruct (proj1 (divmod_at n c i (i * n + c) ltac:(lia)) eq_refl) as [D1 D2].
  specialize (N _ Hk). rewrite D1, D2 in N. fold n in N.
  replace ((0 <=? c)%nat && (c <? 0 + n)%nat) with true in N by lia. rewrite Nat.sub_0_r in N.
  destruct (nth_error (nth c wss []) i) as [w|] eqn:Ew.
  - rewrite (nth_error_nth _ _ 0 Ew). now apply nth_error_nth.
  - apply nth_error_None in Ew. rewrite Lc in Ew by lia. lia.
Qed.
Lemma unequal_refused conv b0 bs : Exists (fun b => length b <> length b0) bs ->
  saveFile conv (b0 :: bs) = Ok None.
Proof.
  intros H. unfold saveFile. replace (forallb _ bs) with false; [reflexivity|].
  symmetry. apply Bool.not_true_iff_false. intros C. rewrite forallb_forall in C.
  apply Exists_exists in H. destruct H as (b & Hb & N). apply N. apply Nat.eqb_eq, C, Hb.
Qed.
