(** Null bytes at the end of a wavelet stream do not matter to the decoder. *)
From Coq Require Import Reals.
From Verif Require Import Base FloatBase FloatModel TypesModel ArithModel ArithProof SpihtModel SpihtProof SpihtHeader JsonModel JsonSpec JsonBits JsonProof.
Local Open Scope Z_scope.


Definition orel {A B} (R : A -> B -> Prop) (m : outcome A) (m' : outcome B) : Prop :=
  match m, m' with Ok x, Ok y => R x y | Throw, Throw | UB, UB | NoFuel, NoFuel => True | _, _ => False end.
Lemma orel_bind {A B C D} (R : A -> B -> Prop) (Q : C -> D -> Prop) m m' f g :
  orel R m m' -> (forall x y, R x y -> orel Q (f x) (g y)) -> orel Q (obind m f) (obind m' g).
Proof. intros H F. destruct m, m'; cbn in *; try contradiction; auto. Qed.
Lemma orel_eq {A} (m : outcome A) : orel eq m m. Proof. destruct m; cbn; auto. Qed.

(** The same state, with the same bits to come. *)
Definition sim (s s' : dec_state) : Prop :=
  de_lower s = de_lower s' /\ de_upper s = de_upper s' /\ de_leading s = de_leading s' /\ de_counters s = de_counters s' /\ same_bits (de_rest s) (de_rest s').
Definition sim2 {A} (x y : A * dec_state) : Prop := fst x = fst y /\ sim (snd x) (snd y).
Definition sim3 {A B} (x y : A * dec_state * B) : Prop := sim2 (fst x) (fst y) /\ snd x = snd y.
Definition sim0 {B} (x y : dec_state * B) : Prop := sim (fst x) (fst y) /\ snd x = snd y.

Lemma renorm_rel f : forall lo up v l l', same_bits l l' ->
  orel (fun x y => fst x = fst y /\ same_bits (snd x) (snd y)) (dec_renorm f lo up v l) (dec_renorm f lo up v l').
Proof.
  induction f as [|f IH]; intros lo up v l l' S; cbn [dec_renorm]; [exact I|]. destruct (same_next _ _ S) as [N S']. rewrite <- N.
  destruct (up <=? HALF); [apply IH, S'|]. destruct (HALF <=? lo); [apply IH, S'|].
  destruct ((FIRST_QTR <=? lo) && (up <=? THIRD_QTR)); [apply IH, S'|]. split; [reflexivity|exact S].
Qed.
Lemma decode_rel s s' c : sim s s' -> orel sim2 (arith_decode s c) (arith_decode s' c).
Proof.
  destruct s as [lo up v bs cs], s' as [lo' up' v' bs' cs']. intros (L & U & V & C & S). cbn in L, U, V, C, S. subst. unfold arith_decode.
  cbn [de_lower de_upper de_leading de_rest de_counters]. apply (orel_bind eq); [apply orel_eq|]. intros p q <-.
  apply (orel_bind eq); [apply orel_eq|]. intros a q <-.
  destruct (if v' - lo' <? a then _ else _) as [[y l1] u1].
  eapply orel_bind; [apply renorm_rel; exact S|]. intros [[[l2 u2] v2] b2] [[[l3 u3] v3] b3] [F Sb]. cbn [fst snd] in *. injection F as -> -> ->.
  repeat split; cbn; auto.
Qed.
Ltac decoded := eapply orel_bind; [apply decode_rel; assumption|];
  let b := fresh "b" in let t := fresh "t" in let b' := fresh "b" in let t' := fresh "t" in let Sm := fresh "Sm" in
  intros [b t] [b' t'] [? Sm]; cbn [fst snd] in *; subst b'.
Lemma getBits_rel n : forall c s s', sim s s' -> orel sim2 (getBits n c s) (getBits n c s').
Proof.
  induction n as [|n IH]; intros c s s' S; cbn [getBits]; [split; [reflexivity|exact S]|]. decoded.
  eapply orel_bind; [apply IH; assumption|]. intros [bs u] [bs' u'] [? Su]. cbn [fst snd] in *. subst. split; [reflexivity|exact Su].
Qed.
Lemma store_rel l i v : orel eq (store l i v) (store l i v). Proof. apply orel_eq. Qed.
Lemma lip_rel compare lip : forall s s' out, sim s s' -> orel sim3 (dec_lip compare lip s out) (dec_lip compare lip s' out).
Proof.
  induction lip as [|i lip IH]; intros s s' out S; cbn [dec_lip]; [repeat split; cbn; auto; apply S|]. decoded. destruct (b =? 1).
  - decoded. eapply (orel_bind eq); [apply orel_eq|]. intros o ? <-. eapply orel_bind; [apply IH; assumption|].
    intros [[[a1 a2] u] w] [[[a1' a2'] u'] w'] [[E Su] Ew]. cbn [fst snd] in *. injection E as -> ->. subst. split; [split; [reflexivity|exact Su]|reflexivity].
  - eapply orel_bind; [apply IH; assumption|].
    intros [[[a1 a2] u] w] [[[a1' a2'] u'] w'] [[E Su] Ew]. cbn [fst snd] in *. injection E as -> ->. subst. split; [split; [reflexivity|exact Su]|reflexivity].
Qed.
Lemma child_rel compare i s s' out : sim s s' -> orel sim3 (dec_child compare i s out) (dec_child compare i s' out).
Proof.
  intros S. unfold dec_child. decoded. destruct (b =? 1).
  - decoded. eapply (orel_bind eq); [apply orel_eq|]. intros o ? <-. split; [split; [reflexivity|assumption]|reflexivity].
  - split; [split; [reflexivity|assumption]|reflexivity].
Qed.
Lemma lis_rel f : forall n compare q lip lsp s s' out, sim s s' -> orel sim3 (dec_lis f n compare q lip lsp s out) (dec_lis f n compare q lip lsp s' out).
Proof.
  induction f as [|f IH]; intros n compare q lip lsp s s' out S; cbn [dec_lis]; [exact I|]. destruct q as [|[y t] q]; [split; [split; [reflexivity|exact S]|reflexivity]|].
  destruct (t =? 0)%nat.
  - decoded. destruct (b =? 1).
    + eapply orel_bind; [apply child_rel; assumption|]. intros [[[a1 a2] u] w] [[[a1' a2'] u'] w'] [[E Su] Ew]. cbn [fst snd] in *. injection E as -> ->. subst.
      eapply orel_bind; [apply child_rel; assumption|]. intros [[[c1 c2] u2] w2] [[[c1' c2'] u2'] w2'] [[E Su2] Ew2]. cbn [fst snd] in *. injection E as -> ->. subst.
      apply IH. exact Su2.
    + eapply orel_bind; [apply IH; assumption|]. intros [[[[a1 a2] a3] u] w] [[[[a1' a2'] a3'] u'] w'] [[E Su] Ew]. cbn [fst snd] in *. injection E as -> -> ->. subst.
      split; [split; [reflexivity|exact Su]|reflexivity].
  - decoded. destruct (b =? 1); [apply IH; assumption|].
    eapply orel_bind; [apply IH; assumption|]. intros [[[[a1 a2] a3] u] w] [[[[a1' a2'] a3'] u'] w'] [[E Su] Ew]. cbn [fst snd] in *. injection E as -> -> ->. subst.
    split; [split; [reflexivity|exact Su]|reflexivity].
Qed.
Lemma refine_rel compare lsp : forall s s' out, sim s s' -> orel sim0 (dec_refine compare lsp s out) (dec_refine compare lsp s' out).
Proof.
  induction lsp as [|i lsp IH]; intros s s' out S; cbn [dec_refine]; [split; [exact S|reflexivity]|]. decoded.
  eapply (orel_bind eq); [apply orel_eq|]. intros o ? <-. apply IH. assumption.
Qed.
Lemma plane_rel n k l s s' out : sim s s' -> orel sim3 (dec_plane n k l s out) (dec_plane n k l s' out).
Proof.
  intros S. unfold dec_plane. eapply orel_bind; [apply lip_rel; exact S|].
  intros [[[a1 a2] u] w] [[[a1' a2'] u'] w'] [[E Su] Ew]. cbn [fst snd] in *. injection E as -> ->. subst.
  eapply orel_bind; [apply lis_rel; exact Su|].
  intros [[[[c1 c2] c3] u2] w2] [[[[c1' c2'] c3'] u2'] w2'] [[E Su2] Ew2]. cbn [fst snd] in *. injection E as -> -> ->. subst.
  eapply orel_bind; [apply refine_rel; exact Su2|]. intros [u3 w3] [u3' w3'] [Su3 Ew3]. cbn [fst snd] in *. subst.
  split; [split; [reflexivity|exact Su3]|reflexivity].
Qed.
Lemma planes_rel n k : forall l s s' out, sim s s' -> orel sim0 (dec_planes n k l s out) (dec_planes n k l s' out).
Proof.
  induction k as [|k IH]; intros l s s' out S; cbn [dec_planes]; [split; [exact S|reflexivity]|].
  eapply orel_bind; [apply plane_rel; exact S|]. intros [[a1 u] w] [[a1' u'] w'] [[E Su] Ew]. cbn [fst snd] in *. subst. apply IH. exact Su.
Qed.
Lemma init_rel cs l l' : same_bits l l' -> sim (initDecoding cs l) (initDecoding cs l').
Proof.
  intros S. unfold initDecoding. change 9 with (Z.of_nat 10 - 1). rewrite !win_leading. destruct (win_same 10 _ _ S) as [-> Sk]. repeat split; auto.
Qed.
Lemma same_zeros l n : same_bits (l ++ repeat 0 n) l.
Proof.
  intros i. revert l. induction i as [|i IH]; intros [|x l]; cbn [app nth]; auto.
  - destruct n; reflexivity.
  - specialize (IH []). destruct n; [reflexivity|]. cbn [repeat app nth]. clear IH. revert i. induction n as [|n IHn]; intros [|i]; cbn; auto.
Qed.
Lemma zero_bits n : convert2bits (repeat 0 n) = repeat 0 (8 * n).
Proof. induction n as [|n IH]; [reflexivity|]. replace (8 * S n)%nat with (8 + 8 * n)%nat by lia. rewrite repeat_app, <- IH. reflexivity. Qed.
Lemma stripped_decode cs bytes old n : decodeEffect cs (strip bytes) old n = decodeEffect cs bytes old n.
Proof.
  assert (H : orel eq (decodeEffect cs (strip bytes) old n) (decodeEffect cs bytes old n)).
  { unfold decodeEffect. assert (S : sim (initDecoding cs (convert2bits (strip bytes))) (initDecoding cs (convert2bits bytes))).
    { apply init_rel. destruct (strip_split bytes) as [k E]. rewrite E at 2. unfold convert2bits. rewrite flat_map_app. fold (convert2bits (repeat 0 k)). rewrite zero_bits.
      intros i. symmetry. apply same_zeros. }
    eapply orel_bind. { unfold getMaxAllocBits. eapply orel_bind; [apply getBits_rel; exact S|]. intros [x u] [x' u'] [E Su]. cbn [fst snd] in *. subst.
      instantiate (1 := sim2). split; [reflexivity|exact Su]. }
    intros [k u] [k' u'] [E Su]. cbn [fst snd] in *. subst.
    eapply orel_bind. { unfold getWavmax. decoded. eapply orel_bind; [apply getBits_rel; assumption|]. intros [x v] [x' v'] [E Sv]. cbn [fst snd] in *. subst.
      instantiate (1 := sim2). split; [reflexivity|exact Sv]. }
    intros [x v] [x' v'] [E Sv]. cbn [fst snd] in *. subst.
    eapply orel_bind; [apply planes_rel; exact Sv|]. intros [u1 w] [u1' w'] [_ Ew]. cbn [fst snd] in *. subst. reflexivity. }
  destruct (decodeEffect cs (strip bytes) old n), (decodeEffect cs bytes old n); cbn in H; try contradiction; try reflexivity. subst. reflexivity.
Qed.

(** A coded block is never a stream of zeros. *)
Lemma decode_nothing k : (3 <= k)%nat -> forall n, n = (2 ^ k)%nat -> exists out scale, decodeEffect resetCounter [] (repeat 0 n) n = Ok (out, scale, 0).
Proof.
  intros Hk n ->. destruct (zero_block [] [] (repeat 0 (2 ^ k)) k 0 f64_one (repeat_length _ _) Hk) as [_ (scale & E)].
  - apply Forall_forall. intros v Hv. exact (repeat_spec _ _ _ Hv).
  - rewrite repeat_length in E. eexists _, _. exact E.
Qed.
Lemma not_zeros l : ~ Forall (fun v => v = 0) l -> Exists (fun v => v <> 0) l.
Proof.
  induction l as [|v l IH]; [intros H; elim H; constructor|]. intros H. destruct (Z.eq_dec v 0) as [->|N]; [|apply Exists_cons_hd; exact N].
  apply Exists_cons_tl, IH. intros F. apply H. constructor; [reflexivity|exact F].
Qed.
Lemma coded_nonzero bytes k out scale bits : (3 <= k)%nat -> 1 <= bits ->
  decodeEffect resetCounter bytes (repeat 0 (2 ^ k)) (2 ^ k) = Ok (out, scale, bits) -> Exists (fun v => v <> 0) bytes.
Proof.
  intros Hk Hb D. apply not_zeros. intros F. apply strip_nil in F. rewrite <- stripped_decode, F in D.
  destruct (decode_nothing k Hk _ eq_refl) as (o & s & E). rewrite E in D. injection D as _ _ <-. lia.
Qed.
Lemma block_stored md0 md10 block k bits scale old pos :
  length block = (2 ^ k)%nat -> (3 <= k <= 22)%nat -> (1 <= bits <= 15)%nat ->
  Forall (fun v => Z.abs v < 2 ^ (Z.of_nat bits + 1)) block -> Exists (fun v => v <> 0) block ->
  is_finite scale = true -> (0 <= B2R scale < 17)%R -> int pos ->
  exists bytes j e scale',
    encodeEffect md0 md10 resetCounter block bits scale old = Ok (bytes, resetCounter) /\
    jsonEffect WaveletB (Effect (-1) pos None None [] None BasisE [] [] bytes) = Ok j /\
    loadEffect WaveletB j = Ok (Some e) /\ e_pos e = pos /\
    decodeEffect resetCounter (e_wavelet e) (repeat 0 (length block)) (length block) = Ok (block, scale', Z.of_nat bits).
Proof.
  intros L Hk Hb Hc Hn Fs Hs Hp. destruct (scale_round scale Fs Hs) as (bw & E & Fb & Lb & _).
  destruct (effect_round md0 md10 block k bits scale bw old L Hk Hb Hc Hn E Fb Lb) as (bytes & E1 & Hby & E2).
  assert (Nz : Exists (fun v => v <> 0) bytes) by (rewrite L in E2; eapply coded_nonzero; [|clear -Hb|exact E2]; lia).
  set (e := Effect (-1) pos None None [] None BasisE [] [] bytes).
  destruct (effect_ok WaveletB e) as (j & J1 & _ & J2); [unfold WaveletB; lia| |].
  { unfold storable_effect, e. cbn [e_type e_id e_pos e_phase e_semantic e_kfs e_base e_wavelet]. unfold BasisE, int.
    repeat match goal with |- _ /\ _ => split end; try (intros x; discriminate); try lia; try exact Hby; try (right; exact Nz); try constructor.
    - apply Hp.
    - apply Hp. }
  exists bytes, j, (kept_effect WaveletB e), (wavmax_of bw). repeat match goal with |- _ /\ _ => split end; try assumption; try reflexivity.
  cbn. rewrite stripped_decode. exact E2.
Qed.
