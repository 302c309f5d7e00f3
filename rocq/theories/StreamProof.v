(** Proofs about whole streams. *)
From Coq Require Import Sorting.Permutation.
From Verif Require Import Base BitsModel BitsProof FloatBase TypesModel MetaModel BandModel DataModel CrcModel StreamModel DataSpec DataProof
  MergeProof DataTop UnitSpec UnitProof StreamSpec.
Local Open Scope Z_scope.
Local Open Scope list_scope.

(** *** C29 *)
Lemma sublist_refl {A} (l : list A) : sublist l l.
Proof. induction l; [apply SubNil|apply SubKeep; auto]. Qed.
Lemma sublist_nil {A} (l : list A) : sublist [] l.
Proof. induction l; [apply SubNil|apply SubSkip; auto]. Qed.
Lemma sublist_app {A} (a b c d : list A) : sublist a b -> sublist c d -> sublist (a ++ c) (b ++ d).
Proof. induction 1; intros H2; cbn [app]; [exact H2|apply SubSkip; auto|apply SubKeep; auto]. Qed.
Lemma sublist_map {A B} (f : A -> B) a b : sublist a b -> sublist (map f a) (map f b).
Proof. induction 1; cbn [map]; [apply SubNil|apply SubSkip; auto|apply SubKeep; auto]. Qed.
Lemma check_loop_sub {A} (drop : A -> bool) l : forall skip, sublist (check_loop drop l skip) l.
Proof.
  induction l as [|x l IH]; intros skip; cbn [check_loop]; [constructor|]. destruct skip; [apply SubKeep; auto|].
  destruct (drop x); [apply SubSkip; auto|apply SubKeep; auto].
Qed.
Lemma check_loop_keep {A} (drop : A -> bool) l : forall skip,
  filter (fun x => negb (drop x)) (check_loop drop l skip) = filter (fun x => negb (drop x)) l.
Proof.
  induction l as [|x l IH]; intros skip; cbn [check_loop]; [reflexivity|]. destruct skip; cbn [filter]; [now rewrite IH|].
  destruct (drop x) eqn:E; cbn [negb filter]; [apply IH|]. rewrite E. cbn [negb]. now rewrite IH.
Qed.
Lemma check_loop_exact {A} (drop : A -> bool) l : no_two_adjacent drop l ->
  check_loop drop l false = filter (fun x => negb (drop x)) l /\
  (match l with x :: _ => drop x = false | [] => True end -> check_loop drop l true = filter (fun x => negb (drop x)) l).
Proof.
  induction l as [|x l IH]; [split; reflexivity|]. intros H.
  assert (Hl : no_two_adjacent drop l) by (destruct l; [exact I|apply H]). destruct (IH Hl) as [I1 I2].
  cbn [check_loop filter]. split.
  - destruct (drop x) eqn:E; cbn [negb]; [|now rewrite I1]. apply I2. destruct l; [exact I|]. now apply H.
  - intros E. rewrite E. cbn [negb]. now rewrite I1.
Qed.
Lemma check_map_flat {A B} (f : A -> A) (drop : A -> bool) (g : A -> list B) (R : list B -> list B -> Prop) :
  R [] [] -> (forall a b c d, R a b -> R c d -> R (a ++ c) (b ++ d)) ->
  (forall x, R (g x) (g x)) -> (forall x, R (g (f x)) (g x)) -> (forall x, drop x = true -> g x = []) ->
  forall l skip, R (flat_map g (check_map f drop l skip)) (flat_map g l).
Proof.
  intros R0 Ra Rr Rf Rd. induction l as [|x l IH]; intros skip; cbn [check_map flat_map]; [exact R0|].
  destruct skip; [apply Ra; auto|]. destruct (drop (f x)) eqn:E; cbn [flat_map]; [|apply Ra; auto].
  change (flat_map g (check_map f drop l true)) with ([] ++ flat_map g (check_map f drop l true)). apply Ra; [|apply IH].
  rewrite <- (Rd _ E). apply Rf.
Qed.
Lemma check_contents keep (R : forall B, list B -> list B -> Prop) h :
  (forall B, R B [] []) -> (forall B a b c d, R B a b -> R B c d -> R B (a ++ c) (b ++ d)) -> (forall B l, R B l l) ->
  (forall B C (f : B -> C) a b, R B a b -> R C (map f a) (map f b)) ->
  (forall b, R effect (filter (keep (check_band b)) (b_effects (check_band b))) (filter (keep b) (b_effects b))) ->
  R _ (contents keep (checkHapticComponent h)) (contents keep h).
Proof.
  intros R0 Ra Rr Rm Rb. unfold contents, checkHapticComponent. rewrite perceptions_set.
  apply (check_map_flat _ _ _ (R _)); [apply R0|apply Ra|intros; apply Rr| |intros p Hp; destruct (p_channels p); [reflexivity|discriminate Hp]].
  intros p. unfold check_perception. rewrite channels_set, set_channels_twice.
  apply (check_map_flat _ _ _ (R _)); [apply R0|apply Ra|intros; apply Rr| |intros c Hc; destruct (c_bands c); [reflexivity|discriminate Hc]].
  intros c. unfold check_channel. rewrite bands_set, set_bands_twice.
  apply (check_map_flat _ _ _ (R _)); [apply R0|apply Ra|intros; apply Rr| |intros b Hb; destruct (b_effects b); [reflexivity|discriminate Hb]].
  intros b. replace (set_effects [] (check_band b)) with (set_effects [] b) by (destruct b; reflexivity). apply Rm, Rb.
Qed.
Lemma has_data_drop b e : has_data b e = negb (empty_basis (b_type b) e).
Proof.
  unfold has_data, empty_basis. destruct (b_type b =? WaveletB), (e_type e =? BasisE), (e_kfs e); reflexivity.
Qed.
Lemma check_keeps h : contents has_data (checkHapticComponent h) = contents has_data h.
Proof.
  apply (check_contents has_data (fun B => @eq (list B))); try congruence.
  intros b. rewrite (filter_ext _ _ (has_data_drop b)), (filter_ext _ _ (has_data_drop (check_band b))).
  replace (b_type (check_band b)) with (b_type b) by (destruct b; reflexivity).
  replace (b_effects (check_band b)) with (check_loop (empty_basis (b_type b)) (b_effects b) false) by (destruct b; reflexivity).
  apply check_loop_keep.
Qed.
Lemma filter_all {A} (l : list A) : filter (fun _ => true) l = l.
Proof. induction l; cbn; congruence. Qed.
Lemma check_only h : sublist (contents (fun _ _ => true) (checkHapticComponent h)) (contents (fun _ _ => true) h).
Proof.
  apply (check_contents (fun _ _ => true) (@sublist)).
  - constructor.
  - intros; now apply sublist_app.
  - intros; apply sublist_refl.
  - intros; now apply sublist_map.
  - intros b. rewrite !filter_all. replace (b_effects (check_band b)) with (check_loop (empty_basis (b_type b)) (b_effects b) false) by (destruct b; reflexivity).
    apply check_loop_sub.
Qed.
Lemma check_band_exact b : no_two_adjacent (fun e => negb (has_data b e)) (b_effects b) ->
  b_effects (check_band b) = filter (has_data b) (b_effects b).
Proof.
  intros H. replace (b_effects (check_band b)) with (check_loop (empty_basis (b_type b)) (b_effects b) false) by (destruct b; reflexivity).
  rewrite (filter_ext _ _ (has_data_drop b)). apply check_loop_exact.
  assert (E : forall l, no_two_adjacent (fun e => negb (has_data b e)) l -> no_two_adjacent (empty_basis (b_type b)) l).
  { induction l as [|x l IH]; [auto|]. intros Hl. destruct l as [|y l]; [exact I|]. destruct Hl as [H1 H2]. split; [|apply IH, H2].
    rewrite !has_data_drop, !negb_involutive in H1. exact H1. }
  apply E, H.
Qed.

(** *** C51 *)
Section Fold.
Context {A B S : Type}.
Lemma foldOut_app (f : A -> S -> outcome (list B * S)) a : forall b st,
  foldOut f (a ++ b) st = do '(x, st) <- foldOut f a st; do '(y, st) <- foldOut f b st; Ok (x ++ y, st).
Proof.
  induction a as [|x a IH]; intros b st; cbn [app foldOut obind].
  - destruct (foldOut f b st) as [[y s]| | |]; reflexivity.
  - destruct (f x st) as [[u s]| | |]; cbn [obind]; try reflexivity. rewrite IH.
    destruct (foldOut f a s) as [[v s']| | |]; cbn [obind]; try reflexivity.
    destruct (foldOut f b s') as [[w s'']| | |]; cbn [obind]; try reflexivity. now rewrite app_assoc.
Qed.
Lemma foldOut_ext (f g : A -> S -> outcome (list B * S)) l : (forall x st, In x l -> f x st = g x st) ->
  forall st, foldOut f l st = foldOut g l st.
Proof.
  induction l as [|x l IH]; intros H st; cbn [foldOut]; [reflexivity|]. rewrite H by (left; reflexivity).
  destruct (g x st) as [[u s]| | |]; cbn [obind]; try reflexivity. rewrite IH by (intros; apply H; right; assumption). reflexivity.
Qed.
End Fold.
Lemma foldOut_flat {A B C S} (f : B -> S -> outcome (list C * S)) (k : A -> list B) l : forall st,
  foldOut f (flat_map k l) st = foldOut (fun x => foldOut f (k x)) l st.
Proof.
  induction l as [|x l IH]; intros st; cbn [flat_map foldOut]; [reflexivity|]. rewrite foldOut_app.
  destruct (foldOut f (k x) st) as [[u s]| | |]; cbn [obind]; try reflexivity. now rewrite IH.
Qed.
Lemma foldOut_map {A B C S} (f : B -> S -> outcome (list C * S)) (k : A -> B) l : forall st,
  foldOut f (map k l) st = foldOut (fun x => f (k x)) l st.
Proof.
  induction l as [|x l IH]; intros st; cbn [map foldOut]; [reflexivity|].
  destruct (f (k x) st) as [[u s]| | |]; cbn [obind]; try reflexivity. now rewrite IH.
Qed.
Definition one_band (fuel : nat) (pd : Z) (x : Z * Z * band) (st : dstate) : outcome (list (list bits) * dstate) :=
  let '(pid, cid, b) := x in
  do '(y, st) <- writeBandData fuel pd false pid cid b st; Ok ([y], st).
Lemma all_data_flat fuel pd h : Forall (fun p => is_spatial (p_modality p) = false) (h_perceptions h) ->
  writeAllData fuel pd h = do '(out, _) <- foldOut (one_band fuel pd) (bands_of h) (DState [] 0 (getEffectsId h) RAU); Ok out.
Proof.
  intros H. unfold writeAllData, bands_of. rewrite foldOut_flat. f_equal. apply foldOut_ext. intros p st Hp.
  rewrite Forall_forall in H. rewrite foldOut_flat. apply foldOut_ext. intros c st' Hc. rewrite foldOut_map.
  apply foldOut_ext. intros b st'' Hb. unfold one_band. now rewrite (H p Hp).
Qed.
Lemma fold_by_band fuel pd l : forall n ids au,
  (forall out st, foldOut (one_band fuel pd) l (DState [] n ids au) = Ok (out, st) -> by_band fuel pd n ids au l out) /\
  (forall out, by_band fuel pd n ids au l out -> exists st, foldOut (one_band fuel pd) l (DState [] n ids au) = Ok (out, st)).
Proof.
  induction l as [|[[pid cid] b] l IH]; intros n ids au; cbn [foldOut]; split.
  - intros out st H. assert (out = []) by congruence. subst. constructor.
  - intros out H. inversion H; subst. eexists. reflexivity.
  - intros out st H. unfold one_band, writeBandData in H. cbn [ds_band ds_ids ds_au ds_buf app] in H.
    destruct (packetizeBand _ _ _ _ _ _) as [[[ps au'] ids']| | |] eqn:E; cbn [obind] in H; try discriminate H.
    fold (one_band fuel pd) in H.
    destruct (foldOut _ l _) as [[rest st']| | |] eqn:E2; cbn [obind] in H; try discriminate H.
    assert (out = ps :: rest) by (cbn [app] in H; congruence). subst. econstructor; [exact E|]. apply (proj1 (IH _ _ _) _ _ E2).
  - intros out H. inversion H as [|? ? ? ? ? ? ? ps au' ids' rest E HB]; subst. destruct (proj2 (IH _ _ _) _ HB) as (st & E2).
    unfold one_band at 1, writeBandData. cbn [ds_band ds_ids ds_au ds_buf app]. rewrite E. cbn [obind].
    rewrite E2. cbn [obind]. eexists. reflexivity.
Qed.
Lemma all_data_by_band fuel pd h : Forall (fun p => is_spatial (p_modality p) = false) (h_perceptions h) ->
  forall out, writeAllData fuel pd h = Ok out <-> by_band fuel pd 0 (getEffectsId h) RAU (bands_of h) out.
Proof.
  intros H out. rewrite (all_data_flat fuel pd h H). destruct (fold_by_band fuel pd (bands_of h) 0 (getEffectsId h) RAU) as [F1 F2]. split.
  - intros E. destruct (foldOut _ _ _) as [[o st]| | |] eqn:E2; cbn [obind] in E; try discriminate E.
    assert (o = out) by congruence. subst. exact (F1 _ _ eq_refl).
  - intros HB. destruct (F2 _ HB) as (st & E). rewrite E. reflexivity.
Qed.
Lemma by_band_length fuel pd n ids au l out : by_band fuel pd n ids au l out -> length out = length l.
Proof. induction 1; cbn; congruence. Qed.

(** *** C44 *)
Lemma wavelet_blocks fuel effects : forall i, (Z.to_nat (vec_size effects - i) < fuel)%nat -> 0 <= i ->
  createWaveletLoop fuel effects 1 i = Ok (map writeWaveletEffect (skipn (Z.to_nat i) effects)).
Proof.
  induction fuel as [|fuel IH]; intros i Hf Hi; [lia|]. cbn [createWaveletLoop].
  destruct (Z.ltb_spec i (vec_size effects)) as [Hlt|Hge].
  - unfold vec_at, vec_size in *. destruct (nth_error effects (Z.to_nat i)) as [e|] eqn:En.
    2:{ apply nth_error_None in En. lia. }
    replace (i <? 0) with false by lia. cbn [obind].
    replace (Z.of_nat (length effects) - (i + 1) <? 0) with false by lia.
    rewrite IH by lia. cbn [obind].
    assert (Es : skipn (Z.to_nat i) effects = e :: skipn (Z.to_nat (i + 1)) effects).
    { replace (Z.to_nat (i + 1)) with (S (Z.to_nat i)) by lia. clear - En. revert effects En. induction (Z.to_nat i) as [|n IHn]; intros [|x l] En; try discriminate En.
      - injection En as ->. reflexivity.
      - exact (IHn l En). }
    rewrite Es. reflexivity.
  - rewrite skipn_all2 by (unfold vec_size in *; lia). reflexivity.
Qed.
Lemma wavelet_payload fuel pd b bl : b_block b = Some bl -> 0 < bl <= pd -> pd < 2 * bl -> (length (b_effects b) < fuel)%nat ->
  createWaveletPayload fuel pd b = Ok (map writeWaveletEffect (b_effects b)).
Proof.
  intros Hb H1 H2 Hf. unfold createWaveletPayload. rewrite Hb. replace (bl =? 0) with false by lia.
  assert (E : Z.quot pd bl = 1). { rewrite Z.quot_div_nonneg by lia. symmetry. apply (Z.div_unique pd bl 1 (pd - bl)); lia. }
  rewrite E, wavelet_blocks by (unfold vec_size; lia). reflexivity.
Qed.
Lemma wavelet_loops fuel e l : createWaveletLoop fuel (e :: l) 0 0 = NoFuel.
Proof.
  induction fuel as [|fuel IH]; [reflexivity|]. cbn [createWaveletLoop].
  replace (0 <? vec_size (e :: l)) with true by (unfold vec_size; cbn; lia). unfold vec_at. cbn [Z.to_nat nth_error Z.ltb Z.compare obind].
  replace (vec_size (e :: l) - (0 + 0) <? 0) with false by (unfold vec_size; cbn; lia). change (0 + 0) with 0. rewrite IH. reflexivity.
Qed.

(** *** C59 *)
Lemma packet_shape ty payload : ty <> DataP -> 0 <= ty < 64 ->
  field 0 6 (packet ty payload) = ty /\ field 6 17 (packet ty payload) = bytes_for (vec_size payload) mod 2 ^ 17 /\
  vec_size (packet ty payload) = 24 + 8 * bytes_for (vec_size payload) /\
  firstn (length payload) (skipn 24 (packet ty payload)) = payload.
Proof.
  intros Hty Hr. unfold packet, padToByteBoundary. destruct (fill_length (writeMIHSPacketHeader ty (vec_size payload) ++ payload)) as (k & Hk & L & E & m & Hm).
  rewrite E. unfold writeMIHSPacketHeader in *. replace (ty =? DataP) with false in * by lia.
  set (n := vec_size payload) in *. assert (Hn : 0 <= n) by (unfold n, vec_size; lia).
  assert (Eb : (n + (if n mod 8 =? 0 then 0 else 8 - n mod 8)) / 8 = bytes_for n).
  { unfold bytes_for. pose proof (Z.div_mod n 8 ltac:(lia)). pose proof (Z.mod_pos_bound n 8 ltac:(lia)).
    destruct (Z.eqb_spec (n mod 8) 0); [|]; lia. }
  rewrite Eb in *. rewrite <- !app_assoc in *. split; [|split; [|split]].
  - rewrite field_write. apply Z.mod_small. change (2 ^ Z.of_nat 6) with 64. lia.
  - change 6%nat with (6 + 0)%nat. rewrite field_skip, field_write. reflexivity.
  - unfold vec_size in *. rewrite !app_length, !writeNBits_length, ?repeat_length in *. unfold bytes_for. fold n. lia.
  - change 24%nat with (6 + (17 + 1))%nat. rewrite skipn_app. rewrite writeNBits_length.
    replace (6 + (17 + 1) - 6)%nat with (17 + 1)%nat by lia. rewrite (skipn_all2 (writeNBits 6 ty)) by (rewrite writeNBits_length; lia).
    cbn [app]. rewrite skipn_app, writeNBits_length. replace (17 + 1 - 17)%nat with 1%nat by lia.
    rewrite (skipn_all2 (writeNBits 17 _)) by (rewrite writeNBits_length; lia). cbn [app].
    rewrite skipn_app, writeNBits_length, (skipn_all2 (writeNBits 1 0)) by (rewrite writeNBits_length; lia). cbn [app skipn Nat.sub].
    rewrite firstn_app, firstn_all, Nat.sub_diag. cbn [firstn]. apply app_nil_r.
Qed.
Lemma long_packet : exists payload, ~ framed_packet (packet EffectLibraryP payload) /\
  field 6 17 (packet EffectLibraryP payload) = 0 /\ vec_size (packet EffectLibraryP payload) > 2 ^ 20.
Proof.
  exists (repeat false (Z.to_nat (2 ^ 20))).
  assert (El : vec_size (repeat false (Z.to_nat (2 ^ 20))) = 1048576).
  { unfold vec_size. rewrite repeat_length, Z2Nat.id by lia. reflexivity. }
  destruct (packet_shape EffectLibraryP (repeat false (Z.to_nat (2 ^ 20))) ltac:(discriminate) ltac:(unfold EffectLibraryP; lia)) as (_ & H2 & H3 & _).
  rewrite El in *. change (bytes_for 1048576) with 131072 in *. change (131072 mod 2 ^ 17) with 0 in H2. change (2 ^ 20) with 1048576.
  set (pk := packet _ _) in *. clearbody pk.
  split; [|split; [exact H2|lia]]. unfold framed_packet. rewrite H2. unfold vec_size in H3. unfold bits in *. lia.
Qed.
