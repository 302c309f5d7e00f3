(** Proofs about the data packets. *)
From Coq Require Import Sorting.Sorted Sorting.Permutation Reals.
From Verif Require Import Base BitsModel BitsSpec BitsProof BitsVecProof FloatBase FloatModel FloatSpec FloatProof
  FloatFields TypesModel TypesSpec TypesProof SemanticModel MetaModel BandModel DataModel CrcModel StreamModel VecReads MetaSpec MetaProof DataSpec.
Local Open Scope Z_scope.
Ltac Zify.zify_post_hook ::= Z.div_mod_to_equations.

(** *** Flattening *)

Definition flatten1 (e : effect) : list effect := if e_type e =? CompositeE then linearizeTimelineEffect e else [e].
Lemma linearizeTimelineEffect_eq e : linearizeTimelineEffect e = flat_map flatten1 (e_timeline e).
Proof.
  destruct e as [id pos ph sem kfs base ty tl sa wa]. cbn [linearizeTimelineEffect e_timeline].
  induction tl as [|x tl IH]; [reflexivity|]. cbn [flat_map]. now rewrite <- IH.
Qed.
Lemma flatten1_leaves e : flatten1 e = leaves e.
Proof.
  induction e as [e IH] using effect_induction. unfold flatten1. rewrite linearizeTimelineEffect_eq.
  destruct e as [id pos ph sem kfs base ty tl sa wa]. cbn [e_timeline e_type leaves] in *.
  destruct (ty =? CompositeE); [|reflexivity].
  induction IH as [|x tl Hx _ IHl]; [reflexivity|]. cbn [flat_map]. now rewrite Hx, IHl.
Qed.
Lemma leaves_not_composite e : Forall (fun x => e_type x <> CompositeE) (leaves e).
Proof.
  induction e as [e IH] using effect_induction. destruct e as [id pos ph sem kfs base ty tl sa wa].
  cbn [e_timeline leaves] in *. destruct (Z.eqb_spec ty CompositeE).
  - induction IH as [|x tl Hx _ IHl]; [constructor|]. cbn [flat_map]. now apply Forall_app.
  - constructor; [assumption|constructor].
Qed.
Lemma linearize_leaves (b : band) :
  let r := linearizeTimeline b in
  sorted_by_position (b_effects r) /\ Permutation (b_effects r) (flat_map leaves (b_effects b)) /\
  (forall p, at_position p (b_effects r) = at_position p (flat_map leaves (b_effects b))) /\
  Forall (fun e => e_type e <> CompositeE) (b_effects r) /\ band_same_but_effects b r.
Proof.
  cbv zeta. unfold linearizeTimeline.
  replace (flat_map _ (b_effects b)) with (flat_map leaves (b_effects b)).
  2:{ apply flat_map_ext. intros e. symmetry. apply flatten1_leaves. }
  set (xs := flat_map leaves (b_effects b)).
  destruct (add_all_empty (set_effects [] b) xs eq_refl) as (H1 & H2 & H3 & H4).
  unfold add_all in *. repeat (split; [assumption|]). split.
  - apply Forall_forall. intros x Hx. apply (Permutation_in _ H2) in Hx. unfold xs in Hx. apply in_flat_map in Hx.
    destruct Hx as (e & _ & Hx). revert x Hx. apply Forall_forall, leaves_not_composite.
  - exact H4.
Qed.

(** *** Sorting packets *)

Lemma readPacketTS_stamp p : stamped p -> readPacketTS p = Ok (stamp p).
Proof.
  intros [Hl Hs]. unfold readPacketTS, stamp in *. unfold slice. rewrite (proj2 (Nat.leb_le _ _)) by (cbn; lia).
  cbn [obind skipn]. destruct (Z.leb_spec (2 ^ 31) (bits_val (firstn 32 p))); [lia|reflexivity].
Qed.
Definition psorted (l : list bits) : Prop := StronglySorted (fun a b => stamp a <= stamp b) l.
Lemma insertPacket_ok p out : stamped p -> Forall stamped out -> psorted out ->
  exists out', insertPacket p out = Ok out' /\ Permutation out' (p :: out) /\ psorted out' /\
    forall t, filter (fun q => stamp q =? t) out' = filter (fun q => stamp q =? t) (out ++ [p]).
Proof.
  intros Hp. induction out as [|q r IH]; intros Ho Hs.
  - exists [p]. split; [reflexivity|]. split; [reflexivity|]. split; [repeat constructor|reflexivity].
  - inversion Ho as [|? ? Hq Hr]; subst. inversion Hs as [|? ? Hsr Hle]; subst.
    cbn [insertPacket]. rewrite (readPacketTS_stamp q Hq), (readPacketTS_stamp p Hp). cbn [obind].
    destruct (stamp q >? stamp p) eqn:E.
    + exists (p :: q :: r). split; [reflexivity|]. split; [reflexivity|]. split.
      * constructor; [exact Hs|]. constructor; [lia|]. eapply Forall_impl; [|exact Hle]. cbv beta. intros. lia.
      * intros t. change ((q :: r) ++ [p]) with (q :: (r ++ [p])). cbn [filter]. rewrite filter_app. cbn [filter].
        destruct (stamp p =? t) eqn:Et; [|now rewrite app_nil_r].
        assert (Hn : filter (fun x => stamp x =? t) r = []).
        { apply filter_none. intros x Hx. rewrite Forall_forall in Hle. specialize (Hle x Hx). cbv beta in Hle. lia. }
        rewrite Hn. replace (stamp q =? t) with false by lia. reflexivity.
    + destruct (IH Hr Hsr) as (r' & -> & Hperm & Hs' & Hf). cbn [obind].
      exists (q :: r'). split; [reflexivity|]. split; [rewrite Hperm; apply perm_swap|]. split.
      * constructor; [exact Hs'|]. apply Forall_forall. intros x Hx. apply (Permutation_in _ Hperm) in Hx.
        destruct Hx as [<-|Hx]; [lia|]. rewrite Forall_forall in Hle. exact (Hle x Hx).
      * intros t. cbn [app filter]. rewrite (Hf t). destruct (stamp q =? t); reflexivity.
Qed.
Lemma insertPackets_ok l : forall out, Forall stamped l -> Forall stamped out -> psorted out ->
  exists out', insertPackets l out = Ok out' /\ Permutation out' (out ++ l) /\ psorted out' /\
    forall t, filter (fun q => stamp q =? t) out' = filter (fun q => stamp q =? t) (out ++ l).
Proof.
  induction l as [|p l IH]; intros out Hl Ho Hs; cbn [insertPackets].
  - exists out. rewrite app_nil_r. auto.
  - inversion Hl as [|? ? Hp Hl']; subst. destruct (insertPacket_ok p out Hp Ho Hs) as (o1 & -> & P1 & S1 & F1).
    cbn [obind]. assert (Ho1 : Forall stamped o1).
    { apply Forall_forall. intros x Hx. apply (Permutation_in _ P1) in Hx. destruct Hx as [<-|Hx]; [exact Hp|].
      rewrite Forall_forall in Ho. auto. }
    destruct (IH o1 Hl' Ho1 S1) as (o2 & -> & P2 & S2 & F2). exists o2. split; [reflexivity|]. split.
    + rewrite P2, P1. change (p :: out) with ([p] ++ out). rewrite (Permutation_app_comm [p] out), <- app_assoc. reflexivity.
    + split; [exact S2|]. intros t. rewrite (F2 t), filter_app, (F1 t), <- filter_app, <- app_assoc. reflexivity.
Qed.
Lemma sortPacket_ok (bands : list (list bits)) : Forall (Forall stamped) bands ->
  exists out, sortPacket bands [] = Ok out /\ Permutation out (concat bands) /\
    StronglySorted (fun a b => stamp a <= stamp b) out /\
    forall t, filter (fun q => stamp q =? t) out = filter (fun q => stamp q =? t) (concat bands).
Proof.
  intros H. unfold sortPacket. apply insertPackets_ok; [|constructor|constructor].
  induction H as [|l bands Hl _ IH]; cbn [concat]; [constructor|]. now apply Forall_app.
Qed.

(** *** Ids *)

Lemma max_element_ge l : forall x, x <= max_element x l /\ forall y, In y l -> y <= max_element x l.
Proof.
  induction l as [|a l IH]; intros x; cbn [max_element]; [split; [lia|intros y []]|].
  destruct (IH (if x <? a then a else x)) as [H1 H2]. split; [destruct (x <? a) eqn:E; lia|].
  intros y [<-|Hy]; [destruct (x <? a) eqn:E; lia|exact (H2 y Hy)].
Qed.
Lemma nextEffectId_fresh ids : forall i, In i ids -> i < nextEffectId ids.
Proof.
  destruct ids as [|x r]; intros i Hi; [destruct Hi|]. cbn [nextEffectId]. destruct (max_element_ge r x) as [H1 H2].
  destruct Hi as [<-|Hi]; [lia|]. specialize (H2 i Hi). lia.
Qed.
Lemma nextEffectId_nonneg ids : Forall (fun i => 0 <= i) ids -> 0 <= nextEffectId ids.
Proof.
  intros H. destruct ids as [|x r]; [cbn; lia|]. inversion H; subst. pose proof (nextEffectId_fresh (x :: r) x (or_introl eq_refl)). lia.
Qed.

(** Assigning ids to all the effects of a list. *)
Fixpoint assign (l : list effect) (ids : list Z) : list effect * list Z :=
  match l with
  | [] => ([], ids)
  | e :: r =>
      let '(e', ids1) := if e_id e =? -1 then let i := nextEffectId ids in (set_id i e, ids ++ [i]) else (e, ids) in
      let '(r', ids2) := assign r ids1 in
      (e' :: r', ids2)
  end.
Definition nonneg (ids : list Z) : Prop := Forall (fun i => 0 <= i) ids.

Lemma assign_spec l : forall ids, nonneg ids ->
  let '(l', ids') := assign l ids in
  only_ids_added l l' /\ ids' = ids ++ added_ids l l' /\ nonneg ids' /\
  NoDup (added_ids l l') /\ (forall i, In i (added_ids l l') -> forall j, In j ids -> j < i).
Proof.
  induction l as [|e l IH]; intros ids Hn; cbn [assign].
  - split; [constructor|]. unfold added_ids. cbn. rewrite app_nil_r. repeat split; [exact Hn|constructor|intros i []].
  - destruct (e_id e =? -1) eqn:E.
    + set (i := nextEffectId ids). assert (Hi : 0 <= i) by (apply nextEffectId_nonneg; exact Hn).
      assert (Hn1 : nonneg (ids ++ [i])) by (apply Forall_app; split; [exact Hn|repeat constructor; exact Hi]).
      specialize (IH (ids ++ [i]) Hn1). destruct (assign l (ids ++ [i])) as [l' ids'].
      destruct IH as (H1 & H2 & H3 & H4 & H5).
      assert (Ea : added_ids (e :: l) (set_id i e :: l') = i :: added_ids l l').
      { unfold added_ids. cbn [combine filter fst]. rewrite E. reflexivity. }
      split; [constructor; [rewrite E; exists i; auto|exact H1]|]. rewrite Ea.
      split; [rewrite H2, <- app_assoc; reflexivity|]. split; [exact H3|]. split.
      * constructor; [|exact H4]. intros Hin. specialize (H5 i Hin i ltac:(apply in_or_app; right; left; reflexivity)). lia.
      * intros k [<-|Hk] j Hj; [apply nextEffectId_fresh; exact Hj|]. apply (H5 k Hk). apply in_or_app. now left.
    + specialize (IH ids Hn). destruct (assign l ids) as [l' ids']. destruct IH as (H1 & H2 & H3 & H4 & H5).
      assert (Ea : added_ids (e :: l) (e :: l') = added_ids l l').
      { unfold added_ids. cbn [combine filter fst]. rewrite E. reflexivity. }
      split; [constructor; [rewrite E; reflexivity|exact H1]|]. rewrite Ea. auto.
Qed.

(** *** One window *)

Section Window.
Variable bt : Z.
Hypothesis Hbt : data_band bt.

(** The bits of a keyframe. *)
Definition kbits (k : keyframe) : bits := match writeKeyframe bt k with Ok b => b | _ => [] end.
Definition inw (lo hi : Z) (e : effect) : list keyframe :=
  filter (fun k => in_window lo hi (e_pos e + kpos k)) (e_kfs e).
Definition frag (lo hi : Z) (e : effect) : list fragment :=
  if e_type e =? BasisE then
    match inw lo hi e with [] => [] | ks => [Fragment e (vec_size ks) (flat_map kbits ks)] end
  else if (e_type e =? ReferenceE) && in_window lo hi (e_pos e) then [Fragment e 0 []] else [].
(** Nothing of the effect remains at or after [hi] (a reference at [hi] is overlooked). *)
Definition finished (hi : Z) (e : effect) : bool :=
  if e_type e =? BasisE then forallb (fun k => e_pos e + kpos k <? hi) (e_kfs e)
  else if e_type e =? ReferenceE then e_pos e <=? hi else true.

Lemma amplitude_writes a : finite a -> exists b w, writeAmplitude a = Ok b /\ vreads readAmplitude b w /\
  near 8 (Bopp MAX_AMPLITUDE) MAX_AMPLITUDE a w.
Proof.
  intros H. destruct (vreads_float u8 8 _ _ a ct8 range_amp H) as (b & w & Hb & _ & Hr & Hn). exists b, w. auto.
Qed.

(** Every keyframe is written, and read back. *)
Lemma keyframe_rw k : kf_data_ok bt k -> exists b k' r, writeKeyframe bt k = Ok b /\ readKeyframe bt = Some r /\
  vreads r b k' /\ kf_sent k k'.
Proof.
  destruct k as [p a f]. unfold kf_data_ok. cbn [k_pos k_amp k_freq]. intros ((pp & -> & Hp) & Ha & Hf & Ht & Hc).
  unfold writeKeyframe, readKeyframe.
  destruct Hbt as [->|[->| ->]].
  - destruct (Hc eq_refl) as [Hna ->]. destruct a as [a|]; [|congruence].
    destruct (amplitude_writes a (Ha a eq_refl)) as (ab & w & Hw & Hr & Hn).
    exists (ab ++ writeNBits 16 pp), (Keyframe (Some pp) (Some w) None), readCurve.
    cbn [Z.eqb Pos.eqb VectorialB TransientB CurveB]. unfold writeCurve. cbn [k_pos k_amp k_freq]. rewrite Hw. cbn [obind].
    split; [reflexivity|]. split; [reflexivity|]. split.
    + intros bs i H. unfold readCurve. vstep H Hr. vlast H (vreads_u16 pp Hp). vdone.
    + repeat split. cbn. constructor. exact Hn.
  - set (mask := (if has a then 1 else 0) + (if has f then 2 else 0)).
    assert (Hmask : nbits 2 mask) by (unfold nbits, mask; change (2 ^ 2) with 4; destruct (has a), (has f); lia).
    assert (T0 : Z.testbit mask 0 = has a) by (unfold mask; destruct (has a), (has f); reflexivity).
    assert (T1 : Z.testbit mask 1 = has f) by (unfold mask; destruct (has a), (has f); reflexivity).
    assert (Hamp : exists ab a', match a with Some a => writeAmplitude a | None => Ok [] end = Ok ab /\
       opt_rel (near 8 (Bopp MAX_AMPLITUDE) MAX_AMPLITUDE) a a' /\
       vreads (fun bs i => if has a then do '(v, i) <- readAmplitude bs i; Ok (Some v, i) else Ok (None, i)) ab a').
    { destruct a as [v|].
      - destruct (amplitude_writes v (Ha v eq_refl)) as (b & w & Hb & Hr & Hn).
        exists b, (Some w). split; [exact Hb|]. split; [constructor; exact Hn|]. intros bs i H. cbn [has]. rewrite (Hr _ _ H). reflexivity.
      - exists [], None. split; [reflexivity|]. split; [constructor|]. intros bs i H. cbn [has]. f_equal. f_equal. cbn. lia. }
    destruct Hamp as (ab & a' & Hw & Hrel & Hra).
    exists (writeNBits 2 mask ++ ab ++ writeNBits 16 pp ++ match f with Some f => writeNBits 16 f | None => [] end),
      (Keyframe (Some pp) a' f), readVectorial.
    cbn [Z.eqb Pos.eqb VectorialB TransientB CurveB]. unfold writeVectorial. cbn [k_pos k_amp k_freq]. fold mask. rewrite Hw. cbn [obind].
    split; [reflexivity|]. split; [reflexivity|]. split; [|repeat split; exact Hrel].
    intros bs i H. unfold readVectorial. vstep H (vreads_u2 mask Hmask). rewrite T0, T1.
    vstep H Hra. vstep H (vreads_u16 pp Hp). destruct f as [f|]; cbn [has].
    + vlast H (vreads_u16 f (Hf f eq_refl)). vdone.
    + cbn [obind]. vdone.
  - destruct (Ht eq_refl) as [Hna Hnf]. destruct a as [a|]; [|congruence]. destruct f as [f|]; [|congruence].
    destruct (amplitude_writes a (Ha a eq_refl)) as (ab & w & Hw & Hr & Hn).
    exists (ab ++ writeNBits 16 pp ++ writeNBits 16 f), (Keyframe (Some pp) (Some w) (Some f)), readTransient.
    cbn [Z.eqb Pos.eqb VectorialB TransientB CurveB]. unfold writeTransient. cbn [k_pos k_amp k_freq]. rewrite Hw. cbn [obind].
    split; [reflexivity|]. split; [reflexivity|]. split.
    + intros bs i H. unfold readTransient. vstep H Hr. vstep H (vreads_u16 pp Hp). vlast H (vreads_u16 f (Hf f eq_refl)). vdone.
    + repeat split. cbn. constructor. exact Hn.
Qed.
Lemma kbits_ok k : kf_data_ok bt k -> writeKeyframe bt k = Ok (kbits k).
Proof. intros H. destruct (keyframe_rw k H) as (b & k' & r & Hb & _). unfold kbits. now rewrite Hb. Qed.

Lemma basis_loop lo pd ts kfs : forall j first rau,
  Forall (kf_data_ok bt) kfs -> StronglySorted Z.le (map (fun k => ts + kpos k) kfs) ->
  exists ra, writeEffectBasis_loop bt lo pd ts kfs j first rau
    = let ks := filter (fun k => in_window lo (lo + pd) (ts + kpos k)) kfs in
      Ok (forallb (fun k => ts + kpos k <? lo + pd) kfs, vec_size ks, ra, flat_map kbits ks).
Proof.
  induction kfs as [|k r IH]; intros j first rau Hok Hs; cbv zeta.
  - exists rau. reflexivity.
  - inversion Hok as [|? ? Hk Hr]; subst. cbn [map] in Hs. inversion Hs as [|? ? Hs' Hle]; subst.
    cbn [writeEffectBasis_loop filter forallb]. destruct Hk as [(p & Hp & Hp16) Hk'].
    assert (Ek : kpos k = p) by (unfold kpos; now rewrite Hp). rewrite Hp, <- Ek.
    assert (Hkd : kf_data_ok bt k) by (split; [exists p; auto|exact Hk']).
    replace (kpos k + ts) with (ts + kpos k) by lia.
    change (in_window lo (lo + pd) (ts + kpos k)) with ((lo <=? ts + kpos k) && (ts + kpos k <? lo + pd)).
    destruct (Z.ltb_spec (ts + kpos k) (lo + pd)) as [H1|H1]; cbn [andb].
    + destruct (Z.geb_spec (ts + kpos k) lo) as [H2|H2].
      * replace (lo <=? ts + kpos k) with true by lia. cbn [andb].
        rewrite (kbits_ok k Hkd). cbn [obind]. cbv zeta in IH.
        destruct (IH (S j) false (if first then if Nat.eqb j 0 then rau else false else rau) Hr Hs') as (ra & ->).
        cbn [obind]. exists ra. unfold vec_size. cbn [length flat_map]. rewrite Nat2Z.inj_succ, <- Z.add_1_r. reflexivity.
      * replace (lo <=? ts + kpos k) with false by lia. cbn [andb].
        destruct (Z.geb_spec (ts + kpos k) (lo + pd)); [lia|]. cbv zeta in IH. apply IH; assumption.
    + rewrite andb_false_r. destruct (Z.geb_spec (ts + kpos k) (lo + pd)); [|lia].
      exists rau. assert (Hn : filter (fun k => in_window lo (lo + pd) (ts + kpos k)) r = []).
      { apply filter_none. intros x Hx. unfold in_window. rewrite Forall_forall in Hle.
        specialize (Hle (ts + kpos x) (in_map (fun k => ts + kpos k) _ _ Hx)). lia. }
      rewrite Hn. reflexivity.
Qed.

Lemma filter_length_le {A} (f : A -> bool) l : (length (filter f l) <= length l)%nat.
Proof. induction l as [|x l IH]; cbn; [lia|]. destruct (f x); cbn; lia. Qed.
Lemma flat_map_nil {A B} (f : A -> list B) l : (forall x, In x l -> f x = []) -> flat_map f l = [].
Proof.
  induction l as [|x l IH]; intros H; [reflexivity|]. cbn. rewrite (H x) by (left; reflexivity).
  apply IH. intros y Hy. apply H. now right.
Qed.
(** Nothing of an effect lies in a window that ends before all its events. *)
Lemma frag_nil lo hi e : Forall (fun t => hi <= t) (events e) -> frag lo hi e = [].
Proof.
  unfold frag, events, inw, in_window. destruct (e_type e =? BasisE).
  - intros H. rewrite filter_none; [reflexivity|]. intros k Hk. rewrite Forall_forall in H.
    specialize (H _ (in_map (fun k => e_pos e + kpos k) _ _ Hk)). lia.
  - destruct (e_type e =? ReferenceE); [|reflexivity]. intros H. inversion H; subst.
    replace (e_pos e <? hi) with false by lia. rewrite andb_false_r. reflexivity.
Qed.
Lemma ss_app {A} (R : A -> A -> Prop) a b : StronglySorted R (a ++ b) ->
  StronglySorted R a /\ StronglySorted R b /\ forall x y, In x a -> In y b -> R x y.
Proof.
  induction a as [|x a IH]; cbn [app]; intros H.
  - split; [constructor|]. split; [exact H|]. intros x y [].
  - inversion H as [|? ? H1 H2]; subst. destruct (IH H1) as (A1 & A2 & A3). apply Forall_app in H2. destruct H2 as [B1 B2].
    split; [constructor; assumption|]. split; [exact A2|]. intros u v [<-|Hu] Hv; [|auto].
    rewrite Forall_forall in B2. auto.
Qed.

Lemma createPayload_ok lo pd : 0 < pd -> forall cur ids au L idsF,
  nonneg ids -> assign cur ids = (L, idsF) -> Forall (effect_data_ok known_semantic bt) L -> in_sequence L ->
  exists au' ids' cur', createPayloadPacket bt lo pd cur ids au
      = Ok (forallb (finished (lo + pd)) L, flat_map (frag lo (lo + pd)) L, au', ids', cur') /\
    assign cur' ids' = (L, idsF) /\ nonneg ids' /\
    (forallb (finished (lo + pd)) L = true -> cur' = L /\ ids' = idsF).
Proof.
  intros Hpd. induction cur as [|e0 r IH]; intros ids au L idsF Hn Ha Hok Hseq; cbn [assign] in Ha.
  - injection Ha as <- <-. exists au, ids, []. repeat split; auto.
  - cbn [createPayloadPacket].
    set (p := if e_id e0 =? -1 then (let i := nextEffectId ids in (set_id i e0, ids ++ [i])) else (e0, ids)) in *.
    assert (Hp : e_id (fst p) <> -1 /\ nonneg (snd p)).
    { unfold p. pose proof (nextEffectId_nonneg ids Hn). destruct (Z.eqb_spec (e_id e0) (-1)); cbn; split; try lia; auto.
      apply Forall_app. split; [exact Hn|repeat constructor; assumption]. }
    destruct p as [e ids1]. cbn [fst snd] in Hp. destruct Hp as [Hid Hn1].
    destruct (assign r ids1) as [r' ids2] eqn:Ea. injection Ha as <- <-.
    inversion Hok as [|? ? He Hr]; subst. unfold in_sequence in Hseq. cbn [flat_map] in Hseq.
    apply ss_app in Hseq. destruct Hseq as (Hs1 & Hs2 & Hs3).
    assert (Hback : forall ids' cur', assign cur' ids' = (r', ids2) -> assign (e :: cur') ids' = (e :: r', ids2)).
    { intros i' c' H. cbn [assign]. destruct (Z.eqb_spec (e_id e) (-1)); [contradiction|]. now rewrite H. }
    (* stopping at e *)
    assert (Hstop : forall t, In t (events e) -> lo + pd <= t -> flat_map (frag lo (lo + pd)) r' = []).
    { intros t Ht Hle. apply flat_map_nil. intros x Hx. apply frag_nil, Forall_forall. intros y Hy.
      specialize (Hs3 t y Ht (proj2 (in_flat_map _ _ _) (ex_intro _ x (conj Hx Hy)))). lia. }
    cbn [flat_map forallb]. unfold frag at 1, finished at 1 3.
    destruct He as (Hpos & [(Hty & Hne & Hkf & _)|Hty]); rewrite Hty.
    + change (BasisE =? BasisE) with true. cbn match. unfold writeEffectBasis.
      destruct (basis_loop lo pd (e_pos e) (e_kfs e) 0 true true Hkf) as (ra & ->).
      { unfold events in Hs1. rewrite Hty in Hs1. exact Hs1. }
      cbn [obind]. unfold inw. set (ks := filter _ (e_kfs e)).
      replace (if vec_size ks >? 0 then [Fragment e (vec_size ks) (flat_map kbits ks)] else [])
        with (match ks with [] => [] | k :: l => [Fragment e (vec_size (k :: l)) (flat_map kbits (k :: l))] end)
        by (destruct ks; reflexivity).
      destruct (forallb (fun k => e_pos e + kpos k <? lo + pd) (e_kfs e)) eqn:Efin; cbn [andb].
      * match goal with |- context [createPayloadPacket bt lo pd r ids1 ?a] =>
          destruct (IH ids1 a r' ids2 Hn1 Ea Hr Hs2) as (au' & ids' & cur' & -> & H1 & H2 & H3) end.
        cbn [obind]. exists au', ids', (e :: cur'). split; [reflexivity|]. split; [apply Hback; exact H1|].
        split; [exact H2|]. intros H. destruct (H3 H) as [-> ->]. auto.
      * eexists. exists ids1, (e :: r). split; [|split; [apply Hback; exact Ea|split; [exact Hn1|discriminate]]].
        assert (Hex : exists k, In k (e_kfs e) /\ lo + pd <= e_pos e + kpos k).
        { clear - Efin. induction (e_kfs e) as [|k l IHl]; [discriminate|]. cbn in Efin.
          destruct (Z.ltb_spec (e_pos e + kpos k) (lo + pd)).
          - destruct (IHl Efin) as (k' & ? & ?). exists k'. split; [now right|assumption].
          - exists k. split; [now left|assumption]. }
        destruct Hex as (k & Hk & Hle). rewrite (Hstop (e_pos e + kpos k)), app_nil_r; [reflexivity| |exact Hle].
        unfold events. rewrite Hty. apply (in_map (fun k => e_pos e + kpos k)). exact Hk.
    + change (ReferenceE =? BasisE) with false. change (ReferenceE =? ReferenceE) with true. cbn [andb].
      assert (Hev : In (e_pos e) (events e)) by (unfold events; rewrite Hty; left; reflexivity).
      replace ((e_pos e >=? lo) && (e_pos e <? lo + pd)) with (in_window lo (lo + pd) (e_pos e))
        by (unfold in_window; destruct (Z.geb_spec (e_pos e) lo), (Z.leb_spec lo (e_pos e)); lia).
      destruct (in_window lo (lo + pd) (e_pos e)) eqn:Ew; unfold in_window in Ew.
      * destruct (IH ids1 RAU r' ids2 Hn1 Ea Hr Hs2) as (au' & ids' & cur' & -> & H1 & H2 & H3).
        cbn [obind]. exists au', ids', (e :: cur'). replace (e_pos e <=? lo + pd) with true by lia. cbn [andb app].
        split; [reflexivity|]. split; [apply Hback; exact H1|].
        split; [exact H2|]. intros H. destruct (H3 H) as [-> ->]. auto.
      * destruct (e_pos e >? lo + pd) eqn:Eg.
        -- replace (e_pos e <=? lo + pd) with false by lia. cbn [andb].
           exists au, ids1, (e :: r). split; [|split; [apply Hback; exact Ea|split; [exact Hn1|discriminate]]].
           rewrite (Hstop (e_pos e) Hev) by lia. reflexivity.
        -- replace (e_pos e <=? lo + pd) with true by lia. cbn [andb].
           destruct (IH ids1 au r' ids2 Hn1 Ea Hr Hs2) as (au' & ids' & cur' & -> & H1 & H2 & H3).
           cbn [obind]. exists au', ids', (e :: cur').
           split; [reflexivity|]. split; [apply Hback; exact H1|].
           split; [exact H2|]. intros H. destruct (H3 H) as [-> ->]. auto.
Qed.

(** *** Writing and reading the parts of a window *)

Lemma part_frag lo hi e : frag lo hi e =
  map (fun x => Fragment e (vec_size (e_kfs x)) (flat_map kbits (e_kfs x)))
      (if e_type e =? BasisE then part lo hi e else map (set_kfs []) (part lo hi e)).
Proof.
  unfold frag, part, inw. destruct (e_type e =? BasisE).
  - destruct (filter _ (e_kfs e)) as [|k l]; reflexivity.
  - destruct ((e_type e =? ReferenceE) && in_window lo hi (e_pos e)); reflexivity.
Qed.

Lemma writeMany_kbits ks : Forall (kf_data_ok bt) ks -> writeMany (writeKeyframe bt) ks = Ok (flat_map kbits ks).
Proof.
  induction 1 as [|k ks Hk _ IH]; [reflexivity|]. cbn [writeMany flat_map]. rewrite (kbits_ok k Hk), IH. reflexivity.
Qed.
Lemma keyframes_rw ks : Forall (kf_data_ok bt) ks -> exists r ks', readKeyframe bt = Some r /\
  vreads (readMany r (length ks)) (flat_map kbits ks) ks' /\ Forall2 kf_sent ks ks'.
Proof.
  intros H. assert (Hr : exists r, readKeyframe bt = Some r) by (destruct Hbt as [->|[->| ->]]; eexists; reflexivity).
  destruct Hr as (r & Hr).
  destruct (vreads_many (writeKeyframe bt) r kf_sent ks) as (b & ys & Hb & Hv & HR).
  { eapply Forall_impl; [|exact H]. intros k Hk. destruct (keyframe_rw k Hk) as (b & k' & r' & Hb & Hr' & Hv & Hs).
    rewrite Hr in Hr'. injection Hr' as <-. eauto. }
  rewrite (writeMany_kbits ks H) in Hb. injection Hb as <-. exists r, ys. auto.
Qed.

Lemma fragment_rw lo pd e x : 0 < pd <= 2 ^ 24 -> 0 <= lo -> effect_data_ok known_semantic bt e -> nbits 16 (e_id e) ->
  In x (part lo (lo + pd) e) ->
  exists b e', writeFragment bt lo (Fragment e (vec_size (e_kfs (if e_type e =? BasisE then x else set_kfs [] x)))
      (flat_map kbits (e_kfs (if e_type e =? BasisE then x else set_kfs [] x)))) = Ok b /\
    vreads (readEffect bt) b (Some e') /\ data_sent bt x (set_pos (e_pos e' + lo) e').
Proof.
  intros Hpd Hlo (Hpos & He) Hid Hx.
  destruct e as [id pos ph sem kfs base ty tl sa wa]. cbn [e_pos e_id e_type e_kfs e_semantic e_phase e_base] in *.
  destruct He as [(Hty & Hne & Hkf & Hsz & Hsem & Hph & Hba)|Hty].
  - subst ty. unfold part in Hx. cbn [e_type e_kfs e_pos] in Hx. change (BasisE =? BasisE) with true in Hx. cbn match in Hx.
    change (BasisE =? BasisE) with true. cbn match.
    set (ks := filter _ kfs) in Hx. assert (Hks : Forall (kf_data_ok bt) ks).
    { apply Forall_forall. intros k Hk. apply filter_In in Hk. rewrite Forall_forall in Hkf. apply Hkf, Hk. }
    assert (Hsk : vec_size ks < 65536).
    { unfold vec_size in *. pose proof (filter_length_le (fun k => in_window lo (lo + pd) (pos + kpos k)) kfs). fold ks in H. lia. }
    assert (Hx' : x = set_kfs ks (Effect id pos ph sem kfs base BasisE tl sa wa) /\ ks <> []).
    { destruct ks as [|k l]; [destruct Hx|]. destruct Hx as [<-|[]]. split; [reflexivity|discriminate]. }
    destruct Hx' as [-> Hkn]. cbn [set_kfs e_kfs].
    assert (Hin : - 2 ^ 24 <= pos - lo < 2 ^ 24).
    { destruct ks as [|k l] eqn:Ek; [congruence|].
      assert (Hk : In k (filter (fun k => in_window lo (lo + pd) (pos + kpos k)) kfs)) by (fold ks; rewrite Ek; left; reflexivity).
      apply filter_In in Hk. destruct Hk as [Hk1 Hk2]. rewrite Forall_forall in Hkf.
      destruct (Hkf k Hk1) as [(p & Hp & Hp16) _]. unfold in_window, kpos in Hk2. rewrite Hp in Hk2. unfold nbits in Hp16.
      change (2 ^ 16) with 65536 in Hp16. change (2 ^ 24) with 16777216 in *. lia. }
    clear Hx Hkf Hne.
    destruct (vreads_semantic sem Hsem) as (sb & Hsb & Hsr).
    destruct (keyframes_rw ks Hks) as (r & ks' & Hr & Hkv & HkR).
    destruct (vreads_float u16 16 _ _ (value_or ph f32_0) ct16 range_phase) as (pb & w & Hpb & _ & Hpr & Hnear).
    { destruct ph as [v|]; [apply Hph; reflexivity|reflexivity]. }
    assert (Hb4 : nbits 4 (value_or base 0)) by (destruct base as [v|]; [apply Hba; reflexivity|unfold nbits; cbn; lia]).
    assert (Hmid : exists mb ph' ba', (if bt =? VectorialB then do p <- writeFloatNBits u16 16 (value_or ph f32_0) f32_0 MAX_PHASE;
                      Ok (p ++ writeNBits 4 (value_or base 0)) else Ok []) = Ok mb /\
       vreads (fun bs i => if bt =? VectorialB then
         do '(ph, i) <- readFloatBits bs i 16 f32_0 MAX_PHASE; do '(b, i) <- readUInt bs i 4; Ok ((Some ph, Some b), i)
         else Ok ((None, None), i)) mb (ph', ba') /\
       (if bt =? VectorialB
        then (exists w, ph' = Some w /\ near 16 f32_0 MAX_PHASE (value_or ph f32_0) w) /\ ba' = Some (value_or base 0)
        else ph' = None /\ ba' = None)).
    { destruct (bt =? VectorialB).
      - exists (pb ++ writeNBits 4 (value_or base 0)), (Some w), (Some (value_or base 0)). rewrite Hpb. split; [reflexivity|].
        split; [|split; [exists w; auto|reflexivity]]. intros bs i H. vstep H Hpr. vlast H (vreads_u4 _ Hb4). vdone.
      - exists [], None, None. split; [reflexivity|]. split; [|auto]. intros bs i H. f_equal. f_equal. cbn. lia. }
    destruct Hmid as (mb & ph' & ba' & Hmb & Hmr & Hmsp).
    eexists. exists (Effect id (pos - lo) ph' sem ks' ba' BasisE [] [] []). split; [|split].
    + unfold writeFragment. cbn [fr_effect fr_count fr_bits e_type e_semantic e_phase e_base e_id e_pos].
      change (BasisE =? BasisE) with true. cbn match. rewrite Hsb. cbn [obind]. rewrite Hmb. cbn [obind]. reflexivity.
    + intros bs i H. unfold readEffect. vstep H (vreads_u16 id Hid).
      vstep H (vreads_u2 BasisE ltac:(unfold nbits, BasisE; change (2 ^ 2) with 4; lia)).
      vstep H (vreads_sfield 25 (pos - lo) ltac:(lia) Hin).
      change (BasisE =? BasisE) with true. cbn match. unfold readEffectBasis. rewrite <- !app_assoc in H. vstep H Hsr.
      vstep H (vreads_u16 (vec_size ks) (nbits16_size ks Hsk)).
      vstep H Hmr. rewrite Hr. rewrite vec_size_nat. vlast H Hkv. vdone.
    + unfold data_sent. cbn [set_pos set_kfs e_id e_pos e_type e_semantic e_kfs e_phase e_base e_timeline e_samples e_wavelet].
      change (BasisE =? BasisE) with true. cbn match.
      split; [reflexivity|]. split; [lia|]. split; [reflexivity|]. split; [|auto].
      split; [reflexivity|]. split; [exact HkR|exact Hmsp].
  - subst ty. unfold part in Hx. cbn [e_type e_pos] in Hx. change (ReferenceE =? BasisE) with false in *.
    change (ReferenceE =? ReferenceE) with true in Hx. cbn [andb] in Hx. cbn match in *.
    destruct (in_window lo (lo + pd) pos) eqn:Ew; [|destruct Hx]. destruct Hx as [<-|[]].
    unfold in_window in Ew. eexists. exists (Effect id (pos - lo) None None [] None ReferenceE [] [] []). cbn [set_kfs e_kfs flat_map]. split; [|split].
    + unfold writeFragment. cbn [fr_effect fr_count fr_bits e_type e_semantic e_phase e_base e_id e_pos].
      change (ReferenceE =? BasisE) with false. cbn match. cbn [obind]. reflexivity.
    + intros bs i H. unfold readEffect. vstep H (vreads_u16 id Hid).
      vstep H (vreads_u2 ReferenceE ltac:(unfold nbits, ReferenceE; change (2 ^ 2) with 4; lia)).
      vstep H (vreads_sfield 25 (pos - lo) ltac:(lia) ltac:(change (2 ^ (Z.of_nat 25 - 1)) with (2 ^ 24); lia)).
      change (ReferenceE =? BasisE) with false. cbn match. vdone.
    + unfold data_sent. cbn [set_pos e_id e_pos e_type e_semantic e_kfs e_phase e_base e_timeline e_samples e_wavelet].
      change (ReferenceE =? BasisE) with false. cbn match.
      repeat split; auto. lia.
Qed.

Lemma data_sent_iff x e : data_sent bt x e -> e_id e = e_id x. Proof. intros H. apply H. Qed.

(** All the fragments of a window. *)
Lemma fragments_rw lo pd L : 0 < pd <= 2 ^ 24 -> 0 <= lo ->
  Forall (effect_data_ok known_semantic bt) L -> Forall (fun e => nbits 16 (e_id e)) L ->
  exists b es, writeMany (writeFragment bt lo) (flat_map (frag lo (lo + pd)) L) = Ok b /\
    vreads (readEffects bt (length (window lo (lo + pd) L))) b (Some es) /\
    Forall2 (data_sent bt) (window lo (lo + pd) L) (addTimestampEffect lo es) /\
    length (flat_map (frag lo (lo + pd)) L) = length (window lo (lo + pd) L).
Proof.
  intros Hpd Hlo. induction L as [|e L IH]; intros Hok Hid.
  - exists [], []. split; [reflexivity|]. split; [|split; [constructor|reflexivity]]. intros bs i H. cbn. f_equal. f_equal. lia.
  - inversion Hok as [|? ? He Hok']; subst. inversion Hid as [|? ? Hi Hid']; subst.
    destruct (IH Hok' Hid') as (b & es & Hb & Hr & HR & Hlen). unfold window in *. cbn [flat_map].
    rewrite part_frag.
    assert (Hone : part lo (lo + pd) e = [] \/ exists x, part lo (lo + pd) e = [x]).
    { unfold part. destruct (e_type e =? BasisE).
      - destruct (filter _ _); [now left|right; eauto].
      - destruct (_ && _); [right; eauto|now left]. }
    destruct Hone as [E|[x E]].
    + rewrite E. replace (if e_type e =? BasisE then [] else map (set_kfs []) []) with (@nil effect) by (destruct (_ =? _); reflexivity).
      cbn [map app]. exists b, es. auto.
    + destruct (fragment_rw lo pd e x Hpd Hlo He Hi ltac:(rewrite E; left; reflexivity)) as (b1 & e' & Hb1 & Hr1 & HR1).
      rewrite E. replace (if e_type e =? BasisE then [x] else map (set_kfs []) [x])
        with [if e_type e =? BasisE then x else set_kfs [] x] by (destruct (_ =? _); reflexivity).
      cbn [map app writeMany]. rewrite Hb1, Hb. cbn [obind].
      exists (b1 ++ b), (e' :: es). split; [reflexivity|]. split; [|split].
      * intros bs i H. cbn [length readEffects]. vstep H Hr1. vlast H Hr. vdone.
      * cbn [addTimestampEffect map]. constructor; [exact HR1|exact HR].
      * cbn [length]. now rewrite Hlen.
Qed.

(** *** The packets of a band *)

(** The bits of a packet for the window at [w]: a time, an address, a count and effects. *)
Definition packet_bits (ad : address) (w : Z * list effect) (p : bits) : Prop :=
  exists au b es, (au = RAU \/ au = DAU) /\
    p = writeNBits 32 (fst w) ++ writeNBits 1 au ++ writeNBits 8 (ad_perception ad) ++ writeNBits 16 (ad_channel ad)
        ++ writeNBits 8 (ad_band ad) ++ writeNBits 16 (vec_size (snd w)) ++ b /\
    vreads (readEffects bt (length (snd w))) b (Some es) /\ Forall2 (data_sent bt) (snd w) (addTimestampEffect (fst w) es) /\
    snd w <> [] /\ 0 <= fst w.

Lemma emit_ok lo pd au ad L : 0 < pd <= 2 ^ 24 -> 0 <= lo -> (au = RAU \/ au = DAU) ->
  Forall (effect_data_ok known_semantic bt) L -> Forall (fun e => nbits 16 (e_id e)) L ->
  exists out, emitPacket bt lo au ad (flat_map (frag lo (lo + pd)) L) = Ok out /\
    Forall2 (packet_bits ad) (filter (fun w => match snd w with [] => false | _ => true end) [(lo, window lo (lo + pd) L)]) out.
Proof.
  intros Hpd Hlo Hau Hok Hid. destruct (fragments_rw lo pd L Hpd Hlo Hok Hid) as (b & es & Hb & Hr & HR & Hlen).
  cbn [filter snd]. unfold emitPacket.
  destruct (flat_map (frag lo (lo + pd)) L) as [|f fs]; destruct (window lo (lo + pd) L) as [|x xs] eqn:Ew;
    try (cbn in Hlen; discriminate).
  - exists []. split; [reflexivity|constructor].
  - unfold writePayloadPacket. rewrite Hb. cbn [obind]. eexists. split; [reflexivity|]. constructor; [|constructor].
    exists au, b, es. cbn [fst snd]. split; [exact Hau|]. split; [|split; [exact Hr|split; [exact HR|split; [discriminate|exact Hlo]]]].
    unfold writeEffectHeader. rewrite <- !app_assoc. replace (vec_size (f :: fs)) with (vec_size (x :: xs)) by (unfold vec_size; now rewrite Hlen). reflexivity.
Qed.

Lemma not_finished hi L : forallb (finished hi) L = false -> exists t, In t (flat_map events L) /\ hi <= t.
Proof.
  induction L as [|e L IH]; [discriminate|]. cbn [forallb flat_map]. intros H.
  destruct (finished hi e) eqn:Ef; cbn [andb] in H.
  - destruct (IH H) as (t & Ht & Hle). exists t. split; [apply in_or_app; now right|exact Hle].
  - unfold finished in Ef. unfold events. destruct (e_type e =? BasisE).
    + assert (Hex : exists k, In k (e_kfs e) /\ hi <= e_pos e + kpos k).
      { clear - Ef. induction (e_kfs e) as [|k l IHl]; [discriminate|]. cbn in Ef.
        destruct (Z.ltb_spec (e_pos e + kpos k) hi).
        - destruct (IHl Ef) as (k' & ? & ?). exists k'. split; [now right|assumption].
        - exists k. split; [now left|assumption]. }
      destruct Hex as (k & Hk & Hle). exists (e_pos e + kpos k). split; [|exact Hle].
      apply in_or_app. left. apply (in_map (fun k => e_pos e + kpos k)). exact Hk.
    + destruct (e_type e =? ReferenceE); [|discriminate]. exists (e_pos e). split; [left; reflexivity|lia].
Qed.
Lemma all_finished pd i L : 0 < pd -> 0 <= i -> Forall (effect_data_ok known_semantic bt) L -> in_sequence L -> not_ending_on_boundary pd L ->
  forallb (finished (i * pd + pd)) L = true -> Forall (fun t => t < i * pd + pd) (flat_map events L).
Proof.
  intros Hpd Hi Hok Hseq Hend Hfin. apply Forall_forall. intros t Ht. apply in_flat_map in Ht. destruct Ht as (e & He & Ht).
  destruct (Z.ltb_spec t (i * pd + pd)) as [|Hge]; [assumption|exfalso].
  (* the last effect has an event at or after t *)
  assert (HL : L <> []) by (intros ->; destruct He).
  destruct (exists_last HL) as (A & z & EL).
  assert (Hz : exists u, In u (events z) /\ i * pd + pd <= u).
  { rewrite EL in He. apply in_app_or in He. destruct He as [He|[->|[]]]; [|exists t; auto].
    unfold in_sequence in Hseq. rewrite EL, flat_map_app in Hseq. apply ss_app in Hseq. destruct Hseq as (_ & _ & Hs).
    rewrite Forall_forall in Hok. assert (Hzok : effect_data_ok known_semantic bt z) by (apply Hok; rewrite EL; apply in_or_app; right; left; reflexivity).
    assert (Hu : exists u, In u (events z)).
    { destruct Hzok as (_ & [(Hty & Hne & _)|Hty]); unfold events; rewrite Hty.
      - destruct (e_kfs z) as [|k l]; [congruence|]. eexists. left. reflexivity.
      - eexists. left. reflexivity. }
    destruct Hu as (u & Hu). exists u. split; [exact Hu|].
    specialize (Hs t u (proj2 (in_flat_map _ _ _) (ex_intro _ e (conj He Ht))) ltac:(cbn; rewrite app_nil_r; exact Hu)). lia. }
  destruct Hz as (u & Hu & Hle).
  assert (Hfz : finished (i * pd + pd) z = true).
  { rewrite forallb_forall in Hfin. apply Hfin. rewrite EL. apply in_or_app. right. left. reflexivity. }
  unfold finished, events in *. destruct (e_type z =? BasisE) eqn:E1.
  - apply in_map_iff in Hu. destruct Hu as (k & <- & Hk). rewrite forallb_forall in Hfz. specialize (Hfz k Hk). lia.
  - destruct (Z.eqb_spec (e_type z) ReferenceE) as [Hty|]; [|destruct Hu]. destruct Hu as [<-|[]].
    destruct (Hend A z EL Hty) as [H0|H0]; [nia|]. apply H0.
    replace (e_pos z) with ((i + 1) * pd) by lia. apply Z.mod_mul. lia.
Qed.
Lemma window_nil lo hi L : Forall (fun t => t < lo) (flat_map events L) -> window lo hi L = [].
Proof.
  intros H. apply flat_map_nil. intros e He.
  assert (H' : Forall (fun t => t < lo) (events e)).
  { apply Forall_forall. intros t Ht. rewrite Forall_forall in H. apply H, in_flat_map. eauto. }
  unfold part, events, in_window in *. destruct (e_type e =? BasisE).
  - rewrite filter_none; [reflexivity|]. intros k Hk. rewrite Forall_forall in H'.
    specialize (H' _ (in_map (fun k => e_pos e + kpos k) _ _ Hk)). lia.
  - destruct (e_type e =? ReferenceE); [|reflexivity]. inversion H'; subst.
    replace (lo <=? e_pos e) with false by lia. reflexivity.
Qed.

Definition windows_from (pd : Z) (L : list effect) (i n : nat) : list (Z * list effect) :=
  filter (fun w => match snd w with [] => false | _ => true end)
    (map (fun i => (Z.of_nat i * pd, window (Z.of_nat i * pd) (Z.of_nat i * pd + pd) L)) (seq i n)).
Lemma windows_from_nil pd L i n : 0 < pd -> Forall (fun t => t < Z.of_nat i * pd) (flat_map events L) -> windows_from pd L i n = [].
Proof.
  intros Hpd. unfold windows_from. revert i. induction n as [|n IH]; intros i H; [reflexivity|]. cbn [seq map filter snd].
  rewrite window_nil by exact H. apply IH. eapply Forall_impl; [|exact H]. cbv beta. intros t Ht. nia.
Qed.

Lemma au_ok lo pd : forall cur ids au r frs au' ids' cur', (au = RAU \/ au = DAU) ->
  createPayloadPacket bt lo pd cur ids au = Ok (r, frs, au', ids', cur') -> au' = RAU \/ au' = DAU.
Proof.
  induction cur as [|e0 cur IH]; intros ids au r frs au' ids' cur' Hau H; cbn [createPayloadPacket] in H.
  - injection H as <- <- <- <- <-. exact Hau.
  - destruct (if e_id e0 =? -1 then _ else _) as [e ids1].
    destruct (e_type e =? BasisE).
    + destruct (writeEffectBasis bt lo pd e) as [[[[en ct] ra] b]| | |]; cbn [obind] in H; try discriminate.
      set (a1 := if ct >? 0 then if ra then RAU else DAU else au) in *.
      assert (Ha1 : a1 = RAU \/ a1 = DAU) by (unfold a1; destruct (ct >? 0), ra; auto).
      destruct en.
      * destruct (createPayloadPacket bt lo pd cur ids1 a1) as [[[[[r1 f1] a2] i2] c2]| | |] eqn:E; cbn [obind] in H; try discriminate.
        injection H as <- <- <- <- <-. exact (IH _ _ _ _ _ _ _ Ha1 E).
      * injection H as <- <- <- <- <-. exact Ha1.
    + destruct (e_type e =? ReferenceE).
      * destruct ((e_pos e >=? lo) && (e_pos e <? lo + pd)).
        -- destruct (createPayloadPacket bt lo pd cur ids1 RAU) as [[[[[r1 f1] a2] i2] c2]| | |] eqn:E; cbn [obind] in H; try discriminate.
           injection H as <- <- <- <- <-. exact (IH _ _ _ _ _ _ _ (or_introl eq_refl) E).
        -- destruct (e_pos e >? lo + pd); [injection H as <- <- <- <- <-; exact Hau|].
           destruct (createPayloadPacket bt lo pd cur ids1 au) as [[[[[r1 f1] a2] i2] c2]| | |] eqn:E; cbn [obind] in H; try discriminate.
           injection H as <- <- <- <- <-. exact (IH _ _ _ _ _ _ _ Hau E).
      * destruct (createPayloadPacket bt lo pd cur ids1 au) as [[[[[r1 f1] a2] i2] c2]| | |] eqn:E; cbn [obind] in H; try discriminate.
        injection H as <- <- <- <- <-. exact (IH _ _ _ _ _ _ _ Hau E).
Qed.

Lemma loop_ok pd ad L idsF : 0 < pd <= 2 ^ 24 ->
  Forall (effect_data_ok known_semantic bt) L -> Forall (fun e => nbits 16 (e_id e)) L -> in_sequence L -> not_ending_on_boundary pd L ->
  forall n i cur ids au, nonneg ids -> assign cur ids = (L, idsF) -> (au = RAU \/ au = DAU) -> (1 <= n)%nat ->
  Forall (fun t => t < Z.of_nat (i + n) * pd) (flat_map events L) ->
  exists out au', packetizeLoop n bt pd ad (Z.of_nat i * pd) cur ids au = Ok (out, au', idsF) /\ (au' = RAU \/ au' = DAU) /\
    Forall2 (packet_bits ad) (windows_from pd L i n) out.
Proof.
  intros Hpd Hok Hid Hseq Hend. induction n as [|n IH]; intros i cur ids au Hn Ha Hau Hn1 Hev; [lia|].
  cbn [packetizeLoop].
  destruct (createPayload_ok (Z.of_nat i * pd) pd ltac:(lia) cur ids au L idsF Hn Ha Hok Hseq) as (au1 & ids1 & cur1 & Hc & Ha1 & Hn1' & Hdone).
  pose proof (au_ok _ _ _ _ _ _ _ _ _ _ Hau Hc) as Hau1. rewrite Hc. cbn [obind].
  destruct (emit_ok (Z.of_nat i * pd) pd au1 ad L Hpd ltac:(nia) Hau1 Hok Hid) as (out & -> & Hout). cbn [obind].
  assert (Ew : windows_from pd L i (S n) = filter (fun w => match snd w with [] => false | _ => true end)
      [(Z.of_nat i * pd, window (Z.of_nat i * pd) (Z.of_nat i * pd + pd) L)] ++ windows_from pd L (S i) n).
  { unfold windows_from. cbn [seq map]. rewrite <- filter_app. reflexivity. }
  destruct (forallb (finished (Z.of_nat i * pd + pd)) L) eqn:Ef.
  - destruct (Hdone eq_refl) as [-> ->]. exists out, au1. split; [reflexivity|]. split; [exact Hau1|].
    rewrite Ew, (windows_from_nil pd L (S i) n), app_nil_r; [exact Hout|lia|].
    pose proof (all_finished pd (Z.of_nat i) L ltac:(lia) ltac:(lia) Hok Hseq Hend Ef) as Hlt.
    eapply Forall_impl; [|exact Hlt]. cbv beta. intros t Ht. nia.
  - destruct (not_finished _ _ Ef) as (t & Ht & Hle).
    assert (Hlt : t < Z.of_nat (i + S n) * pd) by (rewrite Forall_forall in Hev; apply Hev; exact Ht).
    replace (Z.of_nat i * pd + pd) with (Z.of_nat (S i) * pd) by nia.
    destruct (IH (S i) cur1 ids1 au1 Hn1' Ha1 Hau1) as (rest & au2 & -> & Hau2 & Hrest).
    + destruct n; [nia|lia].
    + replace (S i + n)%nat with (i + S n)%nat by lia. exact Hev.
    + cbn [obind]. exists (out ++ rest), au2. split; [reflexivity|]. split; [exact Hau2|].
      rewrite Ew. apply Forall2_app; assumption.
Qed.
End Window.
