(** Proofs about the reassembly of effects from data packets, the ids assigned by the writer and termination. *)
From Coq Require Import Sorting.Sorted Sorting.Permutation Reals.
From Verif Require Import Base BitsModel BitsSpec BitsProof BitsVecProof FloatBase FloatModel FloatSpec FloatProof
  FloatFields TypesModel TypesSpec TypesProof SemanticModel MetaModel BandModel DataModel CrcModel StreamModel VecReads MetaSpec MetaProof
  DataSpec DataProof.
Local Open Scope Z_scope.
Ltac Zify.zify_post_hook ::= Z.div_mod_to_equations.

(** *** Parts of an effect *)

Lemma sorted_filter_split {A} (f : A -> Z) (a b c : Z) l : a <= b <= c -> StronglySorted Z.le (map f l) ->
  filter (fun x => in_window a c (f x)) l = filter (fun x => in_window a b (f x)) l ++ filter (fun x => in_window b c (f x)) l.
Proof.
  intros Hab. induction l as [|x l IH]; intros H; [reflexivity|]. cbn [map] in H. inversion H as [|? ? Hs Hle]; subst.
  cbn [filter]. rewrite (IH Hs). destruct (in_window a b (f x)) eqn:E1; unfold in_window in E1.
  - replace (in_window a c (f x)) with true by (unfold in_window; lia).
    replace (in_window b c (f x)) with false by (unfold in_window; lia). reflexivity.
  - destruct (in_window b c (f x)) eqn:E2; unfold in_window in E2.
    + assert (Hn : filter (fun x => in_window a b (f x)) l = []).
      { apply filter_none. intros y Hy. unfold in_window. rewrite Forall_forall in Hle. specialize (Hle (f y) (in_map f _ _ Hy)). lia. }
      rewrite Hn. replace (in_window a c (f x)) with true by (unfold in_window; lia). reflexivity.
    + replace (in_window a c (f x)) with false by (unfold in_window; lia). reflexivity.
Qed.

Lemma set_kfs_same e : set_kfs (e_kfs e) e = e. Proof. destruct e; reflexivity. Qed.
Lemma set_kfs_kfs a b e : set_kfs a (set_kfs b e) = set_kfs a e. Proof. destruct e; reflexivity. Qed.

(** How the part of [0, T) and the part of [T, T') make up the part of [0, T'). *)
Inductive joins (e : effect) : list effect -> list effect -> list effect -> Prop :=
| join_old old : joins e old [] old
| join_new x : e_pos x = e_pos e -> e_id x = e_id e -> joins e [] [x] [x]
| join_both a b : e_type e = BasisE -> joins e [set_kfs a e] [set_kfs b e] [set_kfs (a ++ b) e].
Lemma part_joins T T' e : 0 <= T <= T' -> StronglySorted Z.le (events e) -> joins e (part 0 T e) (part T T' e) (part 0 T' e).
Proof.
  intros HT Hs. unfold part, events in *. destruct (Z.eqb_spec (e_type e) BasisE) as [Hty|Hty].
  - rewrite (sorted_filter_split (fun k => e_pos e + kpos k) 0 T T' (e_kfs e) HT Hs).
    destruct (filter (fun k => in_window 0 T _) (e_kfs e)) as [|a la]; destruct (filter (fun k => in_window T T' _) (e_kfs e)) as [|b lb].
    + apply join_old.
    + cbn [app]. apply join_new; destruct e; reflexivity.
    + rewrite app_nil_r. apply join_old.
    + change ((a :: la) ++ b :: lb) with (a :: (la ++ b :: lb)). cbn match.
      exact (join_both e (a :: la) (b :: lb) Hty).
  - destruct (e_type e =? ReferenceE); cbn [andb]; [|apply join_old].
    destruct (in_window 0 T (e_pos e)) eqn:E1; destruct (in_window T T' (e_pos e)) eqn:E2; unfold in_window in *; try lia.
    + replace ((0 <=? e_pos e) && (e_pos e <? T')) with true by lia. apply join_old.
    + replace ((0 <=? e_pos e) && (e_pos e <? T')) with true by lia. apply join_new; reflexivity.
    + replace ((0 <=? e_pos e) && (e_pos e <? T')) with false by lia. apply join_old.
Qed.
Lemma part_id_pos lo hi e x : In x (part lo hi e) -> e_id x = e_id e /\ e_pos x = e_pos e /\ e_type x = e_type e.
Proof.
  unfold part. destruct (e_type e =? BasisE).
  - destruct (filter _ _); intros []; [|contradiction]. subst x. destruct e; auto.
  - destruct (_ && _); intros []; [|contradiction]. subst x. auto.
Qed.
Lemma part_nil_after lo hi e : Forall (fun t => hi <= t) (events e) -> part lo hi e = [].
Proof.
  unfold part, events, in_window. destruct (e_type e =? BasisE).
  - intros H. rewrite filter_none; [reflexivity|]. intros k Hk. rewrite Forall_forall in H.
    specialize (H _ (in_map (fun k => e_pos e + kpos k) _ _ Hk)). lia.
  - destruct (e_type e =? ReferenceE); [|reflexivity]. intros H. inversion H; subst.
    replace (e_pos e <? hi) with false by lia. rewrite andb_false_r. reflexivity.
Qed.
Lemma part_event lo hi e x : In x (part lo hi e) -> exists t, In t (events e) /\ lo <= t.
Proof.
  unfold part, events, in_window. destruct (e_type e =? BasisE).
  - destruct (filter _ (e_kfs e)) as [|k l] eqn:E; [intros []|]. intros _.
    assert (Hk : In k (filter (fun k => (lo <=? e_pos e + kpos k) && (e_pos e + kpos k <? hi)) (e_kfs e))) by (rewrite E; left; reflexivity).
    apply filter_In in Hk. destruct Hk as [H1 H2]. exists (e_pos e + kpos k). split; [|lia].
    apply (in_map (fun k => e_pos e + kpos k)). exact H1.
  - destruct (e_type e =? ReferenceE); cbn [andb]; [|intros []].
    destruct ((lo <=? e_pos e) && (e_pos e <? hi)) eqn:E; [|intros []]. intros _. exists (e_pos e). split; [left; reflexivity|lia].
Qed.
Lemma part_whole hi e : (e_type e = BasisE /\ e_kfs e <> [] \/ e_type e = ReferenceE) ->
  Forall (fun t => 0 <= t < hi) (events e) -> part 0 hi e = [e].
Proof.
  unfold part, events, in_window. intros [[Hty Hne]|Hty] H; rewrite Hty in *; cbn match in *.
  - change (BasisE =? BasisE) with true in *. cbn match in *.
    replace (filter _ (e_kfs e)) with (e_kfs e).
    + destruct (e_kfs e) as [|k l] eqn:E; [congruence|]. rewrite <- E. now rewrite set_kfs_same.
    + symmetry. clear Hne. induction (e_kfs e) as [|k l IH]; [reflexivity|]. cbn [map] in H. inversion H; subst. cbn [filter].
      replace ((0 <=? e_pos e + kpos k) && (e_pos e + kpos k <? hi)) with true by lia. now rewrite IH.
  - change (ReferenceE =? BasisE) with false in *. change (ReferenceE =? ReferenceE) with true in *. cbn match in *. inversion H; subst.
    replace ((0 <=? e_pos e) && (e_pos e <? hi)) with true by lia. reflexivity.
Qed.

(** *** Adding fragments to a band *)

Lemma insert_end x l : Forall (fun e => e_pos e <= e_pos x) l -> insert_effect x l = l ++ [x].
Proof.
  induction 1 as [|e l He _ IH]; [reflexivity|]. cbn [insert_effect app]. rewrite IH.
  destruct (Z.gtb_spec (e_pos e) (e_pos x)); [lia|reflexivity].
Qed.
Lemma append_none x l : Forall (fun e => e_id e <> e_id x) l -> append_to_id x l = None.
Proof.
  induction 1 as [|e l He _ IH]; [reflexivity|]. cbn [append_to_id]. destruct (Z.eqb_spec (e_id x) (e_id e)); [congruence|]. now rewrite IH.
Qed.
Lemma append_mid x a y b : Forall (fun e => e_id e <> e_id x) a -> e_id y = e_id x ->
  append_to_id x (a ++ y :: b) = Some (a ++ set_kfs (e_kfs y ++ e_kfs x) y :: b).
Proof.
  intros H Hy. induction H as [|e a He _ IH]; cbn [app append_to_id].
  - destruct (Z.eqb_spec (e_id x) (e_id y)); [reflexivity|congruence].
  - destruct (Z.eqb_spec (e_id x) (e_id e)); [congruence|]. now rewrite IH.
Qed.

Section Merge.
Variable bt : Z.

Lemma data_sent_append e a b x y : e_type e = BasisE -> data_sent bt (set_kfs a e) x -> data_sent bt (set_kfs b e) y ->
  data_sent bt (set_kfs (a ++ b) e) (set_kfs (e_kfs x ++ e_kfs y) x).
Proof.
  intros Hty (H1 & H2 & H3 & H4 & H5) (_ & _ & _ & K4 & _). destruct e as [id pos ph sem kfs base ty tl sa wa].
  cbn [set_kfs e_id e_pos e_type e_semantic e_kfs e_phase e_base e_timeline e_samples e_wavelet] in *. subst ty.
  change (BasisE =? BasisE) with true in *. cbn match in *. destruct H4 as (A1 & A2 & A3). destruct K4 as (_ & B2 & _).
  destruct x as [id' pos' ph' sem' kfs' base' ty' tl' sa' wa'].
  unfold data_sent. cbn [set_kfs e_id e_pos e_type e_semantic e_kfs e_phase e_base e_timeline e_samples e_wavelet] in *.
  change (BasisE =? BasisE) with true. cbn match.
  split; [exact H1|]. split; [exact H2|]. split; [exact H3|]. split; [|exact H5].
  split; [exact A1|]. split; [|exact A3]. apply Forall2_app; assumption.
Qed.

Lemma Forall2_in_r {A B} (R : A -> B -> Prop) l m : Forall2 R l m -> forall y, In y m -> exists x, In x l /\ R x y.
Proof.
  induction 1 as [|x y l m H _ IH]; intros z [].
  - subst z. exists x. split; [left; reflexivity|exact H].
  - destruct (IH z H0) as (w & Hw & HR). exists w. split; [right; exact Hw|exact HR].
Qed.

Variable L : list effect.
Hypothesis Hids : NoDup (map e_id L).
Hypothesis Hpos : sorted_by_position L.
Hypothesis Hseq : in_sequence L.

(** The effects [B] of [L = A ++ B] remain to be processed for the window [T, T'). *)
Lemma merge_window T T' : 0 <= T <= T' -> forall B A, L = A ++ B -> forall es b,
  Forall2 (data_sent bt) (flat_map (part T T') B) es ->
  Forall2 (data_sent bt) (window 0 T' A ++ window 0 T B) (b_effects b) ->
  exists l, addEffectsToBand es b = set_effects l b /\ Forall2 (data_sent bt) (window 0 T' L) l.
Proof.
  intros HT. induction B as [|e B IH]; intros A EL es b Hes Hb.
  - cbn [flat_map] in Hes. inversion Hes; subst es. exists (b_effects b). split; [destruct b; reflexivity|].
    unfold window in *. cbn [flat_map] in Hb. rewrite app_nil_r in *. rewrite EL. exact Hb.
  - assert (EL' : L = (A ++ [e]) ++ B) by (rewrite <- app_assoc; exact EL).
    assert (Hs := Hseq). unfold in_sequence in Hs. rewrite EL, flat_map_app in Hs. cbn [flat_map] in Hs.
    apply ss_app in Hs. destruct Hs as (_ & Hs & _). apply ss_app in Hs. destruct Hs as (Hse & _ & HeB).
    assert (HidA : Forall (fun x => e_id x <> e_id e) A /\ Forall (fun x => e_id x <> e_id e) B).
    { rewrite EL, map_app in Hids. cbn [map] in Hids. apply NoDup_remove_2 in Hids.
      split; apply Forall_forall; intros x Hx E; apply Hids; apply in_or_app; [left|right]; rewrite <- E; apply in_map; exact Hx. }
    assert (HposA : Forall (fun x => e_pos x <= e_pos e) A).
    { assert (Hp := Hpos). unfold sorted_by_position in Hp. rewrite EL in Hp. apply ss_app in Hp. destruct Hp as (_ & _ & Hp).
      apply Forall_forall. intros x Hx. apply Hp; [exact Hx|left; reflexivity]. }
    cbn [flat_map] in Hes. apply Forall2_app_inv_l in Hes. destruct Hes as (e1 & e2 & He1 & He2 & ->).
    unfold window in Hb. cbn [flat_map] in Hb.
    assert (Hnil : part T T' e <> [] -> flat_map (part 0 T) B = []).
    { intros Hne. destruct (part T T' e) as [|x l] eqn:E; [congruence|].
      destruct (part_event T T' e x) as (t & Ht & Hle); [rewrite E; left; reflexivity|].
      apply flat_map_nil. intros y Hy. apply part_nil_after, Forall_forall. intros u Hu.
      specialize (HeB t u Ht (proj2 (in_flat_map _ _ _) (ex_intro _ y (conj Hy Hu)))). lia. }
    pose proof (part_joins T T' e HT Hse) as HJ.
    assert (Hgoal : exists b1 l1, addEffectsToBand e1 b = b1 /\ b1 = set_effects l1 b /\
              Forall2 (data_sent bt) ((flat_map (part 0 T') A ++ part 0 T' e) ++ flat_map (part 0 T) B) l1).
    { remember (part 0 T e) as old eqn:Eo. remember (part T T' e) as new eqn:En. remember (part 0 T' e) as tot eqn:Et.
      destruct HJ as [old|x Hxp Hxi|ka kb Hty].
      - inversion He1; subst e1. exists b, (b_effects b). split; [reflexivity|]. split; [destruct b; reflexivity|].
        rewrite <- app_assoc. exact Hb.
      - inversion He1 as [|? y ? ? Hxy Hr]; subst. inversion Hr; subst. rewrite Hnil in Hb by discriminate. rewrite Hnil by discriminate.
        cbn [app] in Hb. rewrite app_nil_r in *.
        assert (Hall : Forall (fun z => e_id z <> e_id y /\ e_pos z <= e_pos y) (b_effects b)).
        { apply Forall_forall. intros z Hz. destruct (Forall2_in_r _ _ _ Hb z Hz) as (w & Hw & HR).
          apply in_flat_map in Hw. destruct Hw as (a & Ha & Hw). apply part_id_pos in Hw.
          destruct HR as (R1 & R2 & _). destruct Hxy as (X1 & X2 & _).
          destruct HidA as [HidA _]. rewrite Forall_forall in HidA, HposA. specialize (HidA a Ha). specialize (HposA a Ha). 
          split; [intros E; apply HidA; lia|lia]. }
        assert (Hadd : addEffectToBand y b = set_effects (b_effects b ++ [y]) b).
        { unfold addEffectToBand. rewrite append_none by (eapply Forall_impl; [|exact Hall]; cbn; tauto).
          unfold addEffect. rewrite insert_end by (eapply Forall_impl; [|exact Hall]; cbn; tauto).
          destruct (e_type y =? BasisE); reflexivity. }
        exists (set_effects (b_effects b ++ [y]) b), (b_effects b ++ [y]). split; [cbn; exact Hadd|]. split; [reflexivity|].
        apply Forall2_app; [exact Hb|constructor; [exact Hxy|constructor]].
      - inversion He1 as [|? y ? ? Hxy Hr]; subst. inversion Hr; subst. rewrite Hnil in Hb by discriminate. rewrite Hnil by discriminate.
        cbn [app] in Hb. rewrite app_nil_r.
        apply Forall2_app_inv_l in Hb. destruct Hb as (m1 & m2 & Hm1 & Hm2 & Em).
        inversion Hm2 as [|? z ? ? Hz Hr2]; subst. inversion Hr2; subst.
        assert (Hty' : e_type y = BasisE).
        { destruct Hxy as (_ & _ & X3 & _). rewrite X3. destruct e; exact Hty. }
        assert (Eid : forall ks, e_id (set_kfs ks e) = e_id e) by (intros; destruct e; reflexivity).
        assert (Happ : append_to_id y (b_effects b) = Some (m1 ++ [set_kfs (e_kfs z ++ e_kfs y) z])).
        { rewrite Em. apply append_mid.
          - apply Forall_forall. intros w Hw. destruct (Forall2_in_r _ _ _ Hm1 w Hw) as (v & Hv & HR).
            apply in_flat_map in Hv. destruct Hv as (a & Ha & Hv). apply part_id_pos in Hv.
            destruct HR as (R1 & _). destruct Hxy as (X1 & _). rewrite Eid in X1.
            destruct HidA as [HidA _]. rewrite Forall_forall in HidA. specialize (HidA a Ha). intros E. apply HidA. lia.
          - destruct Hxy as (X1 & _). destruct Hz as (Z1 & _). rewrite Eid in *. congruence. }
        exists (set_effects (m1 ++ [set_kfs (e_kfs z ++ e_kfs y) z]) b), (m1 ++ [set_kfs (e_kfs z ++ e_kfs y) z]).
        split; [|split; [reflexivity|]].
        + cbn. unfold addEffectToBand. rewrite Hty'. change (BasisE =? BasisE) with true. cbn match. now rewrite Happ.
        + apply Forall2_app; [exact Hm1|]. constructor; [|constructor]. now apply data_sent_append. }
    destruct Hgoal as (b1 & l1 & Hb1 & Eb1 & HF).
    destruct (IH (A ++ [e]) EL' e2 b1 He2) as (l & Hl & HL).
    { unfold window. rewrite flat_map_app. cbn [flat_map]. rewrite app_nil_r. rewrite Eb1. cbn [set_effects b_effects]. exact HF. }
    exists l. split; [|exact HL]. unfold addEffectsToBand in *. rewrite fold_left_app. rewrite Hb1, Hl, Eb1. destruct b; reflexivity.
Qed.
Lemma merge_next T T' es b : 0 <= T <= T' -> Forall2 (data_sent bt) (window T T' L) es ->
  Forall2 (data_sent bt) (window 0 T L) (b_effects b) ->
  exists l, addEffectsToBand es b = set_effects l b /\ Forall2 (data_sent bt) (window 0 T' L) l.
Proof. intros HT H1 H2. exact (merge_window T T' HT L [] eq_refl es b H1 H2). Qed.
Lemma window_skip T T' : 0 <= T <= T' -> window T T' L = [] -> window 0 T' L = window 0 T L.
Proof.
  intros HT H. unfold window in *. assert (Hs := Hseq). unfold in_sequence in Hs. clear - HT H Hs.
  induction L as [|e l IH]; [reflexivity|]. cbn [flat_map] in *. apply app_eq_nil in H. destruct H as [H1 H2].
  apply ss_app in Hs. destruct Hs as (Hs1 & Hs2 & _). rewrite (IH H2 Hs2). f_equal.
  pose proof (part_joins T T' e HT Hs1) as HJ. rewrite H1 in HJ. inversion HJ; congruence.
Qed.
End Merge.

(** *** Reading a data packet *)

Lemma update_at_nth {A} (l : list A) n x f : nth_error l n = Some x ->
  update_at l (Z.of_nat n) (fun y => Ok (f y)) = Ok (map_nth f n l).
Proof.
  intros H. unfold update_at. rewrite (vec_at_nth l n x H). cbn [obind]. rewrite Nat2Z.id. f_equal. exact (vec_set_map_nth f l n x H).
Qed.
Lemma update_at_ext {A} (l : list A) i f g : (forall x, In x l -> f x = g x) -> update_at l i f = update_at l i g.
Proof.
  intros H. unfold update_at, vec_at. destruct (i <? 0); [reflexivity|].
  destruct (nth_error l (Z.to_nat i)) as [x|] eqn:E; [|reflexivity]. cbn [obind]. rewrite (H x (nth_error_In _ _ E)). reflexivity.
Qed.
Lemma update_at_known {A} (l : list A) n x f g : nth_error l n = Some x -> f x = Ok (g x) ->
  update_at l (Z.of_nat n) f = Ok (map_nth g n l).
Proof.
  intros H E. unfold update_at. rewrite (vec_at_nth l n x H). cbn [obind]. rewrite E. cbn [obind]. rewrite Nat2Z.id.
  f_equal. exact (vec_set_map_nth g l n x H).
Qed.
Lemma update_band_ok h pi ci bi p c b f : nth_error (h_perceptions h) pi = Some p -> nth_error (p_channels p) ci = Some c ->
  nth_error (c_bands c) bi = Some b ->
  update_band h (Z.of_nat pi) (Z.of_nat ci) (Z.of_nat bi) (fun b => Ok (f b)) = Ok (change_band f pi ci bi h).
Proof.
  intros Hp Hc Hb. unfold update_band, update_channel, update_perception, change_band.
  rewrite (update_at_known _ pi p _ (fun p => set_channels (map_nth (fun c => set_bands (map_nth f bi (c_bands c)) c) ci (p_channels p)) p) Hp).
  - reflexivity.
  - rewrite (update_at_known _ ci c _ (fun c => set_bands (map_nth f bi (c_bands c)) c) Hc); [reflexivity|].
    rewrite (update_at_nth _ bi b f Hb). reflexivity.
Qed.

Lemma searchBand_first l id k bi : first_at (fun x : Z * Z => fst x = id) l k (id, bi) -> searchBand l id = bi.
Proof.
  intros (Hk & _ & Hb). revert k Hk Hb. induction l as [|[i x] l IH]; intros [|k] Hk Hb; cbn [nth_error] in Hk; try discriminate.
  - injection Hk as -> ->. cbn [searchBand]. now rewrite Z.eqb_refl.
  - cbn [searchBand]. destruct (Z.eqb_spec i id) as [E|_].
    + exfalso. apply (Hb 0%nat (i, x) ltac:(lia) eq_refl). exact E.
    + apply (IH k Hk). intros m y Hm Hy. apply (Hb (S m) y); [lia|exact Hy].
Qed.

Lemma read_data_ok bt r ad pi ci bi b t (ps : list effect) au body es rest :
  found r ad pi ci bi b -> b_type b = bt -> data_band bt -> sr_wait r = false -> 0 <= t < 2 ^ 31 -> sr_time r = t ->
  address_ok ad -> ps <> [] -> vec_size ps < 65536 -> (au = RAU \/ au = DAU) ->
  vreads (readEffects bt (length ps)) body (Some es) ->
  readData r ((writeNBits 1 au ++ writeNBits 8 (ad_perception ad) ++ writeNBits 16 (ad_channel ad)
        ++ writeNBits 8 (ad_band ad) ++ writeNBits 16 (vec_size ps) ++ body) ++ rest)
    = Ok (true, set_haptic (change_band (addEffectsToBand (addTimestampEffect t es)) pi ci bi (sr_haptic r)) r).
Proof.
  intros (p & c & k & Hp & Hc & Hbef & Hsb & Hb) Hbt Hdb Hw Ht Hrt (A1 & A2 & A3) Hne Hps Hau Hv.
  set (bits := (_ ++ rest)). assert (H : at_ bits 0 (writeNBits 1 au ++ writeNBits 8 (ad_perception ad) ++ writeNBits 16 (ad_channel ad)
        ++ writeNBits 8 (ad_band ad) ++ writeNBits 16 (vec_size ps) ++ body)) by apply at_0. clearbody bits.
  unfold readData. vstep H (vreads_u1 au ltac:(unfold nbits, RAU, DAU in *; change (2 ^ 1) with 2; lia)).
  rewrite Hw. cbn [andb]. change (sr_haptic (set_wait false r)) with (sr_haptic r).
  vstep H (vreads_u8 _ A1). rewrite (search_first _ _ _ _ Hp).
  destruct (Z.eqb_spec (Z.of_nat pi) (-1)); [lia|]. rewrite (vec_at_nth _ _ _ (proj1 Hp)). cbn [obind].
  vstep H (vreads_u16 _ A2). rewrite (search_channel_first _ _ _ _ _ _ (proj1 Hp) Hc Hbef).
  destruct (Z.eqb_spec (Z.of_nat ci) (-1)); [lia|]. rewrite (vec_at_nth _ _ _ (proj1 Hc)). cbn [obind].
  vstep H (vreads_u8 _ A3). change (sr_bands (set_wait false r)) with (sr_bands r). rewrite (searchBand_first _ _ _ _ Hsb).
  destruct (Z.eqb_spec (Z.of_nat bi) (-1)); [lia|]. rewrite (vec_at_nth _ _ _ Hb). cbn [obind].
  vstep H (vreads_u16 _ (nbits16_size ps Hps)).
  replace (vec_size ps >? 0) with true by (unfold vec_size; destruct ps; [congruence|cbn [length]; lia]).
  replace (negb (b_type b =? WaveletB)) with true by (rewrite Hbt; destruct Hdb as [->|[->| ->]]; reflexivity).
  rewrite vec_size_nat, Hbt. vlast H Hv.
  change (sr_time (set_wait false r)) with (sr_time r). rewrite Hrt, (to_signed_id 32 t) by (try lia; change (2 ^ (Z.of_nat 32 - 1)) with (2 ^ 31); lia).
  rewrite (update_band_ok _ _ _ _ _ _ _ _ (proj1 Hp) (proj1 Hc) Hb). cbn [obind]. destruct r; cbn in *. now subst.
Qed.

(** *** Delivering the packets of a band *)

Lemma stamp_packet bt ad w p : packet_bits bt ad w p -> fst w < 2 ^ 31 -> stamped p /\ stamp p = fst w.
Proof.
  intros (au & b & es & _ & -> & _ & _ & _ & H0) Hw. unfold stamped, stamp.
  assert (E : forall x, firstn 32 (writeNBits 32 (fst w) ++ x) = writeNBits 32 (fst w)).
  { intros x. rewrite firstn_app, writeNBits_length, Nat.sub_diag. change (firstn 0 x) with (@nil bool). rewrite app_nil_r.
    apply firstn_all2. rewrite writeNBits_length. lia. }
  rewrite E, bits_val_writeNBits_small by (change (2 ^ Z.of_nat 32) with (2 ^ 32); lia).
  rewrite app_length, writeNBits_length. repeat split; lia.
Qed.
Lemma skip_packet t x : skipn 32 (writeNBits 32 t ++ x) = x.
Proof.
  rewrite skipn_app, writeNBits_length, Nat.sub_diag. change (skipn 0 x) with x. rewrite skipn_all2 by (rewrite writeNBits_length; lia). reflexivity.
Qed.
Lemma fillBitset_app bs : exists pad, fillBitset bs = bs ++ pad.
Proof. eexists. reflexivity. Qed.

Lemma packet_carries bt ad w p : address_ok ad -> vec_size (snd w) < 65536 -> fst w < 2 ^ 31 -> packet_bits bt ad w p -> carries bt ad w p.
Proof.
  intros (A1 & A2 & A3) Hn Hw H. split; [apply (stamp_packet bt ad w p H Hw)|]. split; [apply (stamp_packet bt ad w p H Hw)|].
  destruct H as (au & b & es & Hau & -> & Hv & HR & _). rewrite skip_packet. cbv zeta.
  set (q := _ ++ _). assert (H : at_ q 0 (writeNBits 1 au ++ writeNBits 8 (ad_perception ad) ++ writeNBits 16 (ad_channel ad)
        ++ writeNBits 8 (ad_band ad) ++ writeNBits 16 (vec_size (snd w)) ++ b)) by (exists [], []; rewrite app_nil_r; auto).
  assert (Hq : length q = (49 + length b)%nat) by (unfold q; rewrite !app_length, !writeNBits_length; lia).
  clearbody q.
  apply at_app in H. destruct H as [_ H]. rewrite writeNBits_length in H. cbn [Nat.add] in H.
  apply at_app in H. destruct H as [H1 H]. rewrite (vreads_u8 _ A1 _ _ H1). rewrite writeNBits_length in *. cbn [Nat.add] in *.
  apply at_app in H. destruct H as [H2 H]. rewrite (vreads_u16 _ A2 _ _ H2). rewrite writeNBits_length in *. cbn [Nat.add] in *.
  apply at_app in H. destruct H as [H3 H]. rewrite (vreads_u8 _ A3 _ _ H3). rewrite writeNBits_length in *. cbn [Nat.add] in *.
  apply at_app in H. destruct H as [H4 H]. rewrite (vreads_u16 _ (nbits16_size _ Hn) _ _ H4). rewrite writeNBits_length in *. cbn [Nat.add] in *.
  repeat (split; [reflexivity|]). exists es. split; [|exact HR]. rewrite (Hv _ _ H), Hq. reflexivity.
Qed.

Lemma map_nth_nth {A} (f : A -> A) l : forall n x, nth_error l n = Some x -> nth_error (map_nth f n l) n = Some (f x).
Proof. induction l as [|y l IH]; intros [|n] x H; cbn in *; try discriminate; [congruence|auto]. Qed.
Lemma map_nth_other {A} (f : A -> A) l : forall n m, n <> m -> nth_error (map_nth f n l) m = nth_error l m.
Proof. induction l as [|y l IH]; intros [|n] [|m] H; cbn in *; try congruence; auto. Qed.
Lemma map_nth_map_nth {A} (f g : A -> A) l : forall n, map_nth g n (map_nth f n l) = map_nth (fun x => g (f x)) n l.
Proof. induction l as [|y l IH]; intros [|n]; cbn; [reflexivity..|]. now rewrite IH. Qed.
Lemma map_nth_ext {A} (f g : A -> A) l : forall n, (forall x, nth_error l n = Some x -> f x = g x) -> map_nth f n l = map_nth g n l.
Proof. induction l as [|y l IH]; intros [|n] H; cbn in *; [reflexivity..| |]. { now rewrite (H y). } { now rewrite (IH n). } Qed.

Lemma first_map_nth {A} (P : A -> Prop) (f : A -> A) l n x m : (forall y, P (f y) <-> P y) ->
  first_at P l n x -> first_at P (map_nth f m l) n (if Nat.eqb m n then f x else x).
Proof.
  intros Hf (H1 & H2 & H3). split; [|split].
  - destruct (Nat.eqb_spec m n) as [->|Hne]; [now apply map_nth_nth|now rewrite map_nth_other].
  - destruct (Nat.eqb m n); [now apply Hf|exact H2].
  - intros k y Hk Hy. destruct (Nat.eq_dec m k) as [->|Hne].
    + destruct (nth_error l k) as [z|] eqn:E.
      * rewrite (map_nth_nth f l k z E) in Hy. injection Hy as <-. rewrite Hf. exact (H3 k z Hk E).
      * exfalso. assert (Hl : (k < length l)%nat) by (apply Nat.lt_trans with n; [exact Hk|apply nth_error_Some; congruence]).
        apply nth_error_Some in Hl. congruence.
    + rewrite map_nth_other in Hy by exact Hne. exact (H3 k y Hk Hy).
Qed.

(** Changing the effects of the band keeps it found. *)
Lemma found_change r ad pi ci bi b f : found r ad pi ci bi b ->
  found (set_haptic (change_band f pi ci bi (sr_haptic r)) r) ad pi ci bi (f b).
Proof.
  intros (p & c & k & Hp & Hc & Hbef & Hsb & Hb).
  exists (set_channels (map_nth (fun c => set_bands (map_nth f bi (c_bands c)) c) ci (p_channels p)) p),
    (set_bands (map_nth f bi (c_bands c)) c), k. cbv zeta.
  change (sr_bands (set_haptic (change_band f pi ci bi (sr_haptic r)) r)) with (sr_bands r).
  change (h_perceptions (sr_haptic (set_haptic (change_band f pi ci bi (sr_haptic r)) r))) with
    (map_nth (fun p => set_channels (map_nth (fun c => set_bands (map_nth f bi (c_bands c)) c) ci (p_channels p)) p) pi (h_perceptions (sr_haptic r))).
  split; [|split; [|split; [|split; [exact Hsb|]]]].
  - pose proof (first_map_nth (fun p => p_id p = ad_perception ad) (fun p => set_channels (map_nth (fun c => set_bands (map_nth f bi (c_bands c)) c) ci (p_channels p)) p) _ _ _ pi
      ltac:(intros []; reflexivity) Hp) as H. rewrite Nat.eqb_refl in H. exact H.
  - pose proof (first_map_nth (fun c => c_id c = ad_channel ad) (fun c => set_bands (map_nth f bi (c_bands c)) c) _ _ _ ci
      ltac:(intros []; reflexivity) Hc) as H. rewrite Nat.eqb_refl in H. destruct p; exact H.
  - intros m q Hm Hq. rewrite map_nth_other in Hq by lia. exact (Hbef m q Hm Hq).
  - destruct c; cbn in *. now apply map_nth_nth.
Qed.
Lemma set_perceptions_twice a b h : set_perceptions a (set_perceptions b h) = set_perceptions a h. Proof. destruct h; reflexivity. Qed.
Lemma set_channels_twice a b p : set_channels a (set_channels b p) = set_channels a p. Proof. destruct p; reflexivity. Qed.
Lemma set_bands_twice a b c : set_bands a (set_bands b c) = set_bands a c. Proof. destruct c; reflexivity. Qed.
Lemma perceptions_set l h : h_perceptions (set_perceptions l h) = l. Proof. destruct h; reflexivity. Qed.
Lemma channels_set l p : p_channels (set_channels l p) = l. Proof. destruct p; reflexivity. Qed.
Lemma bands_set l c : c_bands (set_bands l c) = l. Proof. destruct c; reflexivity. Qed.
Lemma change_change f g pi ci bi h : change_band g pi ci bi (change_band f pi ci bi h) = change_band (fun b => g (f b)) pi ci bi h.
Proof.
  unfold change_band. rewrite set_perceptions_twice, perceptions_set, map_nth_map_nth. f_equal. apply map_nth_ext. intros p _.
  rewrite set_channels_twice, channels_set, map_nth_map_nth. f_equal. apply map_nth_ext. intros c _.
  rewrite set_bands_twice, bands_set, map_nth_map_nth. reflexivity.
Qed.
Lemma change_ext f g pi ci bi h p c b : nth_error (h_perceptions h) pi = Some p -> nth_error (p_channels p) ci = Some c ->
  nth_error (c_bands c) bi = Some b -> f b = g b -> change_band f pi ci bi h = change_band g pi ci bi h.
Proof.
  intros Hp Hc Hb E. unfold change_band. f_equal. apply map_nth_ext. intros p' Hp'. rewrite Hp in Hp'. injection Hp' as <-.
  f_equal. apply map_nth_ext. intros c' Hc'. rewrite Hc in Hc'. injection Hc' as <-.
  f_equal. apply map_nth_ext. intros b' Hb'. rewrite Hb in Hb'. injection Hb' as <-. exact E.
Qed.
Lemma change_id pi ci bi h : change_band (fun b => b) pi ci bi h = h.
Proof.
  assert (Hid : forall A (f : A -> A) l n, (forall x, f x = x) -> map_nth f n l = l).
  { intros A f l. induction l as [|x l IH]; intros [|n] H; cbn; [reflexivity..| |]; [now rewrite H|now rewrite IH]. }
  unfold change_band. transitivity (set_perceptions (h_perceptions h) h); [|destruct h; reflexivity]. f_equal. apply Hid. intros p.
  transitivity (set_channels (p_channels p) p); [|destruct p; reflexivity]. f_equal.
  apply Hid. intros c. transitivity (set_bands (c_bands c) c); [|destruct c; reflexivity]. f_equal. apply Hid. reflexivity.
Qed.

Lemma deliver_ok bt pd L ad pi ci bi : data_band bt -> 0 < pd -> NoDup (map e_id L) -> sorted_by_position L -> in_sequence L ->
  address_ok ad -> vec_size L < 65536 ->
  forall n i packets r b, found r ad pi ci bi b -> b_type b = bt -> sr_wait r = false -> Z.of_nat (i + n) * pd <= 2 ^ 31 ->
  Forall2 (packet_bits bt ad) (windows_from pd L i n) packets ->
  Forall2 (data_sent bt) (window 0 (Z.of_nat i * pd) L) (b_effects b) ->
  exists r' l, deliver packets r = Ok r' /\ found r' ad pi ci bi (set_effects l b) /\
    Forall2 (data_sent bt) (window 0 (Z.of_nat (i + n) * pd) L) l /\
    sr_haptic r' = change_band (set_effects l) pi ci bi (sr_haptic r) /\ sr_bands r' = sr_bands r /\ sr_wait r' = false.
Proof.
  intros Hdb Hpd Hids Hpos Hseq Had HL. induction n as [|n IH]; intros i packets r b Hf Hb Hw Hbound Hp He.
  - cbn in Hp. inversion Hp; subst. exists r, (b_effects b). split; [reflexivity|].
    replace (set_effects (b_effects b) b) with b by (destruct b; reflexivity).
    split; [exact Hf|]. rewrite Nat.add_0_r. split; [exact He|]. split; [|auto].
    destruct Hf as (p & c & k & H1 & H2 & _ & _ & H3).
    rewrite <- (change_id pi ci bi (sr_haptic r)) at 1. eapply change_ext; [apply H1|apply H2|apply H3|destruct b; reflexivity].
  - assert (Ew : windows_from pd L i (S n) = filter (fun w => match snd w with [] => false | _ => true end)
      [(Z.of_nat i * pd, window (Z.of_nat i * pd) (Z.of_nat i * pd + pd) L)] ++ windows_from pd L (S i) n).
    { unfold windows_from. cbn [seq map]. rewrite <- filter_app. reflexivity. }
    rewrite Ew in Hp. cbn [filter snd] in Hp.
    replace (i + S n)%nat with (S i + n)%nat in * by lia.
    assert (ES : Z.of_nat (S i) * pd = Z.of_nat i * pd + pd) by nia.
    destruct (window (Z.of_nat i * pd) (Z.of_nat i * pd + pd) L) as [|x xs] eqn:Ewin.
    + cbn [app] in Hp. apply (IH (S i) packets r b Hf Hb Hw Hbound Hp).
      rewrite ES, (window_skip L Hseq (Z.of_nat i * pd) (Z.of_nat i * pd + pd)) by (try exact Ewin; nia). exact He.
    + cbn [app] in Hp. inversion Hp as [|? p ? ps Hp1 Hps]; subst.
      set (t := Z.of_nat i * pd) in *. assert (Ht : 0 <= t < 2 ^ 31) by (unfold t; nia).
      destruct (stamp_packet _ _ _ _ Hp1 ltac:(cbn [fst]; lia)) as [_ Est]. cbn [fst] in Est.
      destruct Hp1 as (au & body & es & Hau & Ep & Hv & HR & Hne & _). cbn [fst snd] in *.
      assert (Hsz : vec_size (x :: xs) < 65536).
      { rewrite <- Ewin. clear - HL. unfold vec_size, window in *.
        assert (H : forall l, (length (flat_map (part t (t + pd)) l) <= length l)%nat).
        { induction l as [|e l IHl]; cbn [flat_map length]; [lia|]. rewrite app_length.
          assert ((length (part t (t + pd) e) <= 1)%nat); [|lia]. unfold part. destruct (_ =? _); [destruct (filter _ _); cbn; lia|destruct (_ && _); cbn; lia]. }
        specialize (H L). lia. }
      cbn [deliver]. rewrite Est. destruct (fillBitset_app p) as (pad & ->). rewrite Ep, <- !app_assoc, skip_packet.
      assert (Hf' : found (at_time t r) ad pi ci bi b) by exact Hf.
      pose proof (read_data_ok (b_type b) (at_time t r) ad pi ci bi b t (x :: xs) au body es pad Hf' eq_refl Hdb Hw Ht eq_refl Had Hne Hsz Hau Hv) as Hrd.
      rewrite <- !app_assoc in Hrd. rewrite Hrd. cbn [obind]. clear Hrd.
      change (sr_haptic (at_time t r)) with (sr_haptic r).
      destruct (merge_next (b_type b) L Hids Hpos Hseq t (t + pd) (addTimestampEffect t es) b ltac:(lia) ltac:(rewrite Ewin; exact HR) He) as (l & El & Hl).
      pose proof (found_change (at_time t r) ad pi ci bi b (addEffectsToBand (addTimestampEffect t es)) Hf') as Hf2.
      rewrite El in Hf2. change (sr_haptic (at_time t r)) with (sr_haptic r) in Hf2.
      set (r2 := set_haptic _ (at_time t r)) in *.
      destruct (IH (S i) ps r2 (set_effects l b) Hf2 ltac:(destruct b; reflexivity) Hw Hbound Hps) as (r' & l' & Hd & Hf3 & HF & Hh & Hbs & Hw').
      { rewrite ES. destruct b; exact Hl. }
      exists r', l'. split; [exact Hd|]. split; [destruct b; exact Hf3|]. split; [exact HF|].
      split; [|split; [exact Hbs|exact Hw']]. rewrite Hh. unfold r2. cbn [sr_haptic set_haptic]. rewrite change_change.
      destruct Hf as (p0 & c & k & H1 & H2 & _ & _ & H3). eapply change_ext; [apply H1|apply H2|apply H3|].
      cbv beta. rewrite El. destruct b; reflexivity.
Qed.
