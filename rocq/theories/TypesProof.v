(** Lemmas about the containers. *)
From Coq Require Import Sorting.Sorted Sorting.Permutation.
From Verif Require Import Base BitsModel FloatBase TypesModel TypesSpec.

Ltac Zify.zify_post_hook ::= Z.div_mod_to_equations.

(** * Lists *)
Lemma vec_set_split {A} (l : list A) i x : (i < length l)%nat ->
  exists a y b, l = a ++ y :: b /\ length a = i /\ vec_set l i x = a ++ x :: b.
Proof.
  revert i. induction l as [|h t IH]; intros i Hi; [cbn in Hi; lia|].
  destruct i as [|i].
  - exists [], h, t. repeat split; reflexivity.
  - cbn in Hi. destruct (IH i) as (a & y & b & E1 & E2 & E3); [lia|].
    exists (h :: a), y, b. cbn. rewrite E1 at 1. rewrite E3, E2. repeat split; reflexivity.
Qed.
Lemma vec_erase_split {A} (l : list A) i : (i < length l)%nat ->
  exists a y b, l = a ++ y :: b /\ length a = i /\ vec_erase l i = a ++ b.
Proof.
  revert i. induction l as [|h t IH]; intros i Hi; [cbn in Hi; lia|].
  destruct i as [|i].
  - exists [], h, t. repeat split; reflexivity.
  - cbn in Hi. destruct (IH i) as (a & y & b & E1 & E2 & E3); [lia|].
    exists (h :: a), y, b. cbn. rewrite E1 at 1. rewrite E3, E2. repeat split; reflexivity.
Qed.
Lemma vec_set_length {A} (l : list A) i x : length (vec_set l i x) = length l.
Proof. revert i; induction l as [|h t IH]; intros [|i]; cbn; auto. Qed.
Lemma vec_set_same {A} (l : list A) i x : (i < length l)%nat -> nth_error (vec_set l i x) i = Some x.
Proof. revert i; induction l as [|h t IH]; intros [|i] Hi; cbn in *; try lia; auto. apply IH. lia. Qed.
Lemma vec_set_other {A} (l : list A) i j x : i <> j -> nth_error (vec_set l i x) j = nth_error l j.
Proof. revert i j; induction l as [|h t IH]; intros [|i] [|j] Hi; cbn in *; try lia; auto. Qed.

Lemma index_test {A} (l : list A) i :
  ((i <? 0) || (i >=? vec_size l))%bool = false <-> valid_index l i.
Proof. unfold valid_index, vec_size. lia. Qed.

(** Generic proof of the two contracts. *)
Lemma replace_generic {C A} (elems : C -> list A) (put : list A -> C -> C) (same : C -> C -> Prop) :
  (forall l c, elems (put l c) = l) -> (forall l c, same c (put l c)) ->
  forall c i x,
  replace_contract elems same c i x
    (if (i <? 0) || (i >=? vec_size (elems c)) then (false, c)
     else (true, put (vec_set (elems c) (Z.to_nat i) x) c)).
Proof.
  intros He Hs c i x. unfold replace_contract.
  pose proof (index_test (elems c) i) as Hi.
  destruct ((i <? 0) || (i >=? vec_size (elems c)))%bool eqn:E.
  - cbn [fst snd]. split; [|split]; [split; [discriminate|]|discriminate|reflexivity].
    intro H. apply Hi in H. discriminate.
  - cbn [fst snd]. assert (V : valid_index (elems c) i) by (apply Hi; reflexivity).
    split; [split; auto|]. split; [|discriminate]. intros _. split; [|apply Hs].
    rewrite He. unfold valid_index in V.
    destruct (vec_set_split (elems c) (Z.to_nat i) x) as (a & y & b & E1 & E2 & E3); [lia|].
    exists a, y, b. rewrite E3, E2. repeat split; auto. lia.
Qed.
Lemma remove_generic {C A} (elems : C -> list A) (put : list A -> C -> C) (same : C -> C -> Prop) :
  (forall l c, elems (put l c) = l) -> (forall l c, same c (put l c)) ->
  forall c i,
  remove_contract elems same c i
    (if (i <? 0) || (i >=? vec_size (elems c)) then (false, c)
     else (true, put (vec_erase (elems c) (Z.to_nat i)) c)).
Proof.
  intros He Hs c i. unfold remove_contract.
  pose proof (index_test (elems c) i) as Hi.
  destruct ((i <? 0) || (i >=? vec_size (elems c)))%bool eqn:E.
  - cbn [fst snd]. split; [|split]; [split; [discriminate|]|discriminate|reflexivity].
    intro H. apply Hi in H. discriminate.
  - cbn [fst snd]. assert (V : valid_index (elems c) i) by (apply Hi; reflexivity).
    split; [split; auto|]. split; [|discriminate]. intros _. split; [|apply Hs].
    rewrite He. unfold valid_index in V.
    destruct (vec_erase_split (elems c) (Z.to_nat i)) as (a & y & b & E1 & E2 & E3); [lia|].
    exists a, y, b. rewrite E3, E2. repeat split; auto. lia.
Qed.

Lemma replaceKeyframeAt_ok c i x :
  replace_contract e_kfs effect_same_but_keyframes c i x (replaceKeyframeAt i x c).
Proof. apply (replace_generic e_kfs set_kfs); intros; repeat split. Qed.
Lemma removeKeyframeAt_ok c i :
  remove_contract e_kfs effect_same_but_keyframes c i (removeKeyframeAt i c).
Proof. apply (remove_generic e_kfs set_kfs); intros; repeat split. Qed.
Lemma replaceEffectAt_ok c i x :
  replace_contract b_effects band_same_but_effects c i x (replaceEffectAt i x c).
Proof. apply (replace_generic b_effects set_effects); intros; repeat split. Qed.
Lemma removeEffectAt_ok c i :
  remove_contract b_effects band_same_but_effects c i (removeEffectAt i c).
Proof. apply (remove_generic b_effects set_effects); intros; repeat split. Qed.
Lemma replaceBandAt_ok c i x :
  replace_contract c_bands channel_same_but_bands c i x (replaceBandAt i x c).
Proof. apply (replace_generic c_bands set_bands); intros; repeat split. Qed.
Lemma removeBandAt_ok c i :
  remove_contract c_bands channel_same_but_bands c i (removeBandAt i c).
Proof. apply (remove_generic c_bands set_bands); intros; repeat split. Qed.
Lemma replaceChannelAt_ok c i x :
  replace_contract p_channels perception_same_but_channels c i x (replaceChannelAt i x c).
Proof. apply (replace_generic p_channels set_channels); intros; repeat split. Qed.
Lemma removeChannelAt_ok c i :
  remove_contract p_channels perception_same_but_channels c i (removeChannelAt i c).
Proof. apply (remove_generic p_channels set_channels); intros; repeat split. Qed.
Lemma replacePerceptionAt_ok c i x :
  replace_contract h_perceptions haptics_same_but_perceptions c i x (replacePerceptionAt i x c).
Proof. apply (replace_generic h_perceptions set_perceptions); intros; repeat split. Qed.
Lemma removePerceptionAt_ok c i :
  remove_contract h_perceptions haptics_same_but_perceptions c i (removePerceptionAt i c).
Proof. apply (remove_generic h_perceptions set_perceptions); intros; repeat split. Qed.

(** * C31 *)
Lemma insert_perm x l : Permutation (insert_effect x l) (x :: l).
Proof.
  induction l as [|e r IH]; cbn; [reflexivity|].
  destruct (e_pos e >? e_pos x); [reflexivity|].
  rewrite IH. apply perm_swap.
Qed.
Lemma insert_sorted x l : sorted_by_position l -> sorted_by_position (insert_effect x l).
Proof.
  unfold sorted_by_position. induction l as [|e r IH]; cbn; intros H.
  - repeat constructor.
  - inversion H as [|? ? Hr Hf]; subst.
    destruct (e_pos e >? e_pos x) eqn:E.
    + constructor; [exact H|]. constructor; [lia|].
      eapply Forall_impl; [|exact Hf]. cbn. lia.
    + constructor; [apply IH; exact Hr|].
      apply Forall_forall. intros y Hy.
      apply (Permutation_in _ (insert_perm x r)) in Hy. destruct Hy as [->|Hy]; [lia|].
      rewrite Forall_forall in Hf. apply Hf. exact Hy.
Qed.
Lemma filter_none {A} (f : A -> bool) l : (forall x, In x l -> f x = false) -> filter f l = [].
Proof.
  induction l as [|h t IH]; intros H; [reflexivity|]. cbn. rewrite (H h (or_introl eq_refl)).
  apply IH. intros x Hx. apply H. right. exact Hx.
Qed.
Lemma insert_at_position x l p : sorted_by_position l ->
  at_position p (insert_effect x l) = at_position p l ++ at_position p [x].
Proof.
  unfold at_position, sorted_by_position. induction l as [|e r IH]; intros H.
  - reflexivity.
  - inversion H as [|? ? Hr Hf]; subst. cbn [insert_effect].
    destruct (e_pos e >? e_pos x) eqn:E.
    + cbn [filter]. destruct (e_pos x =? p) eqn:Ep.
      * rewrite (filter_none _ r).
        -- destruct (e_pos e =? p) eqn:Ep2; [lia|reflexivity].
        -- intros y Hy. rewrite Forall_forall in Hf. specialize (Hf y Hy). cbn in Hf. lia.
      * rewrite app_nil_r. reflexivity.
    + cbn [filter]. rewrite (IH Hr). destruct (e_pos e =? p); reflexivity.
Qed.

Lemma add_all_ok xs : forall b, sorted_by_position (b_effects b) ->
  let r := add_all xs b in
  sorted_by_position (b_effects r)
  /\ Permutation (b_effects r) (b_effects b ++ xs)
  /\ (forall p, at_position p (b_effects r) = at_position p (b_effects b) ++ at_position p xs)
  /\ band_same_but_effects b r.
Proof.
  induction xs as [|x xs IH]; intros b Hb; cbn zeta.
  - cbn. rewrite app_nil_r. repeat split; auto. intro p. rewrite app_nil_r. reflexivity.
  - destruct (IH (addEffect x b)) as (H1 & H2 & H3 & H4); [apply insert_sorted; exact Hb|].
    cbn [add_all fold_left]. fold (add_all xs (addEffect x b)).
    split; [exact H1|]. split; [|split].
    + rewrite H2. cbn [addEffect set_effects b_effects]. rewrite insert_perm. cbn.
      apply Permutation_middle.
    + intro p. rewrite H3. cbn [addEffect set_effects b_effects]. rewrite insert_at_position by exact Hb.
      rewrite <- app_assoc. f_equal. unfold at_position. cbn. destruct (e_pos x =? p); reflexivity.
    + unfold band_same_but_effects in *. cbn in H4. exact H4.
Qed.

Lemma add_all_empty (b : band) (xs : list effect) : b_effects b = [] ->
  let r := add_all xs b in
  sorted_by_position (b_effects r)
  /\ Permutation (b_effects r) xs
  /\ (forall p, at_position p (b_effects r) = at_position p xs)
  /\ band_same_but_effects b r.
Proof.
  intros H. destruct (add_all_ok xs b) as (H1 & H2 & H3 & H4); [rewrite H; constructor|].
  rewrite H in H2, H3. auto.
Qed.

(** Insertions and removals in any order keep the band sorted. *)
Lemma sorted_remove {A} (R : A -> A -> Prop) a y b : StronglySorted R (a ++ y :: b) -> StronglySorted R (a ++ b).
Proof.
  induction a as [|h t IH]; cbn; intros H; inversion H as [|? ? H1 H2]; subst; [exact H1|].
  constructor; [apply IH; exact H1|].
  rewrite Forall_forall in *. intros z Hz. apply H2. rewrite in_app_iff in *. cbn. tauto.
Qed.
Lemma band_ops_sorted os : forall b, sorted_by_position (b_effects b) ->
  sorted_by_position (b_effects (fold_left band_run os b)).
Proof.
  induction os as [|o os IH]; intros b Hb; [exact Hb|]. cbn [fold_left]. apply IH.
  destruct o as [x|i]; cbn [band_run].
  - apply insert_sorted. exact Hb.
  - destruct (removeEffectAt_ok b i) as (_ & H2 & H3). destruct (fst (removeEffectAt i b)) eqn:E.
    + destruct (H2 eq_refl) as ((a & y & r & E1 & E2 & E3) & _). rewrite E3. rewrite E1 in Hb.
      eapply sorted_remove. exact Hb.
    + rewrite (H3 eq_refl). exact Hb.
Qed.

(** * C33 *)
Definition kfs_ok (l : list keyframe) : Prop :=
  StronglySorted kpos_lt l /\ Forall (fun k => k_pos k <> None) l.

Definition lookup (l : list keyframe) (p : Z) : option keyframe := find (fun k => opt_is (k_pos k) p) l.

Definition kf_amp_of (o : option keyframe) := match o with Some k => k_amp k | None => None end.
Definition kf_freq_of (o : option keyframe) := match o with Some k => k_freq k | None => None end.

Lemma kfs_ok_inv k r : kfs_ok (k :: r) ->
  exists p, k_pos k = Some p /\ kfs_ok r /\ Forall (fun x => exists q, k_pos x = Some q /\ p < q) r.
Proof.
  intros [H1 H2]. inversion H1 as [|? ? Hs Hf]; subst. inversion H2 as [|? ? Hn Hr]; subst.
  destruct (k_pos k) as [p|] eqn:E; [|congruence]. exists p. split; [reflexivity|]. split; [split; assumption|].
  eapply Forall_impl; [|exact Hf]. intros x (p' & q & Ep & Eq & Hl). exists q. split; [exact Eq|]. congruence.
Qed.
Lemma kfs_ok_cons k r p : k_pos k = Some p -> kfs_ok r ->
  Forall (fun x => exists q, k_pos x = Some q /\ p < q) r -> kfs_ok (k :: r).
Proof.
  intros E [H1 H2] Hf. split; constructor; auto; [|congruence].
  eapply Forall_impl; [|exact Hf]. intros x (q & Eq & Hl). exists p, q. auto.
Qed.
Lemma lookup_none r p q : Forall (fun x => exists q, k_pos x = Some q /\ p < q) r -> q <= p -> lookup r q = None.
Proof.
  intros H Hq. unfold lookup. induction r as [|h t IH]; [reflexivity|].
  inversion H as [|? ? (z & Ez & Hz) Ht]; subst. cbn. rewrite Ez. cbn.
  destruct (z =? q) eqn:E; [lia|]. apply IH. exact Ht.
Qed.

(** A generic update at a position: [mk] builds a new keyframe, [up] updates an existing one. *)
Fixpoint kfs_update (mk : keyframe) (up : keyframe -> keyframe) (p : Z) (l : list keyframe) : list keyframe :=
  match l with
  | [] => [mk]
  | k :: r =>
      if opt_ge (k_pos k) p then if opt_is (k_pos k) p then up k :: r else mk :: k :: r
      else k :: kfs_update mk up p r
  end.
Lemma amp_update a p l :
  kfs_addAmplitudeAt a p true l
  = kfs_update (Keyframe (Some p) a None) (fun k => Keyframe (k_pos k) a (k_freq k)) p l.
Proof. induction l as [|k r IH]; [reflexivity|]. cbn. rewrite IH. reflexivity. Qed.
Lemma freq_update f p l :
  kfs_addFrequencyAt f p l
  = kfs_update (Keyframe (Some p) None f) (fun k => Keyframe (k_pos k) (k_amp k) f) p l.
Proof. induction l as [|k r IH]; [reflexivity|]. cbn. rewrite IH. reflexivity. Qed.

Lemma kfs_update_ok mk up p : k_pos mk = Some p -> (forall k, k_pos (up k) = k_pos k) ->
  forall l, kfs_ok l ->
  kfs_ok (kfs_update mk up p l)
  /\ (forall q, q <> p -> lookup (kfs_update mk up p l) q = lookup l q)
  /\ lookup (kfs_update mk up p l) p
     = Some (match lookup l p with Some k => up k | None => mk end)
  /\ (forall b, b < p -> Forall (fun x => exists q, k_pos x = Some q /\ b < q) l ->
        Forall (fun x => exists q, k_pos x = Some q /\ b < q) (kfs_update mk up p l)).
Proof.
  intros Hm Hu. induction l as [|k r IH]; intros Hl.
  - cbn. split; [|split; [|split]].
    + apply (kfs_ok_cons _ _ p); [assumption|split; constructor|constructor].
    + intros q Hq. unfold lookup. cbn. rewrite Hm. cbn. destruct (p =? q) eqn:E; [lia|reflexivity].
    + unfold lookup. cbn. rewrite Hm. cbn. rewrite Z.eqb_refl. reflexivity.
    + intros b Hb _. constructor; [exists p; auto|constructor].
  - destruct (kfs_ok_inv _ _ Hl) as (z & Ez & Hr & Hf). cbn [kfs_update]. rewrite Ez. cbn [opt_ge opt_is].
    destruct (z >=? p) eqn:Eg.
    + destruct (z =? p) eqn:Ee.
      * assert (z = p) by lia. subst z. split; [|split; [|split]].
        -- apply (kfs_ok_cons _ _ p); auto. rewrite Hu. exact Ez.
        -- intros q Hq. unfold lookup. cbn. rewrite Hu, Ez. cbn.
           destruct (p =? q) eqn:E; [lia|reflexivity].
        -- unfold lookup. cbn. rewrite Hu, Ez. cbn. rewrite Z.eqb_refl. reflexivity.
        -- intros b Hb Hbl. inversion Hbl; subst. constructor; auto. exists p. rewrite Hu. auto.
      * split; [|split; [|split]].
        -- apply (kfs_ok_cons _ _ p); auto. constructor; [exists z; split; [exact Ez|lia]|].
           eapply Forall_impl; [|exact Hf]. intros x (q & Eq & Hq). exists q. split; auto. lia.
        -- intros q Hq. unfold lookup. cbn. rewrite Hm. cbn. destruct (p =? q) eqn:E; [lia|reflexivity].
        -- fold (lookup (k :: r) p). assert (Hn : lookup (k :: r) p = None).
           { unfold lookup. cbn. rewrite Ez. cbn. rewrite Ee. apply (lookup_none _ z); auto. lia. }
           rewrite Hn. unfold lookup. cbn. rewrite Hm. cbn. rewrite Z.eqb_refl. reflexivity.
        -- intros b Hb Hbl. constructor; auto. exists p. auto.
    + destruct (IH Hr) as (I1 & I2 & I3 & I4). split; [|split; [|split]].
      * apply (kfs_ok_cons _ _ z); auto. apply I4; auto. lia.
      * intros q Hq. specialize (I2 q Hq). unfold lookup in *. cbn. rewrite I2. reflexivity.
      * unfold lookup in *. cbn. rewrite Ez. cbn. destruct (z =? p) eqn:E; [lia|]. exact I3.
      * intros b Hb Hbl. inversion Hbl; subst. constructor; auto.
Qed.

Lemma kf_ops h : forall e, kfs_ok (e_kfs e) ->
  let r := fold_left kf_step h e in
  kfs_ok (e_kfs r)
  /\ (forall p, kf_amp_of (lookup (e_kfs r) p) = last_amp h p (kf_amp_of (lookup (e_kfs e) p)))
  /\ (forall p, kf_freq_of (lookup (e_kfs r) p) = last_freq h p (kf_freq_of (lookup (e_kfs e) p)))
  /\ (forall p, lookup (e_kfs r) p <> None <-> lookup (e_kfs e) p <> None \/ In p (map op_pos h))
  /\ effect_same_but_keyframes e r.
Proof.
  induction h as [|o h IH]; intros e He; cbn zeta.
  - cbn. repeat split; auto; try apply He; try tauto.
  - cbn [fold_left]. 
    assert (G : exists mk up, k_pos mk = Some (op_pos o) /\ (forall k, k_pos (up k) = k_pos k)
      /\ e_kfs (kf_step e o) = kfs_update mk up (op_pos o) (e_kfs e)
      /\ effect_same_but_keyframes e (kf_step e o)
      /\ (forall x, last_amp (o :: h) (op_pos o) (kf_amp_of x)
            = last_amp h (op_pos o) (k_amp (match x with Some k => up k | None => mk end)))
      /\ (forall x, last_freq (o :: h) (op_pos o) (kf_freq_of x)
            = last_freq h (op_pos o) (k_freq (match x with Some k => up k | None => mk end)))
      /\ (forall p d, p <> op_pos o -> last_amp (o :: h) p d = last_amp h p d)
      /\ (forall p d, p <> op_pos o -> last_freq (o :: h) p d = last_freq h p d)).
    { destruct o as [a p|f p].
      - exists (Keyframe (Some p) a None), (fun k => Keyframe (k_pos k) a (k_freq k)).
        cbn. rewrite amp_update, Z.eqb_refl. repeat (split; [solve [auto | repeat split | intros [x|]; reflexivity
          | intros q d Hq; destruct (p =? q) eqn:E; [lia|reflexivity]]|]). auto.
      - exists (Keyframe (Some p) None f), (fun k => Keyframe (k_pos k) (k_amp k) f).
        cbn. rewrite freq_update, Z.eqb_refl. repeat (split; [solve [auto | repeat split | intros [x|]; reflexivity]|]).
        intros q d Hq; destruct (p =? q) eqn:E; [lia|reflexivity]. }
    destruct G as (mk & up & G1 & G2 & G3 & G4 & G5 & G6 & G7 & G8).
    destruct (kfs_update_ok mk up (op_pos o) G1 G2 (e_kfs e) He) as (U1 & U2 & U3 & _).
    rewrite <- G3 in U1, U2, U3.
    destruct (IH (kf_step e o) U1) as (I1 & I2 & I3 & I4 & I5).
    split; [exact I1|]. split; [|split; [|split]].
    + intro p. rewrite I2. destruct (Z.eq_dec p (op_pos o)) as [->|Hp].
      * rewrite U3. rewrite G5. reflexivity.
      * rewrite U2 by exact Hp. rewrite G7 by exact Hp. reflexivity.
    + intro p. rewrite I3. destruct (Z.eq_dec p (op_pos o)) as [->|Hp].
      * rewrite U3. rewrite G6. reflexivity.
      * rewrite U2 by exact Hp. rewrite G8 by exact Hp. reflexivity.
    + intro p. rewrite I4. cbn [map In]. destruct (Z.eq_dec p (op_pos o)) as [->|Hp].
      * rewrite U3. split; intros _; [right; left; reflexivity|left; discriminate].
      * rewrite U2 by exact Hp. split; intros [H|H]; auto. destruct H as [H|H]; [congruence|auto].
    + unfold effect_same_but_keyframes in *. intuition congruence.
Qed.

Lemma lookup_in l : kfs_ok l -> forall k, In k l <-> exists p, k_pos k = Some p /\ lookup l p = Some k.
Proof.
  induction l as [|h t IH]; intros Hl k.
  - split; [intros []|intros (p & _ & H); discriminate].
  - destruct (kfs_ok_inv _ _ Hl) as (z & Ez & Hr & Hf). specialize (IH Hr k). split.
    + intros [->|Hk].
      * exists z. split; [exact Ez|]. unfold lookup. cbn. rewrite Ez. cbn. rewrite Z.eqb_refl. reflexivity.
      * destruct IH as [IH _]. destruct (IH Hk) as (p & Ep & E). exists p. split; [exact Ep|].
        unfold lookup in *. cbn. rewrite Ez. cbn. destruct (z =? p) eqn:Ezp; [|exact E].
        rewrite Forall_forall in Hf. destruct (Hf k Hk) as (q & Eq & Hq). rewrite Ep in Eq. injection Eq as ->. lia.
    + intros (p & Ep & E). unfold lookup in E. cbn in E. rewrite Ez in E. cbn in E.
      destruct (z =? p) eqn:Ezp; [injection E as ->; left; reflexivity|].
      right. apply IH. exists p. split; auto.
Qed.

(** C33 in the form of the property: from an effect without keyframes. *)
Lemma kf_history h e : e_kfs e = [] ->
  let r := fold_left kf_step h e in
  StronglySorted kpos_lt (e_kfs r)
  /\ (forall k, In k (e_kfs r) <->
        exists p, In p (map op_pos h) /\ k = Keyframe (Some p) (last_amp h p None) (last_freq h p None))
  /\ effect_same_but_keyframes e r.
Proof.
  intros He. cbn zeta.
  destruct (kf_ops h e) as (I1 & I2 & I3 & I4 & I5); [rewrite He; split; constructor|].
  split; [apply I1|]. split; [|exact I5]. rewrite He in *. cbn in I2, I3, I4.
  intro k. rewrite (lookup_in _ I1). split.
  - intros (p & Ep & E). exists p. specialize (I2 p). specialize (I3 p). rewrite E in I2, I3. cbn in I2, I3.
    split.
    + assert (N : lookup (e_kfs (fold_left kf_step h e)) p <> None) by congruence.
      apply I4 in N. destruct N as [N|N]; [congruence|exact N].
    + destruct k; cbn in *. congruence.
  - intros (p & Hp & ->). exists p. split; [reflexivity|].
    assert (N : lookup (e_kfs (fold_left kf_step h e)) p <> None) by (apply I4; right; exact Hp).
    specialize (I2 p). specialize (I3 p).
    destruct (lookup (e_kfs (fold_left kf_step h e)) p) as [k|] eqn:E; [|congruence].
    cbn in I2, I3. unfold lookup in E. apply find_some in E. destruct E as [_ E].
    destruct k as [kp ka kf]. cbn in *. destruct kp as [kp|]; [|discriminate]. cbn in E.
    assert (kp = p) by lia. congruence.
Qed.

(** With the non-overriding variant as well, positions stay sorted (not strictly). *)

Definition kfs_le (l : list keyframe) : Prop :=
  StronglySorted kpos_le l /\ Forall (fun k => k_pos k <> None) l.
Definition lb (b : Z) (l : list keyframe) := Forall (fun x => exists q, k_pos x = Some q /\ b <= q) l.
Lemma kfs_le_inv k r : kfs_le (k :: r) -> exists p, k_pos k = Some p /\ kfs_le r /\ lb p r.
Proof.
  intros [H1 H2]. inversion H1 as [|? ? Hs Hf]; subst. inversion H2 as [|? ? Hn Hr]; subst.
  destruct (k_pos k) as [p|] eqn:E; [|congruence]. exists p. split; [reflexivity|]. split; [split; assumption|].
  eapply Forall_impl; [|exact Hf]. intros x (p' & q & Ep & Eq & Hl). exists q. split; [exact Eq|]. congruence.
Qed.
Lemma kfs_le_cons k r p : k_pos k = Some p -> kfs_le r -> lb p r -> kfs_le (k :: r).
Proof.
  intros E [H1 H2] Hf. split; constructor; auto; [|congruence].
  eapply Forall_impl; [|exact Hf]. intros x (q & Eq & Hl). exists p, q. auto.
Qed.
Lemma lb_weaken a b l : b <= a -> lb a l -> lb b l.
Proof. intros H. apply Forall_impl. intros x (q & E & Hq). exists q. split; auto. lia. Qed.

Lemma kfs_update_le mk up p : k_pos mk = Some p -> (forall k, k_pos (up k) = k_pos k) ->
  forall l, kfs_le l -> kfs_le (kfs_update mk up p l)
    /\ (forall b, b <= p -> lb b l -> lb b (kfs_update mk up p l)).
Proof.
  intros Hm Hu. induction l as [|k r IH]; intros Hl.
  - cbn. split; [apply (kfs_le_cons _ _ p); [first [assumption|reflexivity]|split; constructor|constructor]|].
    intros b Hb _. constructor; [exists p; auto|constructor].
  - destruct (kfs_le_inv _ _ Hl) as (z & Ez & Hr & Hf). cbn [kfs_update]. rewrite Ez. cbn [opt_ge opt_is].
    destruct (z >=? p) eqn:Eg.
    + destruct (z =? p) eqn:Ee.
      * split; [apply (kfs_le_cons _ _ z); auto; rewrite Hu; exact Ez|].
        intros b Hb Hbl. inversion Hbl; subst. constructor; auto. exists z. rewrite Hu. split; auto. lia.
      * split.
        -- apply (kfs_le_cons _ _ p); auto. constructor; [exists z; split; auto; lia|].
           apply (lb_weaken z); auto. lia.
        -- intros b Hb Hbl. constructor; auto. exists p. auto.
    + destruct (IH Hr) as (I1 & I2). split.
      * apply (kfs_le_cons _ _ z); auto. apply I2; auto. lia.
      * intros b Hb Hbl. inversion Hbl; subst. constructor; auto. apply I2; auto.
Qed.
Lemma insamp_le a p : forall l, kfs_le l -> kfs_le (kfs_addAmplitudeAt a p false l)
    /\ (forall b, b <= p -> lb b l -> lb b (kfs_addAmplitudeAt a p false l)).
Proof.
  induction l as [|k r IH]; intros Hl.
  - cbn. split; [apply (kfs_le_cons _ _ p); [first [assumption|reflexivity]|split; constructor|constructor]|].
    intros b Hb _. constructor; [exists p; auto|constructor].
  - destruct (kfs_le_inv _ _ Hl) as (z & Ez & Hr & Hf). cbn [kfs_addAmplitudeAt]. rewrite Ez. cbn [opt_ge opt_is].
    destruct (z >=? p) eqn:Eg.
    + destruct (z =? p) eqn:Ee.
      * assert (z = p) by lia. subst z. split.
        -- apply (kfs_le_cons _ _ p); auto.
           ++ apply (kfs_le_cons _ _ p); auto.
           ++ constructor; [exists p; split; auto; lia|exact Hf].
        -- intros b Hb Hbl. inversion Hbl; subst. constructor; [exists p; split; auto|].
           constructor; auto. exists p. split; auto.
      * split.
        -- apply (kfs_le_cons _ _ p); auto. constructor; [exists z; split; auto; lia|].
           apply (lb_weaken z); auto. lia.
        -- intros b Hb Hbl. constructor; auto. exists p. auto.
    + destruct (IH Hr) as (I1 & I2). split.
      * apply (kfs_le_cons _ _ z); auto. apply I2; auto. lia.
      * intros b Hb Hbl. inversion Hbl; subst. constructor; auto. apply I2; auto.
Qed.
Lemma kf_history2 h : forall e, kfs_le (e_kfs e) -> kfs_le (e_kfs (fold_left kf_step2 h e)).
Proof.
  induction h as [|o h IH]; intros e He; [exact He|]. cbn [fold_left]. apply IH.
  destruct o as [[a p|f p]|a p]; cbn.
  - rewrite amp_update. apply kfs_update_le; auto.
  - rewrite freq_update. apply kfs_update_le; auto.
  - apply insamp_le. exact He.
Qed.

(** * C47 *)
Lemma feq_spec {p e} (x y : binary_float p e) : feq x y = true <-> same_number x y.
Proof.
  unfold feq, same_number.
  destruct x as [sx|sx| |sx mx ex Hx], y as [sy|sy| |sy my ey Hy];
    try (cbn; split; [congruence|intros []]; fail);
    try (cbn; destruct sx; cbn; split; intros; try congruence; fail);
    try (cbn; destruct sy; cbn; split; intros; congruence; fail).
  - cbn. destruct sx, sy; cbn; tauto.
  - cbn. destruct sx, sy; cbn; split; intros; congruence.
  - split.
    + intro H. apply B2SF_inj. unfold Bcompare in H. cbn in H. cbn.
      destruct sx, sy; cbn in H; try discriminate;
        destruct (ex ?= ey) eqn:Ee; cbn in H; try discriminate;
        destruct (Pos.compare_cont Eq mx my) eqn:Em; cbn in H; try discriminate;
        apply Z.compare_eq in Ee; apply Pos.compare_eq in Em; congruence.
    + intro H. injection H as -> -> ->. unfold Bcompare. cbn.
      destruct sy; rewrite Z.compare_refl; change (Pos.compare_cont Eq my my) with (my ?= my)%positive;
        rewrite Pos.compare_refl; reflexivity.
Qed.
Lemma opt_eqb_spec {A} (eqb : A -> A -> bool) (R : A -> A -> Prop) :
  (forall x y, eqb x y = true <-> R x y) -> forall x y, opt_eqb eqb x y = true <-> opt_rel R x y.
Proof. intros H [x|] [y|]; cbn; try apply H; split; intros; try tauto; discriminate. Qed.
Lemma opt_eqbZ x y : opt_eqb Z.eqb x y = true <-> x = y.
Proof.
  destruct x as [x|], y as [y|]; cbn; split; intros H; try discriminate; auto.
  - f_equal; lia.
  - injection H as ->. lia.
Qed.
Lemma keyframe_eqb_spec a b : keyframe_eqb a b = true <-> same_keyframe a b.
Proof.
  unfold keyframe_eqb, same_keyframe. rewrite !andb_true_iff, !opt_eqbZ.
  rewrite (opt_eqb_spec feq same_number feq_spec). tauto.
Qed.
Lemma keyframes_eqb_spec a : forall b,
  (length a = length b /\ keyframes_eqb a b = true) <-> Forall2 same_keyframe a b.
Proof.
  induction a as [|x a IH]; intros [|y b]; cbn.
  - split; [intros; constructor|auto].
  - split; [intros [H _]; discriminate|intro H; inversion H].
  - split; [intros [H _]; discriminate|intro H; inversion H].
  - rewrite andb_true_iff. split.
    + intros (Hl & H1 & H2). constructor; [apply keyframe_eqb_spec; exact H1|].
      apply IH. split; [lia|exact H2].
    + intro H. inversion H; subst. match goal with H : Forall2 _ a b |- _ => apply IH in H; destruct H end.
      rewrite keyframe_eqb_spec. auto.
Qed.
Lemma isEquivalent_spec a b : isEquivalent a b = true <-> equivalent_effects a b.
Proof.
  unfold isEquivalent, equivalent_effects, BasisE.
  pose proof (opt_eqb_spec feq same_number feq_spec (e_phase a) (e_phase b)) as P.
  pose proof (opt_eqbZ (e_base a) (e_base b)) as B.
  pose proof (keyframes_eqb_spec (e_kfs a) (e_kfs b)) as K.
  destruct (e_type a =? 0) eqn:E1; cbn [negb orb]; [|split; [discriminate|lia]].
  destruct (e_type b =? 0) eqn:E2; cbn [negb orb]; [|split; [discriminate|lia]].
  destruct (opt_eqb feq (e_phase a) (e_phase b)); cbn [negb orb].
  2:{ split; [discriminate|]. intros (_ & _ & H & _). apply P in H. discriminate. }
  destruct (opt_eqb Z.eqb (e_base a) (e_base b)); cbn [negb orb].
  2:{ split; [discriminate|]. intros (_ & _ & _ & H & _). apply B in H. discriminate. }
  destruct (Nat.eqb (length (e_kfs a)) (length (e_kfs b))) eqn:EL; cbn [negb].
  - apply Nat.eqb_eq in EL. split.
    + intro H. split; [lia|]. split; [lia|]. split; [apply P; reflexivity|]. split; [apply B; reflexivity|].
      apply K. split; auto.
    + intros (_ & _ & _ & _ & H). apply K in H. apply H.
  - split; [discriminate|]. intros (_ & _ & _ & _ & H). apply K in H. apply Nat.eqb_neq in EL. tauto.
Qed.

Lemma same_number_sym {p e} (x y : binary_float p e) : same_number x y -> same_number y x.
Proof. destruct x, y; cbn; intros; try tauto; congruence. Qed.
Lemma same_number_trans {p e} (x y z : binary_float p e) : same_number x y -> same_number y z -> same_number x z.
Proof. destruct x, y, z; cbn; intros; try tauto; congruence. Qed.
Lemma opt_rel_sym {A} (R : A -> A -> Prop) : (forall x y, R x y -> R y x) -> forall x y, opt_rel R x y -> opt_rel R y x.
Proof. intros H [x|] [y|]; cbn; auto. Qed.
Lemma opt_rel_trans {A} (R : A -> A -> Prop) : (forall x y z, R x y -> R y z -> R x z) ->
  forall x y z, opt_rel R x y -> opt_rel R y z -> opt_rel R x z.
Proof. intros H [x|] [y|] [z|]; cbn; try tauto; eauto. Qed.
Lemma same_keyframe_sym a b : same_keyframe a b -> same_keyframe b a.
Proof.
  intros (H1 & H2 & H3). split; [|split]; auto. apply (opt_rel_sym same_number same_number_sym). exact H2.
Qed.
Lemma same_keyframe_trans a b c : same_keyframe a b -> same_keyframe b c -> same_keyframe a c.
Proof.
  intros (H1 & H2 & H3) (G1 & G2 & G3). split; [congruence|]. split; [|congruence].
  eapply (opt_rel_trans same_number same_number_trans); eassumption.
Qed.
Lemma Forall2_sym {A} (R : A -> A -> Prop) : (forall x y, R x y -> R y x) ->
  forall a b, Forall2 R a b -> Forall2 R b a.
Proof. intros H a b F. induction F; constructor; auto. Qed.
Lemma Forall2_trans {A} (R : A -> A -> Prop) : (forall x y z, R x y -> R y z -> R x z) ->
  forall a b c, Forall2 R a b -> Forall2 R b c -> Forall2 R a c.
Proof.
  intros H a b c F. revert c. induction F; intros c G; inversion G; subst; constructor; eauto.
Qed.
Lemma equivalent_sym a b : isEquivalent a b = true -> isEquivalent b a = true.
Proof.
  rewrite !isEquivalent_spec. intros (H1 & H2 & H3 & H4 & H5). unfold equivalent_effects.
  split; [exact H2|]. split; [exact H1|]. split; [apply (opt_rel_sym same_number same_number_sym); exact H3|].
  split; [congruence|]. apply (Forall2_sym same_keyframe same_keyframe_sym). exact H5.
Qed.
Lemma equivalent_trans a b c : isEquivalent a b = true -> isEquivalent b c = true -> isEquivalent a c = true.
Proof.
  rewrite !isEquivalent_spec. intros (H1 & H2 & H3 & H4 & H5) (G1 & G2 & G3 & G4 & G5).
  split; [exact H1|]. split; [exact G2|].
  split; [eapply (opt_rel_trans same_number same_number_trans); eassumption|].
  split; [congruence|]. eapply (Forall2_trans same_keyframe same_keyframe_trans); eassumption.
Qed.
Lemma same_number_refl {p e} (x : binary_float p e) : same_number x x <-> x <> B754_nan.
Proof. destruct x; cbn; split; intros; try tauto; congruence. Qed.
Lemma opt_number_refl {p e} (x : option (binary_float p e)) : opt_rel same_number x x <-> no_nan x.
Proof. destruct x as [[]|]; cbn; tauto. Qed.
Lemma kfs_refl l : Forall2 same_keyframe l l <-> Forall (fun k => no_nan (k_amp k)) l.
Proof.
  induction l as [|k l IH]; [split; constructor|]. split; intro H; inversion H; subst; constructor.
  - match goal with H : same_keyframe k k |- _ => destruct H as (_ & H & _) end. apply opt_number_refl. assumption.
  - apply IH. assumption.
  - split; [reflexivity|]. split; [|reflexivity]. apply opt_number_refl. assumption.
  - apply IH. assumption.
Qed.
Lemma equivalent_refl e : isEquivalent e e = true <-> e_type e = 0 /\ effect_no_nan e.
Proof.
  rewrite isEquivalent_spec. unfold equivalent_effects, effect_no_nan. rewrite opt_number_refl, kfs_refl. tauto.
Qed.

(** Metadata replacement. *)
Lemma vec_set_nth {A} (l : list A) : forall i x j,
  nth_error (vec_set l i x) j = (if Nat.eqb j i then match nth_error l i with Some _ => Some x | None => None end else nth_error l j).
Proof.
  induction l as [|y l IH]; intros [|i] x [|j]; cbn [vec_set nth_error Nat.eqb]; try reflexivity.
  - destruct (Nat.eqb j i); reflexivity.
  - apply IH.
Qed.
Lemma upd_at_nth {A} (l : list A) i f x : nth_error l i = Some x ->
  nth_error (upd_at l i f) i = Some (f x) /\ forall j, j <> i -> nth_error (upd_at l i f) j = nth_error l j.
Proof.
  intros H. unfold upd_at. rewrite H. split; [|intros j Hj]; rewrite vec_set_nth.
  - now rewrite Nat.eqb_refl, H.
  - now rewrite (proj2 (Nat.eqb_neq j i) Hj).
Qed.
Lemma index_valid {A} (l : list A) i x : 0 <= i -> nth_error l (Z.to_nat i) = Some x ->
  (i <? 0) || (i >=? vec_size l) = false.
Proof.
  intros Hi H. assert (Hl : (Z.to_nat i < length l)%nat) by (apply nth_error_Some; congruence). unfold vec_size. lia.
Qed.
Lemma perception_metadata_ok h i n p : 0 <= i -> nth_error (h_perceptions h) (Z.to_nat i) = Some p ->
  exists h' p', replacePerceptionMetadataAt i n h = (true, h')
    /\ (forall j, j <> Z.to_nat i -> nth_error (h_perceptions h') j = nth_error (h_perceptions h) j)
    /\ nth_error (h_perceptions h') (Z.to_nat i) = Some p'
    /\ p_channels p' = p_channels p /\ p_prio p' = p_prio p
    /\ p_id p' = p_id n /\ p_desc p' = p_desc n /\ p_modality p' = p_modality n /\ p_devices p' = p_devices n
    /\ p_library p' = p_library n.
Proof.
  intros Hi H. unfold replacePerceptionMetadataAt. rewrite (index_valid _ _ _ Hi H).
  destruct (upd_at_nth _ _ (fun p => perception_metadata p n) _ H) as [H1 H2].
  eexists. eexists. split; [reflexivity|]. cbn [h_perceptions set_perceptions]. repeat (split; [first [exact H2|exact H1|reflexivity]|]).
  reflexivity.
Qed.
Lemma channel_metadata_ok p i n c : 0 <= i -> nth_error (p_channels p) (Z.to_nat i) = Some c ->
  exists p' c', replaceChannelMetadataAt i n p = (true, p')
    /\ (forall j, j <> Z.to_nat i -> nth_error (p_channels p') j = nth_error (p_channels p) j)
    /\ nth_error (p_channels p') (Z.to_nat i) = Some c'
    /\ c_bands c' = c_bands c /\ c_prio c' = c_prio c
    /\ c_id c' = c_id n /\ c_desc c' = c_desc n /\ c_gain c' = c_gain n /\ c_mix c' = c_mix n /\ c_mask c' = c_mask n
    /\ c_vertices c' = c_vertices n /\ c_freq c' = c_freq n /\ c_count c' = c_count n /\ c_dir c' = c_dir n
    /\ c_res c' = c_res n /\ c_body c' = c_body n /\ c_target c' = c_target n
    /\ (c_device n <> None -> c_device c' = c_device n).
Proof.
  intros Hi H. unfold replaceChannelMetadataAt. rewrite (index_valid _ _ _ Hi H).
  destruct (upd_at_nth _ _ (fun c => channel_metadata c n) _ H) as [H1 H2].
  eexists. eexists. split; [reflexivity|]. cbn [p_channels set_channels]. repeat (split; [first [exact H2|exact H1|reflexivity]|]).
  cbn. destruct (c_device n); [reflexivity|congruence].
Qed.
Lemma band_metadata_ok c i n b : 0 <= i -> nth_error (c_bands c) (Z.to_nat i) = Some b ->
  exists c' b', replaceBandMetadataAt i n c = (true, c')
    /\ (forall j, j <> Z.to_nat i -> nth_error (c_bands c') j = nth_error (c_bands c) j)
    /\ nth_error (c_bands c') (Z.to_nat i) = Some b'
    /\ b_effects b' = b_effects b /\ b_prio b' = b_prio b
    /\ b_type b' = b_type n /\ b_low b' = b_low n /\ b_up b' = b_up n
    /\ (b_type n = CurveB -> b_curve n <> None -> b_curve b' = b_curve n)
    /\ (b_type n = WaveletB -> b_block n <> None -> b_block b' = b_block n).
Proof.
  intros Hi H. unfold replaceBandMetadataAt. rewrite (index_valid _ _ _ Hi H).
  destruct (upd_at_nth _ _ (fun b => band_metadata b n) _ H) as [H1 H2].
  eexists. eexists. split; [reflexivity|]. cbn [c_bands set_bands]. repeat (split; [first [exact H2|exact H1|reflexivity]|]).
  cbn. split; intros -> Hn; cbn; [destruct (b_curve n)|destruct (b_block n)]; congruence.
Qed.
