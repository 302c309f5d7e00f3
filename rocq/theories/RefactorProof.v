(** Lemmas about factoring effects into the library. *)
From Verif Require Import Base BitsModel FloatBase TypesModel TypesSpec TypesProof RefactorModel.

(** * Slots *)
Lemma upd_at_nth {A} (l : list A) i f j :
  nth_error (upd_at l i f) j = if Nat.eqb i j then option_map f (nth_error l j) else nth_error l j.
Proof.
  unfold upd_at. destruct (nth_error l i) as [x|] eqn:E.
  - destruct (Nat.eqb_spec i j) as [<-|H].
    + rewrite E. apply vec_set_same. apply nth_error_Some. congruence.
    + apply vec_set_other. exact H.
  - destruct (Nat.eqb_spec i j) as [<-|H]; [rewrite E|]; reflexivity.
Qed.
Lemma upd_at_map {A B} (g : A -> B) (l : list A) i f : (forall x, g (f x) = g x) ->
  map g (upd_at l i f) = map g l.
Proof.
  intros H. unfold upd_at. destruct (nth_error l i) as [x|] eqn:E; [|reflexivity].
  revert i E. induction l as [|h t IH]; intros [|i] E; cbn in *; try discriminate.
  - injection E as ->. rewrite H. reflexivity.
  - f_equal. apply IH. exact E.
Qed.

Lemma replace_nth n e b n' :
  nth_error (b_effects (snd (replaceEffectAt (Z.of_nat n) e b))) n'
  = if Nat.eqb n n' then option_map (fun _ => e) (nth_error (b_effects b) n') else nth_error (b_effects b) n'.
Proof.
  unfold replaceEffectAt, vec_size.
  destruct ((Z.of_nat n <? 0) || (Z.of_nat n >=? Z.of_nat (length (b_effects b))))%bool eqn:E; cbn [snd set_effects b_effects].
  - destruct (Nat.eqb_spec n n') as [<-|H]; [|reflexivity].
    assert (N : nth_error (b_effects b) n = None) by (apply nth_error_None; lia). rewrite N. reflexivity.
  - rewrite Nat2Z.id. destruct (Nat.eqb_spec n n') as [<-|H].
    + rewrite vec_set_same by lia. destruct (nth_error (b_effects b) n) eqn:N; [reflexivity|].
      apply nth_error_None in N. lia.
    + apply vec_set_other. exact H.
Qed.

Lemma slot_set_slot cs l m n e l' m' n' :
  slot (set_slot cs l m n e) l' m' n'
  = if (Nat.eqb l l' && Nat.eqb m m' && Nat.eqb n n')%bool then option_map (fun _ => e) (slot cs l' m' n')
    else slot cs l' m' n'.
Proof.
  unfold slot, set_slot. rewrite upd_at_nth. destruct (Nat.eqb l l'); cbn [andb]; [|reflexivity].
  destruct (nth_error cs l') as [c|]; cbn; [|destruct (Nat.eqb m m' && Nat.eqb n n')%bool; reflexivity].
  rewrite upd_at_nth. destruct (Nat.eqb m m'); cbn [andb]; [|reflexivity].
  destruct (nth_error (c_bands c) m') as [b|]; cbn [option_map]; [|destruct (Nat.eqb n n'); reflexivity].
  rewrite replace_nth. reflexivity.
Qed.
Lemma skeleton_replace n e b : skeleton_band (snd (replaceEffectAt n e b)) = skeleton_band b.
Proof.
  unfold replaceEffectAt. destruct ((n <? 0) || (n >=? vec_size (b_effects b)))%bool; [reflexivity|].
  unfold skeleton_band. cbn. rewrite vec_set_length. reflexivity.
Qed.
Lemma skeleton_set_slot cs l m n e : map skeleton_channel (set_slot cs l m n e) = map skeleton_channel cs.
Proof.
  unfold set_slot. apply upd_at_map. intro c. unfold skeleton_channel. cbn.
  rewrite upd_at_map; [reflexivity|]. intro b. apply skeleton_replace.
Qed.

(** * Making references *)
Definition mkref (id : Z) (o : effect) : effect := set_type ReferenceE (set_pos (e_pos o) (set_id id effect0)).
Definition triple_dec : forall a b : nat * nat * nat, {a = b} + {a <> b}.
Proof. repeat decide equality. Defined.

Lemma make_reference_slot id cs t l m n :
  slot (make_reference id cs t) l m n
  = if triple_dec t (l, m, n) then option_map (mkref id) (slot cs l m n) else slot cs l m n.
Proof.
  destruct t as [[a b] c]. unfold make_reference. destruct (slot cs a b c) as [o|] eqn:E.
  - rewrite slot_set_slot. destruct (triple_dec (a, b, c) (l, m, n)) as [H|H].
    + injection H as -> -> ->. rewrite !Nat.eqb_refl, E. reflexivity.
    + destruct (Nat.eqb_spec a l), (Nat.eqb_spec b m), (Nat.eqb_spec c n); cbn; try reflexivity. congruence.
  - destruct (triple_dec (a, b, c) (l, m, n)) as [H|H]; [|reflexivity].
    injection H as -> -> ->. rewrite E. reflexivity.
Qed.
Lemma make_reference_skeleton id cs t : map skeleton_channel (make_reference id cs t) = map skeleton_channel cs.
Proof.
  destruct t as [[a b] c]. unfold make_reference. destruct (slot cs a b c); [|reflexivity]. apply skeleton_set_slot.
Qed.
Lemma references_skeleton id ts : forall cs,
  map skeleton_channel (fold_left (make_reference id) ts cs) = map skeleton_channel cs.
Proof. induction ts as [|t ts IH]; intro cs; [reflexivity|]. cbn. rewrite IH. apply make_reference_skeleton. Qed.
Lemma references_slot id ts : forall cs l m n,
  slot (fold_left (make_reference id) ts cs) l m n
  = if in_dec triple_dec (l, m, n) ts then option_map (mkref id) (slot cs l m n) else slot cs l m n.
Proof.
  induction ts as [|t ts IH]; intros cs l m n; [reflexivity|]. cbn [fold_left]. rewrite IH, make_reference_slot.
  destruct (in_dec triple_dec (l, m, n) ts) as [H|H], (in_dec triple_dec (l, m, n) (t :: ts)) as [H'|H'];
    destruct (triple_dec t (l, m, n)) as [E|E]; cbn in H'; try tauto.
  - destruct (slot cs l m n); reflexivity.
Qed.

(** * The search *)
Lemma nth_indices {A} (l : list A) k x : nth_error l k = Some x -> In k (indices l).
Proof. intro H. unfold indices. apply in_seq. assert (k < length l)%nat by (apply nth_error_Some; congruence). lia. Qed.
Lemma search_spec cs e i l m n :
  In (l, m, n) (searchForEquivalentEffects cs e i)
  <-> (i <= l)%nat /\ exists o, slot cs l m n = Some o /\ isEquivalent e o = true.
Proof.
  unfold searchForEquivalentEffects, slot. rewrite in_flat_map. split.
  - intros (l' & Hl & H). apply in_seq in Hl. destruct (nth_error cs l') as [c|] eqn:Ec; [|destruct H].
    apply in_flat_map in H. destruct H as (m' & Hm & H). destruct (nth_error (c_bands c) m') as [b|] eqn:Eb; [|destruct H].
    apply in_flat_map in H. destruct H as (n' & Hn & H). destruct (nth_error (b_effects b) n') as [o|] eqn:Eo; [|destruct H].
    destruct (isEquivalent e o) eqn:Q; [|destruct H]. destruct H as [H|[]]. injection H as -> -> ->.
    split; [lia|]. rewrite Ec, Eb. exists o. auto.
  - intros (Hi & o & E & Q). destruct (nth_error cs l) as [c|] eqn:Ec; [|discriminate].
    destruct (nth_error (c_bands c) m) as [b|] eqn:Eb; [|discriminate].
    exists l. split.
    { apply in_seq. assert (l < length cs)%nat by (apply nth_error_Some; congruence). lia. }
    rewrite Ec. apply in_flat_map. exists m. split; [eapply nth_indices; eassumption|].
    rewrite Eb. apply in_flat_map. exists n. split; [eapply nth_indices; eassumption|].
    rewrite E, Q. left. reflexivity.
Qed.

(** * Invariant *)
Section Inv.
Variable cs0 : list channel.
Variable lib0 : list effect.

Definition from_slot (r : effect) : Prop := exists l m n, slot cs0 l m n = Some r.
Definition Inv (st : list channel * list effect) : Prop :=
  map skeleton_channel (fst st) = map skeleton_channel cs0 /\
  exists news, snd st = lib0 ++ news
  /\ (forall k r, nth_error news k = Some r ->
        e_id r = vec_size lib0 + Z.of_nat k /\ exists o, from_slot o /\ r = set_pos 0 (set_id (e_id r) o))
  /\ forall l m n, slot (fst st) l m n = slot cs0 l m n \/
       exists k r o, nth_error news k = Some r /\ slot cs0 l m n = Some o
         /\ slot (fst st) l m n = Some (mkref (vec_size lib0 + Z.of_nat k) o) /\ isEquivalent r o = true.

Lemma mkref_not_equiv e id o : isEquivalent e (mkref id o) = false.
Proof.
  destruct (isEquivalent e (mkref id o)) eqn:E; [|reflexivity].
  apply isEquivalent_spec in E. destruct E as (_ & E & _). discriminate.
Qed.
Lemma equiv_content e o p i : isEquivalent (set_pos p (set_id i e)) o = isEquivalent e o.
Proof. reflexivity. Qed.

Definition ref_ok (ref : effect) : Prop := from_slot ref \/ e_type ref = ReferenceE.
Lemma reference_finds_none cs ref i : e_type ref = ReferenceE -> searchForEquivalentEffects cs ref i = [].
Proof.
  intro H. destruct (searchForEquivalentEffects cs ref i) as [|[[l m] n] ts] eqn:E; [reflexivity|].
  assert (In (l, m, n) (searchForEquivalentEffects cs ref i)) by (rewrite E; left; reflexivity).
  apply search_spec in H0. destruct H0 as (_ & o & _ & Q). apply isEquivalent_spec in Q.
  destruct Q as (Q & _). rewrite H in Q. discriminate.
Qed.

Lemma step_inv i st ref : Inv st -> ref_ok ref -> Inv (refactor_step i st ref).
Proof.
  intros HI Hr. destruct st as [cs lib]. unfold refactor_step.
  destruct Hr as [Hr|Hr].
  2:{ rewrite (reference_finds_none _ _ _ Hr). exact HI. }
  set (same := searchForEquivalentEffects cs ref i).
  destruct (1 <? length same)%nat eqn:E; [|exact HI].
  destruct HI as (S & news & L & N & P). cbn [fst snd] in *.
  split; [cbn [fst]; rewrite references_skeleton; exact S|].
  exists (news ++ [set_pos 0 (set_id (vec_size lib) ref)]). cbn [fst snd].
  assert (VS : vec_size lib = vec_size lib0 + Z.of_nat (length news)).
  { rewrite L. unfold vec_size. rewrite app_length. lia. }
  split; [rewrite L, app_assoc; reflexivity|]. split.
  - intros k r Hk. destruct (Nat.lt_ge_cases k (length news)) as [H|H].
    + rewrite nth_error_app1 in Hk by exact H. apply N. exact Hk.
    + rewrite nth_error_app2 in Hk by exact H. destruct (k - length news)%nat as [|j] eqn:Ej.
      * cbn in Hk. injection Hk as <-. cbn [e_id set_pos set_id]. split; [lia|]. exists ref. auto.
      * destruct j; discriminate.
  - intros l m n. rewrite references_slot. destruct (in_dec triple_dec (l, m, n) same) as [H|H].
    + right. unfold same in H. apply search_spec in H. destruct H as (_ & o & Eo & Q).
      destruct (P l m n) as [P'|(k & r & o' & _ & _ & Es & _)].
      * exists (length news), (set_pos 0 (set_id (vec_size lib) ref)), o.
        rewrite nth_error_app2 by lia. rewrite Nat.sub_diag. split; [reflexivity|].
        split; [congruence|]. split; [rewrite Eo, <- VS; reflexivity|]. rewrite equiv_content. exact Q.
      * exfalso. rewrite Es in Eo. injection Eo as <-. rewrite mkref_not_equiv in Q. discriminate.
    + destruct (P l m n) as [P'|(k & r & o' & Hk & Ho & Es & Q)]; [left; exact P'|].
      right. exists k, r, o'. split; [|auto].
      rewrite nth_error_app1; [exact Hk|]. apply nth_error_Some. congruence.
Qed.

Lemma inv_ref_ok st l m n e : Inv st -> slot (fst st) l m n = Some e -> ref_ok e.
Proof.
  intros (_ & news & _ & _ & P) E. destruct (P l m n) as [P'|(k & r & o & _ & _ & Es & _)].
  - left. exists l, m, n. congruence.
  - right. rewrite Es in E. injection E as <-. reflexivity.
Qed.

Lemma steps_inv i es : forall st, Inv st -> (forall e, In e es -> ref_ok e) -> Inv (fold_left (refactor_step i) es st).
Proof.
  induction es as [|e es IH]; intros st HI H; [exact HI|]. cbn. apply IH.
  - apply step_inv; auto. apply H. left; reflexivity.
  - intros x Hx. apply H. right. exact Hx.
Qed.
Definition band_step (i : nat) (st : list channel * list effect) (b : band) :=
  if b_type b =? WaveletB then st else fold_left (refactor_step i) (b_effects b) st.
Lemma bands_inv i bs : forall st, Inv st -> (forall b e, In b bs -> In e (b_effects b) -> ref_ok e) ->
  Inv (fold_left (band_step i) bs st).
Proof.
  induction bs as [|b bs IH]; intros st HI H; [exact HI|]. cbn. apply IH.
  - unfold band_step. destruct (b_type b =? WaveletB); [exact HI|]. apply steps_inv; auto.
    intros e He. apply (H b); auto. left; reflexivity.
  - intros b' e Hb He. apply (H b'); auto. right; exact Hb.
Qed.
Lemma channel_inv st i : Inv st -> Inv (refactor_channel st i).
Proof.
  intros HI. unfold refactor_channel. destruct (nth_error (fst st) i) as [c|] eqn:E; [|exact HI].
  apply (bands_inv i (c_bands c)); auto.
  intros b e Hb He. apply In_nth_error in Hb. destruct Hb as [m Hb]. apply In_nth_error in He. destruct He as [n He].
  apply (inv_ref_ok st i m n); auto. unfold slot. rewrite E, Hb. exact He.
Qed.
Lemma channels_inv is : forall st, Inv st -> Inv (fold_left refactor_channel is st).
Proof. induction is as [|i is IH]; intros st HI; [exact HI|]. cbn. apply IH. apply channel_inv. exact HI. Qed.
Lemma init_inv : Inv (cs0, lib0).
Proof.
  split; [reflexivity|]. exists []. cbn. split; [rewrite app_nil_r; reflexivity|]. split.
  - intros [|k] r H; discriminate.
  - intros l m n. left. reflexivity.
Qed.
End Inv.

(** * Expanding again *)
Lemma slot_map_expand lib cs l m n :
  slot (map (fun c => set_bands (map (fun b => set_effects (map (expand_effect lib) (b_effects b)) b) (c_bands c)) c) cs) l m n
  = option_map (expand_effect lib) (slot cs l m n).
Proof.
  unfold slot. rewrite nth_error_map. destruct (nth_error cs l) as [c|]; [|reflexivity]. cbn.
  rewrite nth_error_map. destruct (nth_error (c_bands c) m) as [b|]; [|reflexivity]. cbn.
  rewrite nth_error_map. reflexivity.
Qed.
Lemma skeleton_map_expand lib cs :
  map skeleton_channel (map (fun c => set_bands (map (fun b => set_effects (map (expand_effect lib) (b_effects b)) b) (c_bands c)) c) cs)
  = map skeleton_channel cs.
Proof.
  rewrite map_map. apply map_ext. intro c. unfold skeleton_channel. cbn. rewrite map_map.
  f_equal. apply map_ext. intro b. unfold skeleton_band. cbn. rewrite map_length. reflexivity.
Qed.

Lemma find_app_none {A} (f : A -> bool) a b : (forall x, In x a -> f x = false) -> find f (a ++ b) = find f b.
Proof.
  induction a as [|h t IH]; intro H; [reflexivity|]. cbn. rewrite (H h (or_introl eq_refl)).
  apply IH. intros x Hx. apply H. right. exact Hx.
Qed.
Lemma find_by_index s news : (forall k r, nth_error news k = Some r -> e_id r = s + Z.of_nat k) ->
  forall k r, nth_error news k = Some r -> find (fun e => e_id e =? s + Z.of_nat k) news = Some r.
Proof.
  revert s. induction news as [|h t IH]; intros s H k r Hk; [destruct k; discriminate|].
  cbn. pose proof (H 0%nat h eq_refl) as H0. destruct k as [|k].
  - injection Hk as ->. destruct (e_id r =? s + Z.of_nat 0) eqn:E; [reflexivity|lia].
  - destruct (e_id h =? s + Z.of_nat (S k)) eqn:E; [lia|].
    assert (G : find (fun e : effect => e_id e =? (s + 1) + Z.of_nat k) t = Some r).
    { apply IH; [|exact Hk]. intros j r' Hj. specialize (H (S j) r' Hj). lia. }
    replace (s + Z.of_nat (S k)) with ((s + 1) + Z.of_nat k) by lia. exact G.
Qed.
Lemma find_none_high s news id : (forall k r, nth_error news k = Some r -> e_id r = s + Z.of_nat k) ->
  id < s -> find (fun e => e_id e =? id) news = None.
Proof.
  intros H Hid. destruct (find (fun e : effect => e_id e =? id) news) as [r|] eqn:E; [|reflexivity].
  apply find_some in E. destruct E as [Hin E]. apply In_nth_error in Hin. destruct Hin as [k Hk].
  specialize (H k r Hk). lia.
Qed.
Lemma find_app_low s lib news id : (forall k r, nth_error news k = Some r -> e_id r = s + Z.of_nat k) ->
  id < s -> find (fun e => e_id e =? id) (lib ++ news) = find (fun e => e_id e =? id) lib.
Proof.
  intros H Hid. induction lib as [|h t IH]; cbn; [apply (find_none_high s); auto|].
  destruct (e_id h =? id); auto.
Qed.


Lemma refactor_expand p : ids_below_size p ->
  let q := linearizeLibrary (refactorEffects p) in
  let q0 := linearizeLibrary p in
  p_library q = [] /\ skeleton q = skeleton p
  /\ forall l m n, effect_at q l m n = effect_at q0 l m n
      \/ exists a b e, effect_at q l m n = Some a /\ effect_at q0 l m n = Some b
           /\ effect_at p l m n = Some b
           /\ a = set_id (-1) (set_pos (e_pos b) e) /\ (exists l' m' n', effect_at p l' m' n' = Some e)
           /\ isEquivalent e b = true.
Proof.
  intros [H1 H2]. cbn zeta. unfold refactorEffects.
  destruct (fold_left refactor_channel (indices (p_channels p)) (p_channels p, p_library p)) as [cs lib] eqn:E.
  assert (HI : Inv (p_channels p) (p_library p) (cs, lib)).
  { rewrite <- E. apply channels_inv. apply init_inv. }
  destruct HI as (S & news & L & N & P). cbn [fst snd] in *.
  split; [reflexivity|]. split.
  - unfold skeleton, linearizeLibrary. cbn [p_channels set_library set_channels p_library].
    rewrite skeleton_map_expand, S. reflexivity.
  - intros l m n. unfold effect_at at 1 2 3 4. cbn [p_channels set_library set_channels linearizeLibrary p_library].
    fold (slot (map (fun c => set_bands (map (fun b => set_effects (map (expand_effect lib) (b_effects b)) b) (c_bands c)) c) cs) l m n).
    fold (slot (map (fun c => set_bands (map (fun b => set_effects (map (expand_effect (p_library p)) (b_effects b)) b) (c_bands c)) c) (p_channels p)) l m n).
    rewrite !slot_map_expand.
    assert (Nid : forall k r, nth_error news k = Some r -> e_id r = vec_size (p_library p) + Z.of_nat k)
      by (intros k r Hk; apply N; exact Hk).
    destruct (P l m n) as [P'|(k & r & o & Hk & Ho & Es & Q)].
    + left. rewrite P'. destruct (slot (p_channels p) l m n) as [o|] eqn:Eo; [|reflexivity]. cbn. f_equal.
      unfold expand_effect. destruct (e_type o =? ReferenceE) eqn:Et; [|reflexivity].
      unfold getEffectById. rewrite L. rewrite (find_app_low (vec_size (p_library p))); auto.
      apply (H2 l m n); [exact Eo|unfold ReferenceE in Et; lia].
    + right. destruct (N k r Hk) as (_ & o' & Ho' & Er).
      assert (Tb : e_type o = 0) by (apply isEquivalent_spec in Q; apply Q).
      exists (set_id (-1) (set_pos (e_pos o) o')), o, o'. rewrite Es. cbn [option_map].
      split.
      { f_equal. unfold expand_effect. cbn [mkref set_type e_type e_id set_pos set_id e_pos]. rewrite Z.eqb_refl.
        unfold getEffectById. rewrite L. rewrite find_app_none.
        - rewrite (find_by_index (vec_size (p_library p)) news Nid k r Hk). rewrite Er. reflexivity.
        - intros x Hx. specialize (H1 x Hx). unfold vec_size. lia. }
      rewrite Ho. cbn [option_map]. split.
      { f_equal. unfold expand_effect. rewrite Tb. reflexivity. }
      split; [exact Ho|]. split; [reflexivity|]. split; [exact Ho'|]. rewrite Er in Q. exact Q.
Qed.

(** * Nothing left to factor *)
Definition evolves (cs cs' : list channel) : Prop :=
  forall l m n, slot cs' l m n = slot cs l m n
    \/ exists o id, slot cs l m n = Some o /\ slot cs' l m n = Some (mkref id o).
Lemma evolves_refl cs : evolves cs cs.
Proof. intros l m n. left. reflexivity. Qed.
Lemma evolves_trans a b c : evolves a b -> evolves b c -> evolves a c.
Proof.
  intros H1 H2 l m n. destruct (H2 l m n) as [E2|(o & id & E2 & E2')], (H1 l m n) as [E1|(o' & id' & E1 & E1')].
  - left. congruence.
  - right. exists o', id'. split; congruence.
  - right. exists o, id. split; congruence.
  - right. exists o', id. split; [exact E1|]. rewrite E1' in E2. injection E2 as <-. exact E2'.
Qed.
(** A slot that holds a non-reference at the end held the same effect before. *)
Lemma evolves_back cs cs' l m n e : evolves cs cs' -> slot cs' l m n = Some e -> e_type e <> ReferenceE ->
  slot cs l m n = Some e.
Proof.
  intros H E T. destruct (H l m n) as [E'|(o & id & _ & E')]; [congruence|].
  rewrite E in E'. injection E' as ->. exfalso. apply T. reflexivity.
Qed.
Lemma step_evolves i st ref : evolves (fst st) (fst (refactor_step i st ref)).
Proof.
  destruct st as [cs lib]. unfold refactor_step.
  destruct (1 <? length (searchForEquivalentEffects cs ref i))%nat; [|apply evolves_refl].
  cbn [fst]. intros l m n. rewrite references_slot.
  destruct (in_dec triple_dec (l, m, n) (searchForEquivalentEffects cs ref i)) as [H|H]; [|left; reflexivity].
  apply search_spec in H. destruct H as (_ & o & Eo & _). right. exists o, (vec_size lib). rewrite Eo. auto.
Qed.
Lemma fold_evolves {B} (f : list channel * list effect -> B -> list channel * list effect) :
  (forall st x, evolves (fst st) (fst (f st x))) -> forall xs st, evolves (fst st) (fst (fold_left f xs st)).
Proof.
  intros H. induction xs as [|x xs IH]; intro st; [apply evolves_refl|]. cbn.
  eapply evolves_trans; [apply H|apply IH].
Qed.
Lemma band_evolves i st b : evolves (fst st) (fst (band_step i st b)).
Proof.
  unfold band_step. destruct (b_type b =? WaveletB); [apply evolves_refl|].
  apply fold_evolves. intros. apply step_evolves.
Qed.
Lemma channel_evolves st i : evolves (fst st) (fst (refactor_channel st i)).
Proof.
  unfold refactor_channel. destruct (nth_error (fst st) i); [|apply evolves_refl].
  apply (fold_evolves (band_step i)). intros. apply band_evolves.
Qed.

(** Both slots hold equivalent effects before the step for the first of them: both become references. *)
Lemma step_replaces i st e1 e2 l1 m1 n1 l2 m2 n2 :
  (i <= l1)%nat -> (i <= l2)%nat -> (l1, m1, n1) <> (l2, m2, n2) ->
  slot (fst st) l1 m1 n1 = Some e1 -> slot (fst st) l2 m2 n2 = Some e2 -> isEquivalent e1 e2 = true ->
  exists o id, slot (fst (refactor_step i st e1)) l1 m1 n1 = Some (mkref id o).
Proof.
  destruct st as [cs lib]. intros Hi1 Hi2 Hne E1 E2 Q. unfold refactor_step. cbn [fst] in *.
  assert (Q1 : isEquivalent e1 e1 = true) by (eapply equivalent_trans; [exact Q|apply equivalent_sym; exact Q]).
  assert (I1 : In (l1, m1, n1) (searchForEquivalentEffects cs e1 i)) by (apply search_spec; eauto).
  assert (I2 : In (l2, m2, n2) (searchForEquivalentEffects cs e1 i)) by (apply search_spec; eauto).
  destruct (1 <? length (searchForEquivalentEffects cs e1 i))%nat eqn:El.
  - cbn [fst]. rewrite references_slot. exists e1, (vec_size lib).
    destruct (in_dec triple_dec (l1, m1, n1) (searchForEquivalentEffects cs e1 i)) as [H|H]; [|tauto].
    rewrite E1. reflexivity.
  - exfalso. destruct (searchForEquivalentEffects cs e1 i) as [|t1 [|t2 ts]]; cbn in *; try tauto; try lia.
    destruct I1 as [I1|[]], I2 as [I2|[]]. congruence.
Qed.

Lemma no_repeats p l1 m1 n1 l2 m2 n2 e1 e2 b :
  effect_at (refactorEffects p) l1 m1 n1 = Some e1 ->
  effect_at (refactorEffects p) l2 m2 n2 = Some e2 ->
  isEquivalent e1 e2 = true -> (l1 <= l2)%nat ->
  (exists c, nth_error (p_channels p) l1 = Some c /\ nth_error (c_bands c) m1 = Some b) -> b_type b <> WaveletB ->
  (l1, m1, n1) = (l2, m2, n2).
Proof.
  unfold refactorEffects.
  destruct (fold_left refactor_channel (indices (p_channels p)) (p_channels p, p_library p)) as [cs lib] eqn:E.
  unfold effect_at. cbn [p_channels set_library set_channels]. fold (slot cs l1 m1 n1). fold (slot cs l2 m2 n2).
  intros E1 E2 Q Hl (c0 & Ec0 & Eb0) Hw.
  destruct (triple_dec (l1, m1, n1) (l2, m2, n2)) as [H|Hne]; [exact H|exfalso].
  assert (T1 : e_type e1 <> ReferenceE) by (apply isEquivalent_spec in Q; destruct Q as (-> & _); discriminate).
  assert (T2 : e_type e2 <> ReferenceE) by (apply isEquivalent_spec in Q; destruct Q as (_ & -> & _); discriminate).
  assert (Hlt : (l1 < length (p_channels p))%nat) by (apply nth_error_Some; congruence).
  assert (Es : indices (p_channels p) = seq 0 l1 ++ l1 :: seq (S l1) (length (p_channels p) - S l1)).
  { unfold indices. replace (length (p_channels p)) with (l1 + S (length (p_channels p) - S l1))%nat at 1 by lia.
    rewrite seq_app. cbn [seq]. reflexivity. }
  rewrite Es, fold_left_app in E. cbn [fold_left] in E.
  set (st1 := fold_left refactor_channel (seq 0 l1) (p_channels p, p_library p)) in *.
  set (st2 := refactor_channel st1 l1) in *.
  assert (V2 : evolves (fst st2) cs).
  { replace cs with (fst (fold_left refactor_channel (seq (S l1) (length (p_channels p) - S l1)) st2)) by (rewrite E; reflexivity).
    apply fold_evolves. apply channel_evolves. }
  assert (I1 : Inv (p_channels p) (p_library p) st1) by (apply channels_inv, init_inv).
  unfold st2, refactor_channel in V2. destruct (nth_error (fst st1) l1) as [c|] eqn:Ec.
  2:{ assert (X : map skeleton_channel (fst st1) = map skeleton_channel (p_channels p)) by apply I1.
      apply (f_equal (@length _)) in X. rewrite !map_length in X. apply nth_error_None in Ec. lia. }
  change (evolves (fst (fold_left (band_step l1) (c_bands c) st1)) cs) in V2.
  (* the snapshot holds e1 in its slot *)
  assert (V1 : evolves (fst st1) cs).
  { eapply evolves_trans; [|exact V2]. apply fold_evolves. apply band_evolves. }
  pose proof (evolves_back _ _ _ _ _ _ V1 E1 T1) as S1. unfold slot in S1. rewrite Ec in S1.
  destruct (nth_error (c_bands c) m1) as [b'|] eqn:Eb; [|discriminate].
  assert (Hb' : b_type b' = b_type b).
  { assert (X : map skeleton_channel (fst st1) = map skeleton_channel (p_channels p)) by apply I1.
    apply (f_equal (fun l => nth_error l l1)) in X. rewrite !nth_error_map, Ec, Ec0 in X. cbn in X.
    injection X as X1. 
    assert (Y : map skeleton_band (c_bands c) = map skeleton_band (c_bands c0)) by assumption.
    apply (f_equal (fun l => nth_error l m1)) in Y. rewrite !nth_error_map, Eb, Eb0 in Y. cbn in Y.
    injection Y as Y1. assumption. }
  apply nth_error_split in Eb. destruct Eb as (bs1 & bs2 & Ebs & _).
  apply nth_error_split in S1. destruct S1 as (es1 & es2 & Ees & _).
  rewrite Ebs, fold_left_app in V2. cbn [fold_left] in V2.
  set (st3 := fold_left (band_step l1) bs1 st1) in *.
  assert (Eband : band_step l1 st3 b' = fold_left (refactor_step l1) es2 (refactor_step l1 (fold_left (refactor_step l1) es1 st3) e1)).
  { unfold band_step. destruct (b_type b' =? WaveletB) eqn:Ew; [unfold WaveletB in *; lia|].
    rewrite Ees, fold_left_app. reflexivity. }
  rewrite Eband in V2. set (st4 := fold_left (refactor_step l1) es1 st3) in *.
  assert (V5 : evolves (fst (refactor_step l1 st4 e1)) cs).
  { eapply evolves_trans; [|exact V2]. eapply evolves_trans; [|apply fold_evolves; apply band_evolves].
    apply fold_evolves. apply step_evolves. }
  assert (V4 : evolves (fst st4) cs) by (eapply evolves_trans; [apply step_evolves|exact V5]).
  pose proof (evolves_back _ _ _ _ _ _ V4 E1 T1) as R1.
  pose proof (evolves_back _ _ _ _ _ _ V4 E2 T2) as R2.
  destruct (step_replaces l1 st4 e1 e2 l1 m1 n1 l2 m2 n2) as (o & id & R); auto.
  pose proof (evolves_back _ _ _ _ _ _ V5 E1 T1) as R5. rewrite R in R5. injection R5 as <-. apply T1. reflexivity.
Qed.

(** If equivalent effects have the same content, only identifiers change. *)
Lemma refactor_lossless p : ids_below_size p ->
  (forall l m n l' m' n' a b, effect_at p l m n = Some a -> effect_at p l' m' n' = Some b ->
     isEquivalent a b = true -> same_content a b) ->
  let q := linearizeLibrary (refactorEffects p) in
  p_library q = [] /\ skeleton q = skeleton p
  /\ forall l m n, opt_rel same_but_id (effect_at q l m n) (effect_at (linearizeLibrary p) l m n).
Proof.
  intros H HC. destruct (refactor_expand p H) as (L & S & P). cbn zeta in *.
  split; [exact L|]. split; [exact S|]. intros l m n.
  destruct (P l m n) as [E|(a & b & e & Ea & Eb & Eb' & Ee & (l' & m' & n' & El) & Q)].
  - rewrite E. destruct (effect_at (linearizeLibrary p) l m n); cbn; [repeat split|exact I].
  - rewrite Ea, Eb. cbn. rewrite Ee. destruct (HC l' m' n' l m n e b El Eb' Q) as (C1 & C2 & C3 & C4 & C5 & C6 & C7 & C8).
    repeat split; cbn; assumption.
Qed.

Lemma replace_metadata_avatar h i n p : nth_error (h_perceptions h) (Z.to_nat i) = Some p -> 0 <= i ->
  exists h' p', replacePerceptionMetadataAt i n h = (true, h')
    /\ nth_error (h_perceptions h') (Z.to_nat i) = Some p' /\ p_avatar p' = p_id n.
Proof.
  intros E Hi. unfold replacePerceptionMetadataAt.
  assert (L : (Z.to_nat i < length (h_perceptions h))%nat) by (apply nth_error_Some; congruence).
  destruct ((i <? 0) || (i >=? vec_size (h_perceptions h)))%bool eqn:T; [unfold vec_size in T; lia|].
  eexists. exists (perception_metadata p n). split; [reflexivity|]. cbn [set_perceptions h_perceptions].
  rewrite upd_at_nth, Nat.eqb_refl, E. split; reflexivity.
Qed.
