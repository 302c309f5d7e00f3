From Coq Require Import Sorting.Permutation Sorting.Sorted Strings.String.
From Verif Require Import Base FloatBase FloatModel TypesModel TypesSpec SemanticModel SynthSpec IvsModel IvsSpec.
Local Open Scope Z_scope.
Local Open Scope list_scope.

(** *** The specification in terms of the model *)
Inductive launched_m (bs : list basis) (ts : Z) : list launch -> list effect -> Prop :=
| MaNil : launched_m bs ts [] []
| MaUnknown l ls es : getLaunchedEffect bs l = None -> launched_m bs ts ls es -> launched_m bs ts (l :: ls) es
| MaOther l b ls es : getLaunchedEffect bs l = Some b -> convertToEffect b l ts = Ok None -> launched_m bs ts ls es ->
    launched_m bs ts (l :: ls) es
| MaEffect l b e ls es : getLaunchedEffect bs l = Some b -> convertToEffect b l ts = Ok (Some e) -> launched_m bs ts ls es ->
    launched_m bs ts (l :: ls) (e :: es).
Definition times_m (ts : Z) (b : basis) (l : launch) : Prop :=
  convertible ts (getDuration b l) /\ 2000 <= getDuration b l * ts /\
  (forall t, ba_attack_time b = Some t -> convertible ts t) /\ (forall t, ba_fade_time b = Some t -> convertible ts t).

Definition importable_m (bs : list basis) (ts : Z) (t : timeline_effect) : Prop :=
  separate (te_repeats t) /\
  StronglySorted (fun a b => launch_time a <= launch_time b) (te_launches t) /\
  (forall l b, In l (te_launches t) -> getLaunchedEffect bs l = Some b ->
     times_m ts b l /\ (periodic b -> 1 <= getPeriod b l <= 2 ^ 24) /\
     Forall (fun m => convertible ts m /\ (m + getDuration b l) * ts <= 1000 * (2 ^ 31 - 2)) (plays (te_repeats t) (launch_time l))).
Definition imported_m (bs : list basis) (ts : Z) (date : str) (t : timeline_effect) (c : channel) : Prop :=
  c_desc c = te_name t ++ bytes_of " - " ++ date /\
  Forall (fun b => b_type b = VectorialB /\ no_overlap b /\ sorted_by_position (b_effects b)) (c_bands c) /\
  exists es es', launched_m bs ts (te_launches t) es /\
    Forall2 (in_ticks ts) (flat_map (played (te_repeats t)) es) es' /\
    Permutation (flat_map b_effects (c_bands c)) es'.

(** *** Generalities *)
Lemma set_pos_same e : set_pos (e_pos e) e = e. Proof. destruct e; reflexivity. Qed.
Lemma set_pos_twice a b e : set_pos a (set_pos b e) = set_pos a e. Proof. reflexivity. Qed.
Lemma e_pos_set a e : e_pos (set_pos a e) = a. Proof. reflexivity. Qed.

Lemma flat_map_app {A B} (f : A -> list B) l m : flat_map f (l ++ m) = flat_map f l ++ flat_map f m.
Proof. induction l; cbn; [reflexivity|rewrite IHl, app_assoc; reflexivity]. Qed.
Lemma perm_flat_map {A B} (f : A -> list B) l m : Permutation l m -> Permutation (flat_map f l) (flat_map f m).
Proof.
  induction 1; cbn; auto.
  - apply Permutation_app_head; assumption.
  - rewrite !app_assoc. apply Permutation_app_tail, Permutation_app_comm.
  - eapply Permutation_trans; eassumption.
Qed.
Lemma flat_map_ext_in {A B} (f g : A -> list B) l : (forall x, In x l -> f x = g x) -> flat_map f l = flat_map g l.
Proof. induction l; intros H; cbn; [reflexivity|]. rewrite (H a (or_introl eq_refl)), IHl; [reflexivity|]. intros; apply H; right; assumption. Qed.
Lemma flat_map_cons_perm {A C} (f : A -> C) (g : A -> list C) l :
  Permutation (flat_map (fun x => f x :: g x) l) (map f l ++ flat_map g l).
Proof.
  induction l; cbn; [constructor|]. apply perm_skip. rewrite IHl, !app_assoc. apply Permutation_app_tail, Permutation_app_comm.
Qed.
Lemma flat_map_swap {A B C} (f : A -> B -> C) (l : list A) (m : list B) :
  Permutation (flat_map (fun a => map (f a) m) l) (flat_map (fun b => map (fun a => f a b) l) m).
Proof.
  revert l. induction m; intros l; cbn.
  - induction l; cbn; [constructor|assumption].
  - eapply Permutation_trans; [apply flat_map_cons_perm|]. apply Permutation_app_head, IHm.
Qed.

(** *** Sorting *)
Definition chained (a b : repeat_event) : Prop := r_end a <= r_start b.
Definition counted (r : repeat_event) : Prop := 0 < r_length r /\ 0 <= r_count r.

Lemma insert_repeat_perm r l : Permutation (insert_repeat r l) (r :: l).
Proof.
  induction l; cbn; [constructor; constructor|]. destruct (repeat_less r a); [apply Permutation_refl|].
  eapply Permutation_trans; [apply perm_skip, IHl|apply perm_swap].
Qed.
Lemma less_apart r x : counted r -> counted x -> apart r x -> if repeat_less r x then chained r x else chained x r.
Proof.
  unfold repeat_less, counted, apart, chained, r_end. change repeat_time with r_start. change repeat_duration with r_length.
  intros (? & _) (? & _) ?. destruct (Z.eqb_spec (r_start r) (r_start x)); cbn; [lia|].
  destruct (Z.ltb_spec (r_start r) (r_start x)); lia.
Qed.
Lemma insert_repeat_sorted r l : counted r -> Forall counted l -> Forall (apart r) l -> StronglySorted chained l ->
  StronglySorted chained (insert_repeat r l).
Proof.
  intros Hr. induction l as [|x l IH]; intros Hl Ha Hs; cbn; [constructor; constructor|].
  inversion Hl as [|? ? Hx Hl']; inversion Ha as [|? ? Hax Ha']; inversion Hs as [|? ? Hs' Hs'']; subst.
  pose proof (less_apart r x Hr Hx Hax) as Q. destruct (repeat_less r x).
  - constructor; [assumption|]. constructor; [assumption|].
    eapply Forall_impl; [|exact Hs'']. unfold chained, counted, r_end in *. intros; lia.
  - constructor; [auto|]. eapply Permutation_Forall; [apply Permutation_sym, insert_repeat_perm|]. constructor; assumption.
Qed.
Lemma apart_sym r s : apart r s -> apart s r. Proof. unfold apart. tauto. Qed.
Lemma sortRepeats_gen l : forall acc, separate l -> Forall counted acc -> StronglySorted chained acc ->
  Forall (fun r => Forall (apart r) acc) l ->
  let s := fold_left (fun s r => insert_repeat r s) l acc in Permutation s (l ++ acc) /\ StronglySorted chained s.
Proof.
  induction l as [|r l IH]; intros acc [Hc Hp] Ha Hs Hx; cbn; [split; [apply Permutation_refl|assumption]|].
  inversion Hc as [|? ? Hr Hc']; inversion Hp as [|? ? Hrp Hp']; inversion Hx as [|? ? Hx1 Hx']; subst.
  destruct (IH (insert_repeat r acc)) as (P & S1).
  - split; assumption.
  - eapply Permutation_Forall; [apply Permutation_sym, insert_repeat_perm|]. constructor; assumption.
  - apply insert_repeat_sorted; assumption.
  - rewrite Forall_forall in *. intros y Hy. eapply Permutation_Forall; [apply Permutation_sym, insert_repeat_perm|].
    constructor; [apply apart_sym, Hrp, Hy|apply Hx', Hy].
  - split; [|exact S1]. eapply Permutation_trans; [exact P|]. eapply Permutation_trans; [apply Permutation_app_head, insert_repeat_perm|].
    apply Permutation_sym, Permutation_middle.
Qed.
Lemma sortRepeats_ok l : separate l -> Permutation (sortRepeats l) l /\ StronglySorted chained (sortRepeats l).
Proof.
  intros H. destruct (sortRepeats_gen l [] H) as (P & Q); [constructor|constructor| |].
  - rewrite Forall_forall. intros; constructor.
  - rewrite app_nil_r in P. split; assumption.
Qed.

(** *** The tree *)
Definition leaf (r : repeat_event) : node := Node (Some r) [] [].
Lemma research_last v es ch c r :
  research (Node v es (ch ++ [c])) r = if isRepeatNested (node_value c) r then research c r else Node v es (ch ++ [c]).
Proof.
  cbn [research]. generalize (Node v es (ch ++ [c])). intros root. induction ch as [|x ch IH]; cbn; [reflexivity|].
  destruct (ch ++ [c]) eqn:E; [destruct ch; discriminate|]. exact IH.
Qed.
Lemma tree_chained s : forall pre, StronglySorted chained (pre ++ s) ->
  fold_left (fun root r => push_child (leaf r) (research root r)) s (Node None [] (map leaf pre)) = Node None [] (map leaf (pre ++ s)).
Proof.
  induction s as [|r s IH]; intros pre H; cbn [fold_left]; [rewrite app_nil_r; reflexivity|].
  assert (E : research (Node None [] (map leaf pre)) r = Node None [] (map leaf pre)).
  { destruct (rev pre) as [|q pre'] eqn:Ep.
    - rewrite <- (rev_involutive pre), Ep. reflexivity.
    - assert (Eq : pre = rev pre' ++ [q]) by (rewrite <- (rev_involutive pre), Ep; reflexivity).
      rewrite Eq, map_app. cbn [map]. rewrite research_last. cbn [node_value leaf isRepeatNested].
      assert (C : chained q r).
      { rewrite Eq, <- app_assoc in H. clear -H. induction (rev pre') as [|x l IHl]; cbn in H.
        - inversion H as [|? ? _ F]. inversion F; assumption.
        - inversion H; auto. }
      unfold chained, r_end in C. change repeat_time with r_start. change repeat_duration with r_length.
      destruct (Z.leb_spec (r_start q) (r_start r)), (Z.ltb_spec (r_start r) (r_start q + r_length q)); cbn; try reflexivity; lia. }
  rewrite E. cbn [push_child]. change [leaf r] with (map leaf [r]). rewrite <- map_app, IH, <- app_assoc; [reflexivity|].
  rewrite <- app_assoc. exact H.
Qed.

(** *** Pushing effects *)
Definition leafs (rl : list (repeat_event * list effect)) : list node := map (fun p => Node (Some (fst p)) (snd p) []) rl.
Fixpoint push_leaf (e : effect) (rl : list (repeat_event * list effect)) : option (list (repeat_event * list effect)) :=
  match rl with
  | [] => None
  | (r, l) :: rl' =>
      if coversb (e_pos e) r then Some ((r, insertEffect e l) :: rl')
      else match push_leaf e rl' with Some x => Some ((r, l) :: x) | None => None end
  end.
Definition push (e : effect) (R : list effect) (rl : list (repeat_event * list effect)) : node :=
  match push_leaf e rl with
  | Some rl' => Node None R (leafs rl')
  | None => Node None (insertEffect e R) (leafs rl)
  end.
Lemma in_range_covers r p : in_range (Some r) p = coversb p r.
Proof.
  unfold in_range, coversb, r_end. change repeat_time with r_start. change repeat_duration with r_length.
  rewrite Z.gtb_ltb, Z.geb_leb, Bool.negb_orb, !Z.leb_antisym, !Bool.negb_involutive. reflexivity.
Qed.
Lemma pushEffect_push e R rl : pushEffect e (Node None R (leafs rl)) = Some (push e R rl).
Proof.
  unfold push. cbn [pushEffect in_range].
  match goal with |- match ?f (leafs rl) with _ => _ end = _ => set (F := f) end.
  assert (H : F (leafs rl) = match push_leaf e rl with Some x => Some (leafs x) | None => None end).
  { induction rl as [|(r, l) rl IH]; [reflexivity|]. cbn [leafs map F push_leaf fst snd]. fold F. change (map (fun p : repeat_event * list effect => Node (Some (fst p)) (snd p) []) rl) with (leafs rl).
    cbn [pushEffect]. rewrite in_range_covers. destruct (coversb (e_pos e) r); [reflexivity|].
    rewrite IH. destruct (push_leaf e rl); reflexivity. }
  rewrite H. destruct (push_leaf e rl); reflexivity.
Qed.
Lemma insert_at_last_perm e l r : insert_at_last e l = Some r -> Permutation r (e :: l).
Proof.
  revert r. induction l as [|x l IH]; intros r H; cbn in H; [discriminate|].
  destruct (insert_at_last e l) as [r'|].
  - injection H as <-. eapply Permutation_trans; [apply perm_skip, IH; reflexivity|apply perm_swap].
  - destruct (e_pos x <? e_pos e); [|discriminate]. injection H as <-. apply perm_swap.
Qed.
Lemma insertEffect_perm e l : Permutation (insertEffect e l) (e :: l).
Proof.
  unfold insertEffect. destruct (insert_at_last e l) eqn:E; [apply insert_at_last_perm, E|].
  apply Permutation_sym, Permutation_cons_append.
Qed.
Lemma insert_at_last_none e l : insert_at_last e l = None -> Forall (fun x => e_pos e <= e_pos x) l.
Proof.
  induction l as [|x l IH]; cbn; [constructor|]. destruct (insert_at_last e l); [discriminate|].
  destruct (Z.ltb_spec (e_pos x) (e_pos e)); [discriminate|]. intros _. constructor; auto.
Qed.
Lemma insert_at_last_sorted e l : forall r, in_time_order l -> Forall (fun x => e_pos x <= e_pos e) l -> insert_at_last e l = Some r -> in_time_order r.
Proof.
  induction l as [|x l IH]; intros r Hs Hl H; cbn in H; [discriminate|].
  inversion Hs as [|? ? Hs' Hx]; inversion Hl as [|? ? Hxe Hl']; subst.
  destruct (insert_at_last e l) as [r'|] eqn:E.
  - injection H as <-. constructor; [apply IH; auto|]. eapply Permutation_Forall; [apply Permutation_sym, (insert_at_last_perm _ _ _ E)|].
    constructor; assumption.
  - destruct (Z.ltb_spec (e_pos x) (e_pos e)); [|discriminate]. injection H as <-. apply insert_at_last_none in E.
    constructor; [constructor; assumption|]. constructor; [lia|assumption].
Qed.
Lemma insertEffect_sorted e l : in_time_order l -> Forall (fun x => e_pos x <= e_pos e) l -> in_time_order (insertEffect e l).
Proof.
  intros Hs Hl. unfold insertEffect. destruct (insert_at_last e l) eqn:E; [eapply insert_at_last_sorted; eassumption|].
  clear E. induction l as [|x l IH]; cbn; [constructor; constructor|].
  inversion Hs; inversion Hl; subst. constructor; [apply IH; assumption|]. apply Forall_app. split; [assumption|]. constructor; [assumption|constructor].
Qed.

(** The state of the tree after some effects. *)
Definition filled (rs : list repeat_event) (es R : list effect) (rl : list (repeat_event * list effect)) : Prop :=
  map fst rl = rs /\ Permutation (R ++ concat (map snd rl)) es /\ in_time_order R /\
  Forall (fun e => Forall (fun r => ~ covers r (e_pos e)) rs) R /\
  Forall (fun p => Forall (fun e => covers (fst p) (e_pos e)) (snd p)) rl.
Lemma coversb_ok t r : coversb t r = true <-> covers r t.
Proof. unfold coversb, covers. rewrite Bool.andb_true_iff, Z.leb_le, Z.ltb_lt. reflexivity. Qed.
Lemma push_leaf_spec e rl :
  match push_leaf e rl with
  | Some rl' => map fst rl' = map fst rl /\ Permutation (concat (map snd rl')) (e :: concat (map snd rl)) /\
      (Forall (fun p => Forall (fun e => covers (fst p) (e_pos e)) (snd p)) rl ->
       Forall (fun p => Forall (fun e => covers (fst p) (e_pos e)) (snd p)) rl')
  | None => Forall (fun r => ~ covers r (e_pos e)) (map fst rl)
  end.
Proof.
  induction rl as [|(r, l) rl IH]; cbn; [constructor|]. destruct (coversb (e_pos e) r) eqn:C.
  - apply coversb_ok in C. split; [reflexivity|]. split.
    + cbn. change (e :: l ++ ?x) with ((e :: l) ++ x). apply Permutation_app_tail, insertEffect_perm.
    + intros H. inversion H as [|? ? H1 H2]; subst. constructor; [|assumption]. cbn in *.
      eapply Permutation_Forall; [apply Permutation_sym, insertEffect_perm|]. constructor; assumption.
  - assert (C' : ~ covers r (e_pos e)) by (intros Q; apply coversb_ok in Q; congruence).
    destruct (push_leaf e rl) as [x|].
    + destruct IH as (A & B & D). cbn. rewrite A. split; [reflexivity|]. split.
      * eapply Permutation_trans; [apply Permutation_app_head, B|]. apply Permutation_sym, Permutation_middle.
      * intros H. inversion H; subst. constructor; auto.
    + constructor; assumption.
Qed.
Lemma push_filled rs es R rl e : filled rs es R rl -> Forall (fun x => e_pos x <= e_pos e) es ->
  exists R' rl', push e R rl = Node None R' (leafs rl') /\ filled rs (e :: es) R' rl'.
Proof.
  intros (A & B & C & D & F) H. unfold push. pose proof (push_leaf_spec e rl) as Q. destruct (push_leaf e rl) as [rl'|].
  - destruct Q as (Q1 & Q2 & Q3). exists R, rl'. split; [reflexivity|]. split; [congruence|]. split; [|auto].
    eapply Permutation_trans; [apply Permutation_app_head, Q2|]. eapply Permutation_trans; [apply Permutation_sym, Permutation_middle|].
    apply perm_skip, B.
  - exists (insertEffect e R), rl. split; [reflexivity|]. split; [exact A|]. split; [|split; [|split]].
    + eapply Permutation_trans; [apply Permutation_app_tail, insertEffect_perm|]. cbn. apply perm_skip, B.
    + apply insertEffect_sorted; [assumption|]. apply (Permutation_Forall (Permutation_sym B)) in H. apply Forall_app in H. tauto.
    + eapply Permutation_Forall; [apply Permutation_sym, insertEffect_perm|]. constructor; [rewrite <- A; exact Q|exact D].
    + exact F.
Qed.
Lemma pushLaunches_filled bs ts ls es : launched_m bs ts ls es -> forall rs done R rl, filled rs done R rl ->
  in_time_order es -> Forall (fun e => Forall (fun x => e_pos x <= e_pos e) done) es ->
  exists R' rl', pushLaunches bs ts ls (Node None R (leafs rl)) = Ok (Node None R' (leafs rl')) /\ filled rs (es ++ done) R' rl'.
Proof.
  induction 1 as [|l ls es H1 H2 IH|l b ls es H1 H2 H3 IH|l b e ls es H1 H2 H3 IH]; intros rs done R rl HF HS HD; cbn [pushLaunches].
  - eauto.
  - rewrite H1. apply IH; assumption.
  - rewrite H1, H2. cbn [obind]. apply IH; assumption.
  - rewrite H1, H2. cbn [obind]. rewrite pushEffect_push.
    inversion HS as [|? ? HS' He]; inversion HD as [|? ? HD1 HD']; subst.
    destruct (push_filled rs done R rl e HF HD1) as (R' & rl' & -> & HF').
    destruct (IH rs (e :: done) R' rl' HF' HS') as (R2 & rl2 & -> & HF2).
    { rewrite Forall_forall in *. intros x Hx. constructor; [apply He, Hx|apply HD', Hx]. }
    exists R2, rl2. split; [reflexivity|]. destruct HF2 as (A & B & C). split; [exact A|]. split; [|exact C].
    eapply Permutation_trans; [exact B|]. apply Permutation_sym, Permutation_middle.
Qed.

(** *** Linearisation *)
Definition shifted (delay : Z) (rs : list repeat_event) (e : effect) : list effect :=
  map (fun t => set_pos (delay + t) e) (plays rs (e_pos e)).
Lemma later_added rs t : Forall counted rs -> Forall (fun r => t < r_start r) rs -> added rs t = 0 /\ find (coversb t) rs = None.
Proof.
  induction rs as [|r rs IH]; intros Hc H; [auto|]. cbn [find added fold_right]. fold (added rs t). inversion Hc as [|? ? (? & _)]; inversion H; subst. destruct IH as (E1 & E2); auto.
  rewrite E1, E2. unfold coversb, r_end in *.
  destruct (Z.leb_spec (r_start r + r_length r) t); [lia|]. destruct (Z.leb_spec (r_start r) t); [lia|]. auto.
Qed.
Lemma plays_before r rs t : Forall counted (r :: rs) -> Forall (chained r) rs -> t < r_start r -> plays (r :: rs) t = [t].
Proof.
  intros Hc H Ht. unfold plays. destruct (later_added (r :: rs) t Hc) as (E1 & E2).
  - constructor; [assumption|]. inversion Hc as [|? ? (? & _)]. eapply Forall_impl; [|exact H]. unfold chained, r_end. intros; lia.
  - rewrite E1, E2. f_equal. lia.
Qed.
Lemma plays_inside r rs t : Forall counted (r :: rs) -> Forall (chained r) rs -> covers r t ->
  plays (r :: rs) t = map (fun k => t + Z.of_nat k * r_length r) (seq 0 (S (Z.to_nat (r_count r)))).
Proof.
  intros Hc H Ht. inversion Hc as [|? ? (? & _) Hc']; subst. unfold plays. cbn [find added fold_right].
  rewrite (proj2 (coversb_ok t r) Ht). destruct (later_added rs t Hc') as (E1 & _).
  - eapply Forall_impl; [|exact H]. unfold chained, covers, r_end in *. intros; lia.
  - fold (added rs t). rewrite E1. unfold covers in Ht. destruct (Z.leb_spec (r_end r) t); [lia|]. apply map_ext. intros. lia.
Qed.
Lemma plays_after r rs t : r_end r <= t -> plays (r :: rs) t = map (Z.add (r_count r * r_length r)) (plays rs t).
Proof.
  intros H. unfold plays. cbn [find added fold_right]. fold (added rs t).
  unfold coversb at 1. destruct (Z.ltb_spec t (r_end r)); [lia|]. rewrite Bool.andb_false_r.
  destruct (Z.leb_spec (r_end r) t); [|lia]. destruct (find (coversb t) rs); cbn [map]; rewrite ?map_map.
  - apply map_ext. intros; lia.
  - f_equal. lia.
Qed.
Lemma before_spec p R : forall a b, in_time_order R -> before p R = (a, b) ->
  R = a ++ b /\ Forall (fun e => e_pos e < p) a /\ Forall (fun e => p <= e_pos e) b /\ in_time_order b.
Proof.
  induction R as [|e R IH]; intros a b HS H; cbn in H.
  - injection H as <- <-. repeat split; constructor.
  - inversion HS as [|? ? HS' He]; subst. destruct (Z.ltb_spec (e_pos e) p).
    + destruct (before p R) as (a', b'). injection H as <- <-. destruct (IH a' b' HS' eq_refl) as (-> & A & B & C).
      repeat split; [constructor; assumption|assumption|assumption].
    + injection H as <- <-. split; [reflexivity|]. split; [constructor|]. split; [|assumption].
      constructor; [assumption|]. eapply Forall_impl; [|exact He]. cbn. intros; lia.
Qed.
Lemma replays_leaf r delay L : 0 <= r_count r ->
  Permutation (replays (r_count r) (r_length r) (map (delayed delay) L))
    (flat_map (fun e => map (fun k => set_pos (delay + (e_pos e + Z.of_nat k * r_length r)) e) (seq 0 (S (Z.to_nat (r_count r))))) L).
Proof.
  intros H. unfold replays. replace (Z.to_nat (r_count r + 1)) with (S (Z.to_nat (r_count r))) by lia.
  rewrite (flat_map_ext_in _ (fun i => map (fun e => set_pos (delay + (e_pos e + Z.of_nat i * r_length r)) e) L)).
  - apply (flat_map_swap (fun i e => set_pos (delay + (e_pos e + Z.of_nat i * r_length r)) e)).
  - intros i _. rewrite map_map. apply map_ext. intros e. unfold delayed. rewrite e_pos_set, set_pos_twice. f_equal. lia.
Qed.
Definition loop_of : list node -> list effect -> Z -> Z -> list effect * Z * Z :=
  fix loop (ch : list node) (es : list effect) (duration delay : Z) : list effect * Z * Z :=
    match ch with
    | [] => (map (delayed delay) es, duration, delay)
    | c :: ch' =>
        let '(a, b) := before (node_position c) es in
        let '(lc, t, d) := linearize c delay in
        let '(l, duration', delay') := loop ch' b (duration + t) (d + t) in
        (map (delayed delay) a ++ lc ++ l, duration', delay')
    end.
Lemma loop_perm rl : forall rs R duration delay, map fst rl = rs -> Forall counted rs -> StronglySorted chained rs -> in_time_order R ->
  Forall (fun e => Forall (fun r => ~ covers r (e_pos e)) rs) R ->
  Forall (fun p => Forall (fun e => covers (fst p) (e_pos e)) (snd p)) rl ->
  Permutation (fst (fst (loop_of (leafs rl) R duration delay))) (flat_map (shifted delay rs) (R ++ concat (map snd rl))).
Proof.
  induction rl as [|(r, L) rl IH]; intros rs R duration delay Hf Hc Hs HR Hout Hin.
  - subst rs. cbn. rewrite app_nil_r. clear. induction R as [|e R IH]; cbn; [constructor|]. unfold shifted at 1. cbn.
    replace (delay + (e_pos e + 0)) with (delay + e_pos e) by lia. apply perm_skip, IH.
  - cbn [map fst snd] in *. subst rs. inversion Hc as [|? ? Hr Hc']; inversion Hs as [|? ? Hs' Hch]; inversion Hin as [|? ? HL Hin']; subst.
    cbn [leafs map fst snd loop_of]. fold loop_of. change (map (fun p : repeat_event * list effect => Node (Some (fst p)) (snd p) []) rl) with (leafs rl).
    cbn [node_position node_value]. change (repeat_time r) with (r_start r).
    destruct (before (r_start r) R) as (a, b) eqn:Eb. destruct (before_spec _ _ _ _ HR Eb) as (-> & Ha & Hb & Hbs).
    cbn [linearize]. change (repeat_count r) with (r_count r). change (repeat_duration r) with (r_length r).
    specialize (IH (map fst rl) b (duration + r_count r * r_length r) (delay + r_count r * r_length r) eq_refl Hc' Hs' Hbs).
    destruct (loop_of (leafs rl) b (duration + r_count r * r_length r) (delay + r_count r * r_length r)) as ((l, d'), e').
    cbn [fst] in *. apply Forall_app in Hout. destruct Hout as (_ & Hob).
    assert (Hafter : forall e, r_end r <= e_pos e -> shifted delay (r :: map fst rl) e = shifted (delay + r_count r * r_length r) (map fst rl) e).
    { intros e He. unfold shifted. rewrite plays_after by exact He. rewrite map_map. apply map_ext. intros. f_equal. lia. }
    assert (Hb' : Forall (fun e => r_end r <= e_pos e) b).
    { rewrite Forall_forall in *. intros e He. specialize (Hob e He). rewrite Forall_forall in Hob.
      specialize (Hob r (or_introl eq_refl)). specialize (Hb e He). unfold covers in Hob. cbn in Hb. lia. }
    assert (Hc2 : Forall (fun e => r_end r <= e_pos e) (concat (map snd rl))).
    { clear -Hch Hin'. induction rl as [|(s, M) rl IH]; cbn in *; [constructor|]. inversion Hch as [|? ? Hsr]; inversion Hin' as [|? ? HM]; subst.
      apply Forall_app. split; [|auto]. cbn in HM. eapply Forall_impl; [|exact HM]. unfold covers, chained in *. cbn. intros; lia. }
    cbn [concat]. rewrite <- app_assoc, !flat_map_app.
    assert (E1 : flat_map (shifted delay (r :: map fst rl)) a = map (delayed delay) a).
    { clear -Ha Hc Hch. induction a as [|e a IH]; cbn; [reflexivity|]. inversion Ha; subst. rewrite IH by assumption. unfold shifted.
      rewrite plays_before by assumption. reflexivity. }
    rewrite E1. apply Permutation_app_head.
    rewrite (flat_map_ext_in (shifted delay (r :: map fst rl)) (shifted (delay + r_count r * r_length r) (map fst rl)) b)
      by (intros x Hx; apply Hafter; rewrite Forall_forall in Hb'; apply Hb', Hx).
    rewrite (flat_map_ext_in (shifted delay (r :: map fst rl)) (shifted (delay + r_count r * r_length r) (map fst rl)) (concat (map snd rl)))
      by (intros x Hx; apply Hafter; rewrite Forall_forall in Hc2; apply Hc2, Hx).
    rewrite (Permutation_app_swap_app (flat_map _ b)). apply Permutation_app.
    + eapply Permutation_trans; [apply replays_leaf, Hr|].
      rewrite (flat_map_ext_in _ (shifted delay (r :: map fst rl))); [apply Permutation_refl|].
      intros e He. unfold shifted. rewrite Forall_forall in HL. rewrite plays_inside by (try assumption; apply HL, He). rewrite map_map. reflexivity.
    + rewrite <- flat_map_app. apply IH; [|assumption].
      eapply Forall_impl; [|exact Hob]. cbn. intros e He. inversion He; assumption.
Qed.
Lemma replays_once d l : replays 0 d l = l.
Proof.
  unfold replays. change (Z.to_nat (0 + 1)) with 1%nat. cbn [seq flat_map]. rewrite app_nil_r. rewrite <- (map_id l) at 2. apply map_ext.
  intros e. cbn [Z.of_nat Z.mul]. rewrite Z.add_0_r. apply set_pos_same.
Qed.

(** *** Reordering repetitions *)
Lemma added_perm rs rs' t : Permutation rs rs' -> added rs t = added rs' t.
Proof. induction 1; unfold added in *; cbn [fold_right]; [reflexivity|rewrite IHPermutation; reflexivity|lia|congruence]. Qed.
Lemma separate_perm rs rs' : Permutation rs rs' -> separate rs -> separate rs'.
Proof.
  intros P (H1 & H2). split; [eapply Permutation_Forall; eassumption|]. clear H1. induction P.
  - constructor.
  - inversion H2; subst. constructor; [eapply Permutation_Forall; eassumption|auto].
  - inversion H2 as [|? ? A B]; inversion B as [|? ? C D]; inversion A; subst.
    constructor; [constructor; [apply apart_sym; assumption|assumption]|]. constructor; assumption.
  - auto.
Qed.
Lemma covers_apart r s t : apart r s -> covers r t -> covers s t -> False.
Proof. unfold apart, covers. lia. Qed.
Lemma find_perm rs rs' t : Permutation rs rs' -> separate rs -> find (coversb t) rs = find (coversb t) rs'.
Proof.
  induction 1 as [|r l l' P IH|r s l|l m n P1 IH1 P2 IH2]; intros H; cbn.
  - reflexivity.
  - destruct H as (H1 & H2). inversion H1; inversion H2; subst. rewrite IH by (split; assumption). reflexivity.
  - destruct H as (_ & H2). inversion H2 as [|? ? A B]; inversion A; subst.
    destruct (coversb t s) eqn:E1, (coversb t r) eqn:E2; try reflexivity. apply coversb_ok in E1, E2.
    exfalso. eapply covers_apart; eassumption.
  - rewrite IH1 by assumption. apply IH2. eapply separate_perm; eassumption.
Qed.
Lemma plays_perm rs rs' t : Permutation rs rs' -> separate rs -> plays rs t = plays rs' t.
Proof. intros P H. unfold plays. rewrite (find_perm _ _ _ P H), (added_perm _ _ _ P). reflexivity. Qed.

Lemma timeline_flat bs ts t es : separate (te_repeats t) -> launched_m bs ts (te_launches t) es -> in_time_order es ->
  exists out, timelineEffects bs ts t = Ok out /\ Permutation out (flat_map (played (te_repeats t)) es).
Proof.
  intros Hsep Hl Ho. unfold timelineEffects. destruct (sortRepeats_ok _ Hsep) as (P & Hs). set (rs := sortRepeats (te_repeats t)) in *.
  unfold repeatTree. change (Node None [] []) with (Node None [] (map leaf [])). change (fun root r => push_child (Node (Some r) [] []) (research root r))
    with (fun root r => push_child (leaf r) (research root r)).
  rewrite (tree_chained rs [] Hs). cbn [app]. pose proof (separate_perm _ _ (Permutation_sym P) Hsep) as Hsep'.
  assert (F : filled rs [] [] (map (fun r => (r, [])) rs)).
  { split; [rewrite map_map; apply map_id|]. split; [|split; [constructor|split; [constructor|]]].
    - clear. induction rs; cbn; [constructor|assumption].
    - clear. induction rs; cbn; constructor; [constructor|assumption]. }
  replace (map leaf rs) with (leafs (map (fun r => (r, [])) rs)) by (unfold leafs; rewrite map_map; reflexivity).
  destruct (pushLaunches_filled _ _ _ _ Hl rs [] [] _ F Ho) as (R & rl & E & F').
  { clear. induction es; constructor; [constructor|assumption]. }
  rewrite E. cbn [obind linearize]. fold loop_of. destruct F' as (F1 & F2 & F3 & F4 & F5).
  pose proof (loop_perm rl rs R 0 0 F1 (proj1 Hsep') Hs F3 F4 F5) as Q.
  destruct (loop_of (leafs rl) R 0 0) as ((l, d), d'). cbn [fst] in Q. rewrite replays_once. exists l. split; [reflexivity|].
  eapply Permutation_trans; [exact Q|]. rewrite app_nil_r in F2.
  eapply Permutation_trans; [apply perm_flat_map, F2|].
  rewrite (flat_map_ext_in _ (played (te_repeats t))); [apply Permutation_refl|].
  intros e _. unfold shifted, played. rewrite (plays_perm _ _ _ P Hsep'). reflexivity.
Qed.

(** *** Nested repetitions *)
Fixpoint node_ind2 (P : node -> Prop) (H : forall v es ch, Forall P ch -> P (Node v es ch)) (n : node) : P n :=
  match n with
  | Node v es ch => H v es ch ((fix go (l : list node) : Forall P l :=
      match l with [] => Forall_nil P | x :: l' => Forall_cons x (node_ind2 P H x) (go l') end) ch)
  end.
Definition rooted (rs : list repeat_event) (n : node) : Prop := exists q, node_value n = Some q /\ In q rs.
Inductive bare (rs : list repeat_event) : node -> Prop :=
| Bare v ch : Forall (fun c => bare rs c /\ rooted rs c) ch -> bare rs (Node v [] ch).
Lemma research_bare rs r n : bare rs n -> bare rs (research n r) /\ (research n r = n \/ rooted rs (research n r)).
Proof.
  induction n as [v es ch IH] using node_ind2. intros B. destruct (rev ch) as [|c ch'] eqn:E.
  - assert (ch = []) by (rewrite <- (rev_involutive ch), E; reflexivity). subst ch. cbn. auto.
  - assert (ch = rev ch' ++ [c]) by (rewrite <- (rev_involutive ch), E; reflexivity). subst ch. rewrite research_last.
    inversion B as [? ? Bc]; subst. apply Forall_app in IH, Bc. destruct IH as (_ & IH), Bc as (_ & Bc). inversion IH as [|? ? IHc]; inversion Bc as [|? ? (Bc1 & Bc2)]; subst.
    destruct (isRepeatNested (node_value c) r); [|auto]. destruct (IHc Bc1) as (Q1 & [Q2|Q2]); (split; [exact Q1|]); right.
    + rewrite Q2. exact Bc2.
    + exact Q2.
Qed.
Definition grow (root : node) (r : repeat_event) : node := push_child (leaf r) (research root r).
Lemma grow_bare rs r n : In r rs -> bare rs n -> bare rs (grow n r) /\ (rooted rs n -> rooted rs (grow n r)).
Proof.
  intros Hr B. unfold grow. destruct (research_bare rs r n B) as (Q1 & Q2). destruct (research n r) as [v es ch] eqn:E. cbn [push_child].
  inversion Q1 as [? ? Qc]; subst. split.
  - constructor. apply Forall_app. split; [exact Qc|]. constructor; [|constructor]. split; [constructor; constructor|]. exists r. auto.
  - intros Hn. destruct Q2 as [<-|Q2]; [exact Hn|exact Q2].
Qed.
Lemma grow_nested rs n r y : In r rs -> In y rs -> bare rs n -> isRepeatNested (Some r) y = true -> rooted rs (grow (grow n r) y).
Proof.
  intros Hr Hy B N. unfold grow at 1. unfold grow at 1. destruct (research n r) as [v es ch]. cbn [push_child]. rewrite research_last.
  cbn [leaf node_value]. rewrite N. cbn. exists r. auto.
Qed.
Lemma fold_grow_bare rs l : forall n, Forall (fun r => In r rs) l -> bare rs n -> bare rs (fold_left grow l n) /\ (rooted rs n -> rooted rs (fold_left grow l n)).
Proof.
  induction l as [|r l IH]; intros n H B; cbn [fold_left]; [auto|]. inversion H; subst. destruct (grow_bare rs r n) as (Q1 & Q2); auto.
  destruct (IH (grow n r)) as (Q3 & Q4); auto.
Qed.
Definition starts (a b : repeat_event) : Prop := r_start a <= r_start b.
Lemma insert_repeat_starts r l : StronglySorted starts l -> StronglySorted starts (insert_repeat r l).
Proof.
  induction l as [|x l IH]; intros Hs; cbn; [constructor; constructor|]. inversion Hs as [|? ? Hs' Hx]; subst.
  assert (Q : if repeat_less r x then starts r x else starts x r).
  { unfold repeat_less, starts. change repeat_time with r_start. destruct (Z.eqb_spec (r_start r) (r_start x)); cbn.
    - destruct (_ >? _); lia.
    - destruct (Z.ltb_spec (r_start r) (r_start x)); lia. }
  destruct (repeat_less r x).
  - constructor; [assumption|]. constructor; [assumption|]. eapply Forall_impl; [|exact Hx]. unfold starts in *. intros; lia.
  - constructor; [auto|]. eapply Permutation_Forall; [apply Permutation_sym, insert_repeat_perm|]. constructor; assumption.
Qed.
Lemma sortRepeats_starts l : StronglySorted starts (sortRepeats l) /\ Permutation (sortRepeats l) l.
Proof.
  unfold sortRepeats. assert (G : forall acc, StronglySorted starts acc ->
    StronglySorted starts (fold_left (fun s r => insert_repeat r s) l acc) /\ Permutation (fold_left (fun s r => insert_repeat r s) l acc) (l ++ acc)).
  { induction l as [|r l IH]; intros acc Ha; cbn [fold_left]; [auto|]. destruct (IH (insert_repeat r acc)) as (A & B); [apply insert_repeat_starts, Ha|].
    split; [exact A|]. eapply Permutation_trans; [exact B|]. eapply Permutation_trans; [apply Permutation_app_head, insert_repeat_perm|].
    apply Permutation_sym, Permutation_middle. }
  destruct (G [] (SSorted_nil _)) as (A & B). rewrite app_nil_r in B. auto.
Qed.
Lemma nested_neighbour l r s : StronglySorted starts l -> In r l -> In s l -> r_start r < r_start s ->
  exists A y B, l = A ++ r :: y :: B /\ r_start r <= r_start y <= r_start s.
Proof.
  intros Hs Hr Hi H. apply in_split in Hr. destruct Hr as (A & T & ->). exists A.
  assert (HA : Forall (fun x => r_start x <= r_start r) A /\ StronglySorted starts (r :: T)).
  { clear -Hs. induction A as [|x A IH]; cbn in Hs; [split; [constructor|exact Hs]|]. inversion Hs as [|? ? Hs' Hx]; subst.
    destruct (IH Hs') as (Q1 & Q2). split; [|exact Q2]. constructor; [|exact Q1]. apply Forall_app in Hx. destruct Hx as (_ & Hx). inversion Hx; assumption. }
  destruct HA as (HA & HT). rewrite Forall_forall in HA. inversion HT as [|? ? HT' HrT]; subst.
  apply in_app_or in Hi. destruct Hi as [Hi|[<-|Hi]]; [specialize (HA _ Hi); lia|lia|].
  destruct T as [|y B]; [contradiction|]. exists y, B. split; [reflexivity|]. inversion HrT; subst. split; [assumption|].
  destruct Hi as [<-|Hi]; [lia|]. inversion HT' as [|? ? _ Hy]; subst. rewrite Forall_forall in Hy. apply Hy, Hi.
Qed.
Lemma linearize_bare rs n : bare rs n -> forall d, fst (fst (linearize n d)) = [].
Proof.
  induction n as [v es ch IH] using node_ind2. intros B d. inversion B as [? ? Bc]; subst. cbn [linearize]. fold loop_of.
  assert (L : forall du de, fst (fst (loop_of ch [] du de)) = []).
  { clear B. induction ch as [|c ch IHch]; intros du de; [reflexivity|]. cbn [loop_of before]. fold loop_of.
    inversion IH as [|? ? IHc IH']; inversion Bc as [|? ? (Bc1 & _) Bc']; subst. specialize (IHc Bc1 de).
    destruct (linearize c de) as ((lc, t), x). cbn in IHc. subst lc. specialize (IHch IH' Bc' (du + t) (x + t)).
    destruct (loop_of ch [] (du + t) (x + t)) as ((l, a), b). cbn in *. subst l. reflexivity. }
  specialize (L (match v with Some r => repeat_duration r | None => 0 end) d).
  destruct (loop_of ch [] _ d) as ((l, a), b). cbn [fst] in *. subst l. unfold replays.
  induction (seq 0 _) as [|x s IHs]; [reflexivity|exact IHs].
Qed.
Lemma pushEffect_outside rs e n : rooted rs n -> Forall (fun q => ~ covers q (e_pos e)) rs -> pushEffect e n = None.
Proof.
  intros (q & V & Hq) H. destruct n as [v es ch]. cbn in V. subst v. cbn [pushEffect]. rewrite in_range_covers.
  destruct (coversb (e_pos e) q) eqn:E; [|reflexivity]. apply coversb_ok in E. rewrite Forall_forall in H. exfalso. exact (H q Hq E).
Qed.
Lemma nested_lost bs ts t es r s : In r (te_repeats t) -> In s (te_repeats t) -> r_start r < r_start s < r_end r ->
  launched_m bs ts (te_launches t) es -> Forall (fun e => Forall (fun q => ~ covers q (e_pos e)) (te_repeats t)) es ->
  timelineEffects bs ts t = Ok [].
Proof.
  intros Hr Hi (H1 & H2) Hl Hout. unfold timelineEffects. set (rs := te_repeats t) in *. destruct (sortRepeats_starts rs) as (S1 & P).
  destruct (nested_neighbour (sortRepeats rs) r s S1) as (A & y & B & E & Hy).
  { eapply Permutation_in; [apply Permutation_sym, P|exact Hr]. } { eapply Permutation_in; [apply Permutation_sym, P|exact Hi]. } { exact H1. }
  assert (Hall : Forall (fun q => In q rs) (sortRepeats rs)).
  { rewrite Forall_forall. intros q Hq. eapply Permutation_in; [exact P|exact Hq]. }
  set (tree := repeatTree (sortRepeats rs)). assert (T : bare rs tree /\ rooted rs tree).
  { unfold tree, repeatTree. change (fun root r => push_child (Node (Some r) [] []) (research root r)) with grow.
    rewrite E in *. clear E. apply Forall_app in Hall. destruct Hall as (HA & HB). inversion HB as [|? ? _ HB1]; subst. inversion HB1 as [|? ? Hy1 HB2]; subst.
    rewrite fold_left_app. cbn [fold_left]. destruct (fold_grow_bare rs A (Node None [] []) HA) as (Q1 & _); [constructor; constructor|].
    set (n := fold_left grow A (Node None [] [])) in *.
    assert (N : isRepeatNested (Some r) y = true).
    { unfold isRepeatNested. change repeat_time with r_start. change repeat_duration with r_length. unfold r_end in H2.
      apply andb_true_intro. split; [apply Z.leb_le; lia|apply Z.ltb_lt; lia]. }
    destruct (grow_bare rs r n Hr Q1) as (Q2 & _). destruct (grow_bare rs y _ Hy1 Q2) as (Q3 & _).
    destruct (fold_grow_bare rs B (grow (grow n r) y) HB2 Q3) as (Q4 & Q5). split; [exact Q4|]. apply Q5, (grow_nested rs); assumption. }
  clearbody tree. clear -Hl Hout T. destruct T as (T1 & T2).
  assert (L : pushLaunches bs ts (te_launches t) tree = Ok tree).
  { induction Hl as [|l ls es E1 Hl IH|l b ls es E1 E2 Hl IH|l b e ls es E1 E2 Hl IH]; cbn [pushLaunches]; [reflexivity| | |]; rewrite E1.
    - auto.
    - rewrite E2. cbn [obind]. auto.
    - rewrite E2. cbn [obind]. inversion Hout; subst. rewrite (pushEffect_outside rs) by assumption. auto. }
  rewrite L. cbn [obind]. pose proof (linearize_bare rs tree T1 0) as Q. destruct (linearize tree 0) as ((l, a), b). cbn in Q. subst l. reflexivity.
Qed.

(** *** Launch events out of order *)
Lemma launched_cons bs ts ls e es : launched_m bs ts ls (e :: es) -> exists ls',
  (forall tree, pushLaunches bs ts ls tree = pushLaunches bs ts ls' (match pushEffect e tree with Some t => t | None => tree end)) /\ launched_m bs ts ls' es.
Proof.
  intros H. remember (e :: es) as l eqn:El. induction H as [|l0 ls l E1 H IH|l0 q ls l E1 E2 H IH|l0 q e0 ls l E1 E2 H IH]; cbn [pushLaunches].
  - discriminate.
  - rewrite E1. auto.
  - rewrite E1, E2. cbn [obind]. auto.
  - injection El as -> ->. rewrite E1, E2. cbn [obind]. eauto.
Qed.
Lemma launched_nil bs ts ls tree : launched_m bs ts ls [] -> pushLaunches bs ts ls tree = Ok tree.
Proof.
  intros H. remember [] as l eqn:El. induction H as [|l0 ls l E1 H IH|l0 q ls l E1 E2 H IH|l0 q e0 ls l E1 E2 H IH]; cbn [pushLaunches].
  - reflexivity.
  - rewrite E1. auto.
  - rewrite E1, E2. cbn [obind]. auto.
  - discriminate.
Qed.
Lemma out_of_order bs ts t r a b : te_repeats t = [r] -> counted r -> launched_m bs ts (te_launches t) [a; b] ->
  r_end r <= e_pos a -> e_pos b < r_start r ->
  let d := r_count r * r_length r in
  timelineEffects bs ts t = Ok [set_pos (e_pos a + d) a; set_pos (e_pos b + d) b].
Proof.
  intros Er (Hc1 & Hc2) Hl Ha Hb d. unfold timelineEffects. rewrite Er. cbn [sortRepeats fold_left insert_repeat].
  change (repeatTree [r]) with (Node None [] (leafs [(r, [])])).
  assert (Pa : push a [] [(r, [])] = Node None [a] (leafs [(r, [])])).
  { unfold push. cbn [push_leaf]. unfold coversb. destruct (Z.ltb_spec (e_pos a) (r_end r)); [lia|]. rewrite Bool.andb_false_r. reflexivity. }
  assert (Pb : push b [a] [(r, [])] = Node None [a; b] (leafs [(r, [])])).
  { unfold push. cbn [push_leaf]. unfold coversb. destruct (Z.leb_spec (r_start r) (e_pos b)); [lia|]. cbn [andb]. unfold insertEffect. cbn [insert_at_last].
    unfold r_end in *. destruct (Z.ltb_spec (e_pos a) (e_pos b)); [lia|]. reflexivity. }
  assert (L : pushLaunches bs ts (te_launches t) (Node None [] (leafs [(r, [])])) = Ok (Node None [a; b] (leafs [(r, [])]))).
  { destruct (launched_cons _ _ _ _ _ Hl) as (ls1 & E1 & Hl1). rewrite E1, pushEffect_push, Pa.
    destruct (launched_cons _ _ _ _ _ Hl1) as (ls2 & E2 & Hl2). rewrite E2, pushEffect_push, Pb. apply launched_nil, Hl2. }
  rewrite L. cbn [obind linearize leafs map fst snd node_position node_value before].
  change (repeat_time r) with (r_start r). change (repeat_count r) with (r_count r). change (repeat_duration r) with (r_length r).
  destruct (Z.ltb_spec (e_pos a) (r_start r)); [unfold r_end in *; lia|]. cbn [map app]. rewrite replays_once.
  unfold replays. assert (Rn : forall s, flat_map (fun i : nat => @nil effect) s = []) by (intros s; induction s; [reflexivity|assumption]).
  cbn [map]. rewrite Rn. cbn [app]. unfold delayed. do 2 f_equal; [|f_equal]; f_equal; unfold d; lia.
Qed.
