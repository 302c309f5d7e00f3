(** Proofs about the import of AHAP files. *)
From Coq Require Import Reals Lra Lia Sorting.Permutation Sorting.Sorted Strings.String.
From Verif Require Import Base FloatBase FloatModel TypesModel SemanticModel ToolsModel ToolsSpec ToolsProof TypesSpec TypesProof SynthModel SynthSpec SynthProof SynthMore IvsSpec IvsImport AhapModel AhapSpec AhapFloat.
Local Open Scope Z_scope.
Local Open Scope list_scope.

(** *** Keyframes *)
Lemma app_amp a p l k D : k_pos k = Some D -> p < D -> kfs_addAmplitudeAt a p true (l ++ [k]) = kfs_addAmplitudeAt a p true l ++ [k].
Proof.
  intros E H. induction l as [|x l IH]; cbn [app kfs_addAmplitudeAt].
  - rewrite E, opt_ge_some, opt_is_some. destruct (Z.geb_spec D p); [|lia]. destruct (Z.eqb_spec D p); [lia|]. reflexivity.
  - destruct (opt_ge (k_pos x) p); [destruct (opt_is (k_pos x) p); reflexivity|]. cbn [app]. rewrite IH. reflexivity.
Qed.
Lemma app_freq f p l k D : k_pos k = Some D -> p < D -> kfs_addFrequencyAt f p (l ++ [k]) = kfs_addFrequencyAt f p l ++ [k].
Proof.
  intros E H. induction l as [|x l IH]; cbn [app kfs_addFrequencyAt].
  - rewrite E, opt_ge_some, opt_is_some. destruct (Z.geb_spec D p); [|lia]. destruct (Z.eqb_spec D p); [lia|]. reflexivity.
  - destruct (opt_ge (k_pos x) p); [destruct (opt_is (k_pos x) p); reflexivity|]. cbn [app]. rewrite IH. reflexivity.
Qed.
Lemma envelope1_cons lo stop k l p : k_pos k = Some p -> lo <= p < stop -> envelope1 (p + 1) stop l -> envelope1 lo stop (k :: l).
Proof. intros E H1 H2. destruct l as [|k' l]; [contradiction|]. cbn [envelope1]. exists p. auto. Qed.
Lemma envelope1_amp a p stop l : forall lo, envelope1 lo stop l -> lo <= p < stop -> envelope1 lo stop (kfs_addAmplitudeAt a p true l).
Proof.
  induction l as [|k l IH]; intros lo H Hp; [contradiction|]. cbn [kfs_addAmplitudeAt]. destruct l as [|k' l].
  - cbn in H. destruct H as (E & H). rewrite E, opt_ge_some, opt_is_some. destruct (Z.geb_spec stop p); [|lia].
    destruct (Z.eqb_spec stop p); [lia|]. apply envelope1_cons with p; [reflexivity|lia|]. cbn. split; [exact E|lia].
  - destruct H as (t & E & Ht & H). fold (envelope1 (t + 1) stop (k' :: l)) in H. rewrite E, opt_ge_some, opt_is_some. destruct (Z.geb_spec t p).
    + destruct (Z.eqb_spec t p).
      * apply envelope1_cons with t; [reflexivity|lia|exact H].
      * apply envelope1_cons with p; [reflexivity|lia|]. apply envelope1_cons with t; [exact E|lia|exact H].
    + apply envelope1_cons with t; [exact E|lia|]. apply IH; [exact H|lia].
Qed.
Lemma envelope1_freq a p stop l : forall lo, envelope1 lo stop l -> lo <= p < stop -> envelope1 lo stop (kfs_addFrequencyAt a p l).
Proof.
  induction l as [|k l IH]; intros lo H Hp; [contradiction|]. cbn [kfs_addFrequencyAt]. destruct l as [|k' l].
  - cbn in H. destruct H as (E & H). rewrite E, opt_ge_some, opt_is_some. destruct (Z.geb_spec stop p); [|lia].
    destruct (Z.eqb_spec stop p); [lia|]. apply envelope1_cons with p; [reflexivity|lia|]. cbn. split; [exact E|lia].
  - destruct H as (t & E & Ht & H). fold (envelope1 (t + 1) stop (k' :: l)) in H. rewrite E, opt_ge_some, opt_is_some. destruct (Z.geb_spec t p).
    + destruct (Z.eqb_spec t p).
      * apply envelope1_cons with t; [reflexivity|lia|exact H].
      * apply envelope1_cons with p; [reflexivity|lia|]. apply envelope1_cons with t; [exact E|lia|exact H].
    + apply envelope1_cons with t; [exact E|lia|]. apply IH; [exact H|lia].
Qed.
(** The positions alone matter. *)
Lemma envelope1_pos stop l m : map k_pos l = map k_pos m -> forall lo, envelope1 lo stop l -> envelope1 lo stop m.
Proof.
  revert m. induction l as [|k l IH]; intros [|k2 m] E lo H; try discriminate; [contradiction|]. injection E as E1 E2.
  destruct l as [|k' l]; destruct m as [|k2' m]; try discriminate.
  - cbn in *. rewrite <- E1. exact H.
  - destruct H as (p & Ep & Hp & H). exists p. split; [rewrite <- E1; exact Ep|]. split; [exact Hp|]. apply (IH (k2' :: m) E2), H.
Qed.
Lemma envelope1_envelope stop l : forall lo, envelope1 lo stop l -> envelope lo stop l.
Proof.
  assert (W : forall l lo lo', lo' <= lo -> envelope1 lo stop l -> envelope1 lo' stop l).
  { intros [|k [|k' m]] lo lo' L H; [contradiction| |]; cbn in *; [intuition lia|]. destruct H as (p & E & Hp & H). exists p. split; [exact E|]. split; [lia|exact H]. }
  induction l as [|k l IH]; intros lo H; [contradiction|]. destruct l as [|k' l]; [exact H|].
  destruct H as (p & E & Hp & H). exists p. split; [exact E|]. split; [exact Hp|]. apply IH. apply (W (k' :: l) (p + 1) p); [lia|exact H].
Qed.

Lemma amp_at_add x p l : amp_at (kfs_addAmplitudeAt (Some x) p true l) p x.
Proof.
  induction l as [|k l (k' & I & E)]; cbn [kfs_addAmplitudeAt]; [eexists; split; [left; reflexivity|split; reflexivity]|].
  destruct (opt_ge (k_pos k) p); [|exists k'; split; [right; exact I|exact E]].
  destruct (opt_is (k_pos k) p) eqn:Q; [|eexists; split; [left; reflexivity|split; reflexivity]].
  eexists; split; [left; reflexivity|]. split; [|reflexivity]. cbn [k_pos]. destruct (k_pos k) as [t|]; [|discriminate]. cbn in Q. apply Z.eqb_eq in Q. congruence.
Qed.
Lemma freq_at_add x p l : freq_at (kfs_addFrequencyAt (Some x) p l) p x.
Proof.
  induction l as [|k l (k' & I & E)]; cbn [kfs_addFrequencyAt]; [eexists; split; [left; reflexivity|split; reflexivity]|].
  destruct (opt_ge (k_pos k) p); [|exists k'; split; [right; exact I|exact E]].
  destruct (opt_is (k_pos k) p) eqn:Q; [|eexists; split; [left; reflexivity|split; reflexivity]].
  eexists; split; [left; reflexivity|]. split; [|reflexivity]. cbn [k_pos]. destruct (k_pos k) as [t|]; [|discriminate]. cbn in Q. apply Z.eqb_eq in Q. congruence.
Qed.
Lemma amp_at_keep y p t x l : t <> p -> amp_at l t x -> amp_at (kfs_addAmplitudeAt y p true l) t x.
Proof.
  intros N (k0 & I & E1 & E2). induction l as [|k l IH]; [contradiction|]. cbn [kfs_addAmplitudeAt].
  destruct (opt_ge (k_pos k) p).
  - destruct (opt_is (k_pos k) p) eqn:Q.
    + destruct I as [-> |I]; [rewrite E1 in Q; cbn in Q; apply Z.eqb_eq in Q; contradiction|]. exists k0. split; [right; exact I|auto].
    + exists k0. split; [right; exact I|auto].
  - destruct I as [-> |I]; [exists k0; split; [left; reflexivity|auto]|]. destruct (IH I) as (k' & I' & E'). exists k'. split; [right; exact I'|exact E'].
Qed.
Lemma freq_at_keep y p t x l : t <> p -> freq_at l t x -> freq_at (kfs_addFrequencyAt y p l) t x.
Proof.
  intros N (k0 & I & E1 & E2). induction l as [|k l IH]; [contradiction|]. cbn [kfs_addFrequencyAt].
  destruct (opt_ge (k_pos k) p).
  - destruct (opt_is (k_pos k) p) eqn:Q.
    + destruct I as [-> |I]; [rewrite E1 in Q; cbn in Q; apply Z.eqb_eq in Q; contradiction|]. exists k0. split; [right; exact I|auto].
    + exists k0. split; [right; exact I|auto].
  - destruct I as [-> |I]; [exists k0; split; [left; reflexivity|auto]|]. destruct (IH I) as (k' & I' & E'). exists k'. split; [right; exact I'|exact E'].
Qed.
Lemma amp_at_freq y p t x l : amp_at l t x -> amp_at (kfs_addFrequencyAt y p l) t x.
Proof.
  intros (k0 & I & E1 & E2). induction l as [|k l IH]; [contradiction|]. cbn [kfs_addFrequencyAt].
  destruct (opt_ge (k_pos k) p).
  - destruct (opt_is (k_pos k) p) eqn:Q.
    + destruct I as [-> |I]; [eexists; split; [left; reflexivity|auto]|]. exists k0. split; [right; exact I|auto].
    + exists k0. split; [right; exact I|auto].
  - destruct I as [-> |I]; [exists k0; split; [left; reflexivity|auto]|]. destruct (IH I) as (k' & I' & E'). exists k'. split; [right; exact I'|exact E'].
Qed.
(** The first keyframe. *)
Lemma first_amp a p k l : k_pos k = Some 0 -> 0 < p -> exists r, kfs_addAmplitudeAt a p true (k :: l) = k :: r.
Proof. intros E H. cbn [kfs_addAmplitudeAt]. rewrite E, opt_ge_some. destruct (Z.geb_spec 0 p); [lia|]. eexists. reflexivity. Qed.

(** *** Lists *)
Lemma split_in {A} (x : A) l1 r b after : l1 ++ r = b ++ x :: after -> ~ In x l1 -> exists b', r = b' ++ x :: after /\ b = l1 ++ b'.
Proof.
  revert b. induction l1 as [|y l1 IH]; intros b E N; cbn in *; [exists b; auto|]. destruct b as [|z b]; cbn in E; injection E as -> E; [exfalso; auto|].
  destruct (IH b E) as (b' & E1 & E2); [auto|]. exists b'. split; [exact E1|]. rewrite E2. reflexivity.
Qed.
Lemma split_first {A} (P : A -> Prop) p q : forall l1 l2 r s, l1 ++ p :: r = l2 ++ q :: s -> Forall P l1 -> Forall P l2 -> ~ P p -> ~ P q -> l1 = l2 /\ p = q /\ r = s.
Proof.
  induction l1 as [|x l1 IH]; intros [|y l2] r s E F1 F2 Np Nq; cbn in E; injection E as -> E.
  - auto.
  - inversion F2; contradiction.
  - inversion F1; contradiction.
  - inversion F1; inversion F2; subst. destruct (IH l2 r s E) as (-> & H); auto.
Qed.
Lemma rising_app l m : rising (l ++ m) -> rising m.
Proof. induction l as [|x l IH]; intros H; [exact H|]. inversion H; subst. auto. Qed.
Lemma find_from_spec position : forall l prev, exists before, l = before ++ snd (find_from prev l position) /\ Forall (fun p => fst p < position) before /\
  (match snd (find_from prev l position) with p :: _ => position <= fst p | [] => True end) /\
  (before = [] -> fst (find_from prev l position) = prev) /\ (forall b x, before = b ++ [x] -> fst (find_from prev l position) = Some x).
Proof.
  induction l as [|p l IH]; intros prev; cbn [find_from].
  - exists []. cbn. split; [reflexivity|]. split; [constructor|]. split; [exact I|]. split; [auto|]. intros [|] ? ?; discriminate.
  - destruct (Z.geb_spec (fst p) position) as [L|L].
    + exists []. cbn. split; [reflexivity|]. split; [constructor|]. split; [exact L|]. split; [auto|]. intros [|] ? ?; discriminate.
    + destruct (IH (Some p)) as (before & E & F & H & H1 & H2). exists (p :: before). cbn [app]. rewrite <- E. split; [reflexivity|]. split; [constructor; assumption|]. split; [exact H|]. split; [discriminate|].
      intros [|y b] x Q; cbn in Q; injection Q as -> Q; [apply H1, Q|apply (H2 b), Q].
Qed.

(** *** Modulation *)
Definition bounded (a : f32) (k : keyframe) : Prop :=
  (forall x, k_amp k = Some x -> between 0 (B2R a) x) /\ (forall g, k_freq k = Some g -> 65 <= g <= 300).
Lemma bounded_amp a x p l : between 0 (B2R a) x -> Forall (bounded a) l -> Forall (bounded a) (kfs_addAmplitudeAt (Some x) p true l).
Proof.
  intros Hx H. induction H as [|k l Hk Hl IH]; cbn [kfs_addAmplitudeAt].
  - constructor; [|constructor]. split; cbn; intros y E; [injection E as <-; exact Hx|discriminate].
  - destruct (opt_ge (k_pos k) p); [destruct (opt_is (k_pos k) p)|].
    + constructor; [|exact Hl]. split; cbn; [intros y E; injection E as <-; exact Hx|apply Hk].
    + constructor; [|constructor; assumption]. split; cbn; intros y E; [injection E as <-; exact Hx|discriminate].
    + constructor; assumption.
Qed.
Lemma bounded_freq a f p l : 65 <= f <= 300 -> Forall (bounded a) l -> Forall (bounded a) (kfs_addFrequencyAt (Some f) p l).
Proof.
  intros Hx H. induction H as [|k l Hk Hl IH]; cbn [kfs_addFrequencyAt].
  - constructor; [|constructor]. split; cbn; intros y E; [discriminate|injection E as <-; exact Hx].
  - destruct (opt_ge (k_pos k) p); [destruct (opt_is (k_pos k) p)|].
    + constructor; [|exact Hl]. split; cbn; [apply Hk|intros y E; injection E as <-; exact Hx].
    + constructor; [|constructor; assumption]. split; cbn; intros y E; [discriminate|injection E as <-; exact Hx].
    + constructor; assumption.
Qed.
Definition point_ok (lo : R) (p : point) : Prop := 0 <= fst p < 2 ^ 31 /\ between lo 1 (snd p).
(** What holds of the effect and of its last keyframe. *)
Definition inv (pos D : Z) (a : f32) (c : effect) (k : keyframe) : Prop :=
  e_pos c = pos /\ k_pos k = Some D /\ envelope1 0 D (e_kfs c ++ [k]) /\ Forall (bounded a) (e_kfs c ++ [k]).
Lemma inv_amp pos D a c k x p : inv pos D a c k -> 0 <= p < D -> between 0 (B2R a) x -> inv pos D a (addAmplitudeAt (Some x) p true c) k.
Proof.
  intros (E1 & E2 & E3 & E4) Hp Hx. split; [exact E1|]. split; [exact E2|]. unfold addAmplitudeAt. cbn [e_kfs set_kfs].
  rewrite <- (app_amp _ _ _ _ D E2) by lia. split; [apply envelope1_amp; [exact E3|lia]|apply bounded_amp; assumption].
Qed.
Lemma inv_freq pos D a c k f p : inv pos D a c k -> 0 <= p < D -> 65 <= f <= 300 -> inv pos D a (addFrequencyAt (Some f) p c) k.
Proof.
  intros (E1 & E2 & E3 & E4) Hp Hx. split; [exact E1|]. split; [exact E2|]. unfold addFrequencyAt. cbn [e_kfs set_kfs].
  rewrite <- (app_freq _ _ _ _ D E2) by lia. split; [apply envelope1_freq; [exact E3|lia]|apply bounded_freq; assumption].
Qed.
Lemma inv_end pos D a c k k' : inv pos D a c k -> k_pos k' = k_pos k -> bounded a k' -> inv pos D a c k'.
Proof.
  intros (E1 & E2 & E3 & E4) Ek Hk. split; [exact E1|]. split; [congruence|]. split.
  - eapply envelope1_pos; [|exact E3]. rewrite !map_app. cbn. rewrite Ek. reflexivity.
  - apply Forall_app in E4. apply Forall_app. split; [apply E4|]. constructor; [exact Hk|constructor].
Qed.
Lemma inv_first pos D a c k k0 k0' r : inv pos D a c k -> e_kfs c = k0 :: r -> k_pos k0' = k_pos k0 -> bounded a k0' -> inv pos D a (set_kfs (k0' :: r) c) k.
Proof.
  intros (E1 & E2 & E3 & E4) Ec Ek Hk. split; [exact E1|]. split; [exact E2|]. cbn [e_kfs set_kfs]. rewrite Ec in *. cbn [app] in *. split.
  - eapply envelope1_pos; [|exact E3]. cbn. rewrite Ek. reflexivity.
  - inversion E4; subst. constructor; assumption.
Qed.
Lemma set_kfs_twice l m c : set_kfs l (set_kfs m c) = set_kfs l c. Proof. reflexivity. Qed.
Lemma kept_amp x t b c2 c : c2 = set_kfs (e_kfs c2) c -> addAmplitudeAt x t b c2 = set_kfs (e_kfs (addAmplitudeAt x t b c2)) c.
Proof. intros E. unfold addAmplitudeAt. cbn [e_kfs set_kfs]. set (l := kfs_addAmplitudeAt x t b (e_kfs c2)). rewrite E. reflexivity. Qed.
Lemma kept_freq x t c2 c : c2 = set_kfs (e_kfs c2) c -> addFrequencyAt x t c2 = set_kfs (e_kfs (addFrequencyAt x t c2)) c.
Proof. intros E. unfold addFrequencyAt. cbn [e_kfs set_kfs]. set (l := kfs_addFrequencyAt x t (e_kfs c2)). rewrite E. reflexivity. Qed.
Lemma set_kfs_same c : c = set_kfs (e_kfs c) c. Proof. destruct c. reflexivity. Qed.

(** The amplitude at the point [p], the last one or not. *)
Definition point_amp (a : f32) (p : point) (last : bool) : f32 := if last then a else mul32 (f32_of_f64 (snd p)) a.
Definition is_nil {A} (l : list A) : bool := match l with [] => true | _ => false end.
Lemma point_amp_ok a p b : between 0 1 a -> point_ok 0 p -> between 0 (B2R a) (point_amp a p b).
Proof.
  intros Ha (_ & Hp). unfold point_amp. destruct b; [split; [apply Ha|]; destruct Ha; lra|].
  apply (mul_unit (f32_of_f64 (snd p)) a); [apply (unit32 _ Hp)|exact Ha].
Qed.
Lemma self_ok (a : f32) : between 0 1 a -> between 0 (B2R a) a. Proof. intros (F & H). split; [exact F|lra]. Qed.

Section Modulation.
Variables (pos D : Z) (a : f32).
Hypothesis Hpos : 0 <= pos.
Hypothesis HD : 0 < D.
Hypothesis Hstop : pos + D < 2 ^ 31.
Hypothesis Ha : between 0 1 a.
Local Notation stop := (pos + D).

Lemma amplitude_loop : forall l prev c k, inv pos D a c k -> k_amp k = Some a -> Forall (point_ok 0) l ->
  (forall q, prev = Some q -> fst q < stop /\ point_ok 0 q) -> (prev = None -> match l with p :: _ => fst p < stop | [] => True end) ->
  exists c' k', amplitudeLoop prev l a c k = Ok (c', k') /\ inv pos D a c' k' /\ c' = set_kfs (e_kfs c') c /\ k_freq k' = k_freq k /\
    (forall t x, (forall p, In p l -> pos < fst p < stop -> t <> fst p - pos) -> amp_at (e_kfs c) t x -> amp_at (e_kfs c') t x) /\
    (forall before p after, l = before ++ p :: after -> rising l -> pos < fst p < stop ->
       amp_at (e_kfs c') (fst p - pos) (point_amp a p (is_nil after))) /\
    (forall before q p after, match prev with Some q0 => q0 :: l | None => l end = before ++ q :: p :: after ->
       Forall (fun x => fst x < stop) (before ++ [q]) -> stop <= fst p ->
       exists x, k_amp k' = Some x /\ (Rabs (B2R x - B2R a * on_line (fst q) (fst p) (B2R (snd q)) (B2R (snd p)) (IZR stop)) <= / 4194304)%R).
Proof.
  induction l as [|p l IH]; intros prev c k HI Hk Hl Hq Hn; cbn [amplitudeLoop].
  - exists c, k. split; [reflexivity|]. split; [exact HI|]. split; [apply set_kfs_same|]. split; [reflexivity|]. split; [auto|]. split.
    + intros [|] ? ? E; discriminate.
    + intros before q p after E. destruct prev; [destruct before as [|? [|]]; discriminate|destruct before; discriminate].
  - pose proof HI as (E1 & E2 & _ & E4). unfold pos_value. rewrite E2, E1. cbn [obind]. rewrite int_ok_fits by lia. cbn [obind].
    inversion Hl as [|? ? Hp Hl']; subst. destruct (Z.geb_spec (fst p) (e_pos c + D)) as [L|L].
    + destruct prev as [q|]; [|specialize (Hn eq_refl); cbn in Hn; lia]. destruct (Hq q eq_refl) as (Lq & (Rq & Vq)). unfold amp32_value. rewrite Hk. cbn [obind].
      destruct Hp as (Rp & Vp). destruct (interpolated q p (e_pos c + D) a ltac:(lia) ltac:(lia) Vq Vp Ha) as (B & E).
      set (y := mul32 _ a) in *. exists c, (set_amp y k). split; [reflexivity|]. split; [|split; [apply set_kfs_same|split; [reflexivity|split; [auto|split]]]].
      * apply (inv_end _ _ _ _ k); [exact HI|reflexivity|]. apply Forall_app in E4. destruct E4 as (_ & E4). inversion E4 as [|? ? (_ & Hf) _]; subst.
        split; [cbn; intros x Ex; injection Ex as <-; exact B|exact Hf].
      * intros before p0 after Ep Hr Hin. exfalso. destruct before as [|p1 before]; cbn in Ep; injection Ep as -> ->; [lia|].
        inversion Hr as [|? ? _ Hf]; subst. rewrite Forall_forall in Hf. specialize (Hf p0 (in_elt _ _ _)). lia.
      * intros before q0 p0 after Ep Hf Hp0. destruct before as [|q1 before].
        -- cbn in Ep. injection Ep as -> -> ->. exists y. split; [reflexivity|exact E].
        -- cbn in Ep. injection Ep as -> Ep. destruct before as [|q2 before]; cbn in Ep; injection Ep as -> Ep; inversion Hf as [|? ? _ Hf']; subst; inversion Hf'; subst; lia.
    + set (c1 := if e_pos c <? fst p then _ else c).
      assert (C1 : inv (e_pos c) D a c1 k /\ c1 = set_kfs (e_kfs c1) c /\
        (forall t x, (e_pos c < fst p < e_pos c + D -> t <> fst p - e_pos c) -> amp_at (e_kfs c) t x -> amp_at (e_kfs c1) t x) /\
        (e_pos c < fst p -> amp_at (e_kfs c1) (fst p - e_pos c) (point_amp a p (is_nil l)))).
      { unfold c1. destruct (Z.ltb_spec (e_pos c) (fst p)) as [L2|L2].
        2: { split; [exact HI|]. split; [apply set_kfs_same|]. split; [auto|lia]. }
        set (t0 := fst p - e_pos c). set (c2 := match prev with Some _ => c | None => addAmplitudeAt (Some a) t0 true c end).
        assert (C2 : inv (e_pos c) D a c2 k /\ c2 = set_kfs (e_kfs c2) c /\ forall t x, t <> t0 -> amp_at (e_kfs c) t x -> amp_at (e_kfs c2) t x).
        { unfold c2. destruct prev; [split; [exact HI|split; [apply set_kfs_same|auto]]|]. split; [apply inv_amp; [exact HI|unfold t0; lia|apply self_ok, Ha]|].
          split; [reflexivity|]. intros t x Nt Q. apply (amp_at_keep (Some a) t0 t x _ Nt Q). }
        destruct C2 as (C21 & C22 & C23). set (c3 := addAmplitudeAt (Some (mul32 (f32_of_f64 (snd p)) a)) t0 true c2).
        assert (C3 : inv (e_pos c) D a c3 k) by (apply inv_amp; [exact C21|unfold t0; lia|apply (point_amp_ok a p false Ha Hp)]).
        destruct l as [|p2 l2].
        - split; [apply inv_amp; [exact C3|unfold t0; lia|apply self_ok, Ha]|]. split; [|split].
          + apply kept_amp, kept_amp, C22.
          + intros t x Nt Q. apply amp_at_keep; [apply Nt; lia|]. apply amp_at_keep; [apply Nt; lia|]. apply C23; [apply Nt; lia|exact Q].
          + intros _. apply amp_at_add.
        - split; [exact C3|]. split; [|split].
          + apply kept_amp, C22.
          + intros t x Nt Q. apply amp_at_keep; [apply Nt; lia|]. apply C23; [apply Nt; lia|exact Q].
          + intros _. apply amp_at_add. }
      clearbody c1. destruct C1 as (C1 & C2 & C3 & C4).
      destruct (IH (Some p) c1 k C1 Hk Hl') as (c' & k' & -> & Q1 & Q2 & Q3 & Q4 & Q5 & Q6).
      { intros q Eq. injection Eq as <-. split; [lia|exact Hp]. } { discriminate. }
      exists c', k'. split; [reflexivity|]. split; [exact Q1|]. split; [rewrite Q2 at 1; rewrite C2; reflexivity|]. split; [exact Q3|]. split; [|split].
      * intros t x Nt Q. apply Q4; [intros p0 I0; apply Nt; right; exact I0|]. apply C3; [apply Nt; left; reflexivity|exact Q].
      * intros before p0 after Ep Hr Hin. destruct before as [|p1 before]; cbn in Ep; injection Ep as -> ->.
        -- apply Q4; [|apply C4; lia]. intros p1 I1 _. inversion Hr as [|? ? _ Hf]; subst. rewrite Forall_forall in Hf. specialize (Hf p1 I1). lia.
        -- apply (Q5 before p0 after eq_refl); [|exact Hin]. inversion Hr; assumption.
      * intros before q0 p0 after Ep Hf Hp0. destruct prev as [q|].
        -- destruct before as [|q1 before]; cbn in Ep.
           ++ injection Ep as -> -> ->. lia.
           ++ injection Ep as -> Ep. apply (Q6 before q0 p0 after); [exact Ep|inversion Hf; assumption|exact Hp0].
        -- apply (Q6 before q0 p0 after); assumption.
Qed.

(** The curve reaches the effect. *)
Definition reaches (ps : list point) : Prop :=
  ps = [] \/ (Exists (fun p => pos <= fst p) ps /\ match ps with p :: _ => fst p < stop | [] => True end).
Lemma not_in_before (x : point) (l : list point) : Forall (fun p => fst p < pos) l -> pos <= fst x -> ~ In x l.
Proof. intros F H I. rewrite Forall_forall in F. specialize (F x I). lia. Qed.
Lemma last_or_nil {A} (l : list A) : l = [] \/ exists b x, l = b ++ [x].
Proof. destruct l as [|y l]; [left; reflexivity|]. right. destruct (exists_last (l := y :: l)) as (b & x & E); [discriminate|]. eauto. Qed.

Lemma modulate_amplitude amps c k f : e_kfs c = [Keyframe (Some 0) (Some a) f] -> inv pos D a c k -> k_amp k = Some a -> Forall (point_ok 0) amps -> reaches amps ->
  exists c' k', modulateContinuousOnAmplitude amps c (Keyframe (Some 0) (Some a) f) k = Ok (c', k') /\ inv pos D a c' k' /\ c' = set_kfs (e_kfs c') c /\
    k_freq k' = k_freq k /\ (amps = [] -> c' = c /\ k' = k) /\ (exists x, amp_at (e_kfs c') 0 x) /\
    (forall before p after, amps = before ++ p :: after -> rising amps -> pos < fst p < stop ->
       amp_at (e_kfs c') (fst p - pos) (point_amp a p (is_nil after))) /\
    (forall before q p after, amps = before ++ q :: p :: after -> Forall (fun x => fst x < pos) (before ++ [q]) -> pos < fst p ->
      exists x, amp_at (e_kfs c') 0 x /\ (Rabs (B2R x - B2R a * on_line (fst q) (fst p) (B2R (snd q)) (B2R (snd p)) (IZR pos)) <= / 4194304)%R) /\
    (forall before q p after, amps = before ++ q :: p :: after -> Forall (fun x => fst x < stop) (before ++ [q]) -> stop <= fst p ->
       exists x, k_amp k' = Some x /\ (Rabs (B2R x - B2R a * on_line (fst q) (fst p) (B2R (snd q)) (B2R (snd p)) (IZR stop)) <= / 4194304)%R).
Proof.
  intros Ec HI Hk Hl Hr. unfold modulateContinuousOnAmplitude. destruct amps as [|p0 amps0].
  { exists c, k. split; [reflexivity|]. split; [exact HI|]. split; [apply set_kfs_same|]. split; [reflexivity|]. split; [auto|].
    split; [exists a, (Keyframe (Some 0) (Some a) f); rewrite Ec; split; [left|split]; reflexivity|].
    split; [|split]; intros [|] *; discriminate. }
  destruct Hr as [|(Hex & Hhd)]; [discriminate|]. set (amps := p0 :: amps0) in *. cbn [amp32_value k_amp obind].
  pose proof HI as (E1 & E2 & E3 & E4). rewrite E1.
  destruct (find_from_spec pos amps None) as (before & El & Fb & Hge & Hb0 & Hb1). destruct (find_from None amps pos) as (prev & rest). cbn [fst snd] in *.
  destruct rest as [|p r].
  { exfalso. rewrite app_nil_r in El. rewrite El in Hex. apply Exists_exists in Hex. destruct Hex as (x & I & L). rewrite Forall_forall in Fb. specialize (Fb x I). lia. }
  assert (Hprev : forall q, prev = Some q -> exists b, before = b ++ [q]).
  { intros q Eq. destruct (last_or_nil before) as [En|(b & x & En)]; [rewrite (Hb0 En) in Eq; discriminate|]. rewrite (Hb1 b x En) in Eq. injection Eq as ->. eauto. }
  assert (Hp : point_ok 0 p) by (rewrite El in Hl; apply Forall_app in Hl; destruct Hl as (_ & Hl); inversion Hl; assumption).
  assert (Hr : Forall (point_ok 0) r) by (rewrite El in Hl; apply Forall_app in Hl; destruct Hl as (_ & Hl); inversion Hl; assumption).
  assert (Hq : forall q, prev = Some q -> fst q < pos /\ point_ok 0 q).
  { intros q Eq. destruct (Hprev q Eq) as (b & ->). rewrite El in Hl. apply Forall_app in Hl. destruct Hl as (Hl & _). apply Forall_app in Hl. apply Forall_app in Fb.
    destruct Hl as (_ & Hl), Fb as (_ & Fb). inversion Hl; inversion Fb; auto. }
  destruct ((fst p =? pos) && negb (Nat.eqb (length r) 0)) eqn:Q.
  - apply andb_prop in Q. destruct Q as (Q1 & Q2). apply Z.eqb_eq in Q1.
    unfold on_first. rewrite Ec. cbn [amp32_value k_amp obind].
    destruct (mul_unit (f32_of_f64 (snd p)) a) as (_ & M & _); [apply unit32, Hp|exact Ha|].
    set (c1 := set_kfs _ c). assert (I1 : inv pos D a c1 k).
    { apply (inv_first pos D a c k (Keyframe (Some 0) (Some a) f)); [exact HI|exact Ec|reflexivity|]. rewrite Ec in E4. inversion E4 as [|? ? (_ & Hf) _]; subst.
      split; [cbn; intros x Ex; injection Ex as <-; exact M|exact Hf]. }
    destruct (amplitude_loop r (Some p) c1 k I1 Hk Hr) as (c' & k' & -> & R1 & R2 & R3 & R4 & R5 & R6).
    { intros q Eq. injection Eq as <-. split; [lia|exact Hp]. } { discriminate. }
    exists c', k'. split; [reflexivity|]. split; [exact R1|]. split; [exact R2|]. split; [exact R3|]. split; [discriminate|].
    split; [eexists; apply (R4 0); [intros; lia|]; eexists; split; [left; reflexivity|split; reflexivity]|]. split; [|split].
    + intros b x after Ex Hri Hin. rewrite Ex in El. symmetry in El. change (before ++ p :: r) with (before ++ [p] ++ r) in El. rewrite app_assoc in El.
      destruct (split_in x _ _ _ _ El) as (b' & Er & _).
      { intros I. apply in_app_or in I. destruct I as [I|[<- |[]]]; [|lia]. revert I. apply not_in_before; [exact Fb|lia]. }
      apply (R5 b' x after Er); [|exact Hin]. rewrite <- Ex in El. rewrite <- El in Hri. apply rising_app in Hri. exact Hri.
    + intros b q x after Ex Hf Hx. exfalso. rewrite Ex in El. change (b ++ q :: x :: after) with (b ++ [q] ++ x :: after) in El. rewrite app_assoc in El.
      destruct (split_first (fun x => fst x < pos) _ _ _ _ _ _ El Hf Fb) as (_ & -> & _); lia.
    + intros b q x after Ex Hf Hx. rewrite Ex in El. symmetry in El. change (before ++ p :: r) with (before ++ [p] ++ r) in El. rewrite app_assoc in El.
      change (b ++ q :: x :: after) with (b ++ [q] ++ x :: after) in El. rewrite app_assoc in El.
      destruct (split_in x _ _ _ _ El) as (b' & Er & Eb).
      { intros I. apply in_app_or in I. destruct I as [I|[<- |[]]]; [|lia]. revert I. apply not_in_before; [exact Fb|lia]. }
      destruct (last_or_nil b') as [-> |(b3 & q3 & ->)].
      * rewrite app_nil_r in Eb. apply app_inj_tail in Eb. destruct Eb as (_ & ->). apply (R6 [] p x after); [rewrite Er; reflexivity|constructor; [lia|constructor]|exact Hx].
      * rewrite app_assoc in Eb. apply app_inj_tail in Eb. destruct Eb as (Eb & ->). apply (R6 (p :: b3) q3 x after); [rewrite Er, <- app_assoc; reflexivity| |exact Hx].
        rewrite Forall_forall in *. intros y Iy. apply Hf. rewrite Eb. cbn [app] in Iy. cbn [In] in Iy. rewrite !in_app_iff in *. cbn [In]. tauto.
  - set (m := match prev with Some q => _ | None => _ end).
    assert (C1 : exists c1, m = Ok c1 /\ inv pos D a c1 k /\ c1 = set_kfs (e_kfs c1) c /\
      (exists x, amp_at (e_kfs c1) 0 x) /\
      (forall q, prev = Some q -> pos < fst p -> exists x, amp_at (e_kfs c1) 0 x /\ (Rabs (B2R x - B2R a * on_line (fst q) (fst p) (B2R (snd q)) (B2R (snd p)) (IZR pos)) <= / 4194304)%R)).
    { assert (A0 : exists x, amp_at (e_kfs c) 0 x) by (exists a, (Keyframe (Some 0) (Some a) f); rewrite Ec; split; [left|split]; reflexivity).
      unfold m. destruct prev as [q|]; [|exists c; split; [reflexivity|]; split; [exact HI|]; split; [apply set_kfs_same|split; [exact A0|discriminate]]].
      destruct (Z.ltb_spec pos (fst p)) as [L|L]; [|exists c; split; [reflexivity|]; split; [exact HI|]; split; [apply set_kfs_same|split; [exact A0|intros; lia]]].
      destruct (Hq q eq_refl) as (Lq & Rq & Vq). destruct Hp as (Rp & Vp). destruct (interpolated q p pos a ltac:(lia) ltac:(lia) Vq Vp Ha) as (B & E).
      unfold on_first. rewrite Ec. cbn [amp32_value k_amp obind]. set (y := mul32 _ a) in *. eexists. split; [reflexivity|]. split; [|split; [reflexivity|split]].
      - apply (inv_first pos D a c k (Keyframe (Some 0) (Some a) f)); [exact HI|exact Ec|reflexivity|]. rewrite Ec in E4. inversion E4 as [|? ? (_ & Hf) _]; subst.
        split; [cbn; intros x Ex; injection Ex as <-; exact B|exact Hf].
      - exists y. eexists. split; [left; reflexivity|]. split; reflexivity.
      - intros q0 Eq _. injection Eq as <-. exists y. split; [|exact E]. eexists. split; [left; reflexivity|]. split; reflexivity. }
    destruct C1 as (c1 & -> & I1 & S1 & (x0 & A0) & A1). cbn [obind].
    destruct (amplitude_loop (p :: r) prev c1 k I1 Hk) as (c' & k' & -> & R1 & R2 & R3 & R4 & R5 & R6).
    { constructor; assumption. } { intros q Eq. destruct (Hq q Eq). split; [lia|assumption]. }
    { intros En. destruct (last_or_nil before) as [En'|(b & x & En')]; [|rewrite (Hb1 b x En') in En; discriminate]. rewrite En' in El. cbn in El. unfold amps in El. injection El as -> _. exact Hhd. }
    exists c', k'. split; [reflexivity|]. split; [exact R1|]. split; [rewrite R2 at 1; rewrite S1; reflexivity|]. split; [exact R3|]. split; [discriminate|].
    split; [exists x0; apply R4; [intros; lia|exact A0]|]. split; [|split].
    + intros b x after Ex Hri Hin. pose proof El as El2. rewrite Ex in El. symmetry in El. destruct (split_in x _ _ _ _ El) as (b' & Er & _); [apply not_in_before; [exact Fb|lia]|].
      apply (R5 b' x after Er); [|exact Hin]. rewrite El2 in Hri. apply rising_app in Hri. exact Hri.
    + intros b q x after Ex Hf Hx. rewrite Ex in El. change (b ++ q :: x :: after) with (b ++ [q] ++ x :: after) in El. rewrite app_assoc in El.
      destruct (split_first (fun x => fst x < pos) _ _ _ _ _ _ El Hf Fb) as (Eb & -> & _); [lia|lia|]. destruct (A1 q) as (y & A2 & A3); [apply (Hb1 b); symmetry; exact Eb|exact Hx|].
      exists y. split; [|exact A3]. apply R4; [intros; lia|exact A2].
    + intros b q x after Ex Hf Hx. rewrite Ex in El. symmetry in El. change (b ++ q :: x :: after) with (b ++ [q] ++ x :: after) in El. rewrite app_assoc in El.
      destruct (split_in x _ _ _ _ El) as (b' & Er & Eb); [apply not_in_before; [exact Fb|lia]|].
      destruct (last_or_nil b') as [-> |(b3 & q3 & ->)].
      * rewrite app_nil_r in Eb. rewrite (Hb1 b q (eq_sym Eb)) in R6. apply (R6 [] q x after); [rewrite Er; reflexivity| |exact Hx]. apply Forall_app in Hf. apply Hf.
      * rewrite app_assoc in Eb. apply app_inj_tail in Eb. destruct Eb as (Eb & ->). rewrite <- app_assoc in Er. cbn [app] in Er.
        assert (Hf3 : Forall (fun x => fst x < stop) (b3 ++ [q3])).
        { rewrite Eb in Hf. rewrite <- app_assoc in Hf. apply Forall_app in Hf. apply Hf. }
        destruct prev as [q0|].
        -- apply (R6 (q0 :: b3) q3 x after); [rewrite Er; reflexivity| |exact Hx]. constructor; [|exact Hf3]. destruct (Hq q0 eq_refl). lia.
        -- apply (R6 b3 q3 x after); [exact Er|exact Hf3|exact Hx].
Qed.

Variable s : f64.
Hypothesis Hs : between 0 1 s.
(** The frequency at the point [p], the last one or not. *)
Definition point_hertz (p : point) (last : bool) : R := if last then hertz (B2R s) else hertz (clamp (B2R s + B2R (snd p))).
Lemma frequency_loop : forall l prev c k, inv pos D a c k -> Forall (point_ok (-1)) l ->
  (forall q, prev = Some q -> fst q < stop /\ point_ok (-1) q) -> (prev = None -> match l with p :: _ => fst p < stop | [] => True end) ->
  exists c' k', frequencyLoop prev l s c k = Ok (c', k') /\ inv pos D a c' k' /\ c' = set_kfs (e_kfs c') c /\ k_amp k' = k_amp k /\
    (forall t x, amp_at (e_kfs c) t x -> amp_at (e_kfs c') t x) /\
    (forall t x, (forall p, In p l -> pos < fst p < stop -> t <> fst p - pos) -> freq_at (e_kfs c) t x -> freq_at (e_kfs c') t x) /\
    (forall before p after, l = before ++ p :: after -> rising l -> pos < fst p < stop ->
       exists f, freq_at (e_kfs c') (fst p - pos) f /\ nearest (point_hertz p (is_nil after)) f).
Proof.
  induction l as [|p l IH]; intros prev c k HI Hl Hq Hn; cbn [frequencyLoop].
  - exists c, k. split; [reflexivity|]. split; [exact HI|]. split; [apply set_kfs_same|]. split; [reflexivity|]. split; [auto|]. split; [auto|].
    intros [|] ? ? E; discriminate.
  - pose proof HI as (E1 & E2 & _ & E4). unfold pos_value. rewrite E2, E1. cbn [obind]. rewrite int_ok_fits by lia. cbn [obind].
    inversion Hl as [|? ? Hp Hl']; subst. destruct (Z.geb_spec (fst p) (e_pos c + D)) as [L|L].
    + destruct prev as [q|]; [|specialize (Hn eq_refl); cbn in Hn; lia]. destruct (Hq q eq_refl) as (Lq & (Rq & Vq)).
      destruct Hp as (Rp & Vp). destruct (chirp_finite (fst q) (fst p) (add64 (snd q) s) (add64 (snd p) s) (e_pos c + D)) as (f & -> & Hf);
        [lia|lia|apply sum_ok; assumption|apply sum_ok; assumption|]. cbn [obind].
      destruct (clamp_ok (add64 f s)) as (C1 & _); [apply add_big; assumption|]. destruct (frequency_round _ C1) as (g & -> & Rg & _). cbn [obind].
      exists c, (set_freq g k). split; [reflexivity|]. split; [|split; [apply set_kfs_same|split; [reflexivity|split; [auto|split; [auto|]]]]].
      * apply (inv_end _ _ _ _ k); [exact HI|reflexivity|]. apply Forall_app in E4. destruct E4 as (_ & E4). inversion E4 as [|? ? (Hx & _) _]; subst.
        split; [exact Hx|cbn; intros x Ex; injection Ex as <-; exact Rg].
      * intros before p0 after Ep Hr Hin. exfalso. destruct before as [|p1 before]; cbn in Ep; injection Ep as -> ->; [lia|].
        inversion Hr as [|? ? _ Hf']; subst. rewrite Forall_forall in Hf'. specialize (Hf' p0 (in_elt _ _ _)). lia.
    + set (m := if e_pos c <? fst p then _ else Ok c).
      assert (C1 : exists c1, m = Ok c1 /\ inv (e_pos c) D a c1 k /\ c1 = set_kfs (e_kfs c1) c /\
        (forall t x, amp_at (e_kfs c) t x -> amp_at (e_kfs c1) t x) /\
        (forall t x, (e_pos c < fst p < e_pos c + D -> t <> fst p - e_pos c) -> freq_at (e_kfs c) t x -> freq_at (e_kfs c1) t x) /\
        (e_pos c < fst p -> exists f, freq_at (e_kfs c1) (fst p - e_pos c) f /\ nearest (point_hertz p (is_nil l)) f)).
      { unfold m. destruct (Z.ltb_spec (e_pos c) (fst p)) as [L2|L2].
        2: { exists c. split; [reflexivity|]. split; [exact HI|]. split; [apply set_kfs_same|]. split; [auto|]. split; [auto|lia]. }
        set (t0 := fst p - e_pos c). destruct (frequency_round s Hs) as (fs & Efs & Rfs & Nfs). destruct Hp as (Rp & Vp).
        destruct (point_frequency (snd p) s Vp Hs) as (fp & Efp & Rfp & Nfp). rewrite Efs, Efp. cbn [obind].
        set (c2 := match prev with Some _ => c | None => addFrequencyAt (Some fs) t0 c end).
        match goal with |- context [obind ?x _] => replace x with (Ok c2) by (unfold c2; destruct prev; reflexivity) end.
        cbn [obind].
        assert (C2 : inv (e_pos c) D a c2 k /\ c2 = set_kfs (e_kfs c2) c /\ (forall t x, amp_at (e_kfs c) t x -> amp_at (e_kfs c2) t x) /\
          forall t x, t <> t0 -> freq_at (e_kfs c) t x -> freq_at (e_kfs c2) t x).
        { unfold c2. destruct prev; [split; [exact HI|split; [apply set_kfs_same|auto]]|]. split; [apply inv_freq; [exact HI|unfold t0; lia|exact Rfs]|].
          split; [reflexivity|]. split; [intros t x Q; apply (amp_at_freq (Some fs) t0 t x _ Q)|]. intros t x Nt Q. apply (freq_at_keep (Some fs) t0 t x _ Nt Q). }
        clearbody c2. destruct C2 as (C21 & C22 & C24 & C23). set (c3 := addFrequencyAt (Some fp) t0 c2).
        assert (C3 : inv (e_pos c) D a c3 k) by (apply inv_freq; [exact C21|unfold t0; lia|exact Rfp]).
        destruct l as [|p2 l2]; (eexists; split; [reflexivity|]).
        - split; [apply inv_freq; [exact C3|unfold t0; lia|exact Rfs]|]. split; [|split; [|split]].
          + apply kept_freq, kept_freq, C22.
          + intros t x Q. apply amp_at_freq, amp_at_freq, C24, Q.
          + intros t x Nt Q. apply freq_at_keep; [apply Nt; lia|]. apply freq_at_keep; [apply Nt; lia|]. apply C23; [apply Nt; lia|exact Q].
          + intros _. exists fs. split; [apply freq_at_add|exact Nfs].
        - split; [exact C3|]. split; [|split; [|split]].
          + apply kept_freq, C22.
          + intros t x Q. apply amp_at_freq, C24, Q.
          + intros t x Nt Q. apply freq_at_keep; [apply Nt; lia|]. apply C23; [apply Nt; lia|exact Q].
          + intros _. exists fp. split; [apply freq_at_add|exact Nfp]. }
      destruct C1 as (c1 & -> & C1 & C2 & C5 & C3 & C4). cbn [obind].
      destruct (IH (Some p) c1 k C1 Hl') as (c' & k' & -> & Q1 & Q2 & Q3 & Q6 & Q4 & Q5).
      { intros q Eq. injection Eq as <-. split; [lia|exact Hp]. } { discriminate. }
      exists c', k'. split; [reflexivity|]. split; [exact Q1|]. split; [rewrite Q2 at 1; rewrite C2; reflexivity|]. split; [exact Q3|]. split; [|split].
      * intros t x Q. apply Q6, C5, Q.
      * intros t x Nt Q. apply Q4; [intros p0 I0; apply Nt; right; exact I0|]. apply C3; [apply Nt; left; reflexivity|exact Q].
      * intros before p0 after Ep Hr Hin. destruct before as [|p1 before]; cbn in Ep; injection Ep as -> ->.
        -- destruct C4 as (f & C4 & C6); [lia|]. exists f. split; [|exact C6]. apply Q4; [|exact C4]. intros p1 I1 _. inversion Hr as [|? ? _ Hf]; subst. rewrite Forall_forall in Hf. specialize (Hf p1 I1). lia.
        -- apply (Q5 before p0 after eq_refl); [|exact Hin]. inversion Hr; assumption.
Qed.

Lemma modulate_frequency freqs c k k0 r : e_kfs c = k0 :: r -> inv pos D a c k -> Forall (point_ok (-1)) freqs -> reaches freqs ->
  exists c' k', modulateContinuousOnFrequency freqs c k s = Ok (c', k') /\ inv pos D a c' k' /\ c' = set_kfs (e_kfs c') c /\
    k_amp k' = k_amp k /\ (freqs = [] -> c' = c /\ k' = k) /\
    (forall t x, amp_at (e_kfs c) t x -> amp_at (e_kfs c') t x) /\
    (forall before p after, freqs = before ++ p :: after -> rising freqs -> pos < fst p < stop ->
       exists f, freq_at (e_kfs c') (fst p - pos) f /\ nearest (point_hertz p (is_nil after)) f).
Proof.
  intros Ec HI Hl Hr. unfold modulateContinuousOnFrequency. destruct freqs as [|p0 freqs0].
  { exists c, k. split; [reflexivity|]. split; [exact HI|]. split; [apply set_kfs_same|]. split; [reflexivity|]. split; [auto|].
    split; [auto|]. intros [|] *; discriminate. }
  destruct Hr as [|(Hex & Hhd)]; [discriminate|]. set (freqs := p0 :: freqs0) in *.
  pose proof HI as (E1 & E2 & E3 & E4). rewrite E1.
  destruct (find_from_spec pos freqs None) as (before & El & Fb & Hge & Hb0 & Hb1). destruct (find_from None freqs pos) as (prev & rest). cbn [fst snd] in *.
  destruct rest as [|p r'].
  { exfalso. rewrite app_nil_r in El. rewrite El in Hex. apply Exists_exists in Hex. destruct Hex as (x & I & L). rewrite Forall_forall in Fb. specialize (Fb x I). lia. }
  assert (Hprev : forall q, prev = Some q -> exists b, before = b ++ [q]).
  { intros q Eq. destruct (last_or_nil before) as [En|(b & x & En)]; [rewrite (Hb0 En) in Eq; discriminate|]. rewrite (Hb1 b x En) in Eq. injection Eq as ->. eauto. }
  assert (Hp : point_ok (-1) p) by (rewrite El in Hl; apply Forall_app in Hl; destruct Hl as (_ & Hl); inversion Hl; assumption).
  assert (Hr : Forall (point_ok (-1)) r') by (rewrite El in Hl; apply Forall_app in Hl; destruct Hl as (_ & Hl); inversion Hl; assumption).
  assert (Hq : forall q, prev = Some q -> fst q < pos /\ point_ok (-1) q).
  { intros q Eq. destruct (Hprev q Eq) as (b & ->). rewrite El in Hl. apply Forall_app in Hl. destruct Hl as (Hl & _). apply Forall_app in Hl. apply Forall_app in Fb.
    destruct Hl as (_ & Hl), Fb as (_ & Fb). inversion Hl; inversion Fb; auto. }
  assert (KEEP : forall g t x, amp_at (e_kfs c) t x -> amp_at (set_freq g k0 :: r) t x).
  { intros g t x (kx & I & Q). rewrite Ec in I. destruct I as [<- |I]; [exists (set_freq g k0); split; [left; reflexivity|exact Q]|exists kx; split; [right; exact I|exact Q]]. }
  assert (BND : forall g, 65 <= g <= 300 -> inv pos D a (set_kfs (set_freq g k0 :: r) c) k).
  { intros g Rg. apply (inv_first pos D a c k k0); [exact HI|exact Ec|reflexivity|]. rewrite Ec in E4. inversion E4 as [|? ? (Hx & _) _]; subst.
    split; [exact Hx|cbn; intros x Ex; injection Ex as <-; exact Rg]. }
  destruct ((fst p =? pos) && negb (Nat.eqb (length r') 0)) eqn:Q.
  - apply andb_prop in Q. destruct Q as (Q1 & Q2). apply Z.eqb_eq in Q1.
    destruct (point_frequency (snd p) s (proj2 Hp) Hs) as (fp & -> & Rfp & _). cbn [obind]. unfold on_first. rewrite Ec. cbn [obind].
    set (c1 := set_kfs _ c). pose proof (BND fp Rfp) as I1. fold c1 in I1.
    destruct (frequency_loop r' (Some p) c1 k I1 Hr) as (c' & k' & -> & R1 & R2 & R3 & R4 & _ & R5).
    { intros q Eq. injection Eq as <-. split; [lia|exact Hp]. } { discriminate. }
    exists c', k'. split; [reflexivity|]. split; [exact R1|]. split; [exact R2|]. split; [exact R3|]. split; [discriminate|]. split.
    + intros t x A. rewrite <- Ec in A. apply R4. apply (KEEP fp t x A).
    + intros b x after Ex Hri Hin. rewrite Ex in El. symmetry in El. change (before ++ p :: r') with (before ++ [p] ++ r') in El. rewrite app_assoc in El.
      destruct (split_in x _ _ _ _ El) as (b' & Er & _).
      { intros I. apply in_app_or in I. destruct I as [I|[<- |[]]]; [|lia]. revert I. apply not_in_before; [exact Fb|lia]. }
      apply (R5 b' x after Er); [|exact Hin]. rewrite <- Ex in El. rewrite <- El in Hri. apply rising_app in Hri. exact Hri.
  - set (m := match prev with Some q => _ | None => _ end).
    assert (C1 : exists c1, m = Ok c1 /\ inv pos D a c1 k /\ c1 = set_kfs (e_kfs c1) c /\ (forall t x, amp_at (e_kfs c) t x -> amp_at (e_kfs c1) t x)).
    { unfold m. destruct prev as [q|]; [|exists c; split; [reflexivity|]; split; [exact HI|]; split; [apply set_kfs_same|auto]].
      destruct (Z.ltb_spec pos (fst p)) as [L|L]; [|exists c; split; [reflexivity|]; split; [exact HI|]; split; [apply set_kfs_same|auto]].
      destruct (Hq q eq_refl) as (Lq & Rq & Vq). destruct Hp as (Rp & Vp).
      destruct (chirp_finite (fst q) (fst p) (add64 (snd q) s) (add64 (snd p) s) pos) as (f & -> & Hf);
        [lia|lia|apply sum_ok; assumption|apply sum_ok; assumption|]. cbn [obind].
      destruct (clamp_ok f) as (C1 & _); [apply Hf|]. destruct (frequency_round _ C1) as (g & -> & Rg & _). cbn [obind].
      unfold on_first. rewrite Ec. cbn [obind]. eexists. split; [reflexivity|]. split; [apply BND, Rg|]. split; [reflexivity|]. intros t x A. rewrite <- Ec in A. exact (KEEP g t x A). }
    destruct C1 as (c1 & -> & I1 & S1 & A1). cbn [obind].
    destruct (frequency_loop (p :: r') prev c1 k I1) as (c' & k' & -> & R1 & R2 & R3 & R4 & _ & R5).
    { constructor; assumption. } { intros q Eq. destruct (Hq q Eq). split; [lia|assumption]. }
    { intros En. destruct (last_or_nil before) as [En'|(b & x & En')]; [|rewrite (Hb1 b x En') in En; discriminate]. rewrite En' in El. cbn in El. unfold freqs in El. injection El as -> _. exact Hhd. }
    exists c', k'. split; [reflexivity|]. split; [exact R1|]. split; [rewrite R2 at 1; rewrite S1; reflexivity|]. split; [exact R3|]. split; [discriminate|]. split.
    + intros t x A. apply R4, A1, A.
    + intros b x after Ex Hri Hin. pose proof El as El2. rewrite Ex in El. symmetry in El. destruct (split_in x _ _ _ _ El) as (b' & Er & _); [apply not_in_before; [exact Fb|lia]|].
      apply (R5 b' x after Er); [|exact Hin]. rewrite El2 in Hri. apply rising_app in Hri. exact Hri.
Qed.
End Modulation.
