(** The whole stream. *)
From Coq Require Import Sorting.Sorted Sorting.Permutation Reals.
From Verif Require Import Base BitsModel BitsProof FloatBase FloatModel TypesModel TypesSpec TypesProof MetaModel BandModel DataModel CrcModel StreamModel
  MetaSpec VecReads MetaProof DataSpec DataProof MergeProof DataTop UnitSpec UnitProof StreamSpec StreamProof TripSpec TripInit TripData TripRead.
Local Open Scope Z_scope.
Local Open Scope list_scope.

(** *** The places of bands *)
Definition lies (l : list perception) (s : spot) : Prop :=
  let '((pid, cid, b), (pi, ci, bi)) := s in
  exists p c, nth_error l pi = Some p /\ nth_error (p_channels p) ci = Some c /\ nth_error (c_bands c) bi = Some b /\ p_id p = pid /\ c_id c = cid.
Lemma in_mapi {A B} (f : nat -> A -> B) l : forall n y, In y (mapi f n l) <-> exists k x, nth_error l k = Some x /\ y = f (n + k)%nat x.
Proof.
  induction l as [|a l IH]; intros n y; cbn [mapi In].
  - split; [intros []|]. intros (k & x & H & _). destruct k; discriminate H.
  - rewrite IH. split.
    + intros [<-|(k & x & H & ->)]; [exists 0%nat, a; rewrite Nat.add_0_r; split; reflexivity|]. exists (S k), x. split; [exact H|f_equal; lia].
    + intros (k & x & H & ->). destruct k as [|k]; cbn in H; [left; rewrite Nat.add_0_r; congruence|]. right. exists k, x. split; [exact H|f_equal; lia].
Qed.
Lemma in_spots_p pid pi l : forall n s, In s (spots_p pid pi n l) <->
  exists ci bi c b, nth_error l ci = Some c /\ nth_error (c_bands c) bi = Some b /\ s = ((pid, c_id c, b), (pi, (n + ci)%nat, bi)).
Proof.
  induction l as [|c l IH]; intros n s; cbn [spots_p].
  - split; [intros []|]. intros (ci & bi & c & b & H & _). destruct ci; discriminate H.
  - rewrite in_app_iff, IH. unfold spots_c. rewrite in_mapi. split.
    + intros [(k & b & H & ->)|(ci & bi & c' & b & H1 & H2 & ->)].
      * exists 0%nat, k, c, b. rewrite Nat.add_0_r. repeat split. exact H.
      * exists (S ci), bi, c', b. split; [exact H1|]. split; [exact H2|]. do 3 f_equal. lia.
    + intros (ci & bi & c' & b & H1 & H2 & ->). destruct ci as [|ci]; cbn in H1.
      * left. injection H1 as ->. exists bi, b. rewrite Nat.add_0_r. split; [exact H2|reflexivity].
      * right. exists ci, bi, c', b. split; [exact H1|]. split; [exact H2|]. do 3 f_equal. lia.
Qed.
Lemma in_spots_h l : forall n s, In s (spots_h n l) <->
  exists pi ci bi p c b, nth_error l pi = Some p /\ nth_error (p_channels p) ci = Some c /\ nth_error (c_bands c) bi = Some b /\
    s = ((p_id p, c_id c, b), ((n + pi)%nat, ci, bi)).
Proof.
  induction l as [|p l IH]; intros n s; cbn [spots_h].
  - split; [intros []|]. intros (pi & ci & bi & p & c & b & H & _). destruct pi; discriminate H.
  - rewrite in_app_iff, IH, in_spots_p. split.
    + intros [(ci & bi & c & b & H1 & H2 & ->)|(pi & ci & bi & p' & c & b & H1 & H2 & H3 & ->)].
      * exists 0%nat, ci, bi, p, c, b. rewrite Nat.add_0_r. auto.
      * exists (S pi), ci, bi, p', c, b. split; [exact H1|]. split; [exact H2|]. split; [exact H3|]. do 3 f_equal. lia.
    + intros (pi & ci & bi & p' & c & b & H1 & H2 & H3 & ->). destruct pi as [|pi]; cbn in H1.
      * left. injection H1 as ->. exists ci, bi, c, b. rewrite Nat.add_0_r. auto.
      * right. exists pi, ci, bi, p', c, b. split; [exact H1|]. split; [exact H2|]. split; [exact H3|]. do 3 f_equal. lia.
Qed.
Lemma nodup_app {A} (a b : list A) : NoDup a -> NoDup b -> (forall x, In x a -> In x b -> False) -> NoDup (a ++ b).
Proof.
  induction a as [|x a IH]; intros Ha Hb H; [exact Hb|]. inversion Ha; subst. cbn [app]. constructor.
  - rewrite in_app_iff. intros [X|X]; [contradiction|]. exact (H x (or_introl eq_refl) X).
  - apply IH; auto. intros y Hy. apply H. right. exact Hy.
Qed.
Lemma spots_nodup l : forall n, NoDup (map snd (spots_h n l)).
Proof.
  assert (Hb : forall pid cid pi ci bs bi, NoDup (map snd (spots_c pid cid pi ci bi bs))).
  { intros pid cid pi ci bs. unfold spots_c. induction bs as [|b bs IH]; intros bi; [constructor|]. cbn [mapi map snd]. constructor; [|apply IH].
    intros H. apply in_map_iff in H. destruct H as (s & E & H). apply in_mapi in H. destruct H as (k & x & _ & ->). cbn [snd] in E. injection E as E. lia. }
  assert (Hc : forall pid pi cs ci, NoDup (map snd (spots_p pid pi ci cs))).
  { intros pid pi cs. induction cs as [|c cs IH]; intros ci; [constructor|]. cbn [spots_p]. rewrite map_app. apply nodup_app; [apply Hb|apply IH|].
    intros x H1 H2. apply in_map_iff in H1, H2. destruct H1 as (s1 & <- & H1). destruct H2 as (s2 & E & H2). unfold spots_c in H1. apply in_mapi in H1. destruct H1 as (k & b & _ & ->).
    apply in_spots_p in H2. destruct H2 as (ci' & bi & c' & b' & _ & _ & ->). cbn [snd] in E. injection E as E _. lia. }
  induction l as [|p l IH]; intros n; [constructor|]. cbn [spots_h]. rewrite map_app. apply nodup_app; [apply Hc|apply IH|].
  intros x H1 H2. apply in_map_iff in H1, H2. destruct H1 as (s1 & <- & H1). destruct H2 as (s2 & E & H2). apply in_spots_p in H1. destruct H1 as (ci & bi & c & b & _ & _ & ->).
  apply in_spots_h in H2. destruct H2 as (pi' & ci' & bi' & p' & c' & b' & _ & _ & _ & ->). cbn [snd] in E. injection E as E _ _. lia.
Qed.
Lemma lanes_places l Ls : forall n, length Ls = length l -> map la_place (mapi (fun k sL => la_spot k (fst sL) (snd sL)) n (combine l Ls)) = map snd l.
Proof.
  revert Ls. induction l as [|s l IH]; intros Ls n H; [reflexivity|]. destruct Ls as [|L Ls]; [discriminate H|]. cbn [combine mapi map].
  rewrite IH by (cbn in H; lia). destruct s as [[[pid cid] b] pl]. reflexivity.
Qed.
Lemma in_lanes l Ls ln : length Ls = length l -> (In ln (mapi (fun k sL => la_spot k (fst sL) (snd sL)) 0 (combine l Ls)) <->
  exists k s L, nth_error l k = Some s /\ nth_error Ls k = Some L /\ ln = la_spot k s L).
Proof.
  intros HL. rewrite in_mapi. cbn [Nat.add]. 
  assert (G : forall (l : list spot) (Ls : list (list effect)) k x, nth_error (combine l Ls) k = Some x <-> nth_error l k = Some (fst x) /\ nth_error Ls k = Some (snd x)).
  { clear. induction l as [|a l IH]; intros [|b Ls] [|k] [x y]; cbn; split; intros H; try discriminate; try (destruct H; discriminate).
    - injection H as -> ->. auto.
    - destruct H. congruence.
    - apply IH in H. exact H.
    - apply IH. exact H. }
  split.
  - intros (k & [s L] & H & ->). apply G in H. destruct H. exists k, s, L. auto.
  - intros (k & s & L & H1 & H2 & ->). exists k, (s, L). rewrite G. auto.
Qed.

(** *** Before the data *)
Lemma perc4_id p p4 : perc4 p p4 -> p_id p4 = p_id p.
Proof. intros (q2 & cs & (q1 & lib & (d & _ & ->) & _ & ->) & _ & ->). reflexivity. Qed.
Lemma chan4_ids cs cs4 : Forall2 chan4 cs cs4 -> map c_id cs4 = map c_id cs.
Proof. induction 1 as [|c c4 l m (c1 & (g & x & _ & _ & ->) & ->) _ IHF]; [reflexivity|]. cbn [map]. rewrite id_bands, IHF. reflexivity. Qed.
Lemma Forall2_nth {A B} (R : A -> B -> Prop) l m : Forall2 R l m -> forall k x, nth_error l k = Some x -> exists y, nth_error m k = Some y /\ R x y.
Proof. induction 1 as [|x y l m H _ IH]; intros [|k] z E; cbn in *; try discriminate; [injection E as <-; eauto|auto]. Qed.
Lemma Forall2_nth_r {A B} (R : A -> B -> Prop) l m : Forall2 R l m -> forall k y, nth_error m k = Some y -> exists x, nth_error l k = Some x /\ R x y.
Proof. induction 1 as [|x y l m H _ IH]; intros [|k] z E; cbn in *; try discriminate; [injection E as <-; eauto|auto]. Qed.
Lemma nodup_first_nth {A} (f : A -> Z) l : NoDup (map f l) -> forall n x, nth_error l n = Some x -> first_at (fun y => f y = f x) l n x.
Proof.
  intros Hnd n x H. apply nth_error_split in H. destruct H as (a & b & -> & <-). now apply nodup_first.
Qed.
Lemma nodup_flat_in {A B} (f : A -> list B) (g : B -> Z) l : NoDup (map g (flat_map f l)) -> forall i j x y, (i < j)%nat -> nth_error l i = Some x -> nth_error l j = Some y ->
  forall u v, In u (f x) -> In v (f y) -> g u <> g v.
Proof.
  intros Hnd i j x y Hij Hx Hy u v Hu Hv E.
  apply nth_error_split in Hx. destruct Hx as (a & b & -> & <-). rewrite nth_error_app2 in Hy by lia. destruct (j - length a)%nat as [|d] eqn:Ed; [lia|]. cbn in Hy.
  rewrite flat_map_app, map_app in Hnd. cbn [flat_map] in Hnd. rewrite map_app in Hnd.
  assert (H2 : NoDup (map g (f x) ++ map g (flat_map f b))).
  { clear - Hnd. induction (map g (flat_map f a)) as [|z l IH]; [exact Hnd|]. inversion Hnd; auto. }
  clear Hnd. apply (in_map g) in Hu. assert (Hv' : In (g v) (map g (flat_map f b))) by (apply in_map, in_flat_map; exists y; split; [eapply nth_error_In; exact Hy|exact Hv]).
  rewrite <- E in Hv'. clear - H2 Hu Hv'. induction (map g (f x)) as [|z l IH]; [destruct Hu|]. inversion H2 as [|? ? Hn H2']; subst. destruct Hu as [->|Hu]; [|auto].
  apply Hn, in_or_app. right. exact Hv'.
Qed.

Lemma found_ready h l4 k pid cid b pi ci bi : Forall2 perc4 (h_perceptions h) l4 -> NoDup (map p_id (h_perceptions h)) ->
  NoDup (map c_id (flat_map p_channels (h_perceptions h))) ->
  nth_error (spots_h 0 (h_perceptions h)) k = Some ((pid, cid, b), (pi, ci, bi)) ->
  found (ready h l4) (Address pid cid (Z.of_nat k)) pi ci bi (bare b).
Proof.
  intros F4 Hip Hic Hk. pose proof (nth_error_In _ _ Hk) as Hin. apply in_spots_h in Hin. destruct Hin as (pi0 & ci0 & bi0 & p & c & b0 & Np & Nc & Nb & E). cbn [Nat.add] in E.
  injection E as -> -> -> -> -> ->.
  destruct (Forall2_nth _ _ _ F4 _ _ Np) as (p4 & Np4 & H4). pose proof (perc4_id _ _ H4) as Ep4. pose proof H4 as H4'. destruct H4' as (q2 & cs & H2 & Hcs & Eq).
  destruct (Forall2_nth _ _ _ Hcs _ _ Nc) as (c4 & Nc4 & (c1 & H1 & Ec4)). pose proof (chan4_ids _ _ Hcs) as Eids.
  assert (Epc : p_channels p4 = cs) by (rewrite Eq; apply channels_set).
  assert (Ec : c_id c4 = c_id c) by (rewrite Ec4, id_bands; destruct H1 as (g & x & _ & _ & ->); reflexivity).
  exists p4, c4, k. cbv zeta. cbn [ready sr_haptic sr_bands announced h_perceptions ad_perception ad_channel ad_band].
  assert (Hm : forall l l', Forall2 perc4 l l' -> map p_id l' = map p_id l).
  { clear. induction 1 as [|x y l l' H _ IH]; [reflexivity|]. cbn [map]. now rewrite (perc4_id _ _ H), IH. }
  split; [|split; [|split; [|split]]].
  - rewrite <- Ep4. apply nodup_first_nth; [rewrite (Hm _ _ F4); exact Hip|exact Np4].
  - rewrite <- Ec. apply nodup_first_nth; [|rewrite Epc; exact Nc4]. rewrite Epc, Eids.
    clear - Hic Np. apply nth_error_split in Np. destruct Np as (a & d & E & _). rewrite E, flat_map_app, map_app in Hic. cbn [flat_map] in Hic. rewrite map_app in Hic.
    clear E. induction (map c_id (flat_map p_channels a)) as [|z l IH]; [cbn [app] in Hic; exact (nodup_left _ _ Hic)|]. inversion Hic; auto.
  - intros n q4 Hn Nq. destruct (Forall2_nth_r _ _ _ F4 _ _ Nq) as (q & Nq' & (x2 & xs & _ & Hxs & Exq)). assert (Eqc : p_channels q4 = xs) by (rewrite Exq; apply channels_set).
    rewrite Eqc. apply (not_ids _ (p_channels q)); [exact (chan4_ids _ _ Hxs)|]. apply Forall_forall. intros u Hu.
    exact (nodup_flat_in p_channels c_id _ Hic n pi0 q p Hn Nq' Np u c Hu (nth_error_In _ _ Nc)).
  - unfold first_at. assert (G : forall j, nth_error (numbered 0 (spots_h 0 (h_perceptions h))) j = option_map (fun s => (Z.of_nat j, Z.of_nat (snd (snd s)))) (nth_error (spots_h 0 (h_perceptions h)) j)).
    { intros j. unfold numbered. rewrite mapi_nth. reflexivity. }
    split; [rewrite G, Hk; reflexivity|]. split; [reflexivity|]. intros j y Hj. rewrite G. destruct (nth_error (spots_h 0 (h_perceptions h)) j); cbn [option_map]; [|discriminate].
    intros E. injection E as <-. cbn [fst]. lia.
  - rewrite Ec4, bands_set. apply map_nth_error. exact Nb.
Qed.

(** *** After the data *)
Lemma windows_none pd L : 0 < pd -> in_sequence L -> forall n i, windows_from pd L i n = [] -> window 0 (Z.of_nat (i + n) * pd) L = window 0 (Z.of_nat i * pd) L.
Proof.
  intros Hpd Hseq. induction n as [|n IH]; intros i H; [now rewrite Nat.add_0_r|].
  unfold windows_from in H. cbn [seq map filter snd] in H. destruct (window (Z.of_nat i * pd) (Z.of_nat i * pd + pd) L) as [|x xs] eqn:E; [|discriminate H].
  replace (i + S n)%nat with (S i + n)%nat by lia. rewrite (IH (S i) H). replace (Z.of_nat (S i) * pd) with (Z.of_nat i * pd + pd) by nia.
  apply (window_skip L Hseq); [nia|exact E].
Qed.
Lemma window_all bt T L : Forall (effect_data_ok known_semantic bt) L -> Forall (fun t => t < T) (flat_map events L) -> window 0 T L = L.
Proof.
  intros Hok Hev. pose proof (events_bound _ _ Hok) as Hb. unfold window. induction L as [|e L IH]; [reflexivity|]. cbn [flat_map] in *.
  apply Forall_app in Hev, Hb. destruct Hev as [V1 V2], Hb as [B1 B2]. inversion Hok as [|? ? He Hok']; subst. rewrite (part_whole T e).
  - cbn [app]. f_equal. exact (IH Hok' V2 B2).
  - destruct He as (_ & [(A & B & _)|A]); auto.
  - rewrite Forall_forall in *. intros t Ht. specialize (V1 t Ht). specialize (B1 t Ht). cbv beta in *. lia.
Qed.
Lemma window_start bt L : Forall (effect_data_ok known_semantic bt) L -> window 0 0 L = [].
Proof.
  intros Hok. pose proof (events_bound _ _ Hok) as Hb. apply flat_map_nil. intros e He. apply part_nil_after, Forall_forall. intros t Ht.
  rewrite Forall_forall in Hb. specialize (Hb t (proj2 (in_flat_map _ _ _) (ex_intro _ e (conj He Ht)))). lia.
Qed.
Lemma bare_bare b : bare (bare b) = bare b. Proof. destruct b; reflexivity. Qed.
Lemma nth_forall2 {A B} (R : A -> B -> Prop) l : forall m, length l = length m -> (forall k x y, nth_error l k = Some x -> nth_error m k = Some y -> R x y) -> Forall2 R l m.
Proof.
  induction l as [|x l IH]; intros [|y m] H G; try discriminate H; constructor.
  - exact (G 0%nat x y eq_refl eq_refl).
  - apply IH; [cbn in H; lia|]. intros k. exact (G (S k)).
Qed.
Lemma map_eq_nth {A B} (f : A -> B) l m k y : map f l = map f m -> nth_error l k = Some y -> exists z, nth_error m k = Some z /\ f y = f z.
Proof.
  intros H Hk. apply (map_nth_error f) in Hk. rewrite H in Hk. rewrite nth_error_map in Hk. destruct (nth_error m k) as [z|]; [|discriminate Hk].
  exists z. split; [reflexivity|]. cbn in Hk. congruence.
Qed.

Definition at_place (h' : haptics) (pi ci bi : nat) (b' : band) : Prop :=
  exists p' c', nth_error (h_perceptions h') pi = Some p' /\ nth_error (p_channels p') ci = Some c' /\ nth_error (c_bands c') bi = Some b'.
Lemma assemble h l4 h' : Forall2 perc4 (h_perceptions h) l4 -> bare_h h' = bare_h (announced h l4) ->
  (forall pi ci bi p c b, nth_error (h_perceptions h) pi = Some p -> nth_error (p_channels p) ci = Some c -> nth_error (c_bands c) bi = Some b ->
     exists b' L, at_place h' pi ci bi b' /\ only_ids_added (b_effects b) L /\ NoDup (map e_id L) /\ Forall2 (data_sent (b_type b)) L (b_effects b')) ->
  back h (set_timescale (value_or (h_timescale h) 1000) h').
Proof.
  intros F4 Hb Hall. unfold back. cbv zeta.
  assert (Ep : map bare_p (h_perceptions h') = map bare_p l4) by (apply (f_equal h_perceptions) in Hb; unfold bare_h in Hb; rewrite !perceptions_set in Hb; exact Hb).
  assert (E0 : h_version h' = h_version h /\ h_profile h' = h_profile h /\ h_level h' = h_level h /\ h_date h' = h_date h /\ h_desc h' = h_desc h /\
    h_avatars h' = h_avatars h /\ h_syncs h' = [Sync 0 (Some (value_or (h_timescale h) 1000))]).
  { destruct h' as [v0 pr0 lv0 da0 de0 ps' av0 ts0 sy0]. unfold bare_h, announced, set_perceptions in Hb. cbn [h_version h_profile h_level h_date h_desc h_perceptions h_avatars h_timescale h_syncs] in *.
    injection Hb. intros. repeat split; assumption. }
  destruct E0 as (E1 & E2 & E3 & E4 & E5 & E6 & E7).
  destruct h' as [v0 pr0 lv0 da0 de0 ps' av0 ts0 sy0]. cbn [set_timescale h_version h_profile h_level h_date h_desc h_perceptions h_avatars h_timescale h_syncs] in *.
  repeat (split; [first [assumption|reflexivity]|]).
  apply nth_forall2.
  { apply (f_equal (@length perception)) in Ep. rewrite !map_length in Ep. rewrite Ep. clear - F4; induction F4; cbn; congruence. }
  intros pi p p' Np Np'. destruct (map_eq_nth _ _ _ _ _ Ep Np') as (p4 & Np4 & Eb). destruct (Forall2_nth _ _ _ F4 _ _ Np) as (p4' & Np4' & H4).
  replace p4' with p4 in * by congruence. clear p4' Np4'. destruct H4 as (q2 & cs & (q1 & lib & (dv & Hdv & Eq1) & Hlib & Eq2) & Hcs & Eq).
  subst p4 q2 q1.
  assert (Ec : map bare_c (p_channels p') = map bare_c cs).
  { apply (f_equal p_channels) in Eb. unfold bare_p in Eb. rewrite !channels_set in Eb. exact Eb. }
  specialize (Hall pi).
  destruct p' as [a1 a2 a3 a4 a5 a6 cs' a8 a9 a10 a11]. unfold bare_p, set_channels, set_library in Eb. cbn in Eb. injection Eb. intros. subst.
  cbn [p_channels] in *. unfold perception_back. cbn [p_id p_avatar p_desc p_prio p_scheme p_modality p_channels p_devices p_uexp p_puexp p_library].
  repeat (split; [first [reflexivity|assumption]|]).
  apply nth_forall2.
  { apply (f_equal (@length channel)) in Ec. rewrite !map_length in Ec. rewrite Ec. clear - Hcs; induction Hcs; cbn; congruence. }
  intros ci c c' Nc Nc'. destruct (map_eq_nth _ _ _ _ _ Ec Nc') as (c4 & Nc4 & Ebc). destruct (Forall2_nth _ _ _ Hcs _ _ Nc) as (c4' & Nc4' & (c1 & (gain & mix & Hg & Hm & Ec1) & Ec4)).
  replace c4' with c4 in * by congruence. clear c4' Nc4'. subst c4 c1.
  assert (Ebs : map bare (c_bands c') = map bare (c_bands c)).
  { apply (f_equal c_bands) in Ebc. unfold bare_c in Ebc. rewrite !bands_set, map_map in Ebc. rewrite Ebc. apply map_ext. apply bare_bare. }
  specialize (Hall ci). destruct c' as [x1 x2 x3 x4 x5 x6 bs' x8 x9 x10 x11 x12 x13 x14 x15]. unfold bare_c, set_bands in Ebc. cbn in Ebc. injection Ebc. intros. subst.
  cbn [c_bands] in *. unfold channel_back. cbn [c_id c_desc c_gain c_mix c_mask c_vertices c_bands c_prio c_device c_freq c_count c_dir c_res c_body c_target].
  repeat (split; [first [reflexivity|assumption]|]).
  apply nth_forall2.
  { apply (f_equal (@length band)) in Ebs. rewrite !map_length in Ebs. symmetry. exact Ebs. }
  intros bi b b' Nb Nb'. destruct (map_eq_nth _ _ _ _ _ Ebs Nb') as (b0 & Nb0 & Ebb). replace b0 with b in * by congruence. clear b0 Nb0.
  destruct (Hall bi p c b Np Nc Nb) as (b2 & L & (p2 & c2 & N1 & N2 & N3) & HL).
  cbn [h_perceptions] in N1. rewrite Np' in N1. injection N1 as <-. cbn [p_channels] in N2. rewrite Nc' in N2. injection N2 as <-. cbn [c_bands] in N3. rewrite Nb' in N3. injection N3 as <-.
  destruct b as [y1 y2 y3 y4 y5 y6 y7], b' as [z1 z2 z3 z4 z5 z6 z7]. unfold bare, set_effects in Ebb. cbn in Ebb. injection Ebb. intros. subst. unfold band_back. cbn in *. repeat (split; [reflexivity|]). exists L. exact HL.
Qed.

(** *** The whole *)
Lemma round_trip fuel n pd h : 0 < pd < 2 ^ 24 -> streamable known_semantic pd h -> fits fuel pd h -> 2 ^ 24 <= Z.of_nat fuel * pd ->
  Forall (fun p => (library_depth (p_library p) <= n)%nat) (h_perceptions h) ->
  exists file h', writeStream fuel pd h = Ok file /\ readStream n file = Ok h' /\ back h h'.
Proof.
  intros Hpd Hst [Fi Fd] Hfuel Hdep. set (m := Z.to_nat (2 ^ 24 / pd + 1)).
  assert (Hm : 2 ^ 24 <= Z.of_nat m * pd <= 2 ^ 31).
  { unfold m. change (2 ^ 24) with 16777216 in *. change (2 ^ 31) with 2147483648. rewrite Z2Nat.id by (pose proof (Z.div_pos 16777216 pd); lia).
    pose proof (Z.div_mod 16777216 pd ltac:(lia)). pose proof (Z.mod_pos_bound 16777216 pd ltac:(lia)). nia. }
  destruct (data_written fuel pd m h Hpd Hst) as (Ls & ds & EL & Ed & Hok & Hlp & Hds & _ & Hgap); [destruct fuel; lia|exact Hfuel|lia|].
  destruct (init_read n pd h Hst Hdep Fi) as (init & l4 & Ei & F4 & Hinit). cbv zeta in Hinit. set (u := fst (writeUnitInitialization init (start_writer h))) in *.
  destruct Hinit as (Fu & Su & Tu & Ru). destruct (Fd ds Ed) as [Fp Fc].
  pose proof Hst as (Tv & Tp & Tl & Td & Tde & Ha & Hna & Hts & Hsy & Hpn & Hps & Hip & Hic & Hbs & Hne & Hids & Hev).
  pose proof (check_same _ _ h Hps) as Hck.
  assert (Hr : Forall (data_ready pd) ds) by (eapply Forall_impl; [|exact Hds]; intros p [H _]; exact H).
  assert (Hcount : 82 * vec_size ds <= vec_size (concat ds)).
  { clear - Hr. unfold vec_size. induction Hr as [|p ds (_ & _ & H) _ IH]; [reflexivity|]. cbn [concat length]. rewrite app_length. unfold bits in *. lia. }
  assert (Hd2 : writeData fuel pd (checkHapticComponent (checkHapticComponent (sw_haptic (start_writer h)))) = Ok ds) by (cbn [start_writer sw_haptic]; rewrite !Hck; exact Ed).
  destruct (write_units fuel pd h init (start_writer h) ds Hpd Ei Hd2) as (us & Eu & HT).
  { rewrite Forall_forall in *. intros p Hp. specialize (Fp p Hp). destruct (Hr p Hp) as (A & B & C). unfold sendable, stamped. change (2 ^ 31) with 2147483648. change (2 ^ 24) with 16777216 in *.
    unfold bits in *. lia. }
  { eapply Forall_impl; [|exact Hr]. intros p (_ & H & _). exact H. }
  { exact Hgap. }
  { unfold unit_payload_ok. change (2 ^ 30) with 1073741824 in *. change (2 ^ 31) with 2147483648. lia. }
  fold u in Eu.
  destruct (only_start fuel pd h u us ds Hsy Eu) as [Hplain Hnum].
  { intros init' w' E'. replace w' with (start_writer h) by congruence. exact Hd2. }
  destruct (units_framed pd init 0 ds us HT Hplain) as [Hfr Hsz].
  { eapply Forall_impl; [|exact Hr]. intros p (_ & _ & H). unfold bits in *. lia. }
  assert (Hload : loadFile (writeBitset (concat (u :: us))) = Ok (u :: us)).
  { apply load_file; [constructor; assumption|]. unfold vec_size in *. cbn [concat]. rewrite app_length. change (2 ^ 35) with 34359738368. change (2 ^ 30) with 1073741824 in *. change (2 ^ 31) with 2147483648 in *. unfold bits in *. lia. }
  (* the lanes *)
  set (lanes := lanes_of h Ls) in *.
  assert (Hin : forall ln, In ln lanes <-> exists k s L, nth_error (spots_h 0 (h_perceptions h)) k = Some s /\ nth_error Ls k = Some L /\ ln = la_spot k s L) by (intros; apply in_lanes; exact EL).
  assert (Had : Forall (fun ln => address_ok (la_ad ln)) lanes).
  { apply Forall_forall. intros ln Hln. apply Hin in Hln. destruct Hln as (k & s & L & Hk & _ & ->). pose proof (nth_error_In _ _ Hk) as Hs. apply in_spots_h in Hs.
    destruct Hs as (pi & ci & bi & p & c & b & Np & Nc & Nb & ->). cbn [la_spot la_ad]. unfold address_ok. cbn [ad_perception ad_channel ad_band].
    rewrite Forall_forall in Hps. destruct (Hps p (nth_error_In _ _ Np)) as ((P & _) & _ & _ & _ & _ & Hch). rewrite Forall_forall in Hch. destruct (Hch c (nth_error_In _ _ Nc)) as ((Q & _) & _).
    split; [exact P|]. split; [exact Q|]. assert (k < length (spots_h 0 (h_perceptions h)))%nat by (apply nth_error_Some; congruence).
    unfold bands_of in Hbs. rewrite <- (spots_bands (h_perceptions h) 0) in Hbs. unfold vec_size in Hbs. rewrite map_length in Hbs. unfold nbits. change (2 ^ 8) with 256. unfold spot in *. lia. }
  assert (Hkeys : NoDup (map key lanes)).
  { unfold lanes, lanes_of. rewrite lanes_keys by exact EL. apply FinFun.Injective_map_NoDup; [intros x y; apply Nat2Z.inj|apply seq_NoDup]. }
  assert (Hpl : NoDup (map la_place lanes)) by (unfold lanes, lanes_of; rewrite lanes_places by exact EL; apply spots_nodup).
  assert (Hat : Forall (lane_at pd m (ready h l4) ds) lanes).
  { rewrite Forall_forall in *. intros ln Hln. specialize (Hlp ln Hln). specialize (Hok ln Hln). apply Hin in Hln. destruct Hln as (k & [[[pid cid] b] [[pi ci] bi]] & L & Hk & _ & ->).
    unfold lane_at, lane_packets in *. cbn [la_spot la_ad la_place la_band la_effects] in *. exists 0%nat, m, (bare b). split; [reflexivity|].
    split; [exact (found_ready h l4 k pid cid b pi ci bi F4 Hip Hic Hk)|]. split; [apply bare_bare|]. split; [exact Hlp|]. change (Z.of_nat 0 * pd) with 0.
    destruct Hok as (_ & _ & _ & _ & _ & _ & Hok). cbn [la_spot la_effects la_band] in Hok. rewrite (window_start _ _ Hok). destruct b; constructor. }
  destruct (units_read n pd m lanes (u :: us) init Hpd ltac:(lia) Hok Had Hkeys Hpl 0 ds us HT Hplain (ready h l4) eq_refl ltac:(lia) eq_refl Hat Hds) as (r' & Er & Hfin & (S1 & S2 & S3)).
  exists (writeBitset (concat (u :: us))), (set_timescale (sr_timescale r') (sr_haptic r')). split; [unfold writeStream; rewrite Eu; reflexivity|]. split.
  { unfold readStream. rewrite Hload. cbn [obind readUnits]. rewrite Ru. cbn [obind]. change (negb (nbPackets (Crc 0 0 0) =? 0)) with false. cbv iota. rewrite Er. reflexivity. }
  rewrite S3. cbn [ready sr_timescale]. apply (assemble h l4); [exact F4|exact S1|].
  intros pi ci bi p c b Np Nc Nb.
  assert (Hs : In ((p_id p, c_id c, b), (pi, ci, bi)) (spots_h 0 (h_perceptions h))) by (apply in_spots_h; exists pi, ci, bi, p, c, b; auto).
  pose proof (lane_events_in (spots_h 0 (h_perceptions h)) Ls 0 EL) as Hincl. rewrite spot_effects_all in Hincl.
  apply In_nth_error in Hs. destruct Hs as (k & Hk). assert (Hkl : (k < length Ls)%nat) by (rewrite EL; apply (proj1 (nth_error_Some (spots_h 0 (h_perceptions h)) k)); unfold spot in *; intros C; congruence).
  destruct (nth_error Ls k) as [L|] eqn:EkL; [|apply nth_error_None in EkL; lia].
  assert (Hln : In (la_spot k ((p_id p, c_id c, b), (pi, ci, bi)) L) lanes) by (apply Hin; exists k, ((p_id p, c_id c, b), (pi, ci, bi)), L; split; [exact Hk|split; [exact EkL|reflexivity]]).
  specialize (Hincl _ Hln). rewrite Forall_forall in Hfin, Hok. specialize (Hfin _ Hln). specialize (Hok _ Hln).
  unfold lane_at, lane_ok in *. cbn [la_spot la_ad la_place la_band la_effects] in *. cbv zeta in Hok. destruct Hok as (_ & Hadd & Hnd & _ & Hseq & _ & Hok).
  destruct Hfin as (i & j & b' & Hij & (p' & c' & k' & Q1 & Q2 & _ & _ & Q3) & _ & Hw & Hsent). cbn [filter] in Hw. inversion Hw as [Ew|]. clear Hw. symmetry in Ew.
  exists b', L. split; [exists p', c'; split; [exact (proj1 Q1)|split; [exact (proj1 Q2)|exact Q3]]|]. split; [exact Hadd|]. split; [exact Hnd|].
  rewrite <- (windows_none pd L ltac:(lia) Hseq j i Ew), Hij in Hsent. rewrite (window_all _ _ _ Hok) in Hsent; [exact Hsent|].
  destruct (only_ids_same _ _ Hadd) as (_ & Eev & _). rewrite Eev. apply Forall_forall. intros t Ht. rewrite Forall_forall in Hev.
  apply in_flat_map in Ht. destruct Ht as (e & He & Ht). specialize (Hev t (proj2 (in_flat_map _ _ _) (ex_intro _ e (conj (Hincl e He) Ht)))). lia.
Qed.
