(** Writing the data packets of all bands. *)
From Coq Require Import Sorting.Sorted Sorting.Permutation Reals.
From Verif Require Import Base BitsModel BitsProof FloatBase FloatModel TypesModel TypesSpec TypesProof MetaModel BandModel DataModel CrcModel StreamModel
  MetaSpec VecReads MetaProof DataSpec DataProof MergeProof DataTop UnitSpec UnitProof StreamSpec StreamProof TripSpec TripInit.
Local Open Scope Z_scope.
Local Open Scope list_scope.

(** *** Sorted lists with the same classes are equal *)
Lemma sorted_classes {A} (f : A -> Z) l : forall m, StronglySorted (fun a b => f a <= f b) l -> StronglySorted (fun a b => f a <= f b) m ->
  (forall t, filter (fun x => f x =? t) l = filter (fun x => f x =? t) m) -> l = m.
Proof.
  assert (G : forall l m x, StronglySorted (fun a b => f a <= f b) (x :: l) -> (forall t, filter (fun x => f x =? t) (x :: l) = filter (fun x => f x =? t) m) -> forall y m', m = y :: m' -> f x <= f y).
  { clear. intros l m x Hs He y m' ->. specialize (He (f y)). assert (Hy : In y (filter (fun z => f z =? f y) (y :: m'))) by (apply filter_In; split; [left; reflexivity|lia]).
    rewrite <- He in Hy. apply filter_In in Hy. destruct Hy as [[->|Hy] _]; [lia|]. inversion Hs as [|? ? _ Hx]; subst. rewrite Forall_forall in Hx. exact (Hx _ Hy). }
  induction l as [|x l IH]; intros m Hl Hm He.
  - destruct m as [|y m]; [reflexivity|]. specialize (He (f y)). cbn [filter] in He. rewrite Z.eqb_refl in He. discriminate He.
  - destruct m as [|y m].
    + specialize (He (f x)). cbn [filter] in He. rewrite Z.eqb_refl in He. discriminate He.
    + assert (Exy : f x = f y).
      { pose proof (G l (y :: m) x Hl He y m eq_refl). pose proof (G m (x :: l) y Hm (fun t => eq_sym (He t)) x l eq_refl). lia. }
      assert (E : x = y). { specialize (He (f x)). cbn [filter] in He. rewrite <- Exy, Z.eqb_refl in He. congruence. }
      subst y. f_equal. inversion Hl; inversion Hm; subst. apply IH; auto. intros t. specialize (He t). cbn [filter] in He. destruct (f x =? t); congruence.
Qed.

Lemma linearize_same b : Forall (fun e => e_type e <> CompositeE) (b_effects b) -> sorted_by_position (b_effects b) -> linearizeTimeline b = b.
Proof.
  intros Hc Hs. destruct (linearize_leaves b) as (L1 & _ & L3 & _ & L5). set (r := linearizeTimeline b) in *. clearbody r.
  assert (El : flat_map leaves (b_effects b) = b_effects b).
  { clear - Hc. induction Hc as [|e l He _ IH]; [reflexivity|]. cbn [flat_map]. rewrite IH. destruct e as [id pos ph sem kfs base ty tl sa wa]. cbn [leaves e_type] in *.
    destruct (Z.eqb_spec ty CompositeE); [congruence|reflexivity]. }
  rewrite El in L3. assert (E : b_effects r = b_effects b) by (apply (sorted_classes e_pos); auto; exact L1 || exact Hs || exact L3).
  destruct b, r. unfold band_same_but_effects in L5. cbn in *. destruct L5 as (? & ? & ? & ? & ? & ?). congruence.
Qed.

(** *** Bands, their places and their packets *)
Record lane := Lane { la_ad : address; la_place : nat * nat * nat; la_band : band; la_effects : list effect }.
Definition la_spot (k : nat) (s : spot) (L : list effect) : lane :=
  let '((pid, cid, b), pl) := s in Lane (Address pid cid (Z.of_nat k)) pl b L.
Definition lane_ok (ln : lane) : Prop :=
  let L := la_effects ln in let bt := b_type (la_band ln) in
  data_band bt /\ only_ids_added (b_effects (la_band ln)) L /\ NoDup (map e_id L) /\ sorted_by_position L /\ in_sequence L /\
  vec_size L < 65536 /\ Forall (effect_data_ok known_semantic bt) L.
Definition lane_packets (pd : Z) (m : nat) (ln : lane) (out : list bits) : Prop :=
  Forall2 (packet_bits (b_type (la_band ln)) (la_ad ln)) (windows_from pd (la_effects ln) 0 m) out.

Lemma assign_ids_bound l : forall M ids, 0 <= M -> Forall (fun i => 0 <= i < M) ids -> Forall (fun i => 0 <= i < M + vec_size l) (snd (assign l ids)).
Proof.
  induction l as [|e l IH]; intros M ids HM Hids; cbn [assign].
  - cbn [snd]. eapply Forall_impl; [|exact Hids]. cbn. intros. lia.
  - unfold vec_size in *. cbn [length]. destruct (Z.eqb_spec (e_id e) (-1)) as [E|E].
    + set (i := nextEffectId ids). assert (Hi : 0 <= i <= M).
      { unfold i. split; [apply nextEffectId_nonneg; eapply Forall_impl; [|exact Hids]; cbn; lia|].
        destruct ids as [|x r]; cbn [nextEffectId]; [lia|]. pose proof (max_element_in r x) as Hin. rewrite Forall_forall in Hids. specialize (Hids _ Hin). lia. }
      specialize (IH (M + 1) (ids ++ [i]) ltac:(lia)). destruct (assign l (ids ++ [i])) as [r' i2]. cbn [snd] in *.
      assert (Hx : Forall (fun j => 0 <= j < M + 1) (ids ++ [i])).
      { apply Forall_app. split; [eapply Forall_impl; [|exact Hids]; cbn; lia|constructor; [lia|constructor]]. }
      eapply Forall_impl; [|exact (IH Hx)]. cbv beta. intros. lia.
    + specialize (IH M ids HM Hids). destruct (assign l ids) as [r' i2]. cbn [snd] in *. eapply Forall_impl; [|exact IH]. cbv beta. intros. lia.
Qed.
Lemma assign_keeps l : forall ids i, In i ids -> In i (snd (assign l ids)).
Proof.
  induction l as [|e l IH]; intros ids i Hi; cbn [assign]; [exact Hi|]. destruct (e_id e =? -1).
  - specialize (IH (ids ++ [nextEffectId ids]) i ltac:(apply in_or_app; now left)). destruct (assign l _). exact IH.
  - specialize (IH ids i Hi). destruct (assign l ids). exact IH.
Qed.

Definition spot_effects (s : spot) : list effect := b_effects (snd (fst s)).
Lemma lanes_exist fuel pd m : 0 < pd < 2 ^ 24 -> (1 <= fuel)%nat -> forall (l : list spot) n ids au M,
  Forall (fun s => band_streamable known_semantic pd (snd (fst s))) l -> (au = RAU \/ au = DAU) ->
  0 <= M -> Forall (fun i => 0 <= i < M) ids -> M + vec_size (flat_map spot_effects l) <= 65536 -> vec_size (flat_map spot_effects l) < 65536 ->
  Forall (fun e => -1 <= e_id e < 65536 /\ (e_id e <> -1 -> In (e_id e) ids)) (flat_map spot_effects l) ->
  Forall (fun t => t < Z.of_nat fuel * pd /\ t < Z.of_nat m * pd) (flat_map events (flat_map spot_effects l)) ->
  exists Ls outs, let lanes := mapi (fun k sL => la_spot k (fst sL) (snd sL)) n (combine l Ls) in
    length Ls = length l /\ by_band fuel pd (Z.of_nat n) ids au (map fst l) outs /\ Forall lane_ok lanes /\ Forall2 (lane_packets pd m) lanes outs.
Proof.
  intros Hpd Hf. induction l as [|[[[pid cid] b] pl] l IH]; intros n ids au M Hst Hau HM Hids Htot Hlt He Hev.
  - exists [], []. cbv zeta. split; [reflexivity|]. split; [constructor|]. split; constructor.
  - cbn [flat_map] in Htot, Hlt, He, Hev. change (spot_effects (pid, cid, b, pl)) with (b_effects b) in *. inversion Hst as [|? ? Hb Hst']; subst. cbn [fst snd] in Hb.
    destruct Hb as (_ & Hdb & Hne & Hok & Hpos & Hseq & Hend & Hnd).
    apply Forall_app in He. destruct He as [He He']. rewrite flat_map_app in Hev. apply Forall_app in Hev. destruct Hev as [Hev Hev'].
    unfold vec_size in Htot, Hlt. rewrite app_length in Htot, Hlt.
    assert (Hbd : band_data_ok known_semantic pd ids b).
    { split; [exact Hdb|]. split; [lia|]. split; [exact Hok|]. split; [unfold vec_size; lia|].
      split; [eapply Forall_impl; [|exact He]; intros e [X _]; exact X|]. split; [|split; assumption].
      eapply Forall_impl; [|exact Hids]. cbv beta. unfold vec_size. intros. lia. }
    assert (Hn : nonneg ids) by (eapply Forall_impl; [|exact Hids]; cbn; lia).
    pose proof (band_packets fuel pd (Address pid cid (Z.of_nat n)) b ids au Hbd Hau Hf ltac:(eapply Forall_impl; [|exact Hev]; intros t [X _]; exact X)) as HP.
    pose proof (assign_spec (b_effects b) ids Hn) as Hs.
    pose proof (assign_nodup (b_effects b) ids Hn Hnd) as HN.
    pose proof (assign_ids_bound (b_effects b) M ids HM Hids) as HB. pose proof (assign_keeps (b_effects b) ids) as HK.
    destruct (assign (b_effects b) ids) as [L idsF]. cbn [fst snd] in *.
    destruct Hs as (Ho & _). destruct HP as (out & au' & HP & Hau' & HF).
    destruct (only_ids_same _ _ Ho) as (S1 & S2 & S3 & S4 & S5).
    destruct (IH (S n) idsF au' (M + vec_size (b_effects b)) Hst' Hau' ltac:(unfold vec_size; lia) HB) as (Ls & outs & El & Hbb & Hlo & Hlp).
    { unfold vec_size. lia. } { unfold vec_size. lia. }
    { eapply Forall_impl; [|exact He']. intros e [X Y]. split; [exact X|]. intros Z. apply HK, Y, Z. } { exact Hev'. }
    exists (L :: Ls), (out :: outs). cbv zeta. cbn [length combine mapi map fst snd]. split; [congruence|]. split; [|split].
    + eapply BbCons; [|replace (Z.of_nat n + 1) with (Z.of_nat (S n)) by lia; exact Hbb].
      rewrite linearize_same; [exact HP| |exact Hpos]. eapply Forall_impl; [|exact Hok]. intros e (_ & [(X & _)|X]); rewrite X; discriminate.
    + apply Forall_cons; [|exact Hlo]. unfold lane_ok. cbn [la_spot la_effects la_band]. split; [exact Hdb|]. split; [exact Ho|]. split.
      { apply HN. intros i Hi. unfold given_ids in Hi. apply filter_In in Hi. destruct Hi as [Hi Hi']. apply in_map_iff in Hi. destruct Hi as (e & <- & Hin).
        rewrite Forall_forall in He. apply (He e Hin). lia. }
      split; [exact (sorted_same _ _ Ho Hpos)|]. split; [unfold in_sequence; rewrite S2; exact Hseq|]. split; [unfold vec_size; lia|exact (S1 _ Hok)].
    + constructor; [|exact Hlp]. unfold lane_packets. cbn [la_spot la_effects la_band la_ad]. unfold windows in HF. fold (windows_from pd L 0 fuel) in HF.
      rewrite (windows_enough pd L fuel m) in HF; [exact HF|lia|..]; rewrite S2; eapply Forall_impl; [|exact Hev| |exact Hev]; intros t [X Y]; assumption.
Qed.

(** *** The packets of a band among all packets *)
Definition on (ad : address) (p : bits) : bool := field 57 8 p =? ad_band ad.
Lemma packet_on bt ad w p : packet_bits bt ad w p -> nbits 8 (ad_band ad) -> field 57 8 p = ad_band ad.
Proof.
  intros (au & b & es & _ & -> & _) H. rewrite (field_skip 25 8 32), (field_skip 24 8 1), (field_skip 16 8 8), (field_skip 0 8 16), field_write.
  apply Z.mod_small. exact H.
Qed.
Lemma filter_all {A} (f : A -> bool) l : Forall (fun x => f x = true) l -> filter f l = l.
Proof. induction 1 as [|x l H _ IH]; [reflexivity|]. cbn [filter]. now rewrite H, IH. Qed.
Lemma filter_nothing {A} (f : A -> bool) l : Forall (fun x => f x = false) l -> filter f l = [].
Proof. induction 1 as [|x l H _ IH]; [reflexivity|]. cbn [filter]. now rewrite H, IH. Qed.
Lemma filter_swap {A} (f g : A -> bool) l : filter f (filter g l) = filter g (filter f l).
Proof.
  induction l as [|x l IH]; [reflexivity|]. cbn [filter]. destruct (g x) eqn:G, (f x) eqn:F; cbn [filter]; rewrite ?G, ?F, IH; reflexivity.
Qed.
Definition key (ln : lane) : Z := ad_band (la_ad ln).
Lemma own_packets lanes outs : Forall2 (fun ln out => Forall (fun p => field 57 8 p = key ln) out) lanes outs -> NoDup (map key lanes) ->
  Forall2 (fun ln out => filter (on (la_ad ln)) (concat outs) = out) lanes outs.
Proof.
  induction 1 as [|ln out lanes outs Hl Hr IH]; intros Hnd; [constructor|]. cbn [map] in Hnd. inversion Hnd as [|? ? Hn Hnd']; subst. constructor.
  - cbn [concat]. rewrite filter_app, filter_all, filter_nothing, app_nil_r; [reflexivity| |].
    + clear - Hr Hn. induction Hr as [|ln' out' lanes outs Hl' _ IHr]; cbn [concat]; [constructor|]. cbn [map In] in Hn. apply Forall_app. split; [|apply IHr; tauto].
      eapply Forall_impl; [|exact Hl']. intros p Hp. unfold on. rewrite Hp. unfold key in *. apply Z.eqb_neq. intros E. apply Hn. left. exact E.
    + eapply Forall_impl; [|exact Hl]. intros p Hp. unfold on. rewrite Hp. apply Z.eqb_refl.
  - specialize (IH Hnd'). revert IH. cbn [concat]. intros IH. eapply Forall2_impl_in; [|exact IH]. intros ln' out' Hin E. cbv beta in *. rewrite filter_app, E.
    rewrite filter_nothing; [reflexivity|]. eapply Forall_impl; [|exact Hl]. intros p Hp. unfold on. rewrite Hp. apply Z.eqb_neq. intros E'. apply Hn.
    apply in_map_iff. exists ln'. split; [symmetry; exact E'|exact Hin].
Qed.
Lemma sorted_filter {A} (R : A -> A -> Prop) (f : A -> bool) l : StronglySorted R l -> StronglySorted R (filter f l).
Proof.
  induction 1 as [|x l _ IH Hx]; [constructor|]. cbn [filter]. destruct (f x); [|exact IH]. constructor; [exact IH|].
  rewrite Forall_forall in *. intros y Hy. apply filter_In in Hy. apply Hx, Hy.
Qed.
Lemma windows_sorted pd L m : 0 < pd -> forall i, StronglySorted Z.le (map fst (windows_from pd L i m)) /\ Forall (fun w => Z.of_nat i * pd <= fst w) (windows_from pd L i m).
Proof.
  intros Hpd. induction m as [|m IH]; intros i; [split; constructor|]. unfold windows_from. cbn [seq map filter snd]. fold (windows_from pd L (S i) m).
  destruct (IH (S i)) as [I1 I2].
  assert (I3 : Forall (fun w => Z.of_nat i * pd <= fst w) (windows_from pd L (S i) m)) by (eapply Forall_impl; [|exact I2]; cbv beta; intros; nia).
  destruct (window _ _ L) as [|x xs]; [split; assumption|]. split; [|constructor; [cbn [fst]; lia|exact I3]]. cbn [map fst]. constructor; [exact I1|].
  apply Forall_map. exact I3.
Qed.
Lemma window_in pd L i m w : In w (windows_from pd L i m) -> exists k, fst w = Z.of_nat k * pd /\ snd w = window (fst w) (fst w + pd) L /\ snd w <> [].
Proof.
  unfold windows_from. intros H. apply filter_In in H. destruct H as [H Hne]. apply in_map_iff in H. destruct H as (k & <- & _). cbn [fst snd] in *.
  exists k. split; [reflexivity|]. split; [reflexivity|]. destruct (window _ _ L); [discriminate|discriminate].
Qed.
Lemma window_event lo hi L : window lo hi L <> [] -> exists t, In t (flat_map events L) /\ lo <= t.
Proof.
  intros H. destruct (window lo hi L) as [|x l] eqn:E; [congruence|]. assert (Hx : In x (window lo hi L)) by (rewrite E; left; reflexivity).
  apply in_flat_map in Hx. destruct Hx as (e & He & Hx). apply part_event in Hx. destruct Hx as (t & Ht & Hle). exists t. split; [|exact Hle].
  apply in_flat_map. exists e. split; assumption.
Qed.
(** What is known of the packets of one band. *)
Definition data_ready (pd : Z) (p : bits) : Prop := 0 <= stamp p < 2 ^ 24 /\ stamp p mod pd = 0 /\ (81 < length p)%nat.
Lemma lane_stamps pd m ln out : 0 < pd -> lane_packets pd m ln out -> nbits 8 (key ln) -> Forall (fun t => t < 2 ^ 24) (flat_map events (la_effects ln)) ->
  Forall (fun p => field 57 8 p = key ln /\ data_ready pd p) out /\ psorted out.
Proof.
  intros Hpd H Hk Hev. unfold lane_packets in H.
  assert (Hst : Forall2 (fun w p => stamp p = fst w /\ field 57 8 p = key ln /\ data_ready pd p) (windows_from pd (la_effects ln) 0 m) out).
  { eapply Forall2_impl_in; [|exact H]. intros w p Hw Hp. destruct (window_in _ _ _ _ _ Hw) as (k & E1 & E2 & Hne).
    rewrite E2 in Hne. destruct (window_event _ _ _ Hne) as (t & Ht & Hle). rewrite Forall_forall in Hev. specialize (Hev t Ht).
    assert (Hlt : fst w < 2 ^ 24) by lia. assert (H0 : 0 <= fst w) by nia.
    destruct (stamp_packet _ _ _ _ Hp ltac:(change (2 ^ 24) with 16777216 in *; change (2 ^ 31) with 2147483648; lia)) as [_ Es].
    split; [exact Es|]. split; [exact (packet_on _ _ _ _ Hp Hk)|]. unfold data_ready. rewrite Es. split; [lia|]. split; [rewrite E1; apply Z_mod_mult|].
    destruct Hp as (au & b & es & _ & -> & Hv & HR & Hne2 & _). rewrite !app_length, !writeNBits_length.
    assert ((1 <= length b)%nat); [|lia]. destruct b as [|x b]; [exfalso|cbn [length]; lia]. destruct (snd w) as [|e0 es0]; [congruence|].
    specialize (Hv [] 0%nat ltac:(exists [], []; split; reflexivity)). discriminate Hv. }
  split.
  - clear - Hst. induction Hst as [|w p ws out (_ & A & B) _ IH]; constructor; auto.
  - destruct (windows_sorted pd (la_effects ln) m Hpd 0) as [Hs _]. clear - Hst Hs. unfold psorted. induction Hst as [|w p ws out (E & _) Hr IH]; [constructor|].
    cbn [map] in Hs. inversion Hs as [|? ? Hs' Hx]; subst. constructor; [exact (IH Hs')|]. rewrite E. clear - Hr Hx.
    induction Hr as [|w' p' ws out (E' & _) _ IHr]; constructor; inversion Hx; subst; [rewrite E'; assumption|apply IHr; assumption].
Qed.

Lemma gap_ok ds : forall t, 0 <= t -> StronglySorted (fun a b => stamp a <= stamp b) ds -> Forall (fun p => t <= stamp p < 2 ^ 24) ds -> no_long_gap t ds.
Proof.
  induction ds as [|p ds IH]; intros t Ht Hs Hb; [exact I|]. inversion Hs as [|? ? Hs' Hx]; subst. inversion Hb as [|? ? Hp Hb']; subst. cbn [no_long_gap]. split; [lia|].
  apply IH; [lia|exact Hs'|]. rewrite Forall_forall in *. intros q Hq. specialize (Hx q Hq). specialize (Hb' q Hq). lia.
Qed.
Lemma given_all h : getEffectsId h = given_ids (all_effects h).
Proof.
  unfold getEffectsId, given_ids, all_effects, bands_of. rewrite <- (spots_bands (h_perceptions h) 0).
  assert (Hc : forall pid cid pi ci bs bi, flat_map (fun b => filter (fun i => negb (i =? -1)) (map e_id (b_effects b))) bs
    = filter (fun i => negb (i =? -1)) (map e_id (flat_map (fun x => b_effects (snd x)) (map fst (spots_c pid cid pi ci bi bs))))).
  { intros pid cid pi ci bs. induction bs as [|b bs IH]; intros bi; [reflexivity|]. unfold spots_c in *. cbn [mapi map flat_map fst snd]. rewrite map_app, filter_app. f_equal. apply IH. }
  assert (Hp : forall pid pi cs ci, flat_map (fun c => flat_map (fun b => filter (fun i => negb (i =? -1)) (map e_id (b_effects b))) (c_bands c)) cs
    = filter (fun i => negb (i =? -1)) (map e_id (flat_map (fun x => b_effects (snd x)) (map fst (spots_p pid pi ci cs))))).
  { intros pid pi cs. induction cs as [|c cs IH]; intros ci; [reflexivity|]. cbn [spots_p flat_map]. rewrite map_app, flat_map_app, map_app, filter_app. f_equal; [apply Hc|apply IH]. }
  generalize 0%nat. induction (h_perceptions h) as [|p l IH]; intros pi; [reflexivity|]. cbn [spots_h flat_map]. rewrite map_app, flat_map_app, map_app, filter_app. f_equal; [apply Hp|apply IH].
Qed.
Lemma spots_streamable known pd l : forall pi, Forall (perception_streamable known pd) l -> Forall (fun s => band_streamable known pd (snd (fst s))) (spots_h pi l).
Proof.
  assert (Hc : forall pid cid pi ci bs bi, Forall (band_streamable known pd) bs -> Forall (fun s => band_streamable known pd (snd (fst s))) (spots_c pid cid pi ci bi bs)).
  { intros pid cid pi ci bs. unfold spots_c. induction bs as [|b bs IH]; intros bi H; [constructor|]. inversion H; subst. cbn [mapi]. constructor; auto. }
  assert (Hp : forall pid pi cs ci, Forall (channel_streamable known pd) cs -> Forall (fun s => band_streamable known pd (snd (fst s))) (spots_p pid pi ci cs)).
  { intros pid pi cs. induction cs as [|c cs IH]; intros ci H; [constructor|]. inversion H as [|? ? (_ & _ & Hb) H']; subst. cbn [spots_p]. apply Forall_app. split; auto. }
  induction l as [|p l IH]; intros pi H; [constructor|]. inversion H as [|? ? (_ & _ & _ & _ & _ & Hb) H']; subst. cbn [spots_h]. apply Forall_app. split; auto.
Qed.
Lemma spot_effects_all h : flat_map spot_effects (spots_h 0 (h_perceptions h)) = all_effects h.
Proof.
  unfold all_effects, bands_of. rewrite <- (spots_bands (h_perceptions h) 0). generalize (spots_h 0 (h_perceptions h)). intros l.
  induction l as [|s l IH]; [reflexivity|]. cbn [flat_map map]. now rewrite IH.
Qed.
Definition lanes_of (h : haptics) (Ls : list (list effect)) : list lane :=
  mapi (fun k sL => la_spot k (fst sL) (snd sL)) 0 (combine (spots_h 0 (h_perceptions h)) Ls).
Lemma lanes_keys l Ls : forall n, length Ls = length l -> map key (mapi (fun k sL => la_spot k (fst sL) (snd sL)) n (combine l Ls)) = map Z.of_nat (seq n (length l)).
Proof.
  revert Ls. induction l as [|s l IH]; intros Ls n H; [reflexivity|]. destruct Ls as [|L Ls]; [discriminate H|]. cbn [combine mapi map length seq].
  rewrite IH by (cbn in H; lia). destruct s as [[[pid cid] b] pl]. reflexivity.
Qed.
Lemma lane_events_in l Ls : forall n, length Ls = length l -> forall ln, In ln (mapi (fun k sL => la_spot k (fst sL) (snd sL)) n (combine l Ls)) ->
  incl (b_effects (la_band ln)) (flat_map spot_effects l).
Proof.
  revert Ls. induction l as [|s l IH]; intros Ls n H ln Hin; [destruct Hin|]. destruct Ls as [|L Ls]; [discriminate H|]. cbn [combine mapi In] in Hin. cbn [flat_map].
  destruct Hin as [<-|Hin]; intros x Hx; apply in_or_app.
  - left. destruct s as [[[pid cid] b] pl]. exact Hx.
  - right. eapply IH; [|exact Hin|exact Hx]. cbn in H. lia.
Qed.

(** *** All data packets *)
Lemma data_written fuel pd m h : 0 < pd < 2 ^ 24 -> streamable known_semantic pd h -> (1 <= fuel)%nat -> 2 ^ 24 <= Z.of_nat fuel * pd -> 2 ^ 24 <= Z.of_nat m * pd ->
  exists Ls ds, length Ls = length (spots_h 0 (h_perceptions h)) /\ writeData fuel pd h = Ok ds /\ Forall lane_ok (lanes_of h Ls) /\
    Forall (fun ln => lane_packets pd m ln (filter (on (la_ad ln)) ds)) (lanes_of h Ls) /\
    Forall (fun p => data_ready pd p /\ Exists (fun ln => on (la_ad ln) p = true) (lanes_of h Ls)) ds /\ psorted ds /\ no_long_gap 0 ds.
Proof.
  intros Hpd (Tv & Tp & Tl & Td & Tde & Ha & Hna & Hts & Hsy & Hpn & Hps & Hip & Hic & Hbs & Hne & Hids & Hev) Hf Hfp Hmp.
  set (sp := spots_h 0 (h_perceptions h)). pose proof (spot_effects_all h) as Eall. fold sp in Eall.
  destruct (lanes_exist fuel pd m Hpd Hf sp 0 (getEffectsId h) RAU (65536 - vec_size (all_effects h))) as (Ls & outs & El & Hbb & Hlo & Hlp).
  { apply spots_streamable. exact Hps. } { now left. } { lia. }
  { rewrite given_all. unfold given_ids. apply Forall_forall. intros i Hi. apply filter_In in Hi. destruct Hi as [Hi Hi']. apply in_map_iff in Hi. destruct Hi as (e & <- & He).
    rewrite Forall_forall in Hids. specialize (Hids e He). lia. }
  { rewrite Eall. lia. } { rewrite Eall. exact Hne. }
  { rewrite Eall. rewrite Forall_forall in Hids |- *. intros e He. specialize (Hids e He). split; [unfold vec_size in *; lia|]. intros Hn. rewrite given_all. unfold given_ids.
    apply filter_In. split; [apply in_map; exact He|]. apply negb_true_iff. apply Z.eqb_neq. exact Hn. }
  { rewrite Eall. eapply Forall_impl; [|exact Hev]. cbv beta. intros. lia. }
  cbv zeta in Hlo, Hlp. fold sp in Hlo, Hlp. change (mapi (fun k sL => la_spot k (fst sL) (snd sL)) 0 (combine sp Ls)) with (lanes_of h Ls) in Hlo, Hlp.
  assert (Hkeys : map key (lanes_of h Ls) = map Z.of_nat (seq 0 (length sp))) by (apply lanes_keys; exact El).
  assert (Hsp : Z.of_nat (length sp) <= 256).
  { rewrite bands_count in Hbs. unfold vec_size in Hbs. rewrite <- (spots_total (h_perceptions h) 0) in Hbs. exact Hbs. }
  assert (Hk8 : Forall (fun ln => nbits 8 (key ln)) (lanes_of h Ls)).
  { apply Forall_forall. intros ln Hln. apply (in_map key) in Hln. rewrite Hkeys in Hln. apply in_map_iff in Hln. destruct Hln as (k & <- & Hk). apply in_seq in Hk.
    unfold nbits. change (2 ^ Z.of_nat 8) with 256. lia. }
  assert (Hnd : NoDup (map key (lanes_of h Ls))).
  { rewrite Hkeys. apply FinFun.Injective_map_NoDup; [intros x y; apply Nat2Z.inj|apply seq_NoDup]. }
  assert (Hst : Forall2 (fun ln out => Forall (fun p => field 57 8 p = key ln /\ data_ready pd p) out /\ psorted out) (lanes_of h Ls) outs).
  { eapply Forall2_impl_in; [|exact Hlp]. intros ln out Hln Hp. cbv beta. rewrite Forall_forall in Hk8, Hlo. apply (lane_stamps pd m); [lia|exact Hp|apply Hk8; exact Hln|].
    destruct (Hlo ln Hln) as (_ & Ho & _). destruct (only_ids_same _ _ Ho) as (_ & -> & _). apply Forall_forall. intros t Ht. apply in_flat_map in Ht. destruct Ht as (e & He & Ht).
    apply (lane_events_in sp Ls 0 El ln Hln) in He. rewrite Eall in He. rewrite Forall_forall in Hev. apply Hev. apply in_flat_map. exists e. split; assumption. }
  assert (Hall : Forall (Forall stamped) outs).
  { clear - Hst. induction Hst as [|ln out lanes outs (H & _) _ IH]; constructor; [|exact IH]. eapply Forall_impl; [|exact H]. intros p (_ & A & _ & B). split; [lia|].
    change (2 ^ 24) with 16777216 in A. change (2 ^ 31) with 2147483648. lia. }
  destruct (sortPacket_ok outs Hall) as (ds & Eds & Hperm & Hsorted & Hclass).
  exists Ls, ds. split; [exact El|]. split.
  { unfold writeData. rewrite (proj2 (all_data_by_band fuel pd h ltac:(eapply Forall_impl; [|exact Hps]; intros p (_ & _ & _ & X & _); exact X) outs)).
    - exact Eds.
    - unfold bands_of. rewrite <- (spots_bands (h_perceptions h) 0). exact Hbb. }
  split; [exact Hlo|].
  assert (Hown : Forall2 (fun ln out => filter (on (la_ad ln)) ds = out) (lanes_of h Ls) outs).
  { assert (H1 : Forall2 (fun ln out => filter (on (la_ad ln)) (concat outs) = out) (lanes_of h Ls) outs).
    { apply own_packets; [|exact Hnd]. eapply Forall2_impl_in; [|exact Hst]. intros ln out _ (H & _). eapply Forall_impl; [|exact H]. intros p (X & _). exact X. }
    assert (H2 : Forall2 (fun ln out => psorted out /\ filter (on (la_ad ln)) (concat outs) = out) (lanes_of h Ls) outs).
    { clear - H1 Hst. revert H1. generalize (concat outs). intros co H1. revert Hst. induction H1; intros Hst; inversion Hst as [|? ? ? ? (_ & X) ?]; subst; constructor; auto. }
    eapply Forall2_impl_in; [|exact H2]. intros ln out _ (Hs & E). cbv beta. apply (sorted_classes stamp); [apply sorted_filter; exact Hsorted|exact Hs|].
    intros t. rewrite filter_swap, Hclass, filter_swap, E. reflexivity. }
  split.
  { clear - Hown Hlp. revert Hlp. generalize (lanes_of h Ls), outs, Hown. intros lanes os Ho Hlp. induction Ho as [|ln out lanes os E _ IH]; inversion Hlp; subst; constructor; auto. }
  split; [|split; [exact Hsorted|]].
  { apply Forall_forall. intros p Hp. apply (Permutation_in _ Hperm) in Hp. clear - Hst Hp. induction Hst as [|ln out lanes outs (H & _) _ IH]; [destruct Hp|].
    cbn [concat] in Hp. apply in_app_or in Hp. destruct Hp as [Hp|Hp].
    - rewrite Forall_forall in H. destruct (H p Hp) as [A B]. split; [exact B|]. apply Exists_cons_hd. unfold on. rewrite A. apply Z.eqb_refl.
    - destruct (IH Hp) as [A B]. split; [exact A|]. apply Exists_cons_tl. exact B. }
  apply gap_ok; [lia|exact Hsorted|]. apply Forall_forall. intros p Hp. apply (Permutation_in _ Hperm) in Hp. clear - Hst Hp.
  induction Hst as [|ln out lanes outs (H & _) _ IH]; [destruct Hp|]. cbn [concat] in Hp. apply in_app_or in Hp. destruct Hp as [Hp|Hp]; [|exact (IH Hp)].
  rewrite Forall_forall in H. destruct (H p Hp) as (_ & A & _). exact A.
Qed.
