(** What the binary file format cannot do: composite effects, counts above 255; loading terminates. *)
From Coq Require Import Reals.
From Verif Require Import Base BitsModel BitsSpec BitsProof FloatBase FloatModel FloatSpec FloatProof FloatFields
  TypesModel MetaModel BandModel MetaSpec VecReads MetaProof BinaryModel BinarySpec BinaryReads BinaryProof.
Local Open Scope Z_scope.
Ltac Zify.zify_post_hook ::= Z.div_mod_to_equations.

(** *** Composite effects *)

Lemma writeMany_ok {A} (w : A -> outcome bits) l b : writeMany w l = Ok b -> forall x, In x l -> exists bx, w x = Ok bx.
Proof.
  revert b. induction l as [|y l IH]; intros b H x Hin; [destruct Hin|]. cbn [writeMany] in H.
  destruct (w y) as [by_| | |] eqn:E; try discriminate. cbn [obind] in H.
  destruct (writeMany w l) as [bl| | |] eqn:El; try discriminate.
  destruct Hin as [->|Hin]; [exists by_; exact E|]. exact (IH bl eq_refl x Hin).
Qed.
Lemma writeCounted_ok {A} (w : A -> outcome bits) l b : vec_size l < 65536 -> writeCounted w l = Ok b ->
  forall x, In x l -> exists bx, w x = Ok bx.
Proof.
  intros Hl H. unfold writeCounted in H. rewrite count16_all in H by exact Hl.
  destruct (writeMany w l) as [bl| | |] eqn:El; try discriminate. exact (writeMany_ok _ _ _ El).
Qed.
Lemma writeCountedN_ok {A} n (w : A -> outcome bits) l b : vec_size l < 65536 -> writeCountedN n w l = Ok b ->
  forall x, In x l -> exists bx, w x = Ok bx.
Proof.
  intros Hl H. unfold writeCountedN in H. rewrite count16_all in H by exact Hl.
  destruct (writeMany w l) as [bl| | |] eqn:El; try discriminate. exact (writeMany_ok _ _ _ El).
Qed.
Lemma short_loop_ok {A} (w : A -> outcome bits) l b : vec_size l < 65536 -> short_loop w l = Ok b ->
  forall x, In x l -> exists bx, w x = Ok bx.
Proof. intros Hl H. rewrite short_loop_all in H by exact Hl. exact (writeMany_ok _ _ _ H). Qed.

Lemma timeline_cons e : has_timeline e -> exists x l, e_timeline e = x :: l.
Proof. unfold has_timeline, vec_size. destruct (e_timeline e) as [|x l]; cbn [length]; [lia|]. eauto. Qed.

Lemma library_composite fuel e b : has_timeline e -> binWriteLibraryEffect fuel e <> Ok b.
Proof.
  intros Ht. destruct (timeline_cons e Ht) as (x & l & El). revert b. induction fuel as [|fuel IH]; intros b H; [discriminate|].
  cbn [binWriteLibraryEffect] in H.
  match type of H with obind ?m _ = _ => destruct m; try discriminate end. cbn [obind] in H.
  match type of H with obind ?m _ = _ => destruct m; try discriminate end. cbn [obind] in H.
  destruct (writeCounted (fun _ => binWriteLibraryEffect fuel e) (e_timeline e)) as [tb| | |] eqn:E; try discriminate.
  destruct (writeCounted_ok _ _ _ (proj2 Ht) E x) as (bx & Hx); [rewrite El; now left|]. exact (IH bx Hx).
Qed.
(** When everything else can be stored, the recursion is endless. *)
Lemma library_composite_endless fuel e : has_timeline e -> library_effect_storable (set_timeline [] e) ->
  binWriteLibraryEffect fuel e = NoFuel.
Proof.
  intros Ht He. destruct (timeline_cons e Ht) as (x & l & El).
  destruct (rlibeffect _ O O He) as (b & e' & Hw & _). cbn [binWriteLibraryEffect] in Hw.
  unfold set_timeline in Hw. cbn [e_id e_pos e_type e_phase e_base e_kfs e_timeline] in Hw.
  induction fuel as [|fuel IH]; [reflexivity|]. cbn [binWriteLibraryEffect].
  match type of Hw with obind ?m _ = _ => destruct m; try discriminate end. cbn [obind] in *.
  match type of Hw with obind ?m _ = _ => destruct m; try discriminate end. cbn [obind] in *.
  unfold writeCounted. rewrite count16_all by exact (proj2 Ht). rewrite El. cbn [writeMany]. rewrite IH. reflexivity.
Qed.

Lemma timeline_endless fuel e : has_timeline e -> writeTimelineEffect fuel e = NoFuel.
Proof.
  intros Ht. destruct (timeline_cons e Ht) as (x & l & El). induction fuel as [|fuel IH]; [reflexivity|].
  cbn [writeTimelineEffect]. rewrite count16_all by exact (proj2 Ht). rewrite El. cbn [writeMany]. rewrite IH. reflexivity.
Qed.
Lemma band_composite fuel b e l bs : 0 <= b_type b <= 3 -> e_type e = CompositeE -> has_timeline e -> In e l ->
  writeBandEffects fuel b l <> Ok bs.
Proof.
  intros Hb He Ht. revert bs. induction l as [|x l IH]; intros bs Hin H; [destruct Hin|]. cbn [writeBandEffects] in H.
  destruct (writeBandEffect fuel b x) as [[y c]| | |] eqn:E; try discriminate. cbn [obind] in H.
  assert (Hc : c = true).
  { unfold writeBandEffect in E. destruct (e_type x =? ReferenceE); [congruence|].
    destruct (e_type x =? CompositeE); [destruct (writeTimelineEffect fuel x); cbn [obind] in E; congruence|].
    assert (HB : exists m, writeBasisEffect (b_type b) x = Some m).
    { unfold writeBasisEffect, TransientB, CurveB, VectorialB, WaveletB.
      destruct (b_type b =? 0) eqn:E0; [eauto|]. destruct (b_type b =? 1) eqn:E1; [eauto|].
      destruct (b_type b =? 2) eqn:E2; [eauto|]. destruct (b_type b =? 3) eqn:E3; [eauto|lia]. }
    destruct HB as (m & HB). rewrite HB in E. destruct m; cbn [obind] in E; congruence. }
  subst c. destruct Hin as [->|Hin].
  - unfold writeBandEffect in E. rewrite He in E. cbn [Z.eqb ReferenceE CompositeE] in E.
    rewrite (timeline_endless _ _ Ht) in E. discriminate.
  - destruct (writeBandEffects fuel b l) as [z| | |] eqn:El; try discriminate. exact (IH z Hin eq_refl).
Qed.

Lemma file_library_composite h fuel bytes : small_collections h -> composite_in_library h -> writeFile fuel h <> Ok bytes.
Proof.
  intros (Hp & Hs) (p & e & Hin & Hine & Ht) H. unfold writeFile, writeFileHeader in H.
  destruct (binWriteAvatars (h_avatars h)); try discriminate. cbn [obind] in H.
  destruct (binWritePerceptions fuel (h_perceptions h)) as [pb| | |] eqn:E; try discriminate.
  destruct (writeCountedN_ok _ _ _ _ Hp E p Hin) as (bp & Ep). unfold binWritePerception in Ep.
  destruct (binWriteLibrary fuel (p_library p)) as [lb| | |] eqn:El; try discriminate.
  destruct (Hs p Hin) as (Hl & _). destruct (writeCounted_ok _ _ _ Hl El e Hine) as (be & Ee).
  exact (library_composite _ _ _ Ht Ee).
Qed.
Lemma file_band_composite h fuel bytes : small_collections h -> composite_in_band h -> writeFile fuel h <> Ok bytes.
Proof.
  intros (Hp & Hs) (p & c & b & e & Hin & Hinc & Hinb & Hb & Hine & He & Ht) H. unfold writeFile in H.
  destruct (writeFileHeader fuel h); try discriminate. cbn [obind] in H.
  destruct (writeFileBody fuel h) as [bb| | |] eqn:E; try discriminate. unfold writeFileBody in E.
  destruct (short_loop_ok _ _ _ Hp E p Hin) as (bp & Ep). destruct (Hs p Hin) as (_ & Hc & Hbl).
  destruct (short_loop_ok _ _ _ Hc Ep c Hinc) as (bc & Ec).
  destruct (short_loop_ok _ _ _ (Hbl c Hinc) Ec b Hinb) as (bx & Eb). unfold writeFileBand in Eb.
  destruct (writeBandHeader (timescaleOrDefault h) b); try discriminate. cbn [obind] in Eb.
  unfold writeBandBody in Eb. destruct (writeBandEffects fuel b (b_effects b)) as [z| | |] eqn:Ez; try discriminate.
  exact (band_composite _ _ _ _ _ Hb He Ht Hine Ez).
Qed.

(** *** Counts *)

Lemma readTimes_length {A} (r : rstate -> A * rstate) n : forall st, length (fst (readTimes r n st)) = n.
Proof.
  induction n as [|n IH]; intros st; [reflexivity|]. cbn [readTimes]. destruct (r st) as [x st1].
  specialize (IH st1). destruct (readTimes r n st1) as [l st2]. cbn in *. lia.
Qed.
Lemma readTimesO_length {A} (r : rstate -> outcome (A * rstate)) n : forall st l st', readTimesO r n st = Ok (l, st') -> length l = n.
Proof.
  induction n as [|n IH]; intros st l st' H; cbn [readTimesO] in H; [injection H as <- <-; reflexivity|].
  destruct (r st) as [[x st1]| | |]; try discriminate. cbn [obind] in H.
  destruct (readTimesO r n st1) as [[m st2]| | |] eqn:E; try discriminate. cbn [obind] in H. injection H as <- <-.
  cbn [length]. f_equal. exact (IH _ _ _ E).
Qed.
Lemma readAll_length {A} (r : A -> rstate -> outcome (option A * rstate)) l : forall st m st',
  readAll r l st = Ok (Some m, st') -> Forall2 (fun x y => exists st st', r x st = Ok (Some y, st')) l m.
Proof.
  induction l as [|x l IH]; intros st m st' H; cbn [readAll] in H; [injection H as <- <-; constructor|].
  destruct (r x st) as [[[y|] st1]| | |] eqn:Er; try discriminate. cbn [obind] in H.
  destruct (readAll r l st1) as [[[m'|] st2]| | |] eqn:E; try discriminate. cbn [obind option_map] in H. injection H as <- <-.
  constructor; [eauto|]. exact (IH _ _ _ E).
Qed.
Lemma Forall2_weaken {A B} (R Q : A -> B -> Prop) l m : (forall x y, R x y -> Q x y) -> Forall2 R l m -> Forall2 Q l m.
Proof. intros H. induction 1; constructor; auto. Qed.
Lemma Forall2_len {A B} (R : A -> B -> Prop) l m : Forall2 R l m -> length l = length m.
Proof. induction 1; cbn; lia. Qed.

(** The body keeps the number of bands of each channel. *)
Definition same_bands (p q : perception) : Prop :=
  Forall2 (fun c d => length (c_bands d) = length (c_bands c)) (p_channels p) (p_channels q) /\
  p_devices q = p_devices p.
Lemma same_bands_refl p : same_bands p p.
Proof. split; [|reflexivity]. induction (p_channels p); constructor; auto. Qed.
Lemma Forall2_refl {A} (R : A -> A -> Prop) l : (forall x, R x x) -> Forall2 R l l.
Proof. intros H. induction l; constructor; auto. Qed.
Lemma body_same fuel ts l : forall st l', readFilePerceptions fuel ts l st = Ok l' -> Forall2 same_bands l l'.
Proof.
  induction l as [|p l IH]; intros st l' H; cbn [readFilePerceptions] in H; [injection H as <-; constructor|].
  destruct (readFilePerception fuel ts p st) as [[[q|] st1]| | |] eqn:E; try discriminate; cbn [obind] in H.
  - destruct (readFilePerceptions fuel ts l st1) as [m| | |] eqn:Em; try discriminate. cbn [obind] in H. injection H as <-.
    constructor; [|exact (IH _ _ Em)]. unfold readFilePerception in E.
    destruct (readAll (readFileChannel fuel ts) (p_channels p) st) as [[[cs|] st2]| | |] eqn:Ec; try discriminate.
    cbn [obind option_map] in E. injection E as <- <-. split; [|reflexivity].
    change (p_channels (set_channels cs p)) with cs. eapply Forall2_weaken; [|exact (readAll_length _ _ _ _ _ Ec)].
    intros c d (s1 & s2 & Hc). unfold readFileChannel in Hc.
    destruct (readAll (readFileBand fuel ts) (c_bands c) s1) as [[[bs|] st3]| | |] eqn:Eb; try discriminate.
    cbn [obind option_map] in Hc. injection Hc as <- <-. change (c_bands (set_bands bs c)) with bs.
    symmetry. exact (Forall2_len _ _ _ (readAll_length _ _ _ _ _ Eb)).
  - injection H as <-. apply Forall2_refl. exact same_bands_refl.
Qed.

(** What a load does once the header is read. *)
Lemma load_split fuel bytes ok h' : loadFile fuel bytes haptics0 = Ok (ok, h') -> bytes <> [] ->
  exists h1 st, readFileHeader fuel haptics0 (RS bytes []) = Ok (h1, st) /\
    h_avatars h' = h_avatars h1 /\ Forall2 same_bands (h_perceptions h1) (h_perceptions h').
Proof.
  intros H Hne. unfold loadFile in H. destruct bytes as [|b0 bl]; [congruence|]. set (bytes := b0 :: bl) in *. clearbody bytes.
  destruct (readFileHeader fuel haptics0 (RS bytes [])) as [[h1 st]| | |]; try discriminate. cbn [obind] in H.
  unfold readFileBody in H.
  destruct (readFilePerceptions fuel (timescaleOrDefault h1) (h_perceptions h1) st) as [l| | |] eqn:E; try discriminate.
  cbn [obind] in H. injection H as <- <-. exists h1, st. split; [reflexivity|]. split; [reflexivity|]. exact (body_same _ _ _ _ _ E).
Qed.
(** The bits of a written file. *)
Lemma write_split fuel h bytes : writeFile fuel h = Ok bytes ->
  bytes <> [] /\ exists avs ps rest, binWriteAvatars (h_avatars h) = Ok avs /\ binWritePerceptions fuel (h_perceptions h) = Ok ps /\
    stream (RS bytes []) = writeString (h_version h) ++ writeString (h_profile h) ++ writeNBits 8 (h_level h)
      ++ writeString (h_date h) ++ writeString (h_desc h) ++ avs ++ ps ++ rest.
Proof.
  intros H. unfold writeFile, writeFileHeader in H.
  destruct (binWriteAvatars (h_avatars h)) as [avs| | |]; try discriminate. cbn [obind] in H.
  destruct (binWritePerceptions fuel (h_perceptions h)) as [ps| | |]; try discriminate. cbn [obind] in H.
  destruct (writeFileBody fuel h) as [body| | |]; try discriminate. cbn [obind] in H.
  match type of H with Ok (writeBitset (fillBitset ?x)) = _ => set (bs := x) in * end.
  assert (E : bytes = writeBitset (fillBitset bs)) by congruence. subst bytes.
  assert (Hs : stream (RS (writeBitset (fillBitset bs)) []) = bs ++ repeat false ((8 - length bs mod 8) mod 8)).
  { rewrite stream_file, writeBitset_fillBitset. reflexivity. }
  split.
  - intros E. rewrite E in Hs. apply (f_equal (@length bool)) in Hs.
    cbn [stream rs_unused rs_file flat_map app length] in Hs. rewrite app_length in Hs.
    assert (0 < length bs)%nat; [|lia]. unfold bs, writeString. repeat rewrite app_length. rewrite writeNBits_length. lia.
  - exists avs, ps, (body ++ repeat false ((8 - length bs mod 8) mod 8)). split; [reflexivity|]. split; [reflexivity|].
    rewrite Hs. unfold bs. rewrite <- !app_assoc. reflexivity.
Qed.

Lemma count256 {A} (l : list A) : to_unsigned 16 (vec_size l) mod 256 = vec_size l mod 256.
Proof. unfold to_unsigned. change (2 ^ Z.of_nat 16) with 65536. unfold vec_size. lia. Qed.
Lemma counted8_head {A} (w : A -> outcome bits) l b : writeCountedN 8 w l = Ok b ->
  exists m, writeMany w (firstn (Z.to_nat (to_unsigned 16 (vec_size l))) l) = Ok m /\
    b = writeNBits 8 (vec_size l mod 256) ++ m.
Proof.
  intros H. unfold writeCountedN in H. destruct (writeMany w _) as [m| | |]; try discriminate. cbn [obind] in H.
  exists m. split; [reflexivity|]. assert (E : b = writeNBits 8 (to_unsigned 16 (vec_size l)) ++ m) by congruence.
  rewrite E, <- (writeNBits_mod 8 (to_unsigned 16 (vec_size l))). change (2 ^ Z.of_nat 8) with 256. rewrite count256. reflexivity.
Qed.
Lemma nbits256 v : nbits (Z.of_nat 8) (v mod 256).
Proof. unfold nbits. change (2 ^ Z.of_nat 8) with 256. lia. Qed.
Lemma vec_size_of_nat {A} (l : list A) n : 0 <= n -> length l = Z.to_nat n -> vec_size l = n.
Proof. unfold vec_size. lia. Qed.

Lemma load_avatars fuel wfuel h bytes ok h' : header_storable h ->
  writeFile wfuel h = Ok bytes -> loadFile fuel bytes haptics0 = Ok (ok, h') ->
  vec_size (h_avatars h') = vec_size (h_avatars h) mod 256.
Proof.
  intros (Hv & Hp & Hl & Hd & Hde) Hw Hload. destruct (write_split _ _ _ Hw) as (Hne & avs & ps & rest & Wa & Wp & Hs).
  destruct (load_split _ _ _ _ Hload Hne) as (h1 & st1 & Hr & Ha & _). rewrite Ha. clear Hload Hw.
  destruct (counted8_head _ _ _ Wa) as (m & _ & ->).
  assert (Hok : rs_ok (RS bytes [])) by (unfold rs_ok; cbn; lia).
  unfold readFileHeader in Hr. revert Hr.
  rstep (rtext _ Hv). rstep (rtext _ Hp). rstep (rn u8 8 _ eq_refl Hl). rstep (rtext _ Hd). rstep (rtext _ Hde).
  unfold binReadAvatars. rstep (rn u16 8 _ eq_refl (nbits256 (vec_size (h_avatars h)))).
  match goal with |- context [readTimes ?r ?n ?s] => pose proof (readTimes_length r n s) as Hlen; destruct (readTimes r n s) as [l st'] end.
  cbn [fst] in Hlen. intros Hr.
  destruct (binReadPerceptions fuel st') as [[q st'']| | |]; try discriminate. cbn [obind] in Hr. injection Hr as <- <-.
  cbn [h_avatars haptics0 app]. apply vec_size_of_nat; [lia|exact Hlen].
Qed.
Lemma load_perceptions fuel wfuel h bytes ok h' : header_storable h ->
  Forall avatar_storable (h_avatars h) -> (length (h_avatars h) <= 255)%nat ->
  writeFile wfuel h = Ok bytes -> loadFile fuel bytes haptics0 = Ok (ok, h') ->
  vec_size (h_perceptions h') = vec_size (h_perceptions h) mod 256.
Proof.
  intros (Hv & Hp & Hl & Hd & Hde) Hav Hal Hw Hload. destruct (write_split _ _ _ Hw) as (Hne & avs & ps & rest & Wa & Wp & Hs).
  destruct (load_split _ _ _ _ Hload Hne) as (h1 & st1 & Hr & _ & Hsame). clear Hload Hw.
  destruct (counted8_head _ _ _ Wp) as (m & _ & ->).
  destruct (ravatars _ Hav Hal) as (avs' & l' & Wa' & Ra & _). assert (avs' = avs) by congruence. subst avs'.
  assert (Hok : rs_ok (RS bytes [])) by (unfold rs_ok; cbn; lia).
  unfold readFileHeader in Hr. revert Hr.
  rstep (rtext _ Hv). rstep (rtext _ Hp). rstep (rn u8 8 _ eq_refl Hl). rstep (rtext _ Hd). rstep (rtext _ Hde). rstep Ra.
  unfold binReadPerceptions. rstep (rn u16 8 _ eq_refl (nbits256 (vec_size (h_perceptions h)))).
  intros Hr. destruct (readTimesO (binReadPerception fuel) (Z.to_nat (vec_size (h_perceptions h) mod 256)) _) as [[q st'']| | |] eqn:Eq; try discriminate.
  cbn [obind] in Hr. injection Hr as <- <-. cbn [h_perceptions haptics0 app] in Hsame.
  apply vec_size_of_nat; [lia|]. rewrite <- (Forall2_len _ _ _ Hsame). exact (readTimesO_length _ _ _ _ _ Eq).
Qed.
Lemma load_devices fuel wfuel h bytes ok h' p ps : header_storable h ->
  Forall avatar_storable (h_avatars h) -> (length (h_avatars h) <= 255)%nat ->
  h_perceptions h = p :: ps -> vec_size (h_perceptions h) mod 256 <> 0 -> perception_fields p ->
  writeFile (S wfuel) h = Ok bytes -> loadFile (S fuel) bytes haptics0 = Ok (ok, h') ->
  exists p' ps', h_perceptions h' = p' :: ps' /\ vec_size (p_devices p') = vec_size (p_devices p) mod 256.
Proof.
  intros (Hv & Hp & Hl & Hd & Hde) Hav Hal Ep Hn (Fi & Fa & Fd & Fm & Fu & Fpu & Flib & Fll) Hw Hload.
  destruct (write_split _ _ _ Hw) as (Hne & avs & psb & rest & Wa & Wp & Hs).
  destruct (load_split _ _ _ _ Hload Hne) as (h1 & st1 & Hr & _ & Hsame). clear Hload Hw.
  destruct (counted8_head _ _ _ Wp) as (m & Hm & ->). clear Wp.
  destruct (ravatars _ Hav Hal) as (avs' & l' & Wa' & Ra & _). assert (avs' = avs) by congruence. subst avs'.
  assert (Hcount : exists n, Z.to_nat (to_unsigned 16 (vec_size (h_perceptions h))) = S n).
  { pose proof (count256 (h_perceptions h)) as Hc. unfold to_unsigned in *. change (2 ^ Z.of_nat 16) with 65536 in *.
    exists (Z.to_nat (vec_size (h_perceptions h) mod 65536 - 1)). lia. }
  destruct Hcount as (n & En). rewrite En, Ep in Hm. cbn [firstn writeMany] in Hm. clear En.
  destruct (rlibrary _ fuel wfuel Flib Fll) as (lb & lib & Wl & Rl & _).
  destruct (binWritePerception (S wfuel) p) as [pb| | |] eqn:Epb; try discriminate. cbn [obind] in Hm.
  match type of Hm with obind ?x _ = _ => destruct x as [mrest| | |]; try discriminate end. cbn [obind] in Hm.
  assert (Em : m = pb ++ mrest) by congruence. subst m. clear Hm.
  unfold binWritePerception in Epb. rewrite Wl in Epb. cbn [obind] in Epb.
  destruct (binWriteDevices (p_devices p)) as [db| | |] eqn:Edb; try discriminate. cbn [obind] in Epb.
  destruct (binWriteChannels (p_channels p)) as [cb| | |]; try discriminate. cbn [obind] in Epb.
  match type of Epb with Ok ?x = _ => assert (Ex : pb = x) by congruence end. subst pb. clear Epb.
  destruct (counted8_head _ _ _ Edb) as (dm & _ & ->).
  assert (Hcount : exists n, Z.to_nat (vec_size (h_perceptions h) mod 256) = S n).
  { exists (Z.to_nat (vec_size (h_perceptions h) mod 256 - 1)). lia. }
  destruct Hcount as (n' & En).
  assert (U1 : int8 (value_or (p_uexp p) (-3))).
  { destruct (p_uexp p); cbn [value_or]; [apply Fu; reflexivity|unfold int8; lia]. }
  assert (U2 : int8 (value_or (p_puexp p) 0)).
  { destruct (p_puexp p); cbn [value_or]; [apply Fpu; reflexivity|unfold int8; lia]. }
  assert (Hok : rs_ok (RS bytes [])) by (unfold rs_ok; cbn; lia).
  unfold readFileHeader in Hr. revert Hr.
  rstep (rtext _ Hv). rstep (rtext _ Hp). rstep (rn u8 8 _ eq_refl Hl). rstep (rtext _ Hd). rstep (rtext _ Hde). rstep Ra.
  unfold binReadPerceptions. rstep (rn u16 8 _ eq_refl (nbits256 (vec_size (h_perceptions h)))).
  rewrite En. cbn [readTimesO]. unfold binReadPerception at 1.
  rstep (rn i16 8 (p_id p) eq_refl Fi). rstep (rn u16 8 (p_modality p) eq_refl Fm). rstep (rtext _ Fd).
  rstep (rn i32 8 (p_avatar p) eq_refl Fa). rstep (rint8 _ U1). rstep (rint8 _ U2). rstep Rl.
  unfold binReadDevices. rstep (rn u16 8 _ eq_refl (nbits256 (vec_size (p_devices p)))).
  match goal with |- context [readTimes ?r ?n ?s] => pose proof (readTimes_length r n s) as Hlen; destruct (readTimes r n s) as [dl st'] end.
  cbn [fst] in Hlen. destruct (binReadChannels st') as [cl st''].
  intros Hr. cbn [obind] in Hr. cbv beta iota in Hr.
  destruct (readTimesO (binReadPerception (S fuel)) n' st'') as [[q stq]| | |]; try discriminate.
  cbn [obind] in Hr. injection Hr as <- <-. cbn [h_perceptions haptics0 app] in Hsame.
  inversion Hsame as [|x p' y ps' (_ & Hdev) Hrest]; subst. exists p', ps'. split; [reflexivity|]. rewrite Hdev. cbn [p_devices].
  apply vec_size_of_nat; [lia|exact Hlen].
Qed.
Lemma load_bands fuel wfuel h bytes ok h' : experience_fields h ->
  writeFile (S wfuel) h = Ok bytes -> loadFile (S fuel) bytes haptics0 = Ok (ok, h') ->
  Forall2 (fun p p' => Forall2 (fun c c' => vec_size (c_bands c') = vec_size (c_bands c) mod 256) (p_channels p) (p_channels p'))
    (h_perceptions h) (h_perceptions h').
Proof.
  intros H Hw Hload. destruct (rheader fuel wfuel h H) as (hb & ps & avs & Wh & Rh & _ & Hps).
  destruct (write_split _ _ _ Hw) as (Hne & _). destruct (load_split _ _ _ _ Hload Hne) as (h1 & st1 & Hr & _ & Hsame).
  unfold writeFile in Hw. rewrite Wh in Hw. cbn [obind] in Hw.
  destruct (writeFileBody (S wfuel) h) as [body| | |]; try discriminate. cbn [obind] in Hw.
  assert (E : bytes = writeBitset (fillBitset (hb ++ body))) by congruence. subst bytes.
  assert (Hs : stream (RS (writeBitset (fillBitset (hb ++ body))) []) = hb ++ (body ++ repeat false ((8 - length (hb ++ body) mod 8) mod 8))).
  { rewrite stream_file, writeBitset_fillBitset. unfold fillBitset. rewrite <- app_assoc. reflexivity. }
  assert (Hok : rs_ok (RS (writeBitset (fillBitset (hb ++ body))) [])) by (unfold rs_ok; cbn; lia).
  destruct (Rh _ _ Hok Hs) as (st' & E & _). rewrite E in Hr.
  match type of Hr with Ok (?x, _) = _ => assert (h1 = x) by congruence end. subst h1. cbn [h_perceptions] in Hsame.
  clear -Hps Hsame. revert Hsame. generalize (h_perceptions h'). induction Hps as [|p p1 l l1 Hp _ IH]; intros m Hm; inversion Hm as [|? p' ? m' Hsb Hrest]; subst; constructor.
  - destruct Hp as (_ & Hch). destruct Hsb as (Hb & _). clear -Hch Hb. revert Hb. generalize (p_channels p').
    induction Hch as [|c c1 l l1 Hc _ IH]; intros m Hm; inversion Hm as [|? c' ? m' Hsb Hrest]; subst; constructor.
    + destruct Hc as (_ & Hc). rewrite Hc, repeat_length in Hsb. apply vec_size_of_nat; [lia|exact Hsb].
    + exact (IH _ Hrest).
  - exact (IH _ Hrest).
Qed.

(** *** Loading terminates *)

(** The bits that are set in what is left: past the end only zeros are read. *)
Definition set_bits (l : bits) : nat := count_occ Bool.bool_dec l true.
Definition ones (st : rstate) : nat := set_bits (stream st).

Lemma set_bits_app a b : set_bits (a ++ b) = (set_bits a + set_bits b)%nat.
Proof. unfold set_bits. apply count_occ_app. Qed.
Lemma set_bits_false n : set_bits (repeat false n) = 0%nat.
Proof. induction n as [|n IH]; [reflexivity|]. exact IH. Qed.
Lemma flat_zero_bytes k : flat_map byte_bits (repeat 0 k) = repeat false (8 * k).
Proof.
  induction k as [|k IH]; [reflexivity|]. cbn [repeat flat_map]. rewrite IH.
  replace (8 * S k)%nat with (8 + 8 * k)%nat by lia. reflexivity.
Qed.
Lemma read_bytes_ones k : forall file bs f', read_bytes k file = (bs, f') ->
  set_bits (flat_map byte_bits file) = (set_bits (flat_map byte_bits bs) + set_bits (flat_map byte_bits f'))%nat.
Proof.
  induction k as [|k IH]; intros file bs f' H; cbn [read_bytes] in H; [injection H as <- <-; reflexivity|].
  destruct file as [|b file].
  - rewrite read_bytes_eof in H. injection H as <- <-. change (0 :: repeat 0 k) with (repeat 0 (S k)). rewrite flat_zero_bytes, set_bits_false. reflexivity.
  - destruct (read_bytes k file) as [bs1 f1] eqn:E. injection H as <- <-. cbn [flat_map]. rewrite !set_bits_app, (IH _ _ _ E). lia.
Qed.
(** The loop keeps the bits after the [n]-th; the value is 0 if the first [n] are not set. *)
Lemma loop_ones n bs : forall i v un w un', readNBits_loop n i bs v un = (w, un') ->
  (set_bits un' <= set_bits un + set_bits bs)%nat /\ (set_bits un' = (set_bits un + set_bits bs)%nat -> w = v).
Proof.
  induction bs as [|b bs IH]; intros i v un w un' H; cbn [readNBits_loop] in H; [injection H as <- <-; unfold set_bits; cbn; split; lia|].
  destruct (i <? n)%nat.
  - destruct (IH _ _ _ _ _ H) as [H1 H2]. change (b :: bs) with ([b] ++ bs). rewrite set_bits_app.
    split; [lia|]. intros E. destruct b.
    + exfalso. change (set_bits [true]) with 1%nat in E. lia.
    + apply H2. change (set_bits [false]) with 0%nat in E. lia.
  - destruct (IH _ _ _ _ _ H) as [H1 H2]. rewrite set_bits_app in H1, H2. change (b :: bs) with ([b] ++ bs). rewrite set_bits_app.
    split; [lia|]. intros E. apply H2. lia.
Qed.
Lemma cast_0 T : cast T 0 = 0.
Proof.
  destruct T as [w s]. unfold cast. cbn [ct_signed ct_width]. destruct s; [|apply Z.mod_0_l, Z.pow_nonzero; lia].
  destruct w as [|w]; [reflexivity|]. apply to_signed_id; [lia|]. assert (0 < 2 ^ (Z.of_nat (S w) - 1)) by (apply Z.pow_pos_nonneg; lia). lia.
Qed.
Lemma readNBits_ones T n st v st' : readNBits T n st = (v, st') ->
  (ones st' <= ones st)%nat /\ (v <> 0 -> (ones st' < ones st)%nat).
Proof.
  intros H. unfold readNBits in H.
  match type of H with (let '(a, b) := ?x in _) = _ => destruct x as [bitset file'] eqn:E end.
  assert (Hb : (set_bits bitset + set_bits (flat_map byte_bits file'))%nat = ones st).
  { unfold ones, stream. rewrite set_bits_app. destruct (length (rs_unused st) <? n)%nat.
    - match type of E with (let '(a, b) := ?x in _) = _ => destruct x as [bytes f'] eqn:Er end.
      injection E as <- <-. rewrite set_bits_app, (read_bytes_ones _ _ _ _ Er). lia.
    - injection E as <- <-. reflexivity. }
  destruct (readNBits_loop n 0 bitset 0 []) as [w un'] eqn:El. injection H as <- <-.
  destruct (loop_ones _ _ _ _ _ _ _ El) as [H1 H2]. change (set_bits []) with 0%nat in *.
  unfold ones at 1 3, stream. cbn [rs_unused rs_file]. rewrite set_bits_app. split; [lia|].
  intros Hv. destruct (Nat.eq_dec (set_bits un') (0 + set_bits bitset)) as [Eq|Ne]; [|lia].
  exfalso. apply Hv. rewrite (H2 Eq). apply cast_0.
Qed.

(** Readers that do not add set bits. *)
Definition drains {A} (r : rstate -> A * rstate) : Prop := forall st x st', r st = (x, st') -> (ones st' <= ones st)%nat.
Lemma drains_nbits T n : drains (readNBits T n).
Proof. intros st x st' H. exact (proj1 (readNBits_ones _ _ _ _ _ H)). Qed.
Lemma drains_times {A} (r : rstate -> A * rstate) n : drains r -> drains (readTimes r n).
Proof.
  intros Hr. induction n as [|n IH]; intros st x st' H; cbn [readTimes] in H; [injection H as <- <-; lia|].
  destruct (r st) as [y st1] eqn:E1. destruct (readTimes r n st1) as [l st2] eqn:E2. injection H as <- <-.
  pose proof (Hr _ _ _ E1). pose proof (IH _ _ _ E2). lia.
Qed.
Lemma drains_if {A} c (r : rstate -> A * rstate) : drains r -> drains (readIf c r).
Proof.
  intros Hr st x st' H. unfold readIf in H. destruct c; [|injection H as <- <-; lia].
  destruct (r st) as [y st1] eqn:E1. injection H as <- <-. exact (Hr _ _ _ E1).
Qed.
Create HintDb drains.
#[local] Hint Resolve drains_nbits drains_times drains_if : drains.
(** One reader of a sequence. *)
Ltac dr H :=
  match type of H with context [let '(_, _) := ?r ?s in _] =>
    let E := fresh "E" in let D := fresh "D" in
    assert (D : drains r) by (eauto 6 with drains);
    destruct (r s) eqn:E; apply D in E; clear D; cbv beta iota in H end.
Ltac drs := let H := fresh "H" in intros ? ? ? H; repeat dr H; injection H as <- <-; lia.

Lemma drains_float T n a b : drains (readFloatNBits T n a b).
Proof. unfold readFloatNBits. drs. Qed.
#[local] Hint Resolve drains_float : drains.
Lemma drains_string : drains readString.
Proof.
  assert (Hl : forall n, drains (readString_loop n)).
  { induction n as [|n IH]; intros st x st' H; cbn [readString_loop] in H; [injection H as <- <-; lia|].
    dr H. destruct (readString_loop n r) as [l st2] eqn:E2. injection H as <- <-. pose proof (IH _ _ _ E2). lia. }
  intros st x st' H. unfold readString in H. dr H. pose proof (Hl _ _ _ _ H). lia.
Qed.
Lemma drains_vector : drains readVector.
Proof. unfold readVector. drs. Qed.
#[local] Hint Resolve drains_string drains_vector : drains.
Lemma drains_counted8 {A} (r : rstate -> A * rstate) : drains r -> drains (readCounted8 r).
Proof. intros Hr st x st' H. unfold readCounted8 in H. dr H. pose proof (drains_times _ _ Hr _ _ _ H). lia. Qed.
#[local] Hint Resolve drains_counted8 : drains.
Lemma drains_avatar : drains binReadAvatar.
Proof. unfold binReadAvatar. drs. Qed.
Lemma drains_avatars : drains binReadAvatars.
Proof. intros st x st' H. unfold binReadAvatars in H. dr H. pose proof (drains_times _ _ drains_avatar _ _ _ H). lia. Qed.
Lemma drains_libkf : drains binReadLibraryKeyframe.
Proof. unfold binReadLibraryKeyframe. drs. Qed.
Lemma drains_device : drains binReadDevice.
Proof. unfold binReadDevice. drs. Qed.
Lemma drains_devices : drains binReadDevices.
Proof. intros st x st' H. unfold binReadDevices in H. dr H. pose proof (drains_times _ _ drains_device _ _ _ H). lia. Qed.
Lemma drains_channel : drains binReadChannel.
Proof. unfold binReadChannel. drs. Qed.
Lemma drains_channels : drains binReadChannels.
Proof. intros st x st' H. unfold binReadChannels in H. dr H. pose proof (drains_times _ _ drains_channel _ _ _ H). lia. Qed.
Lemma drains_amplitude : drains binReadAmplitude.
Proof. unfold binReadAmplitude. eauto with drains. Qed.
#[local] Hint Resolve drains_avatars drains_libkf drains_devices drains_channels drains_amplitude : drains.
Lemma drains_transient : drains readTransientKeyframe.
Proof. unfold readTransientKeyframe. drs. Qed.
Lemma drains_curve : drains readCurveKeyframe.
Proof. unfold readCurveKeyframe. drs. Qed.
Lemma drains_vectorial : drains readVectorialKeyframe.
Proof. unfold readVectorialKeyframe. drs. Qed.
#[local] Hint Resolve drains_transient drains_curve drains_vectorial : drains.
Lemma drains_keyframes r e : drains r -> drains (readKeyframes r e).
Proof. intros Hr. unfold readKeyframes. drs. Qed.
#[local] Hint Resolve drains_keyframes : drains.
Lemma drains_vecteffect e : drains (readVectorialEffect e).
Proof. intros st x st' H. unfold readVectorialEffect in H. dr H. dr H. assert (D : drains (readKeyframes readVectorialKeyframe (set_phase_base b z e))) by eauto with drains. apply D in H. lia. Qed.
Lemma drains_waveffect e : drains (binReadWaveletEffect e).
Proof. unfold binReadWaveletEffect. drs. Qed.
Lemma drains_reference e : drains (readReferenceEffect e).
Proof. unfold readReferenceEffect. drs. Qed.
#[local] Hint Resolve drains_vecteffect drains_waveffect drains_reference : drains.
Lemma drains_basis T r e : readBasisEffect T = Some r -> drains (r e).
Proof.
  unfold readBasisEffect. intros H. repeat match type of H with (if ?c then _ else _) = _ => destruct c end;
    first [discriminate|injection H as <-; eauto with drains].
Qed.
(** Outcomes: no lack of fuel, and no set bit added. *)
Definition fine {A} (k : nat) (o : outcome (A * rstate)) : Prop :=
  o <> NoFuel /\ forall x st', o = Ok (x, st') -> (ones st' <= k)%nat.
Lemma fine_timesO {A} (r : rstate -> outcome (A * rstate)) k n :
  (forall st, (ones st <= k)%nat -> fine (ones st) (r st)) -> forall st, (ones st <= k)%nat -> fine (ones st) (readTimesO r n st).
Proof.
  intros Hr. induction n as [|n IH]; intros st Hk; cbn [readTimesO].
  - split; [discriminate|]. intros x st' [= <- <-]. lia.
  - destruct (Hr st Hk) as [H1 H2]. destruct (r st) as [[x st1]| | |] eqn:E; cbn [obind]; try (split; [discriminate|discriminate]).
    + specialize (H2 _ _ eq_refl). destruct (IH st1 ltac:(lia)) as [H3 H4].
      destruct (readTimesO r n st1) as [[l st2]| | |]; cbn [obind]; try (split; [discriminate|discriminate]).
      * split; [discriminate|]. intros y st' [= <- <-]. specialize (H4 _ _ eq_refl). lia.
      * congruence.
    + congruence.
Qed.
Lemma fine_libeffect fuel : forall st, (ones st < fuel)%nat -> fine (ones st) (binReadLibraryEffect fuel st).
Proof.
  induction fuel as [|fuel IH]; intros st Hf; [lia|]. cbn [binReadLibraryEffect].
  destruct (readNBits i32 16 st) as [i s1] eqn:E1. apply readNBits_ones in E1.
  destruct (readNBits i32 25 s1) as [p s2] eqn:E2. apply readNBits_ones in E2.
  destruct (readNBits u8 2 s2) as [t s3] eqn:E3. apply readNBits_ones in E3.
  destruct (readIf (t =? 0) (readFloatNBits u16 16 f32_0 MAX_PHASE) s3) as [ph s4] eqn:E4.
  apply (drains_if _ _ (drains_float _ _ _ _)) in E4.
  destruct (readIf (t =? 0) (readNBits u8 4) s4) as [ba s5] eqn:E5. apply (drains_if _ _ (drains_nbits _ _)) in E5.
  destruct (readNBits u32 16 s5) as [n s6] eqn:E6. apply readNBits_ones in E6.
  destruct (readTimes binReadLibraryKeyframe (Z.to_nat n) s6) as [kf s7] eqn:E7. apply (drains_times _ _ drains_libkf) in E7.
  destruct (readNBits u16 16 s7) as [c s8] eqn:E8. apply readNBits_ones in E8.
  assert (HT : fine (ones s8) (readTimesO (binReadLibraryEffect fuel) (Z.to_nat c) s8)).
  { destruct (Z.eq_dec c 0) as [->|Hc].
    - cbn. split; [discriminate|]. intros x st' [= <- <-]. lia.
    - apply (fine_timesO _ (ones s8)); [|lia]. intros s Hs. apply IH. lia. }
  destruct HT as [H1 H2]. destruct (readTimesO (binReadLibraryEffect fuel) (Z.to_nat c) s8) as [[tl s9]| | |]; cbn [obind];
    try (split; [discriminate|discriminate]); [|congruence].
  split; [discriminate|]. intros x st' [= <- <-]. specialize (H2 _ _ eq_refl). lia.
Qed.
Lemma fine_library fuel st : (ones st < fuel)%nat -> fine (ones st) (binReadLibrary fuel st).
Proof.
  intros Hf. unfold binReadLibrary. destruct (readNBits u16 16 st) as [n s1] eqn:E1. apply readNBits_ones in E1.
  destruct (fine_timesO (binReadLibraryEffect fuel) (ones s1) (Z.to_nat n) ltac:(intros s Hs; apply fine_libeffect; lia) s1 ltac:(lia)) as [H1 H2].
  split; [exact H1|]. intros x st' E. specialize (H2 _ _ E). lia.
Qed.
Lemma fine_perception fuel st : (ones st < fuel)%nat -> fine (ones st) (binReadPerception fuel st).
Proof.
  intros Hf. unfold binReadPerception.
  destruct (readNBits i16 8 st) as [a s1] eqn:E1. apply readNBits_ones in E1.
  destruct (readNBits u16 8 s1) as [b s2] eqn:E2. apply readNBits_ones in E2.
  destruct (readString s2) as [c s3] eqn:E3. apply drains_string in E3.
  destruct (readNBits i32 8 s3) as [d s4] eqn:E4. apply readNBits_ones in E4.
  destruct (readNBits i8 8 s4) as [e s5] eqn:E5. apply readNBits_ones in E5.
  destruct (readNBits i8 8 s5) as [f s6] eqn:E6. apply readNBits_ones in E6.
  destruct (fine_library fuel s6 ltac:(lia)) as [H1 H2].
  destruct (binReadLibrary fuel s6) as [[l s7]| | |]; cbn [obind]; try (split; [discriminate|discriminate]); [|congruence].
  specialize (H2 _ _ eq_refl). destruct (binReadDevices s7) as [g s8] eqn:E8. apply drains_devices in E8.
  destruct (binReadChannels s8) as [h s9] eqn:E9. apply drains_channels in E9.
  split; [discriminate|]. intros x st' [= <- <-]. lia.
Qed.
Lemma fine_header fuel out st : (ones st < fuel)%nat -> fine (ones st) (readFileHeader fuel out st).
Proof.
  intros Hf. unfold readFileHeader, binReadPerceptions.
  destruct (readString st) as [a s1] eqn:E1. apply drains_string in E1.
  destruct (readString s1) as [b s2] eqn:E2. apply drains_string in E2.
  destruct (readNBits u8 8 s2) as [c s3] eqn:E3. apply readNBits_ones in E3.
  destruct (readString s3) as [d s4] eqn:E4. apply drains_string in E4.
  destruct (readString s4) as [e s5] eqn:E5. apply drains_string in E5.
  destruct (binReadAvatars s5) as [f s6] eqn:E6. apply drains_avatars in E6.
  destruct (readNBits u16 8 s6) as [n s7] eqn:E7. apply readNBits_ones in E7.
  destruct (fine_timesO (binReadPerception fuel) (ones s7) (Z.to_nat n) ltac:(intros s Hs; apply fine_perception; lia) s7 ltac:(lia)) as [H1 H2].
  destruct (readTimesO (binReadPerception fuel) (Z.to_nat n) s7) as [[l s8]| | |]; cbn [obind]; try (split; [discriminate|discriminate]); [|congruence].
  specialize (H2 _ _ eq_refl). split; [discriminate|]. intros x st' [= <- <-]. lia.
Qed.
(** Bodies. *)
Lemma fine_timeline fuel T : forall st, (ones st < fuel)%nat -> fine (ones st) (readTimelineEffect fuel T st).
Proof.
  induction fuel as [|fuel IH]; intros st Hf; [lia|]. cbn [readTimelineEffect].
  destruct (readNBits u16 16 st) as [n s1] eqn:E1. apply readNBits_ones in E1.
  destruct (Z.eq_dec n 0) as [->|Hn].
  { cbn. split; [discriminate|]. intros x st' [= <- <-]. lia. }
  assert (Hs : (ones s1 < fuel)%nat) by lia.
  assert (G : forall m s, (ones s < fuel)%nat -> fine (ones s)
    ((fix loop (n0 : nat) (st0 : rstate) {struct n0} : outcome (list effect * rstate) :=
         match n0 with
         | O => Ok ([], st0)
         | S m =>
             let '(type, st1) := readNBits u8 2 st0 in
             let '(pos, st2) := readNBits u32 25 st1 in
             let e := set_pos (to_signed 32 pos) (set_type type effect0) in
             if type =? ReferenceE then
               let '(e, st3) := readReferenceEffect e st2 in
               do '(l, st4) <- loop m st3; Ok (e :: l, st4)
             else if type =? CompositeE then
               do '(t, st3) <- readTimelineEffect fuel T st2;
               do '(l, st4) <- loop m st3; Ok (set_timeline t e :: l, st4)
             else match readBasisEffect T with
                  | Some r => let '(e, st3) := r e st2 in do '(l, st4) <- loop m st3; Ok (e :: l, st4)
                  | None => Ok ([], st2)
                  end
         end) m s)).
  { induction m as [|m IHm]; intros s Hfs; [split; [discriminate|]; intros x st' [= <- <-]; lia|].
    destruct (readNBits u8 2 s) as [t s2] eqn:E2. apply readNBits_ones in E2.
    destruct (readNBits u32 25 s2) as [p s3] eqn:E3. apply readNBits_ones in E3. cbv zeta.
    destruct (t =? ReferenceE).
    - destruct (readReferenceEffect _ s3) as [e s4] eqn:E4. apply drains_reference in E4.
      destruct (IHm s4 ltac:(lia)) as [H1 H2].
      match goal with |- fine _ (obind ?o _) => destruct o as [[l s5]| | |] end; cbn [obind]; try (split; [discriminate|discriminate]); [|congruence].
      specialize (H2 _ _ eq_refl). split; [discriminate|]. intros x st' [= <- <-]. lia.
    - destruct (t =? CompositeE).
      + destruct (IH s3 ltac:(lia)) as [H1 H2].
        destruct (readTimelineEffect fuel T s3) as [[tl s4]| | |]; cbn [obind]; try (split; [discriminate|discriminate]); [|congruence].
        specialize (H2 _ _ eq_refl). destruct (IHm s4 ltac:(lia)) as [H3 H4].
        match goal with |- fine _ (obind ?o _) => destruct o as [[l s5]| | |] end; cbn [obind]; try (split; [discriminate|discriminate]); [|congruence].
        specialize (H4 _ _ eq_refl). split; [discriminate|]. intros x st' [= <- <-]. lia.
      + destruct (readBasisEffect T) as [r|] eqn:ER.
        * destruct (r _ s3) as [e s4] eqn:E4. apply (drains_basis _ _ _ ER) in E4.
          destruct (IHm s4 ltac:(lia)) as [H1 H2].
          match goal with |- fine _ (obind ?o _) => destruct o as [[l s5]| | |] end; cbn [obind]; try (split; [discriminate|discriminate]); [|congruence].
          specialize (H2 _ _ eq_refl). split; [discriminate|]. intros x st' [= <- <-]. lia.
        * split; [discriminate|]. intros x st' [= <- <-]. lia. }
  destruct (G (Z.to_nat n) s1 Hs) as [H1 H2]. split; [exact H1|]. intros x st' E. specialize (H2 _ _ E). lia.
Qed.
Lemma int_mul_fuel a b : int_mul a b <> NoFuel.
Proof. unfold int_mul. destruct (_ && _); discriminate. Qed.
Lemma int_div_fuel a b : int_div a b <> NoFuel.
Proof. unfold int_div. destruct (b =? 0); [discriminate|]. destruct (_ && _); discriminate. Qed.
Lemma fine_bandeffect fuel ts b i e st : (ones st < fuel)%nat -> fine (ones st) (readBandEffect fuel ts b i e st).
Proof.
  intros Hf. unfold readBandEffect. destruct (readNBits u8 2 st) as [t s1] eqn:E1. apply readNBits_ones in E1. cbv zeta.
  match goal with |- fine _ (obind ?o _) => assert (HO : fine (ones s1) o) end.
  { destruct ((t =? BasisE) && (b_type b =? WaveletB)).
    - pose proof (int_mul_fuel i (value_or (b_block b) 0)).
      destruct (int_mul i (value_or (b_block b) 0)) as [x| | |]; cbn [obind]; try (split; [discriminate|discriminate]); [|congruence].
      pose proof (int_mul_fuel x (to_signed 32 ts)).
      destruct (int_mul x (to_signed 32 ts)) as [y| | |]; cbn [obind]; try (split; [discriminate|discriminate]); [|congruence].
      pose proof (int_div_fuel y (b_up b)).
      destruct (int_div y (b_up b)) as [z| | |]; cbn [obind]; try (split; [discriminate|discriminate]); [|congruence].
      split; [discriminate|]. intros u st' [= <- <-]. lia.
    - destruct (readNBits u32 25 s1) as [p s2] eqn:E2. apply readNBits_ones in E2. split; [discriminate|]. intros u st' [= <- <-]. lia. }
  destruct HO as [H1 H2].
  match goal with |- fine _ (obind ?o _) => destruct o as [[p s2]| | |] end; cbn [obind]; try (split; [discriminate|discriminate]); [|congruence].
  specialize (H2 _ _ eq_refl). destruct (t =? ReferenceE).
  - destruct (readReferenceEffect _ s2) as [e1 s3] eqn:E3. apply drains_reference in E3. split; [discriminate|]. intros u st' [= <- <-]. lia.
  - destruct (t =? CompositeE).
    + destruct (fine_timeline fuel (b_type b) s2 ltac:(lia)) as [H3 H4].
      destruct (readTimelineEffect fuel (b_type b) s2) as [[tl s4]| | |]; cbn [obind]; try (split; [discriminate|discriminate]); [|congruence].
      specialize (H4 _ _ eq_refl). split; [discriminate|]. intros x st' [= <- <-]. lia.
    + destruct (readBasisEffect (b_type b)) as [r|] eqn:ER.
      * destruct (r _ s2) as [e1 s3] eqn:E3. apply (drains_basis _ _ _ ER) in E3. split; [discriminate|]. intros u st' [= <- <-]. lia.
      * split; [discriminate|]. intros u st' [= <- <-]. lia.
Qed.
Lemma fine_bandeffects fuel ts b l : forall i st, (ones st < fuel)%nat -> fine (ones st) (readBandEffects fuel ts b i l st).
Proof.
  induction l as [|e l IH]; intros i st Hf; cbn [readBandEffects]; [split; [discriminate|]; intros x st' [= <- <-]; lia|].
  destruct (fine_bandeffect fuel ts b i e st Hf) as [H1 H2].
  destruct (readBandEffect fuel ts b i e st) as [[[y|] s1]| | |]; cbn [obind]; try (split; [discriminate|discriminate]); [| |congruence].
  - specialize (H2 _ _ eq_refl). destruct (IH (i + 1) s1 ltac:(lia)) as [H3 H4].
    destruct (readBandEffects fuel ts b (i + 1) l s1) as [[m s2]| | |]; cbn [obind]; try (split; [discriminate|discriminate]); [|congruence].
    specialize (H4 _ _ eq_refl). split; [discriminate|]. intros x st' [= <- <-]. lia.
  - specialize (H2 _ _ eq_refl). split; [discriminate|]. intros x st' [= <- <-]. lia.
Qed.
Lemma fine_band fuel ts b st : (ones st < fuel)%nat -> fine (ones st) (readFileBand fuel ts b st).
Proof.
  intros Hf. unfold readFileBand, readBandBody.
  assert (HH : fine (ones st) (readBandHeader ts b st)).
  { unfold readBandHeader. destruct (readNBits u8 3 st) as [t s1] eqn:E1. apply readNBits_ones in E1.
    destruct (readIf (t =? CurveB) (readNBits u8 4) s1) as [c s2] eqn:E2. apply (drains_if _ _ (drains_nbits _ _)) in E2.
    destruct (readIf (t =? WaveletB) (readNBits u8 8) s2) as [co s3] eqn:E3. apply (drains_if _ _ (drains_nbits _ _)) in E3.
    destruct (readNBits u16 16 s3) as [lo s4] eqn:E4. apply readNBits_ones in E4.
    destruct (readNBits u16 16 s4) as [up s5] eqn:E5. apply readNBits_ones in E5.
    match goal with |- fine _ (obind ?o _) => assert (HO : o <> NoFuel) end.
    { destruct co as [co|]; [|discriminate]. unfold blockLengthTicks. destruct (_ <? _); [|discriminate]. destruct (up =? 0); discriminate. }
    match goal with |- fine _ (obind ?o _) => destruct o as [bl| | |] end; cbn [obind]; try (split; [discriminate|discriminate]); [|congruence].
    destruct (readNBits u16 16 s5) as [n s6] eqn:E6. apply readNBits_ones in E6.
    split; [discriminate|]. intros u st' [= <- <-]. lia. }
  destruct HH as [H1 H2]. destruct (readBandHeader ts b st) as [[b1 s1]| | |]; cbn [obind]; try (split; [discriminate|discriminate]); [|congruence].
  specialize (H2 _ _ eq_refl). destruct (fine_bandeffects fuel ts b1 (b_effects b1) 0 s1 ltac:(lia)) as [H3 H4].
  destruct (readBandEffects fuel ts b1 0 (b_effects b1) s1) as [[m s2]| | |]; cbn [obind]; try (split; [discriminate|discriminate]); [|congruence].
  specialize (H4 _ _ eq_refl). split; [discriminate|]. intros x st' [= <- <-]. lia.
Qed.
Lemma fine_all {A} (r : A -> rstate -> outcome (option A * rstate)) k :
  (forall x st, (ones st < k)%nat -> fine (ones st) (r x st)) ->
  forall l st, (ones st < k)%nat -> fine (ones st) (readAll r l st).
Proof.
  intros Hr l. induction l as [|x l IH]; intros st Hk; cbn [readAll]; [split; [discriminate|]; intros y st' [= <- <-]; lia|].
  destruct (Hr x st Hk) as [H1 H2]. destruct (r x st) as [[[y|] s1]| | |]; cbn [obind]; try (split; [discriminate|discriminate]); [| |congruence].
  - specialize (H2 _ _ eq_refl). destruct (IH s1 ltac:(lia)) as [H3 H4].
    destruct (readAll r l s1) as [[m s2]| | |]; cbn [obind]; try (split; [discriminate|discriminate]); [|congruence].
    specialize (H4 _ _ eq_refl). split; [discriminate|]. intros z st' [= <- <-]. lia.
  - specialize (H2 _ _ eq_refl). split; [discriminate|]. intros z st' [= <- <-]. lia.
Qed.
Lemma fine_map {A B} k (o : outcome (option A * rstate)) (f : A -> B) :
  fine k o -> fine k (do '(l, st) <- o; Ok (option_map f l, st)).
Proof.
  intros [H1 H2]. destruct o as [[m s2]| | |]; cbn [obind]; try (split; [discriminate|discriminate]); [|congruence].
  specialize (H2 _ _ eq_refl). split; [discriminate|]. intros z st' [= <- <-]. exact H2.
Qed.
Lemma fine_channel fuel ts c st : (ones st < fuel)%nat -> fine (ones st) (readFileChannel fuel ts c st).
Proof. intros Hf. apply fine_map. apply (fine_all _ fuel); [|exact Hf]. intros b s Hs. apply fine_band. exact Hs. Qed.
Lemma fine_fileperception fuel ts p st : (ones st < fuel)%nat -> fine (ones st) (readFilePerception fuel ts p st).
Proof. intros Hf. apply fine_map. apply (fine_all _ fuel); [|exact Hf]. intros c s Hs. apply fine_channel. exact Hs. Qed.
Lemma fine_fileperceptions fuel ts l : forall st, (ones st < fuel)%nat -> readFilePerceptions fuel ts l st <> NoFuel.
Proof.
  induction l as [|p l IH]; intros st Hf; cbn [readFilePerceptions]; [discriminate|].
  destruct (fine_fileperception fuel ts p st Hf) as [H1 H2].
  destruct (readFilePerception fuel ts p st) as [[[q|] s1]| | |]; cbn [obind]; try discriminate; [|congruence].
  specialize (H2 _ _ eq_refl). specialize (IH s1 ltac:(lia)). destruct (readFilePerceptions fuel ts l s1); cbn [obind]; congruence.
Qed.
Lemma set_bits_length l : (set_bits l <= length l)%nat.
Proof. unfold set_bits. apply count_occ_bound. Qed.
Lemma load_terminates fuel bytes out : (8 * length bytes < fuel)%nat -> loadFile fuel bytes out <> NoFuel.
Proof.
  intros Hf. unfold loadFile. destruct bytes as [|b0 bl]; [discriminate|]. set (bytes := b0 :: bl) in *. clearbody bytes.
  assert (Ho : (ones (RS bytes []) < fuel)%nat).
  { unfold ones. rewrite stream_file. pose proof (set_bits_length (flat_map byte_bits bytes)). rewrite flat_byte_bits_length in *. lia. }
  destruct (fine_header fuel out _ Ho) as [H1 H2].
  destruct (readFileHeader fuel out (RS bytes [])) as [[h st]| | |]; cbn [obind]; try discriminate; [|congruence].
  specialize (H2 _ _ eq_refl). unfold readFileBody.
  pose proof (fine_fileperceptions fuel (timescaleOrDefault h) (h_perceptions h) st ltac:(lia)).
  destruct (readFilePerceptions fuel (timescaleOrDefault h) (h_perceptions h) st); cbn [obind]; congruence.
Qed.

(** *** What a loaded experience never has *)

Lemma load_timescale fuel bytes ok h' : loadFile fuel bytes haptics0 = Ok (ok, h') -> h_timescale h' = Some 1000.
Proof.
  intros H. unfold loadFile in H. destruct bytes as [|b0 bl]; [injection H as <- <-; reflexivity|]. set (bytes := b0 :: bl) in *. clearbody bytes.
  destruct (readFileHeader fuel haptics0 (RS bytes [])) as [[h1 st]| | |] eqn:E; try discriminate. cbn [obind] in H.
  unfold readFileBody in H. destruct (readFilePerceptions fuel (timescaleOrDefault h1) (h_perceptions h1) st) as [l| | |]; try discriminate.
  cbn [obind] in H. injection H as <- <-. change (h_timescale (set_perceptions l h1)) with (h_timescale h1).
  unfold readFileHeader in E. 
  repeat match type of E with (let '(_, _) := ?c in _) = _ => destruct c end.
  destruct (binReadPerceptions fuel _) as [[q s]| | |]; try discriminate. cbn [obind] in E. injection E as <- <-. reflexivity.
Qed.

(** Wavelet effects are moved. *)
Lemma Forall2_nth {A B} (R : A -> B -> Prop) l m : Forall2 R l m -> forall i x y, nth_error l i = Some x -> nth_error m i = Some y -> R x y.
Proof.
  induction 1 as [|a b l m Hab _ IH]; intros [|i] x y Hx Hy; cbn in *; try discriminate; [congruence|]. exact (IH i x y Hx Hy).
Qed.
Lemma load_positions fuel wfuel h bytes ok h' i j k n p p' c c' b b' e e' block :
  experience_storable h -> writeFile (S wfuel) h = Ok bytes -> loadFile (S fuel) bytes haptics0 = Ok (ok, h') ->
  nth_error (h_perceptions h) i = Some p -> nth_error (h_perceptions h') i = Some p' ->
  nth_error (p_channels p) j = Some c -> nth_error (p_channels p') j = Some c' ->
  nth_error (c_bands c) k = Some b -> nth_error (c_bands c') k = Some b' ->
  nth_error (b_effects b) n = Some e -> nth_error (b_effects b') n = Some e' ->
  b_type b = WaveletB -> e_type e = BasisE -> b_block b = Some block ->
  e_pos e' = Z.of_nat n * block * 1000 / b_up b.
Proof.
  intros H Hw Hl Hp Hp' Hc Hc' Hb Hb' He He' Tb Te Hbl.
  destruct (rfile fuel wfuel h H) as (bytes' & h2 & Hw2 & Hl2 & Hst). assert (bytes' = bytes) by congruence. subst bytes'.
  assert (h2 = h') by congruence. subst h2. clear Hw2 Hl2.
  destruct Hst as (_ & _ & _ & _ & _ & _ & _ & _ & Hps).
  pose proof (Forall2_nth _ _ _ Hps _ _ _ Hp Hp') as (_ & _ & _ & _ & _ & _ & _ & _ & _ & _ & Hcs).
  pose proof (Forall2_nth _ _ _ Hcs _ _ _ Hc Hc') as (_ & _ & _ & _ & _ & _ & _ & _ & _ & _ & _ & Hbs).
  pose proof (Forall2_nth _ _ _ Hbs _ _ _ Hb Hb') as (_ & _ & _ & _ & _ & _ & _ & Hes).
  pose proof (Hes n e e' He He') as (_ & _ & _ & _ & _ & Hpos & _). rewrite Hpos, Tb, Te, Hbl. reflexivity.
Qed.

(** A band header that makes the loader divide by zero or convert a number that is too large. *)
Lemma load_undefined fuel wfuel h hb bytes p ps c cs low up code rest : experience_fields h ->
  h_perceptions h = p :: ps -> p_channels p = c :: cs -> vec_size (c_bands c) mod 256 <> 0 ->
  writeFileHeader (S wfuel) h = Ok hb -> nbits 16 low -> nbits 16 up -> nbits 8 code -> (up = 0 \/ 27 <= code) ->
  stream (RS bytes []) = hb ++ writeNBits 3 WaveletB ++ writeNBits 8 code ++ writeNBits 16 low ++ writeNBits 16 up ++ rest ->
  loadFile (S fuel) bytes haptics0 = UB.
Proof.
  intros H Ep Ec Hb Hw Hlow Hup Hcode Hbad Hs.
  destruct (rheader fuel wfuel h H) as (hb' & qs & avs & Hw' & Hr & _ & Hps). assert (hb' = hb) by congruence. subst hb'.
  assert (Hok : rs_ok (RS bytes [])) by (unfold rs_ok; cbn; lia).
  assert (Hne : bytes <> []).
  { intros ->. apply (f_equal (@length bool)) in Hs. cbn [stream rs_unused rs_file flat_map app length] in Hs.
    repeat rewrite app_length in Hs. rewrite !writeNBits_length in Hs. lia. }
  unfold loadFile. destruct bytes as [|b0 bl]; [congruence|]. set (bytes := b0 :: bl) in *. clearbody bytes.
  rstep Hr. unfold readFileBody, timescaleOrDefault. cbn [h_perceptions h_timescale value_or].
  rewrite Ep in Hps. inversion Hps as [|? q ? qs' (_ & Hch) _ E1 E2]. subst. clear Hps.
  rewrite Ec in Hch. inversion Hch as [|? d ? ds (_ & Hbands) _ E1 E2]. clear Hch.
  cbn [readFilePerceptions]. unfold readFilePerception. rewrite <- E2. cbn [readAll]. unfold readFileChannel at 1. rewrite Hbands.
  assert (Hn : exists n, Z.to_nat (vec_size (c_bands c) mod 256) = S n).
  { exists (Z.to_nat (vec_size (c_bands c) mod 256 - 1)). lia. }
  destruct Hn as (n & En). rewrite En. cbn [repeat readAll]. unfold readFileBand at 1, readBandHeader.
  rstep (rn u8 3 WaveletB eq_refl ltac:(unfold nbits, WaveletB; cbn; lia)). cbn [Z.eqb Pos.eqb CurveB WaveletB].
  unfold readIf at 1. cbv beta iota. rstep (rif _ _ _ (rn u8 8 code eq_refl Hcode)).
  rstep (rn u16 16 _ eq_refl Hlow). rstep (rn u16 16 _ eq_refl Hup).
  replace (blockLengthTicks code 1000 up) with (@UB Z); [reflexivity|].
  unfold blockLengthTicks. destruct Hbad as [->|Hbad]; [destruct (_ <? _); reflexivity|].
  destruct (Z.ltb_spec (2 ^ (code + 4)) (2 ^ 31)) as [Hlt|]; [|reflexivity].
  apply Z.pow_lt_mono_r_iff in Hlt; lia.
Qed.
