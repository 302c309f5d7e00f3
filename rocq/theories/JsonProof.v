(** Interchange files: what is written can be read. *)
From Coq Require Import String Reals Lra.
From Flocq Require Import Core BinarySingleNaN.
From Verif Require Import Base BitsModel FloatBase FloatModel FloatProof TypesModel TypesSpec MergeProof SemanticModel ConformModel ConformSpec ConformProof JsonModel JsonSpec JsonBits.
Local Open Scope Z_scope.

(** *** Numbers *)
Lemma nonzero_strict {p e} (x : binary_float p e) : is_finite x = true -> B2R x <> 0%R -> is_finite_strict x = true.
Proof. destruct x; cbn; intros; try discriminate; try reflexivity. elim H0. reflexivity. Qed.
Lemma back_and_forth (x : f32) : is_finite x = true -> f32_of_f64 (f64_of_f32 x) = x.
Proof.
  intros Hx. destruct (f64_of_f32_ok x Hx) as [E F]. destruct x as [s|s| |s m e He]; try discriminate Hx; [reflexivity|].
  set (x := B754_finite s m e He) in *.
  assert (N : B2R x <> 0%R) by (unfold x, B2R; apply F2R_neq_0; destruct s; discriminate).
  destruct (f64_of_f32 x) as [s'|s'| |s' m' e' He']; try discriminate F; [elim N; rewrite <- E; reflexivity|].
  cbn [f32_of_f64]. cbn [B2R] in E.
  pose proof (binary_normalize_correct 24 128 prec24 emax128 mode_NE (cond_Zopp s' (Zpos m')) e' s') as H. cbv zeta in H.
  assert (R0 : round radix2 (SpecFloat.fexp 24 128) (round_mode mode_NE) (F2R (Float radix2 (cond_Zopp s' (Zpos m')) e')) = B2R x).
  { rewrite E. apply round_generic; [exact _|]. apply generic_format_B2R. }
  rewrite R0, Rlt_bool_true in H by apply abs_B2R_lt_emax. destruct H as (H1 & H2 & _).
  apply B2R_inj; [apply nonzero_strict; [exact H2|rewrite H1; exact N]|reflexivity|exact H1].
Qed.
Lemma cstr_text s : text s -> cstr s = s.
Proof.
  unfold text. induction s as [|c s IH]; [reflexivity|]. intros H. cbn [cstr]. destruct (Z.eqb_spec c 0) as [->|]; [elim H; left; reflexivity|].
  rewrite IH; [reflexivity|]. intros C. apply H. right. exact C.
Qed.
Lemma int_ok z : int z -> int_of (JInt z) = Some z.
Proof. unfold int, int_of. intros H. destruct (Z.leb_spec (- 2 ^ 31) z), (Z.ltb_spec z (2 ^ 31)); try reflexivity; lia. Qed.
Lemma uint_ok z : uint z -> uint_of (JInt z) = Some z.
Proof. unfold uint, uint_of. intros H. destruct (Z.leb_spec 0 z), (Z.ltb_spec z (2 ^ 32)); try reflexivity; lia. Qed.
Lemma float_ok x : number x -> float_of (JFloat x) = Some x.
Proof. intros H. cbn. rewrite back_and_forth by exact H. reflexivity. Qed.
Lemma text_ok s : text s -> text_of (JText s) = Some s.
Proof. intros H. cbn. rewrite !(cstr_text s H). reflexivity. Qed.
Lemma int8_int z : int8 z -> int z. Proof. unfold int8, int. lia. Qed.
Lemma int8_cast z : int8 z -> cast i8 z = z.
Proof. unfold int8. intros H. change (cast i8 z) with ((z + 128) mod 256 - 128). rewrite Z.mod_small by lia. lia. Qed.
Lemma float_writable x : number x -> writable (JFloat x) = true.
Proof. intros H. cbn. apply f64_of_f32_ok. exact H. Qed.

(** *** Members of objects *)
Lemma find_opt {A} k k' (f : A -> json) o m :
  find k (opt k' f o ++ m) = if String.eqb k k' then match o with Some x => Some (f x) | None => find k m end else find k m.
Proof. destruct o; cbn [opt app find]; [reflexivity|]. destruct (String.eqb k k'); reflexivity. Qed.
Lemma look_skip {A B} (g : json -> option B) k k' (f : A -> json) o m : String.eqb k k' = false -> look g k (opt k' f o ++ m) = look g k m.
Proof. intros H. unfold look. rewrite find_opt, H. reflexivity. Qed.
Lemma look_next {B} (g : json -> option B) k k' j m : String.eqb k k' = false -> look g k ((k', j) :: m) = look g k m.
Proof. intros H. unfold look. cbn [find]. rewrite H. reflexivity. Qed.
Lemma look_here {B} (g : json -> option B) k j m : look g k ((k, j) :: m) = g j.
Proof. unfold look. cbn [find]. rewrite String.eqb_refl. reflexivity. Qed.
Lemma look_opt {A} (P : A -> Prop) (g : json -> option A) k (f : A -> json) o m :
  (forall x, P x -> g (f x) = Some x) -> given P o -> look g k m = None -> look g k (opt k f o ++ m) = o.
Proof.
  intros H G N. unfold look. rewrite find_opt, String.eqb_refl. destruct o as [x|]; [exact (H x (G x eq_refl))|exact N].
Qed.
Lemma look_map {A B} (g : json -> option B) k (f : A -> json) (f' : A -> B) o m :
  (forall x, g (f x) = Some (f' x)) -> look g k m = None -> look g k (opt k f o ++ m) = option_map f' o.
Proof.
  intros H N. unfold look. rewrite find_opt, String.eqb_refl. destruct o as [x|]; [exact (H x)|exact N].
Qed.
Lemma look_nil {B} (g : json -> option B) k : look g k [] = None. Proof. reflexivity. Qed.
Lemma find_skip {A} k k' (f : A -> json) o m : String.eqb k k' = false -> find k (opt k' f o ++ m) = find k m.
Proof. intros H. rewrite find_opt, H. reflexivity. Qed.
Lemma find_next k k' j m : String.eqb k k' = false -> find k ((k', j) :: m) = find k m.
Proof. intros H. cbn [find]. rewrite H. reflexivity. Qed.
Lemma find_here k j m : find k ((k, j) :: m) = Some j.
Proof. cbn [find]. rewrite String.eqb_refl. reflexivity. Qed.
Lemma opt_end {A} k (f : A -> json) o : opt k f o = opt k f o ++ []. Proof. symmetry. apply app_nil_r. Qed.
(** Goes past the members with other names. *)
Ltac past := repeat first [rewrite look_skip by reflexivity | rewrite look_next by reflexivity | rewrite find_skip by reflexivity | rewrite find_next by reflexivity].
Ltac read := first [exact int_ok | exact uint_ok | exact float_ok | exact text_ok].
Ltac memb := past; first
  [ rewrite look_here; first [apply int_ok | apply uint_ok | apply float_ok | apply text_ok | reflexivity]; assumption
  | rewrite look_here; reflexivity
  | reflexivity
  | eapply look_opt; [read | eassumption | past; reflexivity ] ].

(** *** Names *)
Definition nm (t : list (string * Z)) (v : Z) : str := match name_of t v with Ok s => s | _ => [] end.
Definition table_ok (P : Z -> Prop) (t t' : list (string * Z)) : Prop :=
  forall v, P v -> name_of t v = Ok (nm t v) /\ value_named t' (cstr (cstr (nm t v))) = Ok v.
Ltac table n := intros v H; assert (C : In v (map Z.of_nat (seq 0 n))) by (apply in_map_iff; exists (Z.to_nat v); split; [lia|apply in_seq; lia]);
  cbn in C; repeat (destruct C as [<-|C]; [vm_compute; split; reflexivity|]); contradiction.
Lemma effect_types_ok : table_ok (fun v => 0 <= v <= 2) effect_types effect_types. Proof. table 3%nat. Qed.
Lemma base_signals_ok : table_ok (fun v => 0 <= v <= 4) base_signals base_signals. Proof. table 5%nat. Qed.
Lemma avatar_types_ok : table_ok (fun v => 0 <= v <= 3) avatar_types avatar_types. Proof. table 4%nat. Qed.
Lemma modalities_ok : table_ok (fun v => 0 <= v <= 13) modalities modalities_read. Proof. table 14%nat. Qed.
Lemma actuator_types_ok : table_ok (fun v => 0 <= v <= 4) actuator_types actuator_types. Proof. table 5%nat. Qed.
Lemma band_types_ok : table_ok (fun v => 0 <= v <= 3) band_types band_types. Proof. table 4%nat. Qed.
Lemma curve_types_ok : table_ok (fun v => 0 <= v <= 5) curve_types curve_types. Proof. table 6%nat. Qed.
Lemma body_parts_ok : table_ok body_part body_parts body_parts.
Proof.
  intros v H. assert (C : In v [0; 1; 10; 11; 12; 13; 14; 15; 20; 21; 22; 23; 24; 30; 31; 32; 33; 34; 35; 36; 37; 40; 41; 42; 43; 50; 51; 52; 53; 54; 55; 56; 57;
    58; 59; 60; 61; 62; 254; 255]) by (unfold body_part in H; cbn; lia).
  cbn in C. repeat (destruct C as [<-|C]; [vm_compute; split; reflexivity|]). contradiction.
Qed.
Lemma opt_name_ok P t t' k o : table_ok P t t' -> given P o -> opt_name k t o = Ok (opt k (fun v => JText (nm t v)) o).
Proof. intros T G. destruct o as [v|]; [|reflexivity]. cbn [opt_name opt]. rewrite (proj1 (T v (G v eq_refl))). reflexivity. Qed.
Lemma named_ok P t t' k o m : table_ok P t t' -> given P o -> look text_of k m = None ->
  named t' (look text_of k (opt k (fun v => JText (nm t v)) o ++ m)) = Ok o.
Proof.
  intros T G N. rewrite (look_map _ _ _ (fun v => cstr (cstr (nm t v)))) by (exact (fun _ => eq_refl) || exact N).
  destruct o as [v|]; [|reflexivity]. cbn [option_map named]. rewrite (proj2 (T v (G v eq_refl))). reflexivity.
Qed.

(** *** Lists *)
Lemma both_all {A} (load : json -> outcome (option A)) (write : A -> outcome json) (kept : A -> A) l :
  Forall (fun x => exists j, write x = Ok j /\ writable j = true /\ load j = Ok (Some (kept x))) l ->
  exists js, write_all write l = Ok js /\ forallb writable js = true /\ load_all load js = Ok (map kept l).
Proof.
  induction 1 as [|x l (j & W & R & L) _ (js & Ws & Rs & Ls)]; [exists []; auto|].
  exists (j :: js). cbn [write_all load_all map forallb]. rewrite W, R, L, Ws, Rs, Ls. auto.
Qed.
Lemma both_map {A} (load : json -> outcome (option A)) (write : A -> json) (kept : A -> A) l :
  Forall (fun x => writable (write x) = true /\ load (write x) = Ok (Some (kept x))) l ->
  forallb writable (map write l) = true /\ load_all load (map write l) = Ok (map kept l).
Proof.
  induction 1 as [|x l (R & L) _ (Rs & Ls)]; [auto|].
  cbn [load_all map forallb]. rewrite R, L, Rs, Ls. auto.
Qed.
Lemma filter_map_ok {A} (load : json -> option A) (write : A -> json) l :
  Forall (fun x => load (write x) = Some x) l -> filter_map load (map write l) = l.
Proof. induction 1 as [|x l L _ IH]; [reflexivity|]. cbn. rewrite L, IH. reflexivity. Qed.
(** What is written consists of finite numbers. *)
Definition ok_members (m : list (string * json)) : bool := forallb (fun x => writable (snd x)) m.
Lemma ok_app a b : ok_members (a ++ b) = ok_members a && ok_members b.
Proof. unfold ok_members. apply forallb_app. Qed.
Lemma ok_opt {A} k (f : A -> json) o (P : A -> Prop) : (forall x, P x -> writable (f x) = true) -> given P o -> ok_members (opt k f o) = true.
Proof. intros H G. destruct o as [x|]; [|reflexivity]. cbn. rewrite (H x (G x eq_refl)). reflexivity. Qed.
Lemma ok_opt_all {A} k (f : A -> json) o : (forall x, writable (f x) = true) -> ok_members (opt k f o) = true.
Proof. intros H. destruct o as [x|]; [|reflexivity]. cbn. rewrite (H x). reflexivity. Qed.
Lemma ok_cons k j m : ok_members ((k, j) :: m) = writable j && ok_members m. Proof. reflexivity. Qed.
Lemma writable_arr l : writable (JArr l) = forallb writable l. Proof. reflexivity. Qed.
Ltac finite := change (ok_members ?m = true) || idtac;
  repeat (rewrite ?ok_app, ?ok_cons; apply andb_true_iff; split);
  first [ reflexivity | assumption | apply float_writable; assumption | rewrite writable_arr; assumption
        | apply ok_opt_all; reflexivity | eapply ok_opt; [exact float_writable|eassumption] ].

(** *** Small objects *)
Lemma keyframe_ok k : storable_keyframe k -> writable (jsonKeyframe k) = true /\ loadKeyframe (jsonKeyframe k) = Ok (Some k).
Proof.
  intros (Hp & Ha & Hf). split.
  - change (ok_members (opt "relative_position" JInt (k_pos k) ++ opt "amplitude_modulation" JFloat (k_amp k) ++ opt "frequency_modulation" JInt (k_freq k)) = true). finite.
  - unfold loadKeyframe, jsonKeyframe. rewrite (opt_end "frequency_modulation").
    set (m := (_ ++ _)).
    assert (E1 : look int_of "relative_position" m = k_pos k) by (unfold m; memb).
    assert (E2 : look float_of "amplitude_modulation" m = k_amp k) by (unfold m; memb).
    assert (E3 : look int_of "frequency_modulation" m = k_freq k) by (unfold m; memb).
    rewrite E1, E2, E3. destruct k; reflexivity.
Qed.
Lemma vector_ok v : storable_vector v -> loadVector (jsonVector v) = Some v.
Proof.
  intros (Hx & Hy & Hz). unfold loadVector, jsonVector. set (m := _ :: _).
  assert (E1 : look int_of "X" m = Some (vx v)) by (unfold m; past; rewrite look_here; apply int_ok, int8_int, Hx).
  assert (E2 : look int_of "Y" m = Some (vy v)) by (unfold m; past; rewrite look_here; apply int_ok, int8_int, Hy).
  assert (E3 : look int_of "Z" m = Some (vz v)) by (unfold m; past; rewrite look_here; apply int_ok, int8_int, Hz).
  rewrite E1, E2, E3, !int8_cast by assumption. destruct v; reflexivity.
Qed.
Lemma sync_ok s : storable_sync s -> writable (jsonSync s) = true /\ loadSync (jsonSync s) = Ok (Some (kept_sync s)).
Proof.
  intros (Ht & Hs). split.
  - change (ok_members (("timestamp"%string, JInt (s_time s)) :: opt "timescale" JInt (s_scale s)) = true). finite.
  - unfold loadSync, jsonSync. cbn [app]. rewrite (opt_end "timescale"). set (m := _ :: _).
    assert (E1 : look int_of "timestamp" m = Some (s_time s)) by (unfold m; memb).
    assert (E2 : look uint_of "timescale" m = s_scale s) by (unfold m; memb).
    rewrite E1, E2. reflexivity.
Qed.
Lemma avatar_ok a : storable_avatar a -> exists j, jsonAvatar a = Ok j /\ writable j = true /\ loadAvatar j = Ok (Some (kept_avatar a)).
Proof.
  intros (Hi & Hl & Ht & Hm). destruct (avatar_types_ok _ Ht) as [N V]. unfold jsonAvatar. rewrite N. cbn [obind]. eexists. split; [reflexivity|].
  unfold kept_avatar. set (mesh := if a_type a =? 0 then a_mesh a else None).
  assert (Em : (if a_type a =? 0 then opt "mesh" JText (a_mesh a) else []) = opt "mesh" JText mesh) by (unfold mesh; destruct (a_type a =? 0); reflexivity).
  rewrite Em. assert (Hmesh : given text mesh) by (unfold mesh; destruct (a_type a =? 0); [exact Hm|intros x; discriminate]). clearbody mesh.
  cbn [app]. split.
  - match goal with |- writable (JObj ?m) = true => change (ok_members m = true) end. finite.
  - unfold loadAvatar. rewrite (opt_end "mesh"). set (m := _ :: _).
    assert (E1 : look int_of "id" m = Some (a_id a)) by (unfold m; memb).
    assert (E2 : look int_of "lod" m = Some (a_lod a)) by (unfold m; memb).
    assert (E3 : look text_of "type" m = Some (cstr (cstr (nm avatar_types (a_type a))))) by (unfold m; memb).
    assert (E4 : look text_of "mesh" m = mesh) by (unfold m; memb).
    rewrite E1, E2, E3, V, E4. reflexivity.
Qed.
Lemma device_ok d : storable_device d -> exists j, jsonDevice d = Ok j /\ writable j = true /\ loadDevice j = Ok (Some d).
Proof.
  intros (H1 & H2 & H3 & H4 & H5 & H6 & H7 & H8 & H9 & H10 & H11 & H12 & H13 & H14 & H15).
  unfold jsonDevice. rewrite (opt_name_ok _ _ _ "type" _ actuator_types_ok H15). cbn [obind]. eexists. split; [reflexivity|].
  rewrite (opt_end "type"). cbn [app]. split.
  - match goal with |- writable (JObj ?m) = true => change (ok_members m = true) end. finite.
  - unfold loadDevice. set (m := _ :: _).
    assert (E1 : look int_of "id" m = Some (d_id d)) by (unfold m; memb).
    assert (E2 : look text_of "name" m = Some (d_name d)) by (unfold m; memb).
    assert (E3 : named actuator_types (look text_of "type" m) = Ok (d_type d)) by (unfold m; past; eapply named_ok; [exact actuator_types_ok|exact H15|reflexivity]).
    assert (E4 : look uint_of "body_part_mask" m = d_mask d) by (unfold m; memb).
    assert (E5 : look float_of "maximum_frequency" m = d_maxf d) by (unfold m; memb).
    assert (E6 : look float_of "minimum_frequency" m = d_minf d) by (unfold m; memb).
    assert (E7 : look float_of "resonance_frequency" m = d_resf d) by (unfold m; memb).
    assert (E8 : look float_of "maximum_amplitude" m = d_maxa d) by (unfold m; memb).
    assert (E9 : look float_of "impedance" m = d_imp d) by (unfold m; memb).
    assert (E10 : look float_of "maximum_voltage" m = d_maxv d) by (unfold m; memb).
    assert (E11 : look float_of "maximum_current" m = d_maxc d) by (unfold m; memb).
    assert (E12 : look float_of "maximum_displacement" m = d_maxd d) by (unfold m; memb).
    assert (E13 : look float_of "weight" m = d_weight d) by (unfold m; memb).
    assert (E14 : look float_of "size" m = d_size d) by (unfold m; memb).
    assert (E15 : look float_of "custom" m = d_custom d) by (unfold m; memb).
    rewrite E1, E2, E3. cbn [obind]. rewrite E4, E5, E6, E7, E8, E9, E10, E11, E12, E13, E14, E15. destruct d; reflexivity.
Qed.

(** *** Effects *)
Lemma keyframes_ok l : Forall storable_keyframe l -> forallb writable (map jsonKeyframe l) = true /\ load_all loadKeyframe (map jsonKeyframe l) = Ok l.
Proof.
  intros H. assert (G := both_map loadKeyframe jsonKeyframe (fun k => k) l). rewrite map_id in G. apply G.
  eapply Forall_impl; [|exact H]. exact keyframe_ok.
Qed.
Lemma library_effect_ok e : storable_effect e -> exists j, jsonLibraryEffect e = Ok j /\ writable j = true /\ loadLibraryEffect j = Ok (Some (kept_library_effect e)).
Proof.
  intros (Ht & Hi & Hp & Hph & Hs & Hk & Hb & _ & _). destruct (effect_types_ok _ Ht) as [N V]. destruct (keyframes_ok _ Hk) as [Wk Lk].
  unfold jsonLibraryEffect. rewrite N. cbn [obind]. rewrite (opt_name_ok _ _ _ "base_signal" _ base_signals_ok Hb). cbn [obind]. eexists. split; [reflexivity|].
  cbn [app]. split.
  - match goal with |- writable (JObj ?m) = true => change (ok_members m = true) end. finite.
  - unfold loadLibraryEffect. set (m := _ :: _).
    assert (E1 : look text_of "effect_type" m = Some (cstr (cstr (nm effect_types (e_type e))))) by (unfold m; memb).
    assert (E2 : look int_of "id" m = Some (e_id e)) by (unfold m; memb).
    assert (E3 : look int_of "position" m = Some (e_pos e)) by (unfold m; memb).
    assert (E4 : look float_of "phase" m = e_phase e) by (unfold m; memb).
    assert (E5 : named base_signals (look text_of "base_signal" m) = Ok (e_base e)) by (unfold m; past; eapply named_ok; [exact base_signals_ok|exact Hb|past; reflexivity]).
    assert (E6 : look text_of "semantic_keywords" m = e_semantic e) by (unfold m; memb).
    assert (E7 : find "keyframes" m = Some (JArr (map jsonKeyframe (e_kfs e)))) by (unfold m; past; reflexivity).
    rewrite E1, V. cbn [obind]. rewrite E2, E3. cbn [is_some negb]. rewrite !andb_false_r. cbn [get obind]. rewrite E5. cbn [obind]. rewrite E7.
    cbn [array_of get obind]. rewrite Lk. cbn [obind]. rewrite E4, E6. reflexivity.
Qed.
Lemma pair_false (b : bool) : b && false = false. Proof. apply andb_false_r. Qed.
Lemma effect_ok bt e : 0 <= bt <= 3 -> storable_effect e -> exists j, jsonEffect bt e = Ok j /\ writable j = true /\ loadEffect bt j = Ok (Some (kept_effect bt e)).
Proof.
  intros Hbt (Ht & Hi & Hp & Hph & Hs & Hk & Hb & Hw & Hz). destruct (effect_types_ok _ Ht) as [N V]. destruct (keyframes_ok _ Hk) as [Wk Lk].
  destruct (stream_ok _ Hw Hz) as (bits & Eb & Lb).
  assert (Tb : cstr (bits2base64 32 0 bits) = bits2base64 32 0 bits).
  { apply cstr_text. apply (bits2base64_text bits); [|cbn; auto 10|lia]. unfold bytes2bits in Eb. 
    assert (Fb : Forall bit (flat_map byte_bits (e_wavelet e))).
    { apply Forall_forall. intros b H. apply in_flat_map in H. destruct H as (v & _ & H). pose proof (byte_bits_bit v) as G. rewrite Forall_forall in G. exact (G b H). }
    unfold trim in Eb. destruct (flat_map byte_bits (e_wavelet e)) as [|x l]; [injection Eb as <-; constructor|].
    destruct (drop_zeros (rev (x :: l))) as [|y r] eqn:D; [discriminate|]. injection Eb as <-. apply Forall_forall. intros b H.
    apply (proj2 (in_rev (y :: r) b)) in H. assert (G : forall l b, In b (drop_zeros l) -> In b l).
    { clear. induction l as [|v l IH]; [auto|]. intros b. destruct v; cbn; auto. }
    rewrite Forall_forall in Fb. apply Fb. apply (proj2 (in_rev (x :: l) b)). apply G. rewrite D. exact H. }
  unfold jsonEffect. rewrite N. cbn [obind].
  assert (Cases : e_type e = BasisE \/ e_type e = ReferenceE \/ e_type e = CompositeE) by (unfold BasisE, ReferenceE, CompositeE; lia).
  unfold kept_effect. destruct Cases as [T|[T|T]]; rewrite T in *.
  - change (BasisE =? ReferenceE) with false. change (BasisE =? BasisE) with true. cbv iota. cbn [andb].
    set (wave := (bt =? TransientB) || (bt =? VectorialB)).
    set (phase := if wave then e_phase e else None). set (base := if wave then e_base e else None).
    assert (Es : (if wave then do base <- opt_name "base_signal" base_signals (e_base e); Ok (opt "phase" JFloat (e_phase e) ++ base) else Ok [])
                 = Ok (opt "phase" JFloat phase ++ opt "base_signal" (fun v => JText (nm base_signals v)) base)).
    { unfold phase, base. destruct wave; [|reflexivity]. rewrite (opt_name_ok _ _ _ "base_signal" _ base_signals_ok Hb). reflexivity. }
    rewrite Es. cbn [obind]. assert (Hph' : given number phase) by (unfold phase; destruct wave; [exact Hph|intros x; discriminate]).
    assert (Hb' : given (fun s => 0 <= s <= 4) base) by (unfold base; destruct wave; [exact Hb|intros x; discriminate]). clearbody phase base. clear Es.
    destruct (bt =? WaveletB) eqn:EW; cbn [negb].
    + rewrite Eb. cbn [obind]. eexists. split; [reflexivity|]. rewrite <- app_assoc. cbn [app]. split.
      * match goal with |- writable (JObj ?m) = true => change (ok_members m = true) end. finite.
      * unfold loadEffect. set (m := _ :: _).
        assert (E1 : look text_of "effect_type" m = Some (cstr (cstr (nm effect_types BasisE)))) by (unfold m; memb).
        assert (E2 : look int_of "id" m = None) by (unfold m; past; reflexivity).
        assert (E3 : look int_of "position" m = Some (e_pos e)) by (unfold m; memb).
        assert (E4 : look float_of "phase" m = phase) by (unfold m; memb).
        assert (E5 : named base_signals (look text_of "base_signal" m) = Ok base) by (unfold m; past; eapply named_ok; [exact base_signals_ok|exact Hb'|past; reflexivity]).
        assert (E6 : look text_of "semantic_keywords" m = e_semantic e) by (unfold m; memb).
        assert (E7 : look array_of "keyframes" m = None) by (unfold m; past; reflexivity).
        assert (E8 : find "wavelet_stream" m = Some (JText (bits2base64 32 0 bits))) by (unfold m; past; apply find_here).
        rewrite E1, V. cbn [obind]. rewrite E2, E3, EW. unfold has. rewrite E8. cbn [is_some negb]. rewrite !andb_false_r.
        change (BasisE =? ReferenceE) with false. cbn [andb get obind]. rewrite E5. cbn [obind]. rewrite E7. unfold JText. rewrite Tb, Lb. cbn [obind].
        rewrite E4, E6. reflexivity.
    + cbn [obind]. eexists. split; [reflexivity|]. rewrite <- app_assoc. cbn [app]. split.
      * match goal with |- writable (JObj ?m) = true => change (ok_members m = true) end. finite.
      * unfold loadEffect. set (m := _ :: _).
        assert (E1 : look text_of "effect_type" m = Some (cstr (cstr (nm effect_types BasisE)))) by (unfold m; memb).
        assert (E2 : look int_of "id" m = None) by (unfold m; past; reflexivity).
        assert (E3 : look int_of "position" m = Some (e_pos e)) by (unfold m; memb).
        assert (E4 : look float_of "phase" m = phase) by (unfold m; memb).
        assert (E5 : named base_signals (look text_of "base_signal" m) = Ok base) by (unfold m; past; eapply named_ok; [exact base_signals_ok|exact Hb'|past; reflexivity]).
        assert (E6 : look text_of "semantic_keywords" m = e_semantic e) by (unfold m; memb).
        assert (E7 : look array_of "keyframes" m = Some (map jsonKeyframe (e_kfs e))) by (unfold m; past; rewrite look_here; reflexivity).
        assert (E8 : find "wavelet_stream" m = None) by (unfold m; past; reflexivity).
        rewrite E1, V. cbn [obind]. rewrite E2, E3, EW. cbn [is_some negb andb]. rewrite !andb_false_r.
        change (BasisE =? ReferenceE) with false. cbn [andb get obind]. rewrite E5. cbn [obind]. rewrite E7, Lk. cbn [obind]. rewrite E8. cbn [obind].
        rewrite E4, E6. reflexivity.
  - change (ReferenceE =? ReferenceE) with true. change (ReferenceE =? BasisE) with false. cbv iota. cbn [andb obind]. eexists. split; [reflexivity|]. cbn [app]. split.
    + match goal with |- writable (JObj ?m) = true => change (ok_members m = true) end. finite.
    + unfold loadEffect. set (m := _ :: _).
      assert (E1 : look text_of "effect_type" m = Some (cstr (cstr (nm effect_types ReferenceE)))) by (unfold m; memb).
      assert (E2 : look int_of "id" m = Some (e_id e)) by (unfold m; memb).
      assert (E3 : look int_of "position" m = Some (e_pos e)) by (unfold m; memb).
      assert (E4 : look float_of "phase" m = None) by (unfold m; past; reflexivity).
      assert (E5 : look text_of "base_signal" m = None) by (unfold m; past; reflexivity).
      assert (E6 : look text_of "semantic_keywords" m = e_semantic e) by (unfold m; memb).
      assert (E7 : look array_of "keyframes" m = None) by (unfold m; past; reflexivity).
      assert (E8 : find "wavelet_stream" m = None) by (unfold m; past; reflexivity).
      rewrite E1, V. cbn [obind]. rewrite E2, E3. cbn [is_some negb]. rewrite !andb_false_r. change (ReferenceE =? BasisE) with false. cbn [andb get obind].
      rewrite E5. cbn [named obind]. rewrite E7. cbn [obind]. rewrite E8. cbn [obind]. rewrite E4, E6. reflexivity.
  - change (CompositeE =? ReferenceE) with false. change (CompositeE =? BasisE) with false. cbv iota. cbn [andb obind]. eexists. split; [reflexivity|].
    rewrite app_nil_r, (opt_end "semantic_keywords"). cbn [app]. split.
    + match goal with |- writable (JObj ?m) = true => change (ok_members m = true) end. finite.
    + unfold loadEffect. set (m := _ :: _).
      assert (E1 : look text_of "effect_type" m = Some (cstr (cstr (nm effect_types CompositeE)))) by (unfold m; memb).
      assert (E2 : look int_of "id" m = None) by (unfold m; past; reflexivity).
      assert (E3 : look int_of "position" m = Some (e_pos e)) by (unfold m; memb).
      assert (E4 : look float_of "phase" m = None) by (unfold m; past; reflexivity).
      assert (E5 : look text_of "base_signal" m = None) by (unfold m; past; reflexivity).
      assert (E6 : look text_of "semantic_keywords" m = e_semantic e) by (unfold m; memb).
      assert (E7 : look array_of "keyframes" m = None) by (unfold m; past; reflexivity).
      assert (E8 : find "wavelet_stream" m = None) by (unfold m; past; reflexivity).
      rewrite E1, V. cbn [obind]. rewrite E2, E3. change (CompositeE =? ReferenceE) with false. change (CompositeE =? BasisE) with false. cbn [andb orb is_some negb get obind].
      rewrite E5. cbn [named obind]. rewrite E7. cbn [obind]. rewrite E8. cbn [obind]. rewrite E4, E6. reflexivity.
Qed.

(** *** Bands *)
Lemma add_sorted l : forall b, sorted_by_position (b_effects b ++ l) ->
  fold_left (fun b e => addEffect e b) l b = Band (b_type b) (b_curve b) (b_block b) (b_low b) (b_up b) (b_effects b ++ l) (b_prio b).
Proof.
  induction l as [|x l IH]; intros b H; [rewrite app_nil_r; destruct b; reflexivity|].
  cbn [fold_left]. assert (E : b_effects (addEffect x b) = b_effects b ++ [x]).
  { unfold addEffect, set_effects. cbn [b_effects]. apply insert_end. clear -H. induction (b_effects b) as [|y k IHk]; [constructor|].
    cbn [app] in H. inversion H as [|? ? H1 H2]; subst. constructor; [rewrite Forall_forall in H2; apply H2; apply in_or_app; right; left; reflexivity|apply IHk, H1]. }
  rewrite IH; rewrite E; rewrite <- app_assoc; [reflexivity|exact H].
Qed.
Lemma kept_sorted bt l : sorted_by_position l -> sorted_by_position (map (kept_effect bt) l).
Proof.
  induction 1 as [|x l _ IH H]; [constructor|]. cbn [map]. constructor; [exact IH|]. apply Forall_forall. intros y Hy. apply in_map_iff in Hy.
  destruct Hy as (z & <- & Hz). rewrite Forall_forall in H. exact (H z Hz).
Qed.
Lemma band_ok b : storable_band b -> exists j, jsonBand b = Ok j /\ writable j = true /\ loadBand j = Ok (Some (kept_band b)).
Proof.
  intros (Ht & Hc & Hbl & Hl & Hu & Hp & Hs & He). destruct (band_types_ok _ Ht) as [N V].
  destruct (both_all (loadEffect (b_type b)) (jsonEffect (b_type b)) (kept_effect (b_type b)) (b_effects b)) as (js & Wr & Wf & Ld).
  { eapply Forall_impl; [|exact He]. intros e. apply effect_ok, Ht. }
  unfold jsonBand, kept_band. rewrite N. cbn [obind]. set (curve := if b_type b =? CurveB then b_curve b else None).
  assert (Ec : (if b_type b =? CurveB then opt_name "curve_type" curve_types (b_curve b) else Ok []) = Ok (opt "curve_type" (fun v => JText (nm curve_types v)) curve)).
  { unfold curve. destruct (b_type b =? CurveB); [|reflexivity]. exact (opt_name_ok _ _ _ "curve_type" _ curve_types_ok Hc). }
  rewrite Ec. cbn [obind]. rewrite Wr. cbn [obind]. eexists. split; [reflexivity|].
  assert (Hc' : given (fun c => 0 <= c <= 5) curve) by (unfold curve; destruct (b_type b =? CurveB); [exact Hc|intros x; discriminate]). clearbody curve.
  set (block := if b_type b =? WaveletB then Some (value_or (b_block b) 0) else None).
  assert (Eb : (if b_type b =? WaveletB then [("block_length"%string, JInt (value_or (b_block b) 0))] else []) = opt "block_length" JInt block)
    by (unfold block; destruct (b_type b =? WaveletB); reflexivity).
  assert (Hb' : given int block).
  { unfold block. destruct (b_type b =? WaveletB); [|intros x; discriminate]. intros x Hx. injection Hx as <-. destruct (b_block b); [apply Hbl; reflexivity|unfold int; cbn; lia]. }
  rewrite Eb. cbn [app]. split.
  - match goal with |- writable (JObj ?m) = true => change (ok_members m = true) end. finite.
  - unfold loadBand. set (m := _ :: _).
    assert (E1 : find "band_type" m = Some (JString (cstr (nm band_types (b_type b))))) by (unfold m; apply find_here).
    assert (E2 : look int_of "priority" m = b_prio b) by (unfold m; memb).
    assert (E3 : named curve_types (look text_of "curve_type" m) = Ok curve) by (unfold m; past; eapply named_ok; [exact curve_types_ok|exact Hc'|past; reflexivity]).
    assert (E4 : look int_of "block_length" m = block) by (unfold m; memb).
    assert (E5 : look int_of "lower_frequency_limit" m = Some (b_low b)) by (unfold m; memb).
    assert (E6 : look int_of "upper_frequency_limit" m = Some (b_up b)) by (unfold m; memb).
    assert (E7 : look array_of "effects" m = Some js) by (unfold m; memb).
    rewrite E1, E4, E5, E6, E7, E2. clearbody m.
    assert (Skip : str_eqb (cstr (nm band_types (b_type b))) (bytes_of "WaveletWave") && negb (is_some block) = false).
    { unfold block. assert (C : b_type b = 0 \/ b_type b = 1 \/ b_type b = 2 \/ b_type b = 3) by lia. destruct C as [C|[C|[C|C]]]; rewrite C; vm_compute; reflexivity. }
    rewrite Skip, V. cbn [obind]. rewrite E3. cbn [obind]. rewrite Ld. cbn [obind]. rewrite add_sorted; [|cbn [b_effects app]; apply kept_sorted, Hs].
    cbn [b_type b_curve b_block b_low b_up b_effects b_prio app]. unfold block. destruct (b_type b =? WaveletB); reflexivity.
Qed.

(** *** Channels *)
Lemma bodies_ok l : Forall body_part l -> exists js, write_all (fun v => do s <- name_of body_parts v; Ok (JText s)) l = Ok js /\ forallb writable js = true /\
  load_all (fun s => do v <- value_named body_parts s; Ok (Some v)) (filter_map text_of js) = Ok l.
Proof.
  induction 1 as [|v l Hv _ (js & W & F & L)]; [exists []; auto|]. destruct (body_parts_ok v Hv) as [N V].
  exists (JText (nm body_parts v) :: js). cbn [write_all]. rewrite N. cbn [obind]. rewrite W. cbn [obind]. split; [reflexivity|]. split; [exact F|].
  cbn [filter_map text_of JText load_all]. rewrite V. cbn [obind]. rewrite L. reflexivity.
Qed.
Lemma look_vector k o m : given storable_vector o -> find k m = None ->
  match find k (opt k jsonVector o ++ m) with Some v => loadVector v | None => None end = o.
Proof. intros H N. rewrite find_opt, String.eqb_refl. destruct o as [v|]; [apply vector_ok, H; reflexivity|rewrite N; reflexivity]. Qed.
Lemma vectors_writable l : forallb writable (map jsonVector l) = true.
Proof. induction l; [reflexivity|exact IHl]. Qed.
Lemma ints_writable l : forallb writable (map JInt l) = true.
Proof. induction l; [reflexivity|exact IHl]. Qed.
Lemma channel_ok c : storable_channel c -> exists j, jsonChannel c = Ok j /\ writable j = true /\ loadChannel j = Ok (Some (kept_channel c)).
Proof.
  intros (Hi & Hd & Hg & Hm & Hmask & Hv & Hp & Hdev & Hf & Hcount & Hdir & Hres & Hbody & Htarget & Hbands).
  destruct (both_all loadBand jsonBand kept_band (c_bands c)) as (js & Wr & Wf & Ld).
  { eapply Forall_impl; [|exact Hbands]. exact band_ok. }
  assert (Bo : exists o, match c_body c with
             | Some l => do names <- write_all (fun v => do s <- name_of body_parts v; Ok (JText s)) l; Ok [("body_part_target"%string, JArr names)]
             | None => Ok []
             end = Ok (opt "body_part_target" JArr o) /\ given (fun l => forallb writable l = true) o /\
             match o with
             | Some l => do vs <- load_all (fun s => do v <- value_named body_parts s; Ok (Some v)) (filter_map text_of l); Ok (Some vs)
             | None => Ok None
             end = Ok (c_body c)).
  { destruct (c_body c) as [l|]; [|exists None; split; [reflexivity|split; [intros x; discriminate|reflexivity]]].
    destruct (bodies_ok l (Hbody l eq_refl)) as (ns & W & F & L). exists (Some ns). rewrite W. cbn [obind]. split; [reflexivity|].
    split; [intros x Hx; injection Hx as <-; exact F|]. rewrite L. reflexivity. }
  destruct Bo as (o & Wo & Fo & Lo). unfold jsonChannel. rewrite Wo. cbn [obind]. rewrite Wr. cbn [obind]. eexists. split; [reflexivity|].
  set (verts := match c_vertices c with [] => None | l => Some l end).
  assert (Ev : match c_vertices c with [] => [] | l => [("vertices"%string, JArr (map JInt l))] end = opt "vertices" (fun l => JArr (map JInt l)) verts)
    by (unfold verts; destruct (c_vertices c); reflexivity).
  rewrite Ev. cbn [app]. split.
  - match goal with |- writable (JObj ?m) = true => change (ok_members m = true) end.
    repeat (rewrite ?ok_app, ?ok_cons; apply andb_true_iff; split);
      first [ reflexivity | apply float_writable; assumption | rewrite writable_arr; assumption
        | apply ok_opt_all; reflexivity | eapply ok_opt; [|exact Fo]; intros x Hx; exact Hx
        | apply ok_opt_all; intros x; rewrite writable_arr; apply vectors_writable || apply ints_writable ].
  - unfold loadChannel. set (m := _ :: _).
    assert (E1 : look int_of "id" m = Some (c_id c)) by (unfold m; memb).
    assert (E2 : look text_of "description" m = Some (c_desc c)) by (unfold m; memb).
    assert (E3 : look float_of "gain" m = Some (c_gain c)) by (unfold m; memb).
    assert (E4 : look float_of "mixing_coefficient" m = Some (c_mix c)) by (unfold m; memb).
    assert (E5 : exists x, look float_of "body_part_mask" m = Some x) by (unfold m; past; rewrite look_here; eexists; reflexivity).
    assert (E6 : look uint_of "body_part_mask" m = Some (c_mask c)) by (unfold m; memb).
    assert (E7 : look array_of "bands" m = Some js) by (unfold m; memb).
    assert (E8 : look int_of "priority" m = c_prio c) by (unfold m; memb).
    assert (E9 : look int_of "reference_device_id" m = c_device c) by (unfold m; memb).
    assert (E10 : look uint_of "frequency_sampling" m = c_freq c) by (unfold m; memb).
    assert (E11 : look uint_of "sample_count" m = c_count c) by (unfold m; memb).
    assert (E12 : match find "direction" m with Some v => loadVector v | None => None end = c_dir c) by (unfold m; past; apply look_vector; [exact Hdir|past; reflexivity]).
    assert (E13 : match find "actuator_resolution" m with Some v => loadVector v | None => None end = c_res c) by (unfold m; past; apply look_vector; [exact Hres|past; reflexivity]).
    assert (E14 : look array_of "body_part_target" m = o) by (unfold m; past; eapply (look_opt (fun _ => True)); [reflexivity|intros x _; exact I|past; reflexivity]).
    assert (E15 : match look array_of "actuator_target" m with Some l => Some (filter_map loadVector l) | None => None end = c_target c).
    { unfold m; past. rewrite (look_map _ _ _ (map jsonVector)); [|reflexivity|past; reflexivity]. destruct (c_target c) as [l|]; [|reflexivity].
      cbn [option_map]. f_equal. apply filter_map_ok. eapply Forall_impl; [exact vector_ok|]. apply Htarget. reflexivity. }
    assert (E16 : match look array_of "vertices" m with Some l => filter_map int_of l | None => [] end = c_vertices c).
    { unfold m; past. rewrite (look_map _ _ _ (map JInt)); [|reflexivity|past; reflexivity]. unfold verts. destruct (c_vertices c) as [|x l]; [reflexivity|].
      cbn [option_map]. apply filter_map_ok. eapply Forall_impl; [exact int_ok|]. exact Hv. }
    clearbody m. destruct E5 as [mask E5]. rewrite E1, E2, E3, E4, E5, E7, E6. cbn [get obind]. rewrite E14, Lo. cbn [obind]. rewrite Ld. cbn [obind].
    rewrite E8, E9, E10, E11, E12, E13, E15, E16. reflexivity.
Qed.

(** *** Perceptions *)
Lemma perception_ok p : storable_perception p -> exists j, jsonPerception p = Ok j /\ writable j = true /\ loadPerception j = Ok (Some (kept_perception p)).
Proof.
  intros (Hi & Ha & Hd & Hp & Hs & Hm & Hu & Hpu & Hc & Hdev & Hlib). destruct (modalities_ok _ Hm) as [N V].
  destruct (both_all loadChannel jsonChannel kept_channel (p_channels p)) as (jc & Wc & Fc & Lc).
  { eapply Forall_impl; [|exact Hc]. exact channel_ok. }
  destruct (both_all loadDevice jsonDevice (fun d => d) (p_devices p)) as (jd & Wd & Fd & Ld).
  { eapply Forall_impl; [|exact Hdev]. exact device_ok. }
  rewrite map_id in Ld.
  destruct (both_all loadLibraryEffect jsonLibraryEffect kept_library_effect (p_library p)) as (jl & Wl & Fl & Ll).
  { eapply Forall_impl; [|exact Hlib]. exact library_effect_ok. }
  unfold jsonPerception. rewrite N. cbn [obind]. rewrite Wd. cbn [obind]. rewrite Wl. cbn [obind]. rewrite Wc. cbn [obind]. eexists. split; [reflexivity|].
  cbn [app]. split.
  - match goal with |- writable (JObj ?m) = true => change (ok_members m = true) end. finite.
  - unfold loadPerception. set (m := _ :: _).
    assert (Hu' : given int (p_uexp p)) by (intros x Hx; apply int8_int, Hu, Hx).
    assert (Hpu' : given int (p_puexp p)) by (intros x Hx; apply int8_int, Hpu, Hx).
    assert (E1 : look int_of "id" m = Some (p_id p)) by (unfold m; memb).
    assert (E2 : look int_of "avatar_id" m = Some (p_avatar p)) by (unfold m; memb).
    assert (E3 : look text_of "description" m = Some (p_desc p)) by (unfold m; memb).
    assert (E4 : look text_of "perception_modality" m = Some (cstr (cstr (nm modalities (p_modality p))))) by (unfold m; memb).
    assert (E5 : look array_of "channels" m = Some jc) by (unfold m; memb).
    assert (E6 : look array_of "effect_library" m = Some jl) by (unfold m; memb).
    assert (E7 : look array_of "reference_devices" m = Some jd) by (unfold m; memb).
    assert (E8 : look int_of "priority" m = p_prio p) by (unfold m; memb).
    assert (E9 : look text_of "effect_semantic_scheme" m = p_scheme p) by (unfold m; memb).
    assert (E10 : look int_of "unit_exponent" m = p_uexp p) by (unfold m; memb).
    assert (E11 : look int_of "perception_unit_exponent" m = p_puexp p) by (unfold m; memb).
    clearbody m. rewrite E1, E2, E3, E4, E5, E6, V. cbn [obind]. rewrite Ll. cbn [obind]. rewrite Lc. cbn [obind]. rewrite E7, Ld. cbn [obind].
    rewrite E8, E9, E10, E11. unfold kept_perception.
    assert (M : forall o, given int8 o -> option_map (cast i8) o = o) by (intros [x|] G; [cbn [option_map]; rewrite int8_cast by (apply G; reflexivity)|]; reflexivity).
    rewrite (M _ Hu), (M _ Hpu). reflexivity.
Qed.

(** *** Files *)
Lemma conforms_kept h : conforms h -> conforms (kept h).
Proof.
  intros (H1 & H2 & H3 & H4 & H5 & H6 & H7 & H8 & H9). unfold conforms, kept. cbn [h_version h_profile h_level h_date h_timescale h_avatars h_perceptions].
  repeat match goal with |- _ /\ _ => split end; try assumption.
  - rewrite map_map. exact H6.
  - intros a Ha. apply in_map_iff in Ha. destruct Ha as (b & <- & Hb). destruct (H7 b Hb) as [G1 G2]. split; [exact G1|]. cbn. destruct (a_type b =? 0); [exact G2|discriminate].
  - rewrite map_map. exact H8.
  - apply Forall_map. eapply Forall_impl; [|exact H9]. intros p (P1 & P2 & P3 & P4 & P5 & P6 & P7 & P8 & P9 & P10).
    unfold conform_perception, kept_perception. cbn [p_modality p_avatar p_scheme p_channels p_devices p_library]. rewrite map_length, !map_map.
    repeat match goal with |- _ /\ _ => split end; try assumption.
    + destruct P2 as [P2|(a & A1 & A2)]; [left; exact P2|right]. exists (kept_avatar a). split; [apply in_map; exact A1|exact A2].
    + apply Forall_map. eapply Forall_impl; [|exact P8]. intros c (C1 & C2 & C3 & C4 & C5). unfold conform_channel, kept_channel, conform_actuators.
      cbn [c_device c_dir c_bands c_res c_target p_devices]. rewrite map_length. repeat match goal with |- _ /\ _ => split end; try assumption.
      apply Forall_map. eapply Forall_impl; [|exact C5]. intros b (B1 & B2 & B3 & B4 & B5). unfold conform_band, kept_band.
      cbn [b_type b_curve b_block b_low b_up b_effects]. repeat match goal with |- _ /\ _ => split end; try assumption.
      * intros N. destruct (Z.eqb_spec (b_type b) CurveB); [contradiction|reflexivity].
      * intros W. rewrite W. destruct (B2 W) as (k & E & K). exists k. rewrite E. split; [reflexivity|exact K].
      * apply Forall_map. eapply Forall_impl; [|exact B5]. intros e (E1 & E2 & E3 & E4). unfold conform_effect, kept_effect.
        cbn [e_type e_kfs e_id e_semantic b_type p_library]. repeat match goal with |- _ /\ _ => split end; try assumption.
        -- intros W. rewrite W. cbn. rewrite andb_false_r. reflexivity.
        -- intros R. rewrite R. change (ReferenceE =? ReferenceE) with true. cbv iota. destruct (E3 R) as (l & L1 & L2).
           exists (kept_library_effect l). split; [apply in_map; exact L1|exact L2].
    + intros S. specialize (P10 S). apply Forall_map. exact P10.
Qed.
Lemma storable_typed h : storable h -> dirs_typed h /\ blocks_typed h.
Proof.
  intros (_ & _ & _ & _ & _ & _ & _ & Hp & _). rewrite Forall_forall in Hp. split.
  - intros p c v H H0 H1. destruct (Hp _ H) as (_ & _ & _ & _ & _ & _ & _ & _ & Hc & _). rewrite Forall_forall in Hc.
    destruct (Hc _ H0) as (_ & _ & _ & _ & _ & _ & _ & _ & _ & _ & Hd & _).
    destruct (Hd _ H1) as (X & Y & W). unfold int8 in *. unfold in_type; cbn; lia.
  - intros p c b n H H0 H1 H2. destruct (Hp _ H) as (_ & _ & _ & _ & _ & _ & _ & _ & Hc & _). rewrite Forall_forall in Hc.
    destruct (Hc _ H0) as (_ & _ & _ & _ & _ & _ & _ & _ & _ & _ & _ & _ & _ & _ & Hb). rewrite Forall_forall in Hb.
    destruct (Hb _ H1) as (_ & _ & Hn & _). specialize (Hn _ H2). unfold int in Hn. unfold in_type; cbn; lia.
Qed.
Lemma given_if {A} (P : A -> Prop) (b : bool) o : given P o -> given P (if b then o else None).
Proof. destruct b; [auto|intros _ x; discriminate]. Qed.
Lemma storable_kept_effect bt e : storable_effect e -> storable_effect (kept_effect bt e).
Proof.
  intros (Ht & Hi & Hp & Hph & Hs & Hk & Hb & Hw & Hz). unfold storable_effect, kept_effect. cbn [e_type e_id e_pos e_phase e_semantic e_kfs e_base e_wavelet].
  split; [exact Ht|]. split; [destruct (e_type e =? ReferenceE); [exact Hi|unfold int; cbn; lia]|]. split; [exact Hp|]. split; [apply given_if, Hph|].
  split; [exact Hs|]. split; [destruct (_ && _); [exact Hk|constructor]|]. split; [apply given_if, Hb|].
  destruct (_ && (bt =? WaveletB)); [|split; [constructor|left; reflexivity]]. split; [apply strip_Forall, Hw|].
  destruct (strip_last (e_wavelet e)) as [E|(s & v & E & N)]; rewrite E; [left; reflexivity|right]. apply Exists_exists. exists v. split; [apply in_or_app; right; left; reflexivity|exact N].
Qed.
Lemma storable_kept h : storable h -> storable (kept h).
Proof.
  intros (H1 & H2 & H3 & H4 & H5 & H6 & H7 & H8 & H9). unfold storable, kept. cbn [h_version h_profile h_level h_date h_desc h_timescale h_avatars h_perceptions h_syncs].
  repeat match goal with |- _ /\ _ => split end; try assumption; try tauto.
  - apply Forall_map. eapply Forall_impl; [|exact H7]. intros a (A1 & A2 & A3 & A4). split; [exact A1|]. split; [exact A2|]. split; [exact A3|]. apply given_if, A4.
  - apply Forall_map. eapply Forall_impl; [|exact H8]. intros p (P1 & P2 & P3 & P4 & P5 & P6 & P7 & P8 & P9 & P10 & P11).
    unfold storable_perception, kept_perception. cbn [p_id p_avatar p_desc p_prio p_scheme p_modality p_uexp p_puexp p_channels p_devices p_library].
    repeat match goal with |- _ /\ _ => split end; try assumption; try tauto.
    + apply Forall_map. eapply Forall_impl; [|exact P9]. intros c (C1 & C2 & C3 & C4 & C5 & C6 & C7 & C8 & C9 & C10 & C11 & C12 & C13 & C14 & C15).
      unfold storable_channel, kept_channel. cbn [c_id c_desc c_gain c_mix c_mask c_vertices c_bands c_prio c_device c_freq c_count c_dir c_res c_body c_target].
      repeat match goal with |- _ /\ _ => split end; try assumption; try tauto.
      apply Forall_map. eapply Forall_impl; [|exact C15]. intros b (B1 & B2 & B3 & B4 & B5 & B6 & B7 & B8).
      unfold storable_band, kept_band. cbn [b_type b_curve b_block b_low b_up b_effects b_prio].
      repeat match goal with |- _ /\ _ => split end; try assumption; try tauto.
      * apply given_if, B2.
      * intros n Hn. injection Hn as <-. destruct (b_type b =? WaveletB); [|unfold int; cbn; lia]. destruct (b_block b); [apply B3; reflexivity|unfold int; cbn; lia].
      * apply kept_sorted, B7.
      * apply Forall_map. eapply Forall_impl; [|exact B8]. intros e. apply storable_kept_effect.
    + apply Forall_map. eapply Forall_impl; [|exact P11]. intros e (E1 & E2 & E3 & E4 & E5 & E6 & E7 & E8 & E9).
      unfold storable_effect, kept_library_effect. cbn [e_type e_id e_pos e_phase e_semantic e_kfs e_base e_wavelet].
      repeat match goal with |- _ /\ _ => split end; try assumption; try tauto. constructor.
  - apply Forall_map. eapply Forall_impl; [|exact H9]. intros s (S1 & S2). split; [exact S1|]. intros x Hx. injection Hx as <-.
    destruct (s_scale s) as [t|]; [apply S2; reflexivity|unfold uint; cbn; lia].
Qed.
Lemma map_fix {A} (f : A -> A) l : (forall x, f (f x) = f x) -> map f (map f l) = map f l.
Proof. intros H. rewrite map_map. apply map_ext. exact H. Qed.
Lemma kept_effect_idem bt e : kept_effect bt (kept_effect bt e) = kept_effect bt e.
Proof.
  unfold kept_effect. cbn [e_type e_id e_pos e_phase e_semantic e_kfs e_base e_wavelet].
  destruct (e_type e =? ReferenceE), (e_type e =? BasisE), (bt =? TransientB), (bt =? VectorialB), (bt =? WaveletB); cbn; rewrite ?strip_idem; reflexivity.
Qed.
Lemma kept_idem h : kept (kept h) = kept h.
Proof.
  unfold kept. cbn [h_version h_profile h_level h_date h_desc h_perceptions h_avatars h_timescale h_syncs]. f_equal.
  - apply map_fix. intros p. unfold kept_perception. cbn [p_id p_avatar p_desc p_prio p_scheme p_modality p_channels p_devices p_uexp p_puexp p_library]. f_equal.
    + apply map_fix. intros c. unfold kept_channel. cbn [c_id c_desc c_gain c_mix c_mask c_vertices c_bands c_prio c_device c_freq c_count c_dir c_res c_body c_target]. f_equal.
      apply map_fix. intros b. unfold kept_band. cbn [b_type b_curve b_block b_low b_up b_effects b_prio].
      f_equal; [destruct (b_type b =? CurveB); reflexivity|destruct (b_type b =? WaveletB); reflexivity|]. apply map_fix. apply kept_effect_idem.
    + apply map_fix. reflexivity.
  - apply map_fix. intros a. unfold kept_avatar. cbn [a_id a_lod a_type a_mesh]. destruct (a_type a =? 0); reflexivity.
  - apply map_fix. reflexivity.
Qed.

Lemma file_ok now schema h h0 : storable h -> conforms h -> empty h0 ->
  exists t, writeFile now h = Ok (Some t) /\ (schema t = true -> loadFile schema (Some t) h0 = Ok (true, kept h)).
Proof.
  intros St Cf (N1 & N2 & N3). pose proof (storable_kept h St) as Sk. pose proof (conforms_kept h Cf) as Ck.
  destruct (storable_typed _ Sk) as [Dt Bt]. pose proof (proj2 (conformance (kept h) Dt Bt) Ck) as Chk. clear Sk Ck Dt Bt.
  destruct Cf as (Cv & _ & _ & Cd & _). destruct St as (H1 & H2 & H3 & H4 & H5 & (ts & H6 & H6') & H7 & H8 & H9).
  destruct (both_all loadAvatar jsonAvatar kept_avatar (h_avatars h)) as (ja & Wa & Fa & La).
  { eapply Forall_impl; [|exact H7]. exact avatar_ok. }
  destruct (both_all loadPerception jsonPerception kept_perception (h_perceptions h)) as (jp & Wp & Fp & Lp).
  { eapply Forall_impl; [|exact H8]. exact perception_ok. }
  destruct (both_map loadSync jsonSync kept_sync (h_syncs h)) as (Fs & Ls).
  { eapply Forall_impl; [|exact H9]. exact sync_ok. }
  unfold writeFile, jsonFile. rewrite Wa. cbn [obind]. rewrite Wp. cbn [obind]. rewrite (proj2 (version_ok _) Cv), (proj2 (date_ok _) Cd), H6. cbn [opt app].
  set (m := _ :: _). assert (W : writable (JObj m) = true).
  { change (ok_members m = true). unfold m. finite. }
  rewrite W. eexists. split; [reflexivity|]. intros Hs. unfold loadFile. rewrite Hs. cbn [negb].
  assert (E1 : find "version" m = Some (JText (h_version h))) by (unfold m; past; apply find_here).
  assert (E2 : find "profile" m = Some (JText (h_profile h))) by (unfold m; past; apply find_here).
  assert (E3 : find "level" m = Some (JInt (h_level h))) by (unfold m; past; apply find_here).
  assert (E4 : find "date" m = Some (JText (h_date h))) by (unfold m; past; apply find_here).
  assert (E5 : find "description" m = Some (JText (h_desc h))) by (unfold m; past; apply find_here).
  assert (E6 : find "timescale" m = Some (JInt ts)) by (unfold m; past; apply find_here).
  assert (E7 : look array_of "perceptions" m = Some jp) by (unfold m; memb).
  assert (E8 : look array_of "avatars" m = Some ja) by (unfold m; memb).
  assert (E9 : look array_of "syncs" m = Some (map jsonSync (h_syncs h))) by (unfold m; memb).
  rewrite E1, E2, E3, E4, E5, E6, E7, E8, E9. rewrite !text_ok by assumption. rewrite uint_ok by (unfold uint; lia). rewrite (uint_ok _ H6'). cbn [get obind].
  rewrite La. cbn [obind]. rewrite Lp. cbn [obind]. rewrite Ls. cbn [obind]. rewrite N1, N2, N3. cbn [app].
  replace (cast u8 (h_level h)) with (h_level h) by (change (cast u8 (h_level h)) with (h_level h mod 256); rewrite Z.mod_small by lia; reflexivity).
  unfold kept in *. rewrite H6 in *. rewrite Chk. reflexivity.
Qed.

(** *** What cannot be written or read *)
Lemma write_all_in {A} (f : A -> outcome json) l js x : write_all f l = Ok js -> In x l -> exists j, f x = Ok j /\ In j js.
Proof.
  revert js. induction l as [|y l IH]; intros js W; [intros []|]. cbn [write_all] in W. destruct (f y) as [j| | |] eqn:E; try discriminate W. cbn [obind] in W.
  destruct (write_all f l) as [r| | |]; try discriminate W. cbn [obind] in W. injection W as <-.
  intros [->|H]; [exists j; split; [exact E|left; reflexivity]|]. destruct (IH r eq_refl H) as (j' & F & I). exists j'. split; [exact F|right; exact I].
Qed.
Lemma no_timescale now schema h h0 t : h_timescale h = None -> writeFile now h = Ok t -> loadFile schema t h0 = Ok (false, h0).
Proof.
  intros N W. unfold writeFile, jsonFile in W. destruct (write_all jsonAvatar (h_avatars h)) as [ja| | |]; try discriminate W. cbn [obind] in W.
  destruct (write_all jsonPerception (h_perceptions h)) as [jp| | |]; try discriminate W. cbn [obind] in W. rewrite N in W. cbn [opt app] in W.
  match type of W with Ok (if ?b then _ else _) = _ => destruct b end; injection W as <-; [|reflexivity]. unfold loadFile. destruct (negb _); [reflexivity|].
  cbn [find String.eqb Ascii.eqb Bool.eqb]. reflexivity.
Qed.
Lemma gain_lost now schema h h0 p c t : In p (h_perceptions h) -> In c (p_channels p) -> is_finite (c_gain c) = false -> writeFile now h = Ok t ->
  t = None /\ loadFile schema t h0 = Ok (false, h0).
Proof.
  intros Hp Hc N W. unfold writeFile, jsonFile in W. destruct (write_all jsonAvatar (h_avatars h)) as [ja| | |]; try discriminate W. cbn [obind] in W.
  destruct (write_all jsonPerception (h_perceptions h)) as [jp| | |] eqn:Wp; try discriminate W. cbn [obind] in W.
  destruct (write_all_in _ _ _ _ Wp Hp) as (j & Ej & Ij).
  assert (F : forall l x, In x l -> writable x = false -> forallb writable l = false).
  { intros l x Hx Fx. destruct (forallb writable l) eqn:E; [|reflexivity]. rewrite forallb_forall in E. rewrite (E x Hx) in Fx. discriminate. }
  assert (Fj : writable j = false).
  { unfold jsonPerception in Ej. destruct (name_of modalities _) as [mn| | |]; try discriminate Ej. cbn [obind] in Ej.
    destruct (write_all jsonDevice _) as [jd| | |]; try discriminate Ej. cbn [obind] in Ej. destruct (write_all jsonLibraryEffect _) as [jl| | |]; try discriminate Ej. cbn [obind] in Ej.
    destruct (write_all jsonChannel _) as [jc| | |] eqn:Wc; try discriminate Ej. cbn [obind] in Ej. injection Ej as <-.
    match goal with |- writable (JObj ?m) = false => change (ok_members m = false) end.
    cbn [app]. repeat first [rewrite ok_app | rewrite ok_cons]. rewrite (writable_arr jc).
    destruct (write_all_in _ _ _ _ Wc Hc) as (j' & Ej' & Ij').
    rewrite (F jc j' Ij'); [rewrite ?andb_false_l, ?andb_false_r; reflexivity|].
    unfold jsonChannel in Ej'. match type of Ej' with obind ?x _ = _ => destruct x as [bd| | |]; try discriminate Ej' end. cbn [obind] in Ej'.
    destruct (write_all jsonBand _) as [jb| | |]; try discriminate Ej'. cbn [obind] in Ej'. injection Ej' as <-.
    match goal with |- writable (JObj ?m) = false => change (ok_members m = false) end.
    cbn [app]. repeat first [rewrite ok_app | rewrite ok_cons].
    assert (G : writable (JFloat (c_gain c)) = false) by (cbn; destruct (c_gain c); try discriminate N; reflexivity).
    rewrite G. rewrite ?andb_false_l, ?andb_false_r. reflexivity. }
  match type of W with Ok (if writable (JObj ?m) then _ else _) = _ => assert (Fm : writable (JObj m) = false) end.
  { match goal with |- writable (JObj ?m) = false => change (ok_members m = false) end. cbn [app]. repeat first [rewrite ok_app | rewrite ok_cons]. rewrite (writable_arr jp), (F jp j Ij Fj).
    rewrite ?andb_false_l, ?andb_false_r. reflexivity. }
  rewrite Fm in W. injection W as <-. split; reflexivity.
Qed.
Lemma zero_stream now h p c b e r : In p (h_perceptions h) -> In c (p_channels p) -> In b (c_bands c) -> In e (b_effects b) ->
  b_type b = WaveletB -> e_type e = BasisE -> e_wavelet e <> [] -> Forall (fun v => v = 0) (e_wavelet e) -> writeFile now h <> Ok r.
Proof.
  intros Hp Hc Hb He Tb Te Ne Ze W. unfold writeFile, jsonFile in W. destruct (write_all jsonAvatar (h_avatars h)) as [ja| | |]; try discriminate W. cbn [obind] in W.
  destruct (write_all jsonPerception (h_perceptions h)) as [jp| | |] eqn:Wp; try discriminate W. clear W.
  destruct (write_all_in _ _ _ _ Wp Hp) as (j & Ej & _). unfold jsonPerception in Ej. destruct (name_of modalities _) as [mn| | |]; try discriminate Ej. cbn [obind] in Ej.
  destruct (write_all jsonDevice _) as [jd| | |]; try discriminate Ej. cbn [obind] in Ej. destruct (write_all jsonLibraryEffect _) as [jl| | |]; try discriminate Ej. cbn [obind] in Ej.
  destruct (write_all jsonChannel _) as [jc| | |] eqn:Wc; try discriminate Ej. clear Ej.
  destruct (write_all_in _ _ _ _ Wc Hc) as (j' & Ej & _). unfold jsonChannel in Ej. match type of Ej with obind ?x _ = _ => destruct x as [bd| | |]; try discriminate Ej end. cbn [obind] in Ej.
  destruct (write_all jsonBand _) as [jb| | |] eqn:Wb; try discriminate Ej. clear Ej.
  destruct (write_all_in _ _ _ _ Wb Hb) as (j2 & Ej & _). unfold jsonBand in Ej. destruct (name_of band_types _) as [bn| | |]; try discriminate Ej. cbn [obind] in Ej.
  match type of Ej with obind ?x _ = _ => destruct x as [cn| | |]; try discriminate Ej end. cbn [obind] in Ej.
  destruct (write_all (jsonEffect _) _) as [je| | |] eqn:We; try discriminate Ej. clear Ej.
  destruct (write_all_in _ _ _ _ We He) as (j3 & Ej & _). unfold jsonEffect in Ej. rewrite Te, Tb in Ej.
  assert (T : bytes2bits (e_wavelet e) = Throw).
  { unfold bytes2bits. apply trim_zeros.
    - destruct (e_wavelet e); [congruence|]. discriminate.
    - clear -Ze. induction Ze as [|v l -> _ IH]; [constructor|]. cbn [flat_map]. apply Forall_app. split; [repeat constructor|exact IH]. }
  change (name_of effect_types BasisE) with (@Ok str (bytes_of "Basis")) in Ej. cbn [obind] in Ej.
  change (BasisE =? ReferenceE) with false in Ej. change (BasisE =? BasisE) with true in Ej. change (WaveletB =? WaveletB) with true in Ej.
  change ((WaveletB =? TransientB) || (WaveletB =? VectorialB)) with false in Ej. cbv iota in Ej. cbn [obind] in Ej. rewrite T in Ej. discriminate Ej.
Qed.

(** Nothing that is loaded has a timeline. *)
Lemma load_all_P {A B} (P : A -> Prop) (load : B -> outcome (option A)) l r :
  (forall j x, load j = Ok (Some x) -> P x) -> load_all load l = Ok r -> Forall P r.
Proof.
  intros H. revert r. induction l as [|j l IH]; intros r E; cbn [load_all] in E; [injection E as <-; constructor|].
  destruct (load j) as [x| | |] eqn:L; try discriminate E. cbn [obind] in E. destruct (load_all load l) as [k| | |]; try discriminate E. cbn [obind] in E. injection E as <-.
  destruct x as [x|]; [apply Forall_cons; [exact (H j x L)|]|]; apply IH; reflexivity.
Qed.
Ltac open E := repeat (match type of E with
  | obind ?x _ = _ => let y := fresh "y" in destruct x as [y| | |] eqn:?; try discriminate E; cbn [obind] in E
  | (if ?x then _ else _) = _ => destruct x; try discriminate E
  | match ?x with _ => _ end = _ => destruct x eqn:?; try discriminate E
  end).
Lemma flat_library j e : loadLibraryEffect j = Ok (Some e) -> flat e.
Proof. unfold loadLibraryEffect. intros E. open E. injection E as <-. reflexivity. Qed.
Lemma flat_effect bt j e : loadEffect bt j = Ok (Some e) -> flat e.
Proof. unfold loadEffect. intros E. open E. injection E as <-. reflexivity. Qed.
Lemma flat_insert x l : flat x -> Forall flat l -> Forall flat (insert_effect x l).
Proof.
  intros Hx. induction 1 as [|y l Hy Hl IH]; [repeat constructor; exact Hx|]. cbn [insert_effect]. destruct (e_pos y >? e_pos x); repeat constructor; assumption.
Qed.
Lemma flat_fold l : Forall flat l -> forall b, Forall flat (b_effects b) -> Forall flat (b_effects (fold_left (fun b e => addEffect e b) l b)).
Proof. induction 1 as [|x l Hx _ IH]; intros b Hb; [exact Hb|]. cbn [fold_left]. apply IH. cbn. apply flat_insert; assumption. Qed.
Lemma flat_band j b : loadBand j = Ok (Some b) -> Forall flat (b_effects b).
Proof.
  unfold loadBand. intros E. open E. injection E as <-. apply flat_fold; [|constructor]. eapply load_all_P; [apply flat_effect|eassumption].
Qed.
Lemma flat_channel j c : loadChannel j = Ok (Some c) -> Forall (fun b => Forall flat (b_effects b)) (c_bands c).
Proof.
  unfold loadChannel. intros E. destruct j; try discriminate E.
  destruct (look int_of "id" m) eqn:?, (look text_of "description" m), (look float_of "gain" m), (look float_of "mixing_coefficient" m), (look float_of "body_part_mask" m),
    (look array_of "bands" m) as [bs|] eqn:?; try discriminate E.
  destruct (get (look uint_of "body_part_mask" m)); try discriminate E. cbn [obind] in E.
  match type of E with obind ?x _ = _ => destruct x; try discriminate E end. cbn [obind] in E.
  destruct (load_all loadBand bs) as [bands| | |] eqn:Lb; try discriminate E. cbn [obind] in E. injection E as <-. cbn [c_bands].
  eapply load_all_P; [apply flat_band|exact Lb].
Qed.
Lemma flat_loaded j p : loadPerception j = Ok (Some p) -> flat_perception p.
Proof.
  unfold loadPerception. intros E. destruct j; try discriminate E.
  destruct (look int_of "id" m), (look int_of "avatar_id" m), (look text_of "description" m), (look text_of "perception_modality" m) as [md|],
    (look array_of "channels" m) as [cs|], (look array_of "effect_library" m) as [es|]; try discriminate E.
  destruct (value_named modalities_read md); try discriminate E. cbn [obind] in E.
  destruct (load_all loadLibraryEffect es) as [ls| | |] eqn:Ll; try discriminate E. cbn [obind] in E.
  destruct (load_all loadChannel cs) as [ch| | |] eqn:Lc; try discriminate E. cbn [obind] in E.
  match type of E with obind ?x _ = _ => destruct x; try discriminate E end. cbn [obind] in E. injection E as <-.
  split; cbn [p_library p_channels]; [eapply load_all_P; [apply flat_library|exact Ll]|eapply load_all_P; [apply flat_channel|exact Lc]].
Qed.
Lemma flat_file schema t h0 ok g : empty h0 -> loadFile schema t h0 = Ok (ok, g) -> Forall flat_perception (h_perceptions g).
Proof.
  intros (N1 & N2 & N3) E. unfold loadFile in E.
  assert (Z0 : Forall flat_perception (h_perceptions h0)) by (rewrite N1; constructor).
  destruct t as [[| | | |m|]|]; try (injection E as <- <-; exact Z0).
  destruct (negb (schema (JObj m))); [injection E as <- <-; exact Z0|].
  destruct (find "version" m), (find "profile" m), (find "level" m), (find "date" m), (find "description" m), (find "timescale" m),
    (look array_of "perceptions" m) as [ps|], (look array_of "avatars" m) as [avs|], (look array_of "syncs" m) as [ss|]; try (injection E as <- <-; exact Z0).
  do 5 (match type of E with obind ?x _ = _ => destruct x; try discriminate E; cbn [obind] in E end).
  destruct (load_all loadAvatar avs); try discriminate E. cbn [obind] in E.
  destruct (load_all loadPerception ps) as [lp| | |] eqn:Lp; try discriminate E. cbn [obind] in E.
  destruct (load_all loadSync ss); try discriminate E. cbn [obind] in E.
  match type of E with obind ?x _ = _ => destruct x; try discriminate E end. cbn [obind] in E. injection E as <- <-. cbn [h_perceptions]. rewrite N1. cbn [app].
  eapply load_all_P; [apply flat_loaded|exact Lp].
Qed.
