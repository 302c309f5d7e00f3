(** Proofs about the conformance checker. *)
From Coq Require Import String.
From Verif Require Import Base BitsModel FloatBase FloatModel TypesModel SemanticModel ToolsModel ToolsProof ConformModel ConformSpec ConformUnit.
Local Open Scope Z_scope.

Lemma str_eqb_ok a b : str_eqb a b = true <-> a = b.
Proof.
  revert b. induction a as [|x a IH]; intros [|y b]; cbn; try (split; [discriminate|discriminate || congruence]); [split; reflexivity|].
  rewrite andb_true_iff, IH, Z.eqb_eq. split; [intros [-> ->]; reflexivity|intros E; injection E; auto].
Qed.
Lemma str_eqb_no a b : str_eqb a b = false <-> a <> b.
Proof. rewrite <- str_eqb_ok. destruct (str_eqb a b); split; congruence. Qed.

(** *** Regular expressions *)
Definition shrinks (k : str -> option str) : Prop := forall s r, k s = Some r -> (length r <= length s)%nat.
Definition total (k : str -> option str) : Prop := forall s, exists r, k s = Some r.
Lemma shrinks_some : shrinks Some. Proof. intros s r E. injection E as ->. lia. Qed.
Lemma total_some : total Some. Proof. intros s. eexists. reflexivity. Qed.
Lemma star_shrinks p k : shrinks k -> shrinks (fun s => star p s k).
Proof.
  intros H s. induction s as [|c s IH]; intros r E; cbn in E; [exact (H _ _ E)|].
  destruct (p c); [|exact (H _ _ E)]. destruct (star p s k) eqn:E1; [|exact (H _ _ E)].
  injection E as ->. specialize (IH _ eq_refl). cbn. lia.
Qed.
Lemma star_total p k : total k -> total (fun s => star p s k).
Proof.
  intros H s. induction s as [|c s [r IH]]; cbn; [apply H|].
  destruct (p c); [|apply H]. rewrite IH. eexists. reflexivity.
Qed.
Lemma rmatch_shrinks r : forall k, shrinks k -> shrinks (fun s => rmatch r s k).
Proof.
  induction r as [p|a IHa b IHb|a IH|p|]; intros k H s r E; cbn in E.
  - destruct s as [|c s]; [discriminate E|]. destruct (p c); [|discriminate E]. apply H in E. cbn. lia.
  - exact (IHa _ (IHb _ H) s r E).
  - destruct (rmatch a s k) eqn:E1; [|exact (H _ _ E)]. injection E as ->. exact (IH _ H s r E1).
  - exact (star_shrinks p k H s r E).
  - destruct s; [exact (H _ _ E)|discriminate E].
Qed.
Lemma opt_total a k : total k -> total (fun s => rmatch (ROpt a) s k).
Proof. intros H s. cbn. destruct (rmatch a s k); [eexists; reflexivity|apply H]. Qed.
Lemma set_strict p b k s r : shrinks k -> rmatch (RSeq (RSet p) b) s k = Some r -> (length r < length s)%nat.
Proof.
  intros H E. cbn in E. destruct s as [|c s]; [discriminate E|]. destruct (p c); [|discriminate E].
  apply (rmatch_shrinks b k H) in E. cbn. lia.
Qed.

Definition u5 : re := ROpt (RSeq (rc "#") (RStar any)).
Definition u4 : re := ROpt (RSeq (rc "?") (RStar (none_of "#"))).
Definition k5 : str -> option str := fun s => rmatch u5 s Some.
Definition k4 : str -> option str := fun s => rmatch u4 s k5.
Definition k3 : str -> option str := fun s => star (none_of "?#") s k4.
Lemma k5_ok : shrinks k5 /\ total k5. Proof. split; [apply rmatch_shrinks, shrinks_some|apply opt_total, total_some]. Qed.
Lemma k4_ok : shrinks k4 /\ total k4. Proof. split; [apply rmatch_shrinks, k5_ok|apply opt_total, k5_ok]. Qed.
Lemma k3_ok : shrinks k3 /\ total k3. Proof. split; [apply star_shrinks, k4_ok|apply star_total, k4_ok]. Qed.
Lemma none_of_cases c : none_of "?#" c = false -> c = 63 \/ c = 35.
Proof.
  unfold none_of, one_of. change (bytes_of "?#") with [63; 35]. cbn. destruct (c =? 63) eqn:E1; [lia|]. destruct (c =? 35) eqn:E2; [lia|]. discriminate.
Qed.
Lemma k4_query s : k4 (63 :: s) = match star (none_of "#") s k5 with Some x => Some x | None => k5 (63 :: s) end.
Proof. reflexivity. Qed.
Lemma k4_hash s : k4 (35 :: s) = match star any s Some with Some x => Some x | None => Some (35 :: s) end.
Proof. reflexivity. Qed.
Lemma k3_cons c s : k3 (c :: s) = if none_of "?#" c then match k3 s with Some x => Some x | None => k4 (c :: s) end else k4 (c :: s).
Proof. reflexivity. Qed.
Lemma k3_strict c s r : k3 (c :: s) = Some r -> (length r < length (c :: s))%nat.
Proof.
  rewrite k3_cons. destruct (none_of "?#" c) eqn:Ec.
  - destruct k3_ok as [Hs Ht]. destruct (Ht s) as [x Ex]. rewrite Ex. intros E. injection E as ->. apply Hs in Ex. cbn. lia.
  - apply none_of_cases in Ec. destruct Ec as [-> | ->].
    + rewrite k4_query. destruct k5_ok as [Hs Ht]. destruct (star_total (none_of "#") k5 Ht s) as [x Ex]. cbn beta in Ex. rewrite Ex. intros E. injection E as ->.
      apply (star_shrinks _ _ Hs) in Ex. cbn. lia.
    + rewrite k4_hash. destruct (star_total any Some total_some s) as [x Ex]. cbn beta in Ex. rewrite Ex. intros E. injection E as ->.
      apply (star_shrinks _ _ shrinks_some) in Ex. cbn. lia.
Qed.
Lemma uri_ok s : URICheck s = true <-> s <> [].
Proof.
  unfold URICheck, search_start.
  assert (H : exists r, rmatch uri_re s Some = Some r /\ (length r <= length s)%nat /\ (s <> [] -> (length r < length s)%nat)).
  { change (rmatch uri_re s Some) with (rmatch (ROpt (RSeq (rplus (none_of ":/?#")) (rc ":"))) s (fun s => rmatch (ROpt (rseq [rc "/"; rc "/"; RStar (none_of "/?#")])) s k3)).
    set (k2 := fun s => rmatch (ROpt (rseq [rc "/"; rc "/"; RStar (none_of "/?#")])) s k3).
    assert (S2 : shrinks k2) by apply rmatch_shrinks, k3_ok. assert (T2 : total k2) by apply opt_total, k3_ok.
    destruct (opt_total (RSeq (rplus (none_of ":/?#")) (rc ":")) k2 T2 s) as [r E]. exists r. split; [exact E|].
    split; [exact (rmatch_shrinks _ _ S2 s r E)|]. intros Hs.
    change (match rmatch (RSeq (rplus (none_of ":/?#")) (rc ":")) s k2 with Some x => Some x | None => k2 s end = Some r) in E.
    destruct (rmatch (RSeq (rplus (none_of ":/?#")) (rc ":")) s k2) eqn:E1.
    - change (rmatch (RSeq (RSet (none_of ":/?#")) (RSeq (RStar (none_of ":/?#")) (rc ":"))) s k2 = Some s0) in E1.
      apply set_strict in E1; [|exact S2]. injection E as <-. exact E1.
    - change (match rmatch (rseq [rc "/"; rc "/"; RStar (none_of "/?#")]) s k3 with Some x => Some x | None => k3 s end = Some r) in E. destruct (rmatch (rseq [rc "/"; rc "/"; RStar (none_of "/?#")]) s k3) eqn:E2.
      + injection E as <-. cbn [rseq] in E2. apply set_strict in E2; [exact E2|apply k3_ok].
      + destruct s as [|c s]; [congruence|]. exact (k3_strict c s r E). }
  destruct H as (r & -> & Hle & Hlt). rewrite negb_true_iff, str_eqb_no. split.
  - intros E ->. apply E. reflexivity.
  - intros E C. specialize (Hlt E). apply (f_equal (@length Z)) in C. rewrite firstn_length in C. cbn in C. lia.
Qed.

Definition four (s : str) : bool :=
  match s with a :: b :: c :: d :: _ => digit a && digit b && digit c && digit d | _ => false end.
Lemma digit_ok c : digit c = true <-> is_digit c.
Proof. unfold digit, within, is_digit. change (ch "0") with 48. change (ch "9") with 57. lia. Qed.
Definition sign_or (s : str) : bool := four s || match s with c :: s' => one_of "+-" c && four s' | [] => false end.
Lemma date_match s : match rmatch date_re s Some with Some _ => true | None => false end = sign_or s.
Proof.
  set (month := rseq [rc "-"; r01; rd; ROpt (rseq [rc "-"; r03; rd; ROpt (rseq [rc "T"; r02; rd; rc ":"; r05; rd; ROpt (rc ":");
                   ROpt (rseq [r05; rd; ROpt (RSeq (RSet any) (rplus digit))]); rc "+-"; r02; rd; rc ":"; r05; rd; ROpt (rc "Z")])])]).
  assert (K : forall t, match rmatch (rseq [rd; rd; rd; rd; ROpt month]) t Some with Some _ => true | None => false end = four t).
  { intros t. change (rmatch (rseq [rd; rd; rd; rd; ROpt month]) t Some) with (rmatch (rseq [rd; rd; rd; rd]) t (fun t => rmatch (ROpt month) t Some)).
    pose proof (opt_total month Some total_some) as T. set (k := fun t => rmatch (ROpt month) t Some) in *. clearbody k.
    unfold rd. cbn [rseq rmatch]. unfold four.
    destruct t as [|a t]; [reflexivity|]. destruct (digit a); [|destruct t as [|b [|c [|d t]]]; reflexivity].
    destruct t as [|b t]; [reflexivity|]. destruct (digit b); [|destruct t as [|c [|d t]]; reflexivity].
    destruct t as [|c t]; [reflexivity|]. destruct (digit c); [|destruct t as [|d t]; reflexivity].
    destruct t as [|d t]; [reflexivity|]. destruct (digit d); [|reflexivity]. destruct (T t) as [r ->]. reflexivity. }
  change (rmatch date_re s Some) with (rmatch (ROpt (rc "+-")) s (fun t => rmatch (rseq [rd; rd; rd; rd; ROpt month]) t Some)).
  set (k := fun t => rmatch (rseq [rd; rd; rd; rd; ROpt month]) t Some) in *.
  change (forall t, match k t with Some _ => true | None => false end = four t) in K. clearbody k.
  cbn [rmatch]. unfold rc. cbn [rmatch]. unfold sign_or. rewrite <- (K s).
  destruct s as [|c s]; [destruct (k []); reflexivity|]. destruct (one_of "+-" c).
  - rewrite <- (K s). destruct (k s); [destruct (k (c :: s)); reflexivity|]. destruct (k (c :: s)); reflexivity.
  - destruct (k (c :: s)); reflexivity.
Qed.
Lemma four_ok s : four s = true <-> exists a b c d v, s = a :: b :: c :: d :: v /\ is_digit a /\ is_digit b /\ is_digit c /\ is_digit d.
Proof.
  unfold four. split.
  - destruct s as [|a [|b [|c [|d s]]]]; try discriminate. intros H. rewrite !andb_true_iff, !digit_ok in H. exists a, b, c, d, s. tauto.
  - intros (a & b & c & d & v & -> & H). rewrite !andb_true_iff, !digit_ok. tauto.
Qed.
Lemma date_ok s : dateCheck s = true <-> has_four_digits s.
Proof.
  unfold dateCheck, has_four_digits. split.
  - assert (C : forall s, four s = true -> exists u a b c d v, s = u ++ a :: b :: c :: d :: v /\ is_digit a /\ is_digit b /\ is_digit c /\ is_digit d).
    { intros t H. apply four_ok in H. destruct H as (a & b & c & d & v & H). exists [], a, b, c, d, v. exact H. }
    assert (D : forall x s, (exists u a b c d v, s = u ++ a :: b :: c :: d :: v /\ is_digit a /\ is_digit b /\ is_digit c /\ is_digit d) ->
                exists u a b c d v, x :: s = u ++ a :: b :: c :: d :: v /\ is_digit a /\ is_digit b /\ is_digit c /\ is_digit d).
    { intros x t (u & a & b & c & d & v & -> & H). exists (x :: u), a, b, c, d, v. split; [reflexivity|exact H]. }
    induction s as [|x s IH]; cbn [search]; intros H; pose proof (date_match) as M.
    + specialize (M []). destruct (rmatch date_re [] Some); [discriminate M|discriminate H].
    + specialize (M (x :: s)). destruct (rmatch date_re (x :: s) Some).
      * symmetry in M. unfold sign_or in M. apply orb_true_iff in M. destruct M as [M|M]; [exact (C _ M)|].
        apply andb_true_iff in M. apply D, C, M.
      * apply D, IH, H.
  - intros (u & a & b & c & d & v & -> & H). induction u as [|x u IH].
    + assert (F : sign_or (a :: b :: c :: d :: v) = true).
      { unfold sign_or. apply orb_true_iff. left. apply four_ok. exists a, b, c, d, v. split; [reflexivity|exact H]. }
      rewrite <- date_match in F. cbn [app search]. destruct (rmatch date_re (a :: b :: c :: d :: v) Some); [reflexivity|discriminate F].
    + cbn [app search]. destruct (rmatch date_re _ Some); [reflexivity|]. exact IH.
Qed.

Lemma isdigit_ok c : isdigit c = true <-> is_digit c.
Proof. unfold isdigit, is_digit. lia. Qed.
Lemma version_ok s : versionCheck s = true <-> valid_version s.
Proof.
  unfold versionCheck, search_start, valid_version.
  change (rmatch version_re s Some) with (rmatch (rseq [rd; rd; rd; rd]) s (fun t => match rmatch (RSeq (rc "-") rd) t (fun t => match t with [] => Some t | _ :: _ => None end) with Some x => Some x | None => match t with [] => Some t | _ :: _ => None end end)).
  unfold rd, rc. cbn [rseq rmatch].
  split.
  - destruct s as [|a s]; [discriminate|]. destruct (digit a) eqn:Da; [|discriminate].
    destruct s as [|b s]; [discriminate|]. destruct (digit b) eqn:Db; [|discriminate].
    destruct s as [|c s]; [discriminate|]. destruct (digit c) eqn:Dc; [|discriminate].
    destruct s as [|d s]; [discriminate|]. destruct (digit d) eqn:Dd; [|discriminate].
    apply digit_ok in Da, Db, Dc, Dd. intros H. exists a, b, c, d. do 4 (split; [assumption|]).
    destruct s as [|x s].
    + cbn [firstn skipn] in H. destruct (isNumber [a; b; c; d]); [|discriminate H]. unfold atoi in H. cbn [fold_left] in H.
      unfold MIN_VERSION_YEAR in H. destruct (Z.ltb_spec (10 * (10 * (10 * (10 * 0 + (a - 48)) + (b - 48)) + (c - 48)) + (d - 48)) 2023); [discriminate H|].
      split; [lia|left; reflexivity].
    + destruct (one_of "-" x) eqn:Ex; [|discriminate H]. destruct s as [|e s]; [discriminate H|]. destruct (digit e) eqn:De; [|discriminate H].
      destruct s as [|y s]; [|discriminate H]. apply digit_ok in De.
      unfold one_of in Ex. change (bytes_of "-") with [45] in Ex. cbn in Ex. rewrite orb_false_r, Z.eqb_eq in Ex. subst x.
      cbn [firstn skipn] in H. destruct (isNumber [a; b; c; d]); [|discriminate H]. unfold atoi in H. cbn [fold_left] in H.
      unfold MIN_VERSION_YEAR in H. destruct (Z.ltb_spec (10 * (10 * (10 * (10 * 0 + (a - 48)) + (b - 48)) + (c - 48)) + (d - 48)) 2023); [discriminate H|].
      change (str_eqb [e] []) with false in H. cbn [negb] in H. destruct (isNumber [e]); [|discriminate H].
      split; [lia|right]. exists e. split; [exact De|]. split; [lia|reflexivity].
  - intros (a & b & c & d & Da & Db & Dc & Dd & Y & H).
    assert (Ia := proj2 (digit_ok a) Da). assert (Ib := proj2 (digit_ok b) Db). assert (Ic := proj2 (digit_ok c) Dc). assert (Id := proj2 (digit_ok d) Dd).
    assert (N4 : isNumber [a; b; c; d] = true).
    { unfold isNumber. cbn [skip_digits]. rewrite (proj2 (isdigit_ok a) Da), (proj2 (isdigit_ok b) Db), (proj2 (isdigit_ok c) Dc), (proj2 (isdigit_ok d) Dd). reflexivity. }
    assert (A4 : (atoi [a; b; c; d] <? MIN_VERSION_YEAR) = false) by (unfold atoi, MIN_VERSION_YEAR; cbn [fold_left]; lia).
    destruct H as [->|(e & De & Ne & ->)].
    + rewrite Ia, Ib, Ic, Id. cbn [firstn skipn]. rewrite N4, A4. reflexivity.
    + rewrite Ia, Ib, Ic, Id. change (one_of "-" 45) with true. cbn match. rewrite (proj2 (digit_ok e) De). cbn [firstn skipn]. rewrite N4, A4.
      change (str_eqb [e] []) with false. cbn [negb]. unfold isNumber. cbn [skip_digits]. rewrite (proj2 (isdigit_ok e) De). cbn [length Nat.eqb negb andb].
      unfold atoi. cbn [fold_left]. unfold is_digit in De. lia.
Qed.

(** *** Lists *)
Lemma check_all_ok {A} (check : A -> outcome bool) l : check_all check l = Ok true <-> Forall (fun x => check x = Ok true) l.
Proof.
  induction l as [|x l IH]; cbn; [split; auto|]. split.
  - intros H. destruct (check x) as [b| | |] eqn:E; try discriminate H. cbn [obind] in H. destruct (check_all check l) as [r| | |]; try discriminate H.
    cbn [obind] in H. injection H as H. apply andb_true_iff in H. destruct H as [-> ->]. constructor; [exact E|apply IH; reflexivity].
  - intros H. inversion H as [|y m E F]; subst. rewrite E. cbn [obind]. rewrite (proj2 IH F). reflexivity.
Qed.
Lemma has_id_ok {A} (id : A -> Z) i l : has_id id i l = true <-> exists x, In x l /\ id x = i.
Proof. unfold has_id. rewrite existsb_exists. split; intros (x & H & E); exists x; split; try exact H; lia. Qed.
Lemma filter_none {A} (id : A -> Z) i l : ~ In i (map id l) -> filter (fun x => id x =? i) l = [].
Proof.
  induction l as [|x l IH]; [reflexivity|]. cbn. intros H. destruct (id x =? i) eqn:E; [exfalso; apply H; left; lia|].
  apply IH. intros C. apply H. right. exact C.
Qed.
Lemma unique_ok {A} (id : A -> Z) l : (forall x, In x l -> unique id (id x) l = true) <-> NoDup (map id l).
Proof.
  unfold unique, instances. split.
  - induction l as [|x l IH]; intros H; cbn; [constructor|]. constructor.
    + intros C. apply in_map_iff in C. destruct C as (y & E & Hy). specialize (H x (or_introl eq_refl)). apply Nat.leb_le in H.
      cbn [filter] in H. rewrite Z.eqb_refl in H. cbn [length] in H.
      assert (P : In y (filter (fun z => id z =? id x) l)) by (apply filter_In; split; [exact Hy|lia]).
      destruct (filter (fun z => id z =? id x) l); [exact P|]. cbn in H. lia.
    + apply IH. intros y Hy. specialize (H y (or_intror Hy)). apply Nat.leb_le in H. apply Nat.leb_le. cbn [filter] in H. destruct (id x =? id y); cbn in H; lia.
  - induction l as [|x l IH]; intros N y Hy; [destruct Hy|]. cbn [map] in N. inversion N as [|z m Nx Nl]; subst. cbn [filter].
    destruct Hy as [<-|Hy].
    + rewrite Z.eqb_refl. cbn [length]. rewrite (filter_none id (id x) l Nx). reflexivity.
    + destruct (id x =? id y) eqn:E; [exfalso; apply Nx; apply Z.eqb_eq in E; rewrite E; apply in_map, Hy|]. exact (IH Nl y Hy).
Qed.

(** *** The checks *)
Lemma obind_true (m : outcome bool) (f : bool -> outcome bool) : (forall b, m = Ok b -> f b = Ok true -> b = true) ->
  obind m f = Ok true <-> m = Ok true /\ f true = Ok true.
Proof.
  intros H. split.
  - intros E. destruct m as [b| | |]; try discriminate E. cbn in E. assert (b = true) as -> by (apply H; [reflexivity|exact E]). split; [reflexivity|exact E].
  - intros [-> E]. exact E.
Qed.
Lemma Ok_true b : Ok b = Ok true <-> b = true. Proof. split; [congruence|intros ->; reflexivity]. Qed.
Lemma simple_ok h : is_simple h = true <-> simple h.
Proof. apply str_eqb_ok. Qed.
Lemma impl_b (a b : bool) : negb (a && b) = true <-> (a = true -> b = false).
Proof. destruct a, b; cbn; intuition congruence. Qed.
Lemma In_table s : existsb (fun x => str_eqb s (fst x)) semantic_table = true <-> In s (map (fun x => bytes_of (fst x)) semantic_names).
Proof.
  rewrite existsb_exists, in_map_iff. unfold semantic_table. split.
  - intros (x & H & E). apply in_map_iff in H. destruct H as (y & <- & Hy). apply str_eqb_ok in E. exists y. split; [symmetry; exact E|exact Hy].
  - intros (y & <- & Hy). exists (bytes_of (fst y), snd y). split; [apply in_map_iff; exists y; auto|]. apply str_eqb_ok. reflexivity.
Qed.

Lemma checkEffect_ok h p b e : p_scheme p = None -> checkEffect h p b e = Ok true <-> conform_effect h p b e.
Proof.
  intros HS. unfold checkEffect, conform_effect. rewrite HS.
  rewrite obind_true by (intros r _ E; injection E as E; rewrite !andb_true_iff in E; tauto).
  rewrite Ok_true, !andb_true_iff, !impl_b, simple_ok, Z.eqb_neq, negb_false_iff, !Z.eqb_eq, Nat.eqb_eq.
  assert (R : (if e_type e =? ReferenceE then if has_id e_id (e_id e) (p_library p) then Ok true else if valid_band_type (b_type b) then Ok false else Throw else Ok true) = Ok true
          <-> (e_type e = ReferenceE -> exists l, In l (p_library p) /\ e_id l = e_id e)).
  { destruct (Z.eqb_spec (e_type e) ReferenceE) as [E|E]; [|split; [intros _ C; contradiction|reflexivity]].
    rewrite <- has_id_ok. destruct (has_id e_id (e_id e) (p_library p)); [split; auto|].
    destruct (valid_band_type (b_type b)); (split; [discriminate|intros C; specialize (C E); discriminate C]). }
  rewrite R.
  assert (K : length (e_kfs e) = 0%nat <-> e_kfs e = []) by (destruct (e_kfs e); split; (reflexivity || discriminate)).
  rewrite K.
  assert (T : match e_semantic e with Some s => negb ((negb (is_some (@None str)) || false) && negb (existsb (fun x => str_eqb s (fst x)) semantic_table)) | None => true end = true
          <-> (forall s, e_semantic e = Some s -> In s (map (fun x => bytes_of (fst x)) semantic_names))).
  { destruct (e_semantic e) as [s|]; [|split; [intros _ s C; discriminate C|reflexivity]].
    cbn [is_some negb orb andb]. rewrite negb_involutive, In_table. split; [intros H s' E; injection E as <-; exact H|intros H; exact (H s eq_refl)]. }
  rewrite T. tauto.
Qed.
Lemma block_ok b : (forall n, b_block b = Some n -> in_type i32 n) ->
  (if b_type b =? WaveletB then isPowerOfTwo (value_or (b_block b) 0) else Ok true) = Ok true <->
  (b_type b = WaveletB -> exists k, b_block b = Some (2 ^ k) /\ 0 <= k).
Proof.
  intros HT. destruct (Z.eqb_spec (b_type b) WaveletB) as [E|E]; [|split; [intros _ C; contradiction|reflexivity]].
  destruct (b_block b) as [n|]; cbn [value_or].
  - specialize (HT n eq_refl). unfold in_type, i32 in HT. cbn [ct_signed ct_width] in HT. change (2 ^ (Z.of_nat 32 - 1)) with (2 ^ 31) in HT.
    destruct (Z.eq_dec n (- 2 ^ 31)) as [->|Hn].
    + split; [discriminate|]. intros C. specialize (C E). destruct C as (k & C & Hk). injection C as C.
      assert (0 < 2 ^ k) by (apply Z.pow_pos_nonneg; lia). lia.
    + destruct (power_of_two n ltac:(lia)) as (r & -> & Hr). rewrite Ok_true, Hr. split.
      * intros (k & Hk & ->) _. exists k. auto.
      * intros C. destruct (C E) as (k & Ek & Hk). injection Ek as ->. exists k. auto.
  - split; [discriminate|]. intros C. destruct (C E) as (k & Ek & _). discriminate Ek.
Qed.
Lemma checkBand_ok h p b : p_scheme p = None -> (forall n, b_block b = Some n -> in_type i32 n) -> checkBand h p b = Ok true <-> conform_band h p b.
Proof.
  intros HS HT. unfold checkBand, conform_band.
  rewrite obind_true.
  2:{ intros r _ E. destruct (check_all _ _); try discriminate E. injection E as E. rewrite !andb_true_iff in E. tauto. }
  rewrite (block_ok b HT).
  rewrite obind_true by (intros r _ E; injection E as E; rewrite !andb_true_iff in E; tauto).
  rewrite Ok_true, check_all_ok, !andb_true_iff, !impl_b, simple_ok, !negb_true_iff, !Z.eqb_neq, Z.ltb_ge.
  assert (C : is_some (b_curve b) = false <-> b_curve b = None) by (destruct (b_curve b); split; (reflexivity || discriminate)). rewrite C.
  assert (F : Forall (fun x => checkEffect h p b x = Ok true) (b_effects b) <-> Forall (conform_effect h p b) (b_effects b)).
  { split; apply Forall_impl; intros e; apply (checkEffect_ok h p b e HS). }
  rewrite F. tauto.
Qed.
Lemma actuators_ok c : checkActuators c = true <-> conform_actuators c.
Proof.
  unfold checkActuators, conform_actuators. destruct (c_res c) as [r|].
  - rewrite andb_true_iff, negb_true_iff, !orb_false_iff, !Z.ltb_ge.
    assert (T : match c_target c with Some l => forallb (inside r) l | None => true end = true <->
                forall l t, c_target c = Some l -> In t l -> 0 <= vx t <= vx r /\ 0 <= vy t <= vy r /\ 0 <= vz t <= vz r).
    { destruct (c_target c) as [l|]; [|split; [intros _ l t C; discriminate C|reflexivity]]. rewrite forallb_forall. unfold inside. split.
      - intros H l' t E Ht. injection E as <-. specialize (H t Ht). rewrite negb_true_iff, !orb_false_iff, !Z.ltb_ge in H. lia.
      - intros H t Ht. specialize (H l t eq_refl Ht). rewrite negb_true_iff, !orb_false_iff, !Z.ltb_ge. lia. }
    rewrite T. tauto.
  - destruct (c_target c); cbn; split; (reflexivity || discriminate).
Qed.
Lemma limit_ok h a b n : negb ((h_level h =? 1) && (a <? Z.of_nat n)) && negb (negb (h_level h =? 1) && (h_level h =? 2) && (b <? Z.of_nat n)) = true <-> level_limit h a b n.
Proof. unfold level_limit. destruct (Z.eqb_spec (h_level h) 1), (Z.eqb_spec (h_level h) 2); cbn [andb negb]; lia. Qed.
Lemma checkChannel_ok h p c : p_scheme p = None ->
  (forall v, c_dir c = Some v -> in_type i8 (vx v) /\ in_type i8 (vy v) /\ in_type i8 (vz v)) ->
  (forall b n, In b (c_bands c) -> b_block b = Some n -> in_type i32 n) ->
  checkChannel h p c = Ok true <-> unique c_id (c_id c) (p_channels p) = true /\ conform_channel h p c.
Proof.
  intros HS HD HT. unfold checkChannel, conform_channel.
  rewrite obind_true by (intros r _ E; injection E as E; rewrite !andb_true_iff in E; tauto).
  rewrite Ok_true, check_all_ok, andb_true_r, 4!andb_true_iff, actuators_ok. unfold vec_size. unfold MAX_BANDS_LEVEL1, MAX_BANDS_LEVEL2. rewrite limit_ok.
  assert (D : match c_device c with Some i => has_id d_id i (p_devices p) | None => true end = true <->
              (forall i, c_device c = Some i -> exists d, In d (p_devices p) /\ d_id d = i)).
  { destruct (c_device c) as [i|]; [|split; [intros _ i C; discriminate C|reflexivity]]. rewrite has_id_ok.
    split; [intros H j E; injection E as <-; exact H|intros H; exact (H i eq_refl)]. }
  rewrite D.
  assert (U : match c_dir c with Some v => unitary v | None => true end = true <-> (forall v, c_dir c = Some v -> nearly_unit v)).
  { destruct (c_dir c) as [v|]; [|split; [intros _ v C; discriminate C|reflexivity]]. destruct (HD v eq_refl) as (H1 & H2 & H3). rewrite (unitary_ok v H1 H2 H3).
    split; [intros H w E; injection E as <-; exact H|intros H; exact (H v eq_refl)]. }
  rewrite U.
  assert (F : Forall (fun b => checkBand h p b = Ok true) (c_bands c) <-> Forall (conform_band h p) (c_bands c)).
  { rewrite !Forall_forall. split; intros H b Hb; apply (checkBand_ok h p b HS (fun n => HT b n Hb)), H, Hb. }
  rewrite F. tauto.
Qed.
Lemma below_ok a b : below a b = false <-> not_below a b.
Proof.
  unfold below, not_below. destruct a as [x|], b as [y|]; try (split; [intros _ ? ? C D; (discriminate C || discriminate D)|reflexivity]).
  split; [intros H x' y' E F; injection E as <-; injection F as <-; exact H|intros H; exact (H x y eq_refl eq_refl)].
Qed.
Lemma Forall_and_in {A} (P Q : A -> Prop) l : Forall (fun x => P x /\ Q x) l <-> (forall x, In x l -> P x) /\ Forall Q l.
Proof. rewrite !Forall_forall. firstorder. Qed.
Lemma checkPerception_ok h p :
  (forall c v, In c (p_channels p) -> c_dir c = Some v -> in_type i8 (vx v) /\ in_type i8 (vy v) /\ in_type i8 (vz v)) ->
  (forall c b n, In c (p_channels p) -> In b (c_bands c) -> b_block b = Some n -> in_type i32 n) ->
  checkPerception h p = Ok true <-> unique p_id (p_id p) (h_perceptions h) = true /\ conform_perception h p.
Proof.
  intros HD HT. unfold checkPerception.
  set (mods := if is_simple h && (h_level h =? 1) then _ else _).
  assert (M : mods = Ok true <-> (simple h -> h_level h = 1 -> In (p_modality p) [6; 9; 10; 11])).
  { unfold mods. rewrite <- simple_ok. destruct (is_simple h); [|split; [intros _ C; discriminate C|reflexivity]].
    destruct (Z.eqb_spec (h_level h) 1) as [L|L]; [|split; [intros _ _ C; contradiction|reflexivity]]. cbn [andb].
    unfold ForceM, VibrotactileM, StiffnessM, VibrotactileTextureM.
    destruct ((p_modality p =? 9) || (p_modality p =? 6) || (p_modality p =? 11) || (p_modality p =? 10)) eqn:E.
    - split; [intros _ _ _|reflexivity]. cbn. lia.
    - assert (N : ~ In (p_modality p) [6; 9; 10; 11]) by (cbn; lia).
      destruct (valid_modality (p_modality p)); (split; [discriminate|intros C; exfalso; apply N, C; [reflexivity|exact L]]). }
  clearbody mods.
  assert (S1 : forall (b x y z : bool) m k, (do devices <- check_all (checkDevice p) (p_devices p); do channels <- check_all (checkChannel h p) (p_channels p); do effects <- check_all (checkLibraryEffect h p) (p_library p); Ok (x && b && y && z && k && devices && channels && effects)) = m -> m = Ok true -> b = true).
  { intros b x y z m k E Em. rewrite Em in E. destruct (check_all (checkDevice p) (p_devices p)); try discriminate E. cbn [obind] in E.
    destruct (check_all (checkChannel h p) (p_channels p)); try discriminate E. cbn [obind] in E. destruct (check_all (checkLibraryEffect h p) (p_library p)); try discriminate E.
    injection E as E. rewrite !andb_true_iff in E. tauto. }
  rewrite obind_true by (intros b _ E; exact (S1 _ _ _ _ _ _ E eq_refl)). rewrite M.
  rewrite obind_true.
  2:{ intros r _ E. destruct (check_all (checkChannel h p) (p_channels p)); try discriminate E. cbn [obind] in E. destruct (check_all (checkLibraryEffect h p) (p_library p)); try discriminate E.
      injection E as E. rewrite !andb_true_iff in E. tauto. }
  rewrite obind_true.
  2:{ intros r _ E. destruct (check_all (checkLibraryEffect h p) (p_library p)); try discriminate E. injection E as E. rewrite !andb_true_iff in E. tauto. }
  rewrite obind_true by (intros r _ E; injection E as E; rewrite !andb_true_iff in E; tauto).
  rewrite Ok_true, !check_all_ok, !andb_true_r. unfold vec_size, MAX_CHANNELS_LEVEL1, MAX_CHANNELS_LEVEL2. rewrite 3!andb_true_iff, limit_ok.
  assert (A : negb (negb (p_avatar p =? 0) && negb (has_id a_id (p_avatar p) (h_avatars h))) = true <-> (p_avatar p = 0 \/ exists a, In a (h_avatars h) /\ a_id a = p_avatar p)).
  { rewrite <- has_id_ok. destruct (Z.eqb_spec (p_avatar p) 0), (has_id a_id (p_avatar p) (h_avatars h)); cbn; intuition congruence. }
  rewrite A.
  assert (SC : negb (is_some (p_scheme p)) = true <-> p_scheme p = None) by (destruct (p_scheme p); cbn; split; (reflexivity || discriminate)).
  rewrite SC.
  assert (DV : Forall (fun d => checkDevice p d = Ok true) (p_devices p) <-> NoDup (map d_id (p_devices p)) /\ Forall conform_device (p_devices p)).
  { rewrite <- unique_ok, <- Forall_and_in. rewrite !Forall_forall. unfold checkDevice, conform_device.
    split; intros H d Hd; specialize (H d Hd); rewrite Ok_true, !andb_true_iff, !negb_true_iff, !below_ok in *; tauto. }
  rewrite DV.
  assert (LB : Forall (fun e => checkLibraryEffect h p e = Ok true) (p_library p) <-> NoDup (map e_id (p_library p)) /\ (simple h -> Forall (fun e => e_type e <> CompositeE) (p_library p))).
  { rewrite <- unique_ok. unfold checkLibraryEffect. rewrite !Forall_forall. split.
    - intros H. split; [|intros HS]; intros e He; specialize (H e He); rewrite Ok_true, andb_true_iff, impl_b, simple_ok, Z.eqb_neq in H; tauto.
    - intros [H1 H2] e He. rewrite Ok_true, andb_true_iff, impl_b, simple_ok, Z.eqb_neq. split; [|exact (H1 e He)]. intros HS. exact (H2 HS e He). }
  rewrite LB. unfold conform_perception.
  assert (CH : p_scheme p = None -> (Forall (fun c => checkChannel h p c = Ok true) (p_channels p) <-> NoDup (map c_id (p_channels p)) /\ Forall (conform_channel h p) (p_channels p))).
  { intros HS. rewrite <- unique_ok, <- Forall_and_in. rewrite !Forall_forall.
    split; intros H c Hc; apply (checkChannel_ok h p c HS (fun v => HD c v Hc) (fun b n => HT c b n Hc)), H, Hc. }
  tauto.
Qed.
Lemma conformance h : dirs_typed h -> blocks_typed h -> checkExperience h = Ok true <-> conforms h.
Proof.
  intros HD HT. unfold checkExperience.
  rewrite obind_true.
  2:{ intros r _ E. destruct (check_all (checkPerception h) (h_perceptions h)); try discriminate E. injection E as E. rewrite !andb_true_iff in E. tauto. }
  rewrite obind_true by (intros r _ E; injection E as E; rewrite !andb_true_iff in E; tauto).
  rewrite Ok_true, !check_all_ok, ?andb_true_r, !andb_true_iff, version_ok, date_ok, !orb_true_iff, simple_ok, !Z.eqb_eq.
  assert (MN : str_eqb (h_profile h) MAIN = true <-> main h) by apply str_eqb_ok. rewrite MN.
  assert (T : match h_timescale h with Some t => if is_simple h && negb (t =? MAX_TIMESCALE_PARAMETRIC) then false else negb (str_eqb (h_profile h) MAIN && (MAX_TIMESCALE_MAIN <? t)) | None => true end = true <->
              (forall t, h_timescale h = Some t -> (simple h -> t = 1000) /\ (main h -> t <= 48000))).
  { pose proof (simple_ok h) as SM. destruct (h_timescale h) as [t|]; [|split; [intros _ t C; discriminate C|reflexivity]].
    unfold MAX_TIMESCALE_PARAMETRIC, MAX_TIMESCALE_MAIN. split.
    - intros H t' E. injection E as <-. split; intros C.
      + apply SM in C. rewrite C in H. destruct (Z.eqb_spec t 1000) as [E|E]; [exact E|discriminate H].
      + apply MN in C. rewrite C in H. destruct (is_simple h && negb (t =? 1000)); [discriminate H|]. cbn [andb] in H. lia.
    - intros H. destruct (H t eq_refl) as [H1 H2]. rewrite <- SM in H1. rewrite <- MN in H2.
      destruct (is_simple h), (str_eqb (h_profile h) MAIN); cbn [andb]; try (rewrite (H1 eq_refl); reflexivity); try reflexivity; specialize (H2 eq_refl); lia. }
  rewrite T.
  assert (A : Forall (fun a => checkAvatar h a = Ok true) (h_avatars h) <-> NoDup (map a_id (h_avatars h)) /\ (forall a, In a (h_avatars h) -> a_id a <> 0 /\ a_mesh a <> Some [])).
  { rewrite <- unique_ok, Forall_forall. unfold checkAvatar.
    assert (E : forall a, Ok (negb (a_id a =? 0) && unique a_id (a_id a) (h_avatars h) && match a_mesh a with Some m => URICheck m | None => true end) = Ok true <-> unique a_id (a_id a) (h_avatars h) = true /\ a_id a <> 0 /\ a_mesh a <> Some []).
    { intros a. rewrite Ok_true, !andb_true_iff, negb_true_iff, Z.eqb_neq.
      assert (M : match a_mesh a with Some m => URICheck m | None => true end = true <-> a_mesh a <> Some []).
      { destruct (a_mesh a) as [m|]; [|split; [discriminate|reflexivity]]. rewrite uri_ok. split; [intros H C; injection C as C; exact (H C)|intros H C; apply H; rewrite C; reflexivity]. }
      rewrite M. tauto. }
    split; [intros H; split; intros a Ha; apply (E a), H, Ha|intros [H1 H2] a Ha; apply (E a); split; [exact (H1 a Ha)|exact (H2 a Ha)]]. }
  rewrite A.
  assert (P : Forall (fun p => checkPerception h p = Ok true) (h_perceptions h) <-> NoDup (map p_id (h_perceptions h)) /\ Forall (conform_perception h) (h_perceptions h)).
  { rewrite <- unique_ok, <- Forall_and_in. rewrite !Forall_forall.
    split; intros H p Hp; apply (checkPerception_ok h p (fun c v Hc => HD p c v Hp Hc) (fun c b n Hc => HT p c b n Hp Hc)), H, Hp. }
  rewrite P. unfold conforms. tauto.
Qed.

(** *** The checker always answers *)
Lemma check_all_total {A} (check : A -> outcome bool) l : (forall x, In x l -> exists b, check x = Ok b) -> exists b, check_all check l = Ok b.
Proof.
  induction l as [|x l IH]; intros H; cbn; [eexists; reflexivity|]. destruct (H x (or_introl eq_refl)) as [b ->]. cbn [obind].
  destruct IH as [r ->]; [intros y Hy; apply H; right; exact Hy|]. eexists. reflexivity.
Qed.
Lemma checkBand_total h p b : 0 <= b_type b <= 3 -> b_block b <> Some (- 2 ^ 31) -> (forall n, b_block b = Some n -> in_type i32 n) -> exists r, checkBand h p b = Ok r.
Proof.
  intros HB HN HT. unfold checkBand.
  assert (P : exists r, (if b_type b =? WaveletB then isPowerOfTwo (value_or (b_block b) 0) else Ok true) = Ok r).
  { destruct (b_type b =? WaveletB); [|eexists; reflexivity]. destruct (b_block b) as [n|]; [|eexists; reflexivity].
    specialize (HT n eq_refl). unfold in_type, i32 in HT. cbn [ct_signed ct_width] in HT. change (2 ^ (Z.of_nat 32 - 1)) with (2 ^ 31) in HT.
    destruct (power_of_two n) as (r & E & _); [|exists r; exact E]. assert (n <> - 2 ^ 31) by (intros ->; apply HN; reflexivity). lia. }
  destruct P as [r ->]. cbn [obind].
  destruct (check_all_total (checkEffect h p b) (b_effects b)) as [s ->]; [|eexists; reflexivity].
  intros e _. unfold checkEffect, valid_band_type. assert ((0 <=? b_type b) && (b_type b <=? 3) = true) as -> by lia.
  destruct (e_type e =? ReferenceE); [destruct (has_id e_id (e_id e) (p_library p))|]; eexists; reflexivity.
Qed.
Lemma conformance_total h : blocks_typed h -> enums_valid h -> exists r, checkExperience h = Ok r.
Proof.
  intros HT [HM HB]. unfold checkExperience.
  destruct (check_all_total (checkAvatar h) (h_avatars h)) as [a ->]; [intros; eexists; reflexivity|]. cbn [obind].
  destruct (check_all_total (checkPerception h) (h_perceptions h)) as [b ->]; [|eexists; reflexivity].
  intros p Hp. unfold checkPerception.
  assert (M : exists r, (if is_simple h && (h_level h =? 1) then
       if (p_modality p =? ForceM) || (p_modality p =? VibrotactileM) || (p_modality p =? StiffnessM) ||
          (p_modality p =? VibrotactileTextureM) then Ok true
       else if valid_modality (p_modality p) then Ok false else Throw
     else Ok true) = Ok r).
  { specialize (HM p Hp). assert (valid_modality (p_modality p) = true) as -> by (unfold valid_modality; lia).
    destruct (is_simple h && (h_level h =? 1)); [|eexists; reflexivity]. destruct (_ || _); eexists; reflexivity. }
  destruct M as [m ->]. cbn [obind].
  destruct (check_all_total (checkDevice p) (p_devices p)) as [d ->]; [intros; eexists; reflexivity|]. cbn [obind].
  destruct (check_all_total (checkChannel h p) (p_channels p)) as [c ->].
  { intros c Hc. unfold checkChannel. destruct (check_all_total (checkBand h p) (c_bands c)) as [x ->]; [|eexists; reflexivity].
    intros x Hx. destruct (HB p c x Hp Hc Hx) as [H1 H2]. exact (checkBand_total h p x H1 H2 (fun n => HT p c x n Hp Hc Hx)). }
  cbn [obind].
  destruct (check_all_total (checkLibraryEffect h p) (p_library p)) as [l ->]; [intros; eexists; reflexivity|]. eexists. reflexivity.
Qed.
Lemma scheme_rejected h p u : In p (h_perceptions h) -> p_scheme p = Some u -> checkExperience h <> Ok true.
Proof.
  intros Hp Hu E. unfold checkExperience in E. destruct (check_all (checkAvatar h) (h_avatars h)) as [a| | |]; try discriminate E. cbn [obind] in E.
  destruct (check_all (checkPerception h) (h_perceptions h)) as [b| | |] eqn:Eb; try discriminate E. cbn [obind] in E. injection E as E.
  apply andb_true_iff in E. destruct E as [_ ->]. apply check_all_ok in Eb. rewrite Forall_forall in Eb. specialize (Eb p Hp).
  unfold checkPerception in Eb. rewrite Hu in Eb. cbn [is_some negb] in Eb.
  destruct (if is_simple h && (h_level h =? 1) then _ else _) as [m| | |]; try discriminate Eb. cbn [obind] in Eb.
  destruct (check_all (checkDevice p) (p_devices p)) as [d| | |]; try discriminate Eb. cbn [obind] in Eb.
  destruct (check_all (checkChannel h p) (p_channels p)) as [d'| | |]; try discriminate Eb. cbn [obind] in Eb.
  destruct (check_all (checkLibraryEffect h p) (p_library p)) as [d''| | |]; try discriminate Eb. cbn [obind] in Eb. injection Eb as Eb.
  rewrite !andb_true_iff in Eb. destruct Eb as (((((_ & C) & _) & _) & _) & _). discriminate C.
Qed.
Lemma band_reference h p c b e : dirs_typed h -> blocks_typed h -> checkExperience h = Ok true ->
  In p (h_perceptions h) -> In c (p_channels p) -> In b (c_bands c) -> In e (b_effects b) -> e_type e = ReferenceE ->
  exists l, In l (p_library p) /\ e_id l = e_id e.
Proof.
  intros HD HT E Hp Hc Hb He R. apply (conformance h HD HT) in E. unfold conforms in E.
  destruct E as (_ & _ & _ & _ & _ & _ & _ & _ & E). rewrite Forall_forall in E. specialize (E p Hp).
  unfold conform_perception in E. destruct E as (_ & _ & _ & _ & _ & _ & _ & E & _). rewrite Forall_forall in E. specialize (E c Hc).
  destruct E as (_ & _ & _ & _ & E). rewrite Forall_forall in E. specialize (E b Hb). destruct E as (_ & _ & _ & _ & E). rewrite Forall_forall in E.
  specialize (E e He). destruct E as (_ & _ & E & _). exact (E R).
Qed.
