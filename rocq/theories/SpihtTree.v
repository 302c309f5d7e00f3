(** Proofs about the tree of coefficients and the maxima of descendants. *)
From Coq Require Import Permutation.
From Verif Require Import Base ArithModel SpihtModel SpihtSpec.
Ltac Zify.zify_post_hook ::= Z.div_mod_to_equations.
Local Open Scope nat_scope.

(** *** Vectors *)
Lemma set_at_length {A} (l : list A) : forall i v, length (set_at l i v) = length l.
Proof. induction l; intros [|i] v; cbn; auto. Qed.
Lemma set_at_nth {A} (l : list A) : forall i v j d, i < length l ->
  nth j (set_at l i v) d = if j =? i then v else nth j l d.
Proof.
  induction l as [|x l IH]; intros i v j d H; cbn [length] in H; [lia|].
  destruct i as [|i]; destruct j as [|j]; cbn [set_at nth Nat.eqb]; try reflexivity. apply IH. lia.
Qed.
Lemma store_ok l i v : i < length l -> store l i v = Ok (set_at l i v).
Proof. intros H. unfold store. now rewrite (proj2 (Nat.ltb_lt _ _) H). Qed.
Lemma coef_ok x i : i < length x -> coef x i = Ok (nth i x 0%Z).
Proof. intros H. unfold coef. now rewrite (nth_error_nth' x 0%Z H). Qed.
Lemma magnitude_ok x i : ints x -> i < length x -> magnitude x i = Ok (Z.abs (nth i x 0%Z)).
Proof.
  intros F H. unfold magnitude. rewrite (coef_ok _ _ H). cbn [obind]. unfold c_abs.
  unfold ints in F. rewrite Forall_forall in F. specialize (F (nth i x 0%Z) (nth_In _ _ H)). cbv beta in F.
  destruct (nth i x 0 =? - 2 ^ 31)%Z eqn:E; [exfalso; lia|reflexivity].
Qed.
Lemma resize_length l n : length (resize l n) = n.
Proof. unfold resize. rewrite app_length, firstn_length, repeat_length. lia. Qed.

(** *** Loops of initMaxDescendants *)
Definition maxZ (a b : Z) : Z := if (b <? a)%Z then a else b.
Lemma maxZ_max a b : maxZ a b = Z.max a b.
Proof. unfold maxZ. destruct (b <? a)%Z eqn:E; lia. Qed.

Lemma children_loop_ok x : ints x -> forall n md t, 2 * (t + n) <= length x -> t + n <= length md ->
  exists md', children_loop n x md (2 * t) (2 * t + 1) t = Ok md' /\ length md' = length md /\
  forall j, nth j md' 0%Z = if (t <=? j) && (j <? t + n)
    then Z.max (Z.abs (nth (2 * j) x 0%Z)) (Z.abs (nth (2 * j + 1) x 0%Z)) else nth j md 0%Z.
Proof.
  intros F. induction n as [|n IH]; intros md t Hx Hm; cbn [children_loop].
  - exists md. split; [reflexivity|]. split; [reflexivity|]. intros j.
    destruct ((t <=? j) && (j <? t + 0)) eqn:E; [lia|reflexivity].
  - rewrite (magnitude_ok x (2 * t) F) by lia. rewrite (magnitude_ok x (2 * t + 1) F) by lia. cbn [obind].
    rewrite store_ok by lia. cbn [obind].
    replace (2 * t + 2) with (2 * (t + 1)) by lia. replace (2 * t + 1 + 2) with (2 * (t + 1) + 1) by lia.
    destruct (IH (set_at md t (maxZ (Z.abs (nth (2 * t) x 0%Z)) (Z.abs (nth (2 * t + 1) x 0%Z)))) (t + 1)) as (md' & E & L & N);
      [lia|rewrite set_at_length; lia|].
    exists md'. split; [exact E|]. rewrite set_at_length in L. split; [exact L|]. intros j. rewrite N, set_at_nth by lia.
    destruct (j =? t) eqn:Ej.
    + apply Nat.eqb_eq in Ej. subst j. rewrite maxZ_max.
      destruct ((t + 1 <=? t) && (t <? t + 1 + n)) eqn:E1; [lia|].
      destruct ((t <=? t) && (t <? t + S n)) eqn:E2; [reflexivity|lia].
    + apply Nat.eqb_neq in Ej. 
      destruct ((t + 1 <=? j) && (j <? t + 1 + n)) eqn:E1; destruct ((t <=? j) && (j <? t + S n)) eqn:E2; try reflexivity; lia.
Qed.

Lemma level_loop_ok x : ints x -> forall n md md1 t, n <= t -> 2 * (t + n) <= length x -> 2 * (t + n) <= length md -> t + n <= length md1 ->
  exists md' md1', level_loop n x md md1 (2 * t) (2 * t + 1) t = Ok (md', md1') /\
  length md' = length md /\ length md1' = length md1 /\
  (forall j, nth j md1' 0%Z = if (t <=? j) && (j <? t + n)
    then Z.max (nth (2 * j) md 0%Z) (nth (2 * j + 1) md 0%Z) else nth j md1 0%Z) /\
  (forall j, nth j md' 0%Z = if (t <=? j) && (j <? t + n)
    then Z.max (Z.max (nth (2 * j) md 0%Z) (nth (2 * j + 1) md 0%Z))
               (Z.max (Z.abs (nth (2 * j) x 0%Z)) (Z.abs (nth (2 * j + 1) x 0%Z))) else nth j md 0%Z).
Proof.
  intros F. induction n as [|n IH]; intros md md1 t Ht Hx Hm Hm1; cbn [level_loop].
  - exists md, md1. split; [reflexivity|]. split; [reflexivity|]. split; [reflexivity|].
    split; intros j; (destruct ((t <=? j) && (j <? t + 0)) eqn:E; [lia|reflexivity]).
  - rewrite !coef_ok by lia. cbn [obind].
    fold (maxZ (nth (2 * t) md 0%Z) (nth (2 * t + 1) md 0%Z)). rewrite maxZ_max.
    set (m := Z.max (nth (2 * t) md 0%Z) (nth (2 * t + 1) md 0%Z)).
    rewrite store_ok by lia. cbn [obind]. rewrite (magnitude_ok x (2 * t) F) by lia. cbn [obind].
    set (v1 := Z.abs (nth (2 * t) x 0%Z)). fold (maxZ v1 m). rewrite maxZ_max.
    rewrite store_ok by lia. cbn [obind]. rewrite coef_ok by (rewrite set_at_length; lia). cbn [obind].
    rewrite set_at_nth, Nat.eqb_refl by lia.
    rewrite (magnitude_ok x (2 * t + 1) F) by lia. cbn [obind]. set (v2 := Z.abs (nth (2 * t + 1) x 0%Z)).
    assert (G : exists md2, (if (Z.max v1 m <? v2)%Z then store (set_at md t (Z.max v1 m)) t v2 else Ok (set_at md t (Z.max v1 m))) = Ok md2
                /\ length md2 = length md /\ forall j, nth j md2 0%Z = if j =? t then Z.max m (Z.max v1 v2) else nth j md 0%Z).
    { destruct (Z.max v1 m <? v2)%Z eqn:E.
      - rewrite store_ok by (rewrite set_at_length; lia). eexists. split; [reflexivity|]. rewrite !set_at_length. split; [reflexivity|].
        intros j. rewrite set_at_nth by (rewrite set_at_length; lia). rewrite set_at_nth by lia.
        destruct (j =? t); [lia|reflexivity].
      - eexists. split; [reflexivity|]. rewrite set_at_length. split; [reflexivity|].
        intros j. rewrite set_at_nth by lia. destruct (j =? t); [lia|reflexivity]. }
    destruct G as (md2 & -> & L2 & N2). cbn [obind].
    replace (2 * t + 2) with (2 * (t + 1)) by lia. replace (2 * t + 1 + 2) with (2 * (t + 1) + 1) by lia.
    destruct (IH md2 (set_at md1 t m) (t + 1)) as (md' & md1' & E & L & L1 & N1 & N); [lia|lia|lia|rewrite set_at_length; lia|].
    exists md', md1'. split; [exact E|]. rewrite set_at_length in L1. split; [lia|]. split; [exact L1|].
    split; intros j.
    + rewrite N1, set_at_nth by lia.
      destruct (j =? t) eqn:Ej.
      * apply Nat.eqb_eq in Ej. subst j.
        destruct ((t + 1 <=? t) && (t <? t + 1 + n)) eqn:E1; [lia|].
        destruct ((t <=? t) && (t <? t + S n)) eqn:E2; [reflexivity|lia].
      * apply Nat.eqb_neq in Ej. rewrite !N2.
        destruct ((t + 1 <=? j) && (j <? t + 1 + n)) eqn:E1; destruct ((t <=? j) && (j <? t + S n)) eqn:E2; try lia; try reflexivity.
        destruct (2 * j =? t) eqn:E3; [apply Nat.eqb_eq in E3; lia|].
        destruct (2 * j + 1 =? t) eqn:E4; [apply Nat.eqb_eq in E4; lia|]. reflexivity.
    + rewrite N, !N2.
      destruct (j =? t) eqn:Ej.
      * apply Nat.eqb_eq in Ej. subst j.
        destruct ((t + 1 <=? t) && (t <? t + 1 + n)) eqn:E1; [lia|].
        destruct ((t <=? t) && (t <? t + S n)) eqn:E2; [reflexivity|lia].
      * apply Nat.eqb_neq in Ej. 
        destruct ((t + 1 <=? j) && (j <? t + 1 + n)) eqn:E1; destruct ((t <=? j) && (j <? t + S n)) eqn:E2; try lia; try reflexivity.
        destruct (2 * j =? t) eqn:E3; [apply Nat.eqb_eq in E3; lia|].
        destruct (2 * j + 1 =? t) eqn:E4; [apply Nat.eqb_eq in E4; lia|]. reflexivity.
Qed.

(** *** Descendants *)
Lemma div_pow_S i d : i / 2 ^ S d = (i / 2) / 2 ^ d.
Proof. rewrite Nat.pow_succ_r'. rewrite Nat.div_div; [reflexivity|lia|]. apply Nat.pow_nonzero. lia. Qed.
Lemma div_pow_S' i d : i / 2 ^ S d = (i / 2 ^ d) / 2.
Proof.
  rewrite Nat.pow_succ_r', Nat.mul_comm. rewrite Nat.div_div; [reflexivity| |lia]. apply Nat.pow_nonzero. lia.
Qed.
Lemma descendant_split j i : descendant j i <->
  i = 2 * j \/ i = 2 * j + 1 \/ grandchild_or_deeper j i.
Proof.
  split.
  - intros (d & Hd & E). destruct d as [|[|d]]; [lia| |].
    + change (2 ^ 1) with 2 in E. assert (i = 2 * j \/ i = 2 * j + 1) by (pose proof (Nat.div_mod i 2); pose proof (Nat.mod_upper_bound i 2); lia). tauto.
    + right. right. exists (S (S d)). split; [lia|exact E].
  - intros [->|[->|(d & Hd & E)]].
    + exists 1. split; [lia|]. change (2 ^ 1) with 2. rewrite Nat.mul_comm. apply Nat.div_mul. lia.
    + exists 1. split; [lia|]. change (2 ^ 1) with 2. rewrite Nat.mul_comm, Nat.add_comm. rewrite Nat.div_add by lia. reflexivity.
    + exists d. split; [lia|exact E].
Qed.
Lemma grand_split j i : grandchild_or_deeper j i <-> descendant (2 * j) i \/ descendant (2 * j + 1) i.
Proof.
  split.
  - intros (d & Hd & E). destruct d as [|d]; [lia|]. rewrite div_pow_S' in E.
    assert (H : i / 2 ^ d = 2 * j \/ i / 2 ^ d = 2 * j + 1).
    { pose proof (Nat.div_mod (i / 2 ^ d) 2). pose proof (Nat.mod_upper_bound (i / 2 ^ d) 2). lia. }
    destruct H; [left|right]; exists d; (split; [lia|assumption]).
  - intros [(d & Hd & E)|(d & Hd & E)]; exists (S d); (split; [lia|]); rewrite div_pow_S', E.
    + rewrite Nat.mul_comm. apply Nat.div_mul. lia.
    + rewrite Nat.mul_comm, Nat.add_comm. rewrite Nat.div_add by lia. reflexivity.
Qed.
Lemma descendant_beyond len k j i : len = 2 ^ k -> 2 ^ k <= 2 * j -> descendant j i -> i < len -> False.
Proof.
  intros -> H (d & Hd & E) Hi. 
  assert (P : 2 <= 2 ^ d) by (change 2 with (2 ^ 1); apply Nat.pow_le_mono_r; lia).
  assert (i / 2 ^ d <= i / 2) by (apply Nat.div_le_compat_l; lia).
  pose proof (Nat.div_mod i 2). pose proof (Nat.mod_upper_bound i 2). lia.
Qed.
Lemma largest_ext x P Q m : (forall i, i < length x -> (P i <-> Q i)) -> largest x P m -> largest x Q m.
Proof.
  intros H [U (i & Pi & L & E)]. split; [intros j Qj Hj; apply U; [apply H; assumption|exact Hj]|].
  exists i. split; [apply H; assumption|]. auto.
Qed.
Lemma largest_or x P Q m n : largest x P m -> largest x Q n -> largest x (fun i => P i \/ Q i) (Z.max m n).
Proof.
  intros [U (i & Pi & L & E)] [V (j & Qj & L' & E')]. split.
  - intros k [Pk|Qk] Hk; [specialize (U k Pk Hk)|specialize (V k Qk Hk)]; lia.
  - destruct (Z.max_spec m n) as [[_ ->]|[_ ->]]; [exists j|exists i]; auto.
Qed.
Lemma largest_one x j : j < length x -> largest x (fun i => i = j) (Z.abs (nth j x 0%Z)).
Proof. intros H. split; [intros i -> _; lia|]. exists j. auto. Qed.

(** The maxima, from the leaves to the root. *)
Definition known (x md md1 : list Z) (w : nat) : Prop :=
  (forall j, w <= j -> 2 * j < length x -> largest x (descendant j) (nth j md 0%Z)) /\
  (forall j, w <= j -> 4 * j < length x -> largest x (grandchild_or_deeper j) (nth j md1 0%Z)).

Lemma levels_ok x k : ints x -> length x = 2 ^ k -> forall a fuel md md1, S (S a) <= k -> a < fuel ->
  length md = 2 ^ (k - 1) -> length md1 = 2 ^ (k - 2) -> known x md md1 (2 ^ a) ->
  exists md' md1', levels_loop fuel x md md1 (2 ^ a) = Ok (md', md1') /\ known x md' md1' 2 /\
    length md' = 2 ^ (k - 1) /\ length md1' = 2 ^ (k - 2).
Proof.
  intros F L. induction a as [|a IH]; intros fuel md md1 Ha Hf Lm Lm1 K; (destruct fuel as [|fuel]; [lia|]); cbn [levels_loop].
  - change (2 ^ 0 / 2) with 0. change (1 <? 0) with false. cbn iota. exists md, md1.
    split; [reflexivity|]. split; [|auto]. destruct K as [K1 K2]. split; intros j Hj; [apply K1|apply K2]; cbn; lia.
  - assert (Ew : 2 ^ S a / 2 = 2 ^ a) by (rewrite Nat.pow_succ_r', Nat.mul_comm; apply Nat.div_mul; lia).
    rewrite Ew. destruct (1 <? 2 ^ a) eqn:Et.
    + replace (2 ^ S a) with (2 * 2 ^ a) by (now rewrite Nat.pow_succ_r').
      assert (Pk : 2 ^ (k - 2) = 2 ^ a * 2 ^ (k - 2 - a)) by (rewrite <- Nat.pow_add_r; f_equal; lia).
      assert (Pk1 : 2 ^ (k - 1) = 2 * 2 ^ (k - 2)) by (rewrite <- Nat.pow_succ_r'; f_equal; lia).
      assert (Pk0 : 2 ^ k = 2 * 2 ^ (k - 1)) by (rewrite <- Nat.pow_succ_r'; f_equal; lia).
      assert (Pq : 2 <= 2 ^ (k - 2 - a)) by (change 2 with (2 ^ 1) at 1; apply Nat.pow_le_mono_r; lia).
      destruct (level_loop_ok x F (2 ^ a) md md1 (2 ^ a)) as (md' & md1' & E & L1 & L2 & N1 & N); [lia|nia|nia|nia|].
      rewrite E. cbn [obind]. apply (IH fuel md' md1'); [lia|lia|lia|lia|].
      destruct K as [K1 K2]. rewrite Nat.pow_succ_r' in K1, K2.
      assert (KD : forall j, 2 ^ a <= j -> 4 * j < length x -> largest x (grandchild_or_deeper j) (nth j md1' 0%Z)).
      { intros j Hj Hl. rewrite N1. destruct ((2 ^ a <=? j) && (j <? 2 ^ a + 2 ^ a)) eqn:Ej.
        - eapply largest_ext; [intros i _; symmetry; apply grand_split|].
          apply largest_or; apply K1; lia.
        - apply K2; lia. }
      split; [|exact KD]. intros j Hj Hl. rewrite N. destruct ((2 ^ a <=? j) && (j <? 2 ^ a + 2 ^ a)) eqn:Ej.
      * assert (Hg : 4 * j < length x) by nia.
        specialize (KD j Hj Hg). rewrite N1, Ej in KD.
        eapply largest_ext; [intros i _; symmetry; apply descendant_split|].
        apply (largest_ext _ (fun i => grandchild_or_deeper j i \/ (i = 2 * j \/ i = 2 * j + 1))); [intros i _; tauto|].
        apply largest_or; [exact KD|]. apply largest_or; apply largest_one; lia.
      * apply K1; lia.
    + exists md, md1. split; [reflexivity|]. split; [|auto].
      assert (E1 : 2 ^ a = 1) by (pose proof (Nat.pow_nonzero 2 a); apply Nat.ltb_ge in Et; lia).
      rewrite Nat.pow_succ_r', E1 in K. exact K.
Qed.
Lemma maxima_ok md0 md10 x k : ints x -> length x = 2 ^ k -> 3 <= k ->
  exists md md1, initMaxDescendants md0 md10 x = Ok (md, md1) /\ known x md md1 2 /\
    length md = 2 ^ (k - 1) /\ length md1 = 2 ^ (k - 2).
Proof.
  intros F L Hk. unfold initMaxDescendants.
  assert (Pk1 : 2 ^ (k - 1) = 2 * 2 ^ (k - 2)) by (rewrite <- Nat.pow_succ_r'; f_equal; lia).
  assert (Pk0 : 2 ^ k = 2 * 2 ^ (k - 1)) by (rewrite <- Nat.pow_succ_r'; f_equal; lia).
  assert (E1 : length x / 2 = 2 ^ (k - 1)) by (rewrite L, Pk0, Nat.mul_comm; apply Nat.div_mul; lia).
  assert (E2 : 2 ^ (k - 1) / 2 = 2 ^ (k - 2)) by (rewrite Pk1, Nat.mul_comm; apply Nat.div_mul; lia).
  rewrite E1, E2.
  destruct (children_loop_ok x F (2 ^ (k - 2)) (resize md0 (2 ^ (k - 1))) (2 ^ (k - 2))) as (md' & E & Lm & N); [lia|rewrite resize_length; lia|].
  rewrite <- Pk1 in E. rewrite E. cbn [obind]. rewrite resize_length in Lm.
  apply (levels_ok x k F L (k - 2) (S (length x)) md' (resize md10 (2 ^ (k - 2)))); [lia| |exact Lm|apply resize_length|].
  - rewrite L. pose proof (Nat.pow_gt_lin_r 2 k ltac:(lia)). lia.
  - split; intros j Hj Hl; [|lia]. rewrite N.
    destruct ((2 ^ (k - 2) <=? j) && (j <? 2 ^ (k - 2) + 2 ^ (k - 2))) eqn:Ej; [|lia].
    apply (largest_ext _ (fun i => i = 2 * j \/ i = 2 * j + 1)).
    + intros i Hi. rewrite descendant_split. split; [tauto|].
      intros [H|[H|H]]; [tauto|tauto|]. exfalso. apply grand_split in H.
      destruct H as [H|H]; apply (descendant_beyond _ k _ i L) in H; try exact Hi; lia.
    + apply largest_or; apply largest_one; lia.
Qed.

(** *** The nodes below an entry, as a list *)
Fixpoint below (d len y : nat) : list nat :=
  match d with
  | O => []
  | S d' => if 2 * y + 1 <? len then 2 * y :: 2 * y + 1 :: below d' len (2 * y) ++ below d' len (2 * y + 1) else []
  end.
Lemma below_stable d : forall len y, len <= 2 * y * 2 ^ d -> below (S d) len y = below d len y.
Proof.
  induction d as [|d IH]; intros len y H.
  - cbn [below]. change (2 ^ 0) with 1 in H. destruct (2 * y + 1 <? len) eqn:E; [apply Nat.ltb_lt in E; lia|reflexivity].
  - cbn [below]. destruct (2 * y + 1 <? len) eqn:E; [|reflexivity]. rewrite Nat.pow_succ_r' in H.
    do 2 f_equal. f_equal; [|].
    + apply IH. nia.
    + apply IH. nia.
Qed.
Definition nodes (len y : nat) : list nat := below len len y.
Lemma nodes_eq len y : 1 <= y ->
  nodes len y = if 2 * y + 1 <? len then 2 * y :: 2 * y + 1 :: nodes len (2 * y) ++ nodes len (2 * y + 1) else [].
Proof.
  intros H. unfold nodes. rewrite <- (below_stable len len y) at 1; [reflexivity|].
  pose proof (Nat.pow_gt_lin_r 2 len ltac:(lia)). nia.
Qed.
Definition owns (len : nat) (e : nat * nat) : list nat :=
  if snd e =? 0 then nodes len (fst e) else nodes len (2 * fst e) ++ nodes len (2 * fst e + 1).
Lemma below_descendant d : forall len y i, In i (below d len y) -> i < len /\ descendant y i.
Proof.
  induction d as [|d IH]; intros len y i H; [contradiction H|]. cbn [below] in H.
  destruct (2 * y + 1 <? len) eqn:E; [|contradiction H]. apply Nat.ltb_lt in E.
  destruct H as [<-|[<-|H]]; [split; [lia|apply descendant_split; auto]|split; [lia|apply descendant_split; auto]|].
  apply in_app_or in H. destruct H as [H|H]; apply IH in H; (split; [apply H|]);
    apply descendant_split; right; right; apply grand_split; [left|right]; apply H.
Qed.
Lemma owns_descendant len e i : In i (owns len e) -> i < len /\
  (if snd e =? 0 then descendant (fst e) i else grandchild_or_deeper (fst e) i).
Proof.
  unfold owns. destruct (snd e =? 0); [apply below_descendant|]. intros H. apply in_app_or in H.
  destruct H as [H|H]; apply below_descendant in H; (split; [apply H|]); apply grand_split; [left|right]; apply H.
Qed.

(** All nodes from the eighth on are below the nodes four to seven. *)
Lemma nodes_level len n : forall a, 1 <= a -> 2 * (a + n) <= len ->
  Permutation (flat_map (nodes len) (seq a n)) (seq (2 * a) (2 * n) ++ flat_map (nodes len) (seq (2 * a) (2 * n))).
Proof.
  induction n as [|n IH]; intros a Ha Hn; [reflexivity|].
  replace (2 * S n) with (S (S (2 * n))) by lia. cbn [seq flat_map]. rewrite (nodes_eq len a Ha).
  destruct (2 * a + 1 <? len) eqn:E; [|apply Nat.ltb_ge in E; lia].
  replace (S (S (2 * a))) with (2 * S a) by lia. replace (S (2 * a)) with (2 * a + 1) by lia.
  cbn [app]. apply perm_skip, perm_skip. rewrite (IH (S a)) by lia.
  rewrite <- app_assoc. 
  set (A := nodes len (2 * a)). set (B := nodes len (2 * a + 1)). set (C := seq (2 * S a) (2 * n)). set (D := flat_map (nodes len) C).
  rewrite !app_assoc. apply Permutation_app_tail. rewrite <- app_assoc. 
  rewrite (Permutation_app_comm (A ++ B) C) || rewrite app_assoc, (Permutation_app_comm (A ++ B) C). now rewrite app_assoc.
Qed.
Lemma nodes_none len n a : 1 <= a -> len <= 2 * a -> flat_map (nodes len) (seq a n) = [].
Proof.
  revert a. induction n as [|n IH]; intros a Ha Hl; [reflexivity|]. cbn [seq flat_map]. rewrite nodes_eq by lia.
  destruct (2 * a + 1 <? len) eqn:E; [apply Nat.ltb_lt in E; lia|]. rewrite IH by lia. reflexivity.
Qed.
Lemma nodes_all k b : forall a, a + b = k -> 1 <= a ->
  Permutation (seq 0 (2 ^ a) ++ flat_map (nodes (2 ^ k)) (seq (2 ^ (a - 1)) (2 ^ (a - 1)))) (seq 0 (2 ^ k)).
Proof.
  induction b as [|b IH]; intros a E Ha.
  - rewrite Nat.add_0_r in E. subst a. rewrite nodes_none; [now rewrite app_nil_r|pose proof (Nat.pow_nonzero 2 (k - 1)); lia|].
    rewrite <- Nat.pow_succ_r'. apply Nat.pow_le_mono_r; lia.
  - assert (P : 2 ^ a = 2 * 2 ^ (a - 1)) by (rewrite <- Nat.pow_succ_r'; f_equal; lia).
    assert (P2 : 2 ^ k = 2 ^ a * 2 ^ (S b)) by (rewrite <- Nat.pow_add_r; f_equal; lia).
    assert (P3 : 2 <= 2 ^ S b) by (change 2 with (2 ^ 1) at 1; apply Nat.pow_le_mono_r; lia).
    pose proof (Nat.pow_nonzero 2 (a - 1) ltac:(lia)).
    rewrite nodes_level by nia. rewrite <- P. rewrite app_assoc.
    assert (Q : seq 0 (2 ^ a) ++ seq (2 ^ a) (2 ^ a) = seq 0 (2 ^ S a)).
    { rewrite Nat.pow_succ_r'. replace (2 * 2 ^ a) with (2 ^ a + 2 ^ a) by lia. now rewrite seq_app. }
    rewrite Q. rewrite <- (IH (S a)) by lia. replace (S a - 1) with a by lia. reflexivity.
Qed.

(** *** Weights *)
Definition entry_ok (len : nat) (e : nat * nat) : Prop :=
  2 <= fst e < len /\ (snd e = 0 \/ snd e = 1 /\ 4 * fst e + 3 < len).
Lemma log2_len k : Z.log2 (Z.of_nat (2 ^ k)) = Z.of_nat k.
Proof. rewrite Nat2Z.inj_pow. apply Z.log2_pow2. lia. Qed.
Lemma weight_eq k y t : 1 <= y -> exists j, Z.log2 (Z.of_nat y) = Z.of_nat j /\ 2 ^ j <= y /\ y < 2 ^ S j /\
  entry_weight (2 ^ k) (y, t) = Z.to_nat (2 ^ (Z.of_nat k + 1 - Z.of_nat j)) - 2 - t.
Proof.
  intros H. exists (Z.to_nat (Z.log2 (Z.of_nat y))). pose proof (Z.log2_nonneg (Z.of_nat y)).
  assert (E : Z.of_nat (Z.to_nat (Z.log2 (Z.of_nat y))) = Z.log2 (Z.of_nat y)) by lia.
  pose proof (Z.log2_spec (Z.of_nat y) ltac:(lia)) as [A B].
  split; [lia|]. split; [|split].
  - apply Nat2Z.inj_le. rewrite Nat2Z.inj_pow. change (Z.of_nat 2) with 2%Z. rewrite E. exact A.
  - apply Nat2Z.inj_lt. rewrite Nat2Z.inj_pow. change (Z.of_nat 2) with 2%Z. rewrite Nat2Z.inj_succ, E. exact B.
  - unfold entry_weight. cbn [fst snd]. rewrite log2_len. rewrite E. reflexivity.
Qed.
Lemma pow_lt_inv a b : 2 ^ a < 2 ^ b -> a < b.
Proof. intros H. apply (Nat.pow_lt_mono_r_iff 2); lia. Qed.
Lemma weight_nat k y t : 1 <= y < 2 ^ k -> exists h, 2 <= h /\ entry_weight (2 ^ k) (y, t) = 2 ^ h - 2 - t /\
  Z.log2 (Z.of_nat y) = (Z.of_nat k + 1 - Z.of_nat h)%Z /\ h <= k + 1.
Proof.
  intros H. destruct (weight_eq k y t ltac:(lia)) as (j & Ej & A & B & E).
  assert (Hj : j < k) by (apply pow_lt_inv; lia).
  exists (k + 1 - j). split; [lia|]. split; [|lia]. rewrite E. do 2 f_equal.
  rewrite <- (Nat2Z.id (2 ^ (k + 1 - j))). f_equal. rewrite Nat2Z.inj_pow. f_equal. lia.
Qed.
Lemma weight_pos k e : entry_ok (2 ^ k) e -> 1 <= entry_weight (2 ^ k) e.
Proof.
  destruct e as [y t]. unfold entry_ok. cbn [fst snd]. intros [H Ht].
  destruct (weight_nat k y t ltac:(lia)) as (h & Hh & E & El & _). rewrite E.
  destruct Ht as [->|[-> Hg]].
  - assert (2 ^ 2 <= 2 ^ h) by (apply Nat.pow_le_mono_r; lia). cbn in *. lia.
  - assert (3 <= h).
    { destruct (weight_eq k y 1 ltac:(lia)) as (j & Ej & A & B & _).
      assert (j + 1 < k); [|lia]. apply pow_lt_inv. rewrite Nat.add_1_r, Nat.pow_succ_r'. lia. }
    assert (2 ^ 3 <= 2 ^ h) by (apply Nat.pow_le_mono_r; lia). cbn in *. lia.
Qed.
Lemma weight_A k y : 2 <= y < 2 ^ k -> 4 * y + 3 < 2 ^ k -> entry_weight (2 ^ k) (y, 1) < entry_weight (2 ^ k) (y, 0).
Proof.
  intros H Hg. pose proof (weight_pos k (y, 1) ltac:(unfold entry_ok; cbn [fst snd]; auto)) as W.
  unfold entry_weight in *. cbn [fst snd] in *. lia.
Qed.
Lemma weight_B k y : 2 <= y -> 4 * y + 3 < 2 ^ k ->
  entry_weight (2 ^ k) (2 * y, 0) + entry_weight (2 ^ k) (2 * y + 1, 0) < entry_weight (2 ^ k) (y, 1).
Proof.
  intros H Hg.
  pose proof (weight_pos k (y, 1) ltac:(unfold entry_ok; cbn [fst snd]; split; [lia|auto])) as W.
  destruct (weight_nat k y 1 ltac:(lia)) as (h & Hh & E & El & _).
  destruct (weight_nat k (2 * y) 0 ltac:(lia)) as (h1 & Hh1 & E1 & El1 & _).
  destruct (weight_nat k (2 * y + 1) 0 ltac:(lia)) as (h2 & Hh2 & E2 & El2 & _).
  replace (Z.of_nat (2 * y)) with (2 * Z.of_nat y)%Z in El1 by lia. rewrite Z.log2_double in El1 by lia.
  replace (Z.of_nat (2 * y + 1)) with (2 * Z.of_nat y + 1)%Z in El2 by lia. rewrite Z.log2_succ_double in El2 by lia.
  rewrite E in *. rewrite E1, E2. assert (h = S h1) by lia. assert (h2 = h1) by lia. subst h h2.
  rewrite Nat.pow_succ_r' in *. assert (2 ^ 2 <= 2 ^ h1) by (apply Nat.pow_le_mono_r; lia). cbn in *. lia.
Qed.
