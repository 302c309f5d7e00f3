(** Proofs about the coding of wavelet blocks: the decoder repeats the steps of the encoder. *)
From Coq Require Import Permutation.
From Verif Require Import Base FloatBase FloatModel ArithModel ArithSpec ArithProof SpihtModel SpihtSpec SpihtTree.
Ltac Zify.zify_post_hook ::= Z.div_mod_to_equations.

Ltac perm :=
  let z := fresh "z" in
  apply (Permutation_count_occ Nat.eq_dec); intro z;
  repeat match goal with
         | H : Permutation _ _ |- _ =>
             let K := fresh "K" in
             pose proof (proj1 (Permutation_count_occ Nat.eq_dec _ _) H z) as K; clear H
         end;
  repeat rewrite count_occ_app in *; lia.

Definition at_ (x : list Z) (i : nat) : Z := nth i x 0.
Definition small (x : list Z) (c : Z) (i : nat) : Prop := Z.abs (at_ x i) < c.
Definition big (x : list Z) (c : Z) (i : nat) : Prop := c <= Z.abs (at_ x i).
Definition signed (x : list Z) (c : Z) (i : nat) : Z := if 0 <=? at_ x i then c else - c.
Definition mark (x : list Z) (c : Z) (add : list nat) (ov : list Z) : list Z :=
  fold_left (fun o i => set_at o i (signed x c i)) add ov.
Definition sym_ok (p : sym) : Prop := bit (fst p) /\ context (snd p).

Lemma mark_app x c a b ov : mark x c (a ++ b) ov = mark x c b (mark x c a ov).
Proof. apply fold_left_app. Qed.
Lemma mark_length x c add : forall ov, length (mark x c add ov) = length ov.
Proof. induction add as [|i add IH]; intros ov; [reflexivity|].
  change (mark x c (i :: add) ov) with (mark x c add (set_at ov i (signed x c i))). rewrite IH. apply set_at_length. Qed.
Lemma sign_bit v : bit (sign_symbol v).
Proof. unfold sign_symbol, bit. destruct (0 <=? v); auto. Qed.
Lemma sign_read x c i : (if sign_symbol (at_ x i) =? 1 then c else - c) = signed x c i.
Proof. unfold sign_symbol, signed. now destruct (0 <=? at_ x i). Qed.
Ltac sym_list := repeat (apply Forall_cons; [split; cbn [fst snd]; [unfold bit; first [apply sign_bit|lia]|unfold context; lia]|]); try apply Forall_nil.

(** *** Insignificant coefficients *)
Lemma lip_ok x c : ints x -> forall lip, Forall (fun i => (i < length x)%nat) lip ->
  exists out stay add, enc_lip x c lip = Ok (out, stay, add) /\ Permutation (stay ++ add) lip /\
    Forall (small x c) stay /\ Forall (big x c) add /\ (length out <= 2 * length lip)%nat /\ Forall sym_ok out /\
    forall s ov rest, length ov = length x -> serves s (out ++ rest) ->
      exists s', dec_lip c lip s ov = Ok (stay, add, s', mark x c add ov) /\ serves s' rest.
Proof.
  intros F. induction lip as [|i lip IH]; intros L; cbn [enc_lip dec_lip].
  - exists [], [], []. repeat split; try constructor; auto. intros s ov rest _ S. exists s. auto.
  - inversion L as [|? ? Hi L']; subst. rewrite (magnitude_ok x i F Hi). cbn [obind]. rewrite (coef_ok x i Hi). cbn [obind].
    destruct (IH L') as (out & stay & add & E & P & Fs & Fa & Len & So & D). rewrite E. cbn [obind].
    fold (at_ x i). destruct (c <=? Z.abs (at_ x i)) eqn:Ec.
    + exists ((1, 2) :: (sign_symbol (at_ x i), 1) :: out), stay, (i :: add).
      split; [reflexivity|]. split; [now rewrite <- Permutation_middle, P|]. split; [exact Fs|].
      split; [apply Forall_cons; [unfold big; lia|exact Fa]|]. split; [cbn [length]; lia|].
      split; [sym_list; exact So|].
      intros s ov rest Lo S. cbn [app serves] in S. destruct S as (s1 & D1 & s2 & D2 & S).
      rewrite D1. cbn [obind]. change (1 =? 1) with true. cbn iota. rewrite D2. cbn [obind]. rewrite sign_read.
      rewrite store_ok by lia. cbn [obind].
      destruct (D s2 (set_at ov i (signed x c i)) rest) as (s' & Ed & S'); [now rewrite set_at_length|exact S|].
      rewrite Ed. cbn [obind]. exists s'. split; [reflexivity|exact S'].
    + exists ((0, 2) :: out), (i :: stay), add.
      split; [reflexivity|]. split; [cbn [app]; now rewrite P|]. split; [apply Forall_cons; [unfold small; lia|exact Fs]|].
      split; [exact Fa|]. split; [cbn [length]; lia|]. split; [sym_list; exact So|].
      intros s ov rest Lo S. cbn [app serves] in S. destruct S as (s1 & D1 & S).
      rewrite D1. cbn [obind]. change (0 =? 1) with false. cbn iota.
      destruct (D s1 ov rest Lo S) as (s' & Ed & S'). rewrite Ed. cbn [obind]. eauto.
Qed.

(** *** Sets *)
Lemma child_ok x c i : ints x -> (i < length x)%nat ->
  exists out lip1 lsp1, enc_child x c i = Ok (out, lip1, lsp1) /\ Permutation (lip1 ++ lsp1) [i] /\
    Forall (small x c) lip1 /\ Forall (big x c) lsp1 /\ (length out <= 2)%nat /\ Forall sym_ok out /\
    forall s ov rest, length ov = length x -> serves s (out ++ rest) ->
      exists s', dec_child c i s ov = Ok (lip1, lsp1, s', mark x c lsp1 ov) /\ serves s' rest.
Proof.
  intros F Hi. unfold enc_child, dec_child. rewrite (magnitude_ok x i F Hi). cbn [obind]. rewrite (coef_ok x i Hi). cbn [obind].
  fold (at_ x i). destruct (c <=? Z.abs (at_ x i)) eqn:Ec.
  - eexists _, _, _. split; [reflexivity|]. split; [reflexivity|]. split; [constructor|].
    split; [apply Forall_cons; [unfold big; lia|constructor]|]. split; [cbn; lia|]. split; [sym_list|].
    intros s ov rest Lo S. cbn [app serves] in S. destruct S as (s1 & D1 & s2 & D2 & S).
    rewrite D1. cbn [obind]. change (1 =? 1) with true. cbn iota. rewrite D2. cbn [obind]. rewrite sign_read.
    rewrite store_ok by lia. cbn [obind]. exists s2. split; [reflexivity|exact S].
  - eexists _, _, _. split; [reflexivity|]. split; [reflexivity|]. split; [apply Forall_cons; [unfold small; lia|constructor]|].
    split; [constructor|]. split; [cbn; lia|]. split; [sym_list|].
    intros s ov rest Lo S. cbn [app serves] in S. destruct S as (s1 & D1 & S).
    rewrite D1. cbn [obind]. change (0 =? 1) with false. cbn iota. exists s1. split; [reflexivity|exact S].
Qed.

Definition weights (len : nat) (q : list (nat * nat)) : nat := list_sum (map (entry_weight len) q).
Lemma weights_app len a b : weights len (a ++ b) = (weights len a + weights len b)%nat.
Proof. unfold weights. rewrite map_app. apply list_sum_app. Qed.
Lemma weights_cons len e q : weights len (e :: q) = (entry_weight len e + weights len q)%nat.
Proof. reflexivity. Qed.

Lemma Forall_app2 {A} (P : A -> Prop) l1 l2 : Forall P l1 -> Forall P l2 -> Forall P (l1 ++ l2).
Proof. intros. apply Forall_app. auto. Qed.

Section Sets.
Context (x md md1 : list Z) (k : nat) (c : Z).
Hypothesis Fx : ints x.
Hypothesis Lx : length x = (2 ^ k)%nat.
Hypothesis Hk : (2 <= k)%nat.
Hypothesis Msmall : forall e, entry_ok (length x) e -> maxDescendant md md1 (fst e) (snd e) < c ->
  Forall (small x c) (owns (length x) e).
Hypothesis Mbig : forall y, entry_ok (length x) (y, 0%nat) -> c <= maxDescendant md md1 y 0 -> (2 * y + 1 < length x)%nat.

Notation F := (flat_map (owns (length x))).

Lemma lis_ok fuel : forall q lip lsp, Forall (entry_ok (length x)) q -> (weights (length x) q < fuel)%nat ->
  exists out stay lipa lspa, enc_lis fuel x md md1 c q lip lsp = Ok (out, stay, lip ++ lipa, lsp ++ lspa) /\
    Permutation (lipa ++ lspa ++ F stay) (F q) /\ Forall (small x c) lipa /\ Forall (big x c) lspa /\
    Forall (entry_ok (length x)) stay /\ Forall (small x c) (F stay) /\
    (weights (length x) stay <= weights (length x) q)%nat /\ (length out <= 5 * weights (length x) q)%nat /\
    Forall sym_ok out /\
    forall s ov rest, length ov = length x -> serves s (out ++ rest) ->
      exists s', dec_lis fuel (length x) c q lip lsp s ov = Ok (stay, lip ++ lipa, lsp ++ lspa, s', mark x c lspa ov) /\
        serves s' rest.
Proof.
  induction fuel as [|fuel IH]; intros q lip lsp Fq Hf; [lia|]. destruct q as [|[y t] q]; cbn [enc_lis dec_lis].
  - exists [], [], [], []. rewrite !app_nil_r. repeat split; try constructor; auto.
    intros s ov rest _ S. exists s. auto.
  - inversion Fq as [|? ? He Fq']; subst. rewrite weights_cons in *.
    assert (Hp : (1 <= entry_weight (length x) (y, t))%nat) by (rewrite Lx in *; now apply weight_pos).
    destruct (t =? 0)%nat eqn:Et.
    + apply Nat.eqb_eq in Et. subst t. destruct (c <=? maxDescendant md md1 y 0) eqn:Ec.
      * assert (Hy : (2 * y + 1 < length x)%nat) by (apply Mbig; [exact He|lia]).
        destruct (child_ok x c (2 * y) Fx ltac:(lia)) as (o1 & lip1 & lsp1 & E1 & P1 & S1 & B1 & L1 & K1 & D1).
        destruct (child_ok x c (2 * y + 1) Fx Hy) as (o2 & lip2 & lsp2 & E2 & P2 & S2 & B2 & L2 & K2 & D2).
        rewrite E1. cbn [obind]. rewrite E2. cbn [obind].
        set (more := if (4 * y + 3 <? length x)%nat then [(y, 1%nat)] else []).
        assert (Hm : Forall (entry_ok (length x)) more /\ (weights (length x) more < entry_weight (length x) (y, 0%nat))%nat
                     /\ F more = nodes (length x) (2 * y) ++ nodes (length x) (2 * y + 1)).
        { unfold more. destruct He as [He _]. cbn [fst] in He. destruct (4 * y + 3 <? length x)%nat eqn:Eg.
          - apply Nat.ltb_lt in Eg. split; [constructor; [|constructor]; split; [exact He|right; auto]|].
            split; [unfold weights; cbn [map list_sum fold_right]; rewrite Nat.add_0_r; rewrite Lx in *; apply weight_A; lia|].
            cbn [flat_map]. rewrite app_nil_r. reflexivity.
          - apply Nat.ltb_ge in Eg. split; [constructor|]. split; [unfold weights; cbn; lia|].
            assert (E4 : (length x = 4 * 2 ^ (k - 2))%nat).
            { rewrite Lx. change 4%nat with (2 ^ 2)%nat. rewrite <- Nat.pow_add_r. f_equal. lia. }
            rewrite (nodes_eq _ (2 * y)), (nodes_eq _ (2 * y + 1)) by lia.
            destruct (2 * (2 * y) + 1 <? length x)%nat eqn:E5; [apply Nat.ltb_lt in E5; exfalso; lia|].
            destruct (2 * (2 * y + 1) + 1 <? length x)%nat eqn:E6; [apply Nat.ltb_lt in E6; exfalso; lia|]. reflexivity. }
        destruct Hm as (Fm & Wm & Om).
        destruct (IH (q ++ more) (lip ++ lip1 ++ lip2) (lsp ++ lsp1 ++ lsp2)) as
          (out & stay & lipa & lspa & E & P & Sa & Ba & Fs & Ss & Ws & Lo & Ko & D);
          [apply Forall_app2; assumption|rewrite weights_app; lia|].
        rewrite E. cbn [obind].
        exists ((1, 3) :: o1 ++ o2 ++ out), stay, (lip1 ++ lip2 ++ lipa), (lsp1 ++ lsp2 ++ lspa).
        split; [rewrite <- !app_assoc; reflexivity|].
        split.
        { cbn [flat_map]. unfold owns at 2. cbn [snd fst]. change (0 =? 0)%nat with true. cbn iota.
          destruct He as [[Hy1 _] _]. cbn [fst] in Hy1. rewrite (nodes_eq (length x) y ltac:(lia)).
          rewrite (proj2 (Nat.ltb_lt _ _) Hy).
          change (2 * y :: 2 * y + 1 :: nodes (length x) (2 * y) ++ nodes (length x) (2 * y + 1))%nat
            with ([2 * y] ++ [2 * y + 1] ++ (nodes (length x) (2 * y) ++ nodes (length x) (2 * y + 1)))%nat.
          rewrite flat_map_app, Om in P. clear - P P1 P2. perm. }
        split; [repeat apply Forall_app2; assumption|]. split; [repeat apply Forall_app2; assumption|].
        split; [exact Fs|]. split; [exact Ss|]. rewrite weights_app in *. split; [lia|].
        split; [cbn [length]; rewrite !app_length; lia|].
        split; [sym_list; repeat apply Forall_app2; assumption|].
        intros s ov rest Lov S. cbn [app serves] in S. destruct S as (s0 & D0 & S).
        rewrite D0. cbn [obind]. change (1 =? 1) with true. cbn iota.
        rewrite <- !app_assoc in S. 
        destruct (D1 s0 ov _ Lov S) as (s1 & -> & S1'). cbn [obind].
        destruct (D2 s1 (mark x c lsp1 ov) _ ltac:(now rewrite mark_length) S1') as (s2 & -> & S2'). cbn [obind].
        fold more.
        destruct (D s2 (mark x c lsp2 (mark x c lsp1 ov)) _ ltac:(now rewrite !mark_length) S2') as (s3 & Ed & S3').
        exists s3. rewrite Ed, !mark_app, <- !app_assoc. auto.
      * destruct (IH q lip lsp Fq' ltac:(lia)) as (out & stay & lipa & lspa & E & P & Sa & Ba & Fs & Ss & Ws & Lo & Ko & D).
        rewrite E. cbn [obind]. exists ((0, 3) :: out), ((y, 0%nat) :: stay), lipa, lspa.
        split; [reflexivity|]. split; [cbn [flat_map]; clear - P; perm|]. split; [exact Sa|]. split; [exact Ba|].
        split; [apply Forall_cons; assumption|].
        split; [cbn [flat_map]; apply Forall_app2; [apply Msmall; [exact He|cbn [fst snd]; lia]|exact Ss]|].
        rewrite weights_cons. split; [lia|]. split; [cbn [length]; lia|]. split; [sym_list; exact Ko|].
        intros s ov rest Lov S. cbn [app serves] in S. destruct S as (s0 & D0 & S).
        rewrite D0. cbn [obind]. change (0 =? 1) with false. cbn iota.
        destruct (D s0 ov rest Lov S) as (s1 & -> & S1'). cbn [obind]. eauto.
    + assert (Ht : t = 1%nat /\ (4 * y + 3 < length x)%nat).
      { destruct He as [_ He2]. cbn [fst snd] in He2. destruct He2 as [->|H]; [discriminate Et|exact H]. }
      destruct Ht as [-> Hg]. destruct (c <=? maxDescendant md md1 y 1) eqn:Ec.
      * set (more := [(2 * y, 0); (2 * y + 1, 0)]%nat).
        assert (Hy1 : (2 <= y)%nat) by apply He.
        assert (Hm : Forall (entry_ok (length x)) more /\ (weights (length x) more < entry_weight (length x) (y, 1%nat))%nat).
        { split; [|unfold more, weights; cbn [map list_sum fold_right]; rewrite Nat.add_0_r, Lx in *; now apply weight_B].
          constructor; [split; cbn [fst snd]; [lia|auto]|]. constructor; [split; cbn [fst snd]; [lia|auto]|constructor]. }
        destruct Hm as (Fm & Wm).
        destruct (IH (q ++ more) lip lsp) as
          (out & stay & lipa & lspa & E & P & Sa & Ba & Fs & Ss & Ws & Lo & Ko & D);
          [apply Forall_app2; assumption|rewrite weights_app; lia|].
        rewrite E. cbn [obind]. exists ((1, 5) :: out), stay, lipa, lspa.
        split; [reflexivity|]. split.
        { rewrite flat_map_app in P. cbn [flat_map]. unfold owns at 2. cbn [snd fst]. change (1 =? 0)%nat with false. cbn iota.
          unfold more in P. cbn [flat_map] in P. unfold owns at 3 4 in P. cbn [snd fst] in P. change (0 =? 0)%nat with true in P. cbn iota in P.
          rewrite app_nil_r in P. clear - P. perm. }
        split; [exact Sa|]. split; [exact Ba|]. split; [exact Fs|]. split; [exact Ss|].
        rewrite weights_app in *. split; [lia|]. split; [cbn [length]; lia|]. split; [sym_list; exact Ko|].
        intros s ov rest Lov S. cbn [app serves] in S. destruct S as (s0 & D0 & S).
        rewrite D0. cbn [obind]. change (1 =? 1) with true. cbn iota. fold more.
        destruct (D s0 ov rest Lov S) as (s1 & Ed & S1'). eauto.
      * destruct (IH q lip lsp Fq' ltac:(lia)) as (out & stay & lipa & lspa & E & P & Sa & Ba & Fs & Ss & Ws & Lo & Ko & D).
        rewrite E. cbn [obind]. exists ((0, 5) :: out), ((y, 1%nat) :: stay), lipa, lspa.
        split; [reflexivity|]. split; [cbn [flat_map]; clear - P; perm|]. split; [exact Sa|]. split; [exact Ba|].
        split; [apply Forall_cons; assumption|].
        split; [cbn [flat_map]; apply Forall_app2; [apply Msmall; [exact He|cbn [fst snd]; lia]|exact Ss]|].
        rewrite weights_cons. split; [lia|]. split; [cbn [length]; lia|]. split; [sym_list; exact Ko|].
        intros s ov rest Lov S. cbn [app serves] in S. destruct S as (s0 & D0 & S).
        rewrite D0. cbn [obind]. change (0 =? 1) with false. cbn iota.
        destruct (D s0 ov rest Lov S) as (s1 & -> & S1'). cbn [obind]. eauto.
Qed.
End Sets.

(** *** Refinement *)
Definition refine1 (x : list Z) (n : Z) (o : list Z) (i : nat) : list Z :=
  if bitget (Z.abs (at_ x i)) n =? 1 then set_at o i (at_ o i + Z.sgn (at_ o i) * 2 ^ n) else o.
Definition refined (x : list Z) (n : Z) (lsp : list nat) (ov : list Z) : list Z := fold_left (refine1 x n) lsp ov.
Lemma refine1_length x n o i : length (refine1 x n o i) = length o.
Proof. unfold refine1. destruct (bitget _ _ =? 1); [apply set_at_length|reflexivity]. Qed.
Lemma bitget_bit v n : bit (bitget v n).
Proof. unfold bitget, bit. destruct (0 <? Z.land v (2 ^ n)); auto. Qed.
Lemma refine_ok x n : ints x -> forall lsp, Forall (fun i => (i < length x)%nat) lsp ->
  exists out, enc_refine x n lsp = Ok out /\ length out = length lsp /\ Forall sym_ok out /\
    forall s ov rest, length ov = length x -> serves s (out ++ rest) ->
      exists s', dec_refine (2 ^ n) lsp s ov = Ok (s', refined x n lsp ov) /\ serves s' rest.
Proof.
  intros F. induction lsp as [|i lsp IH]; intros L; cbn [enc_refine dec_refine].
  - exists []. repeat split; try constructor. intros s ov rest _ S. exists s. auto.
  - inversion L as [|? ? Hi L']; subst. rewrite (magnitude_ok x i F Hi). cbn [obind].
    destruct (IH L') as (out & E & Len & So & D). rewrite E. cbn [obind]. eexists. split; [reflexivity|].
    split; [cbn; now rewrite Len|]. split; [apply Forall_cons; [split; [apply bitget_bit|unfold context; cbn; lia]|exact So]|].
    intros s ov rest Lo S. cbn [app serves] in S. destruct S as (s1 & D1 & S).
    rewrite D1. cbn [obind]. fold (at_ x i).
    destruct (D s1 (refine1 x n ov i) rest) as (s' & Ed & S'); [now rewrite refine1_length|exact S|].
    change (refined x n (i :: lsp) ov) with (refined x n lsp (refine1 x n ov i)). exists s'. split; [|exact S'].
    rewrite <- Ed. unfold refine1. destruct (bitget (Z.abs (at_ x i)) n =? 1); [|reflexivity].
    rewrite coef_ok by lia. cbn [obind]. rewrite store_ok by lia. reflexivity.
Qed.

(** *** Values of the marked and refined coefficients *)
Lemma mark_nth x c add : forall ov i, NoDup add -> Forall (fun i => (i < length ov)%nat) add ->
  at_ (mark x c add ov) i = if in_dec Nat.eq_dec i add then signed x c i else at_ ov i.
Proof.
  induction add as [|j add IH]; intros ov i Nd F; [reflexivity|]. cbn [mark fold_left].
  inversion Nd as [|? ? Hn Nd']; subst. inversion F as [|? ? Hj F']; subst.
  fold (mark x c add (set_at ov j (signed x c j))). rewrite IH; [|exact Nd'|eapply Forall_impl; [|exact F']; intros a Ha; rewrite set_at_length; exact Ha].
  destruct (in_dec Nat.eq_dec i add) as [Hi|Hi]; destruct (in_dec Nat.eq_dec i (j :: add)) as [Hi'|Hi']; try reflexivity.
  - elim Hi'. now right.
  - destruct Hi' as [->|Hi']; [|contradiction]. unfold at_. rewrite set_at_nth by exact Hj. now rewrite Nat.eqb_refl.
  - unfold at_. rewrite set_at_nth by exact Hj. destruct (i =? j)%nat eqn:E; [|reflexivity].
    apply Nat.eqb_eq in E. subst. elim Hi'. now left.
Qed.
Lemma refined_nth x n lsp : forall ov i, NoDup lsp -> Forall (fun i => (i < length ov)%nat) lsp ->
  at_ (refined x n lsp ov) i =
  if in_dec Nat.eq_dec i lsp then at_ ov i + (if bitget (Z.abs (at_ x i)) n =? 1 then Z.sgn (at_ ov i) * 2 ^ n else 0) else at_ ov i.
Proof.
  induction lsp as [|j lsp IH]; intros ov i Nd F; [reflexivity|]. cbn [refined fold_left].
  inversion Nd as [|? ? Hn Nd']; subst. inversion F as [|? ? Hj F']; subst.
  fold (refined x n lsp (refine1 x n ov j)). rewrite IH; [|exact Nd'|eapply Forall_impl; [|exact F']; intros a Ha; rewrite refine1_length; exact Ha].
  assert (R : at_ (refine1 x n ov j) i = if (i =? j)%nat then at_ ov i + (if bitget (Z.abs (at_ x i)) n =? 1 then Z.sgn (at_ ov i) * 2 ^ n else 0) else at_ ov i).
  { unfold refine1, at_. destruct (i =? j)%nat eqn:E.
    - apply Nat.eqb_eq in E. subst j. destruct (bitget _ _ =? 1); [|lia]. rewrite set_at_nth by exact Hj. now rewrite Nat.eqb_refl.
    - destruct (bitget _ _ =? 1); [|reflexivity]. rewrite set_at_nth by exact Hj. now rewrite E. }
  rewrite R. destruct (i =? j)%nat eqn:E.
  - apply Nat.eqb_eq in E. subst j.
    destruct (in_dec Nat.eq_dec i lsp) as [Hi|Hi]; [contradiction|].
    destruct (in_dec Nat.eq_dec i (i :: lsp)) as [Hi'|Hi']; [reflexivity|]. elim Hi'. now left.
  - apply Nat.eqb_neq in E.
    destruct (in_dec Nat.eq_dec i lsp) as [Hi|Hi]; destruct (in_dec Nat.eq_dec i (j :: lsp)) as [Hi'|Hi']; try reflexivity.
    + elim Hi'. now right.
    + destruct Hi' as [->|Hi']; contradiction.
Qed.
Lemma mark_refine_length x n lsp : forall ov, length (refined x n lsp ov) = length ov.
Proof. induction lsp as [|i lsp IH]; intros ov; [reflexivity|].
  change (refined x n (i :: lsp) ov) with (refined x n lsp (refine1 x n ov i)). rewrite IH. apply refine1_length. Qed.
Lemma bitget_div v n : 0 <= v -> 0 <= n -> bitget v n = (v / 2 ^ n) mod 2.
Proof.
  intros Hv Hn. unfold bitget.
  assert (E : Z.land v (2 ^ n) = if Z.testbit v n then 2 ^ n else 0).
  { apply Z.bits_inj'. intros m Hm. rewrite Z.land_spec, Z.pow2_bits_eqb by lia.
    destruct (Z.testbit v n) eqn:E; [rewrite Z.pow2_bits_eqb by lia|rewrite Z.bits_0];
      (destruct (n =? m) eqn:Em; [apply Z.eqb_eq in Em; subst m; now rewrite E|]); now rewrite andb_false_r. }
  rewrite E, <- (Z.testbit_spec' v n) by lia. pose proof (Z.pow_pos_nonneg 2 n ltac:(lia) Hn).
  destruct (Z.testbit v n); cbn [Z.b2z]; [replace (0 <? 2 ^ n) with true by lia|]; reflexivity.
Qed.
Lemma halves v n : 0 <= n -> v / 2 ^ n = 2 * (v / 2 ^ (n + 1)) + (v / 2 ^ n) mod 2.
Proof.
  intros Hn. rewrite Z.pow_add_r, Z.pow_1_r by lia. pose proof (Z.pow_pos_nonneg 2 n ltac:(lia) Hn).
  rewrite <- Z.div_div by lia. lia.
Qed.

(** *** The state between two planes *)
Definition owned (len : nat) (l : lists) : list nat := LIP l ++ LSP l ++ flat_map (owns len) (LIS l).
(** The planes from [n] on are done. *)
Record between (x : list Z) (n : Z) (l : lists) : Prop := {
  bt_perm : Permutation (owned (length x) l) (seq 0 (length x));
  bt_entries : Forall (entry_ok (length x)) (LIS l);
  bt_small : Forall (small x (2 ^ n)) (LIP l ++ flat_map (owns (length x)) (LIS l));
  bt_big : Forall (big x (2 ^ n)) (LSP l);
  bt_weights : (weights (length x) (LIS l) <= 4 * length x)%nat }.
Record image (x : list Z) (n : Z) (l : lists) (ov : list Z) : Prop := {
  im_length : length ov = length x;
  im_zero : forall i, ~ In i (LSP l) -> at_ ov i = 0;
  im_value : forall i, In i (LSP l) -> at_ ov i = Z.sgn (at_ x i) * (Z.abs (at_ x i) / 2 ^ n * 2 ^ n) }.

Lemma perm_below len l : Permutation l (seq 0 len) -> Forall (fun i => (i < len)%nat) l /\ NoDup l.
Proof.
  intros P. split.
  - apply Forall_forall. intros i Hi. apply (Permutation_in _ P), in_seq in Hi. lia.
  - apply (Permutation_NoDup (Permutation_sym P)), seq_NoDup.
Qed.

Lemma nodup_right {A} (a b : list A) : NoDup (a ++ b) -> NoDup b.
Proof. induction a as [|v a IH]; intros H; [exact H|]. inversion H; auto. Qed.
Lemma nodup_left {A} (a b : list A) : NoDup (a ++ b) -> NoDup a.
Proof.
  induction a as [|v a IH]; intros H; [constructor|]. inversion H; subst. constructor; auto.
  intros Hv. apply H2. apply in_or_app. auto.
Qed.

Definition maxima (x md md1 : list Z) : Prop := forall c, 1 <= c ->
  (forall e, entry_ok (length x) e -> maxDescendant md md1 (fst e) (snd e) < c -> Forall (small x c) (owns (length x) e)) /\
  (forall y, entry_ok (length x) (y, 0%nat) -> c <= maxDescendant md md1 y 0 -> (2 * y + 1 < length x)%nat).

Lemma plane_ok x md md1 k n l : ints x -> length x = (2 ^ k)%nat -> (2 <= k)%nat -> maxima x md md1 -> 0 <= n ->
  between x (n + 1) l ->
  exists out l', enc_plane x md md1 n l = Ok (out, l') /\ between x n l' /\ Forall sym_ok out /\
    (length out <= 23 * length x)%nat /\
    forall s ov rest, image x (n + 1) l ov -> serves s (out ++ rest) ->
      exists s' ov', dec_plane (length x) n l s ov = Ok (l', s', ov') /\ image x n l' ov' /\ serves s' rest.
Proof.
  intros F Lx Hk M Hn [P En Sm Bg W]. pose proof (Z.pow_pos_nonneg 2 n ltac:(lia) Hn) as Hc.
  assert (Hc2 : 2 ^ (n + 1) = 2 * 2 ^ n) by (rewrite Z.pow_add_r; lia).
  destruct (M (2 ^ n) ltac:(lia)) as [Ms Mb].
  destruct (perm_below _ _ P) as [Bl Nd]. unfold owned in Bl, Nd. apply Forall_app in Bl. destruct Bl as [Bl1 Bl2].
  apply Forall_app in Bl2. destruct Bl2 as [Bl2 Bl3].
  destruct (lip_ok x (2 ^ n) F (LIP l) Bl1) as (o1 & stay & add & E1 & P1 & Fs & Fa & L1 & K1 & D1).
  destruct (lis_ok x md md1 k (2 ^ n) F Lx Hk Ms Mb (lis_fuel (length x) (LIS l)) (LIS l) stay (LSP l ++ add) En ltac:(unfold lis_fuel, weights; lia))
    as (o2 & lis & lipa & lspa & E2 & P2 & Sa & Ba & Fe & Ss & Ws & L2 & K2 & D2).
  assert (Ef : firstn (length (LSP l)) ((LSP l ++ add) ++ lspa) = LSP l).
  { rewrite <- app_assoc, firstn_app, firstn_all, Nat.sub_diag, firstn_O. apply app_nil_r. }
  destruct (refine_ok x n F (LSP l) Bl2) as (o3 & E3 & L3 & K3 & D3).
  unfold enc_plane. rewrite E1. cbn [obind]. rewrite E2. cbn [obind]. rewrite Ef, E3. cbn [obind].
  set (l' := Lists (stay ++ lipa) lis ((LSP l ++ add) ++ lspa)).
  assert (P' : Permutation (owned (length x) l') (seq 0 (length x))).
  { rewrite <- P. unfold owned, l'. cbn [LIP LSP LIS]. clear - P1 P2. perm. }
  exists (o1 ++ o2 ++ o3), l'. split; [reflexivity|]. split.
  { constructor; unfold l'; cbn [LIP LSP LIS]; [exact P'|exact Fe| | |lia].
    - repeat apply Forall_app2; assumption.
    - repeat apply Forall_app2; try assumption. eapply Forall_impl; [|exact Bg]. intros i Hi. unfold big in *. lia. }
  split; [repeat apply Forall_app2; assumption|].
  split.
  { assert (Lp : (length (LIP l) + length (LSP l) <= length x)%nat).
    { pose proof (Permutation_length P) as Q. unfold owned in Q. rewrite !app_length, seq_length in Q. lia. }
    rewrite !app_length. lia. }
  intros s ov rest [Il Iz Iv] S. rewrite <- !app_assoc in S.
  destruct (D1 s ov _ Il S) as (s1 & Ed1 & S1).
  destruct (D2 s1 (mark x (2 ^ n) add ov) _ ltac:(now rewrite mark_length) S1) as (s2 & Ed2 & S2).
  rewrite <- mark_app in Ed2.
  destruct (D3 s2 (mark x (2 ^ n) (add ++ lspa) ov) _ ltac:(now rewrite mark_length) S2) as (s3 & Ed3 & S3).
  unfold dec_plane. rewrite Ed1. cbn [obind]. rewrite Ed2. cbn [obind]. rewrite Ef, Ed3. cbn [obind].
  eexists _, _. split; [reflexivity|]. split; [|exact S3].
  destruct (perm_below _ _ P') as [Bl' Nd']. unfold owned, l' in Bl', Nd'. cbn [LIP LSP LIS] in Bl', Nd'.
  apply Forall_app in Bl'. destruct Bl' as [_ Bl']. apply Forall_app in Bl'. destruct Bl' as [Bl' _].
  assert (Ndl : NoDup (LSP l ++ add ++ lspa)).
  { apply nodup_right, nodup_left in Nd'. now rewrite <- app_assoc in Nd'. }
  assert (Nda : NoDup (add ++ lspa)) by exact (nodup_right _ _ Ndl).
  assert (Ndo : NoDup (LSP l)) by exact (nodup_left _ _ Ndl).
  rewrite <- app_assoc in Bl'. apply Forall_app in Bl'. destruct Bl' as [_ Bla].
  assert (Hdis : forall i, In i (LSP l) -> ~ In i (add ++ lspa)).
  { intros i Hi Hj. clear - Ndl Hi Hj. induction (LSP l) as [|a r IH]; [contradiction|]. cbn [app] in Ndl. inversion Ndl; subst.
    destruct Hi as [->|Hi]; [|now apply IH]. apply H1. apply in_or_app. now right. }
  assert (VM : forall i, at_ (mark x (2 ^ n) (add ++ lspa) ov) i = if in_dec Nat.eq_dec i (add ++ lspa) then signed x (2 ^ n) i else at_ ov i).
  { intros i. apply mark_nth; [exact Nda|]. rewrite Il. exact Bla. }
  assert (VR : forall i, at_ (refined x n (LSP l) (mark x (2 ^ n) (add ++ lspa) ov)) i =
    if in_dec Nat.eq_dec i (LSP l) then at_ ov i + (if bitget (Z.abs (at_ x i)) n =? 1 then Z.sgn (at_ ov i) * 2 ^ n else 0)
    else if in_dec Nat.eq_dec i (add ++ lspa) then signed x (2 ^ n) i else at_ ov i).
  { intros i. rewrite refined_nth; [|exact Ndo|rewrite mark_length, Il; exact Bl2]. rewrite !VM.
    destruct (in_dec Nat.eq_dec i (LSP l)) as [Hi|Hi]; [|reflexivity].
    destruct (in_dec Nat.eq_dec i (add ++ lspa)) as [Hj|Hj]; [elim (Hdis i Hi Hj)|reflexivity]. }
  constructor.
  - rewrite mark_refine_length, mark_length. exact Il.
  - unfold l'. cbn [LSP]. intros i Hi. rewrite VR. rewrite <- app_assoc in Hi.
    destruct (in_dec Nat.eq_dec i (LSP l)) as [H1|H1]; [elim Hi; apply in_or_app; auto|].
    destruct (in_dec Nat.eq_dec i (add ++ lspa)) as [H2|H2]; [elim Hi; apply in_or_app; auto|]. apply Iz, H1.
  - unfold l'. cbn [LSP]. intros i Hi. rewrite VR. rewrite <- app_assoc in Hi.
    destruct (in_dec Nat.eq_dec i (LSP l)) as [H1|H1].
    + rewrite (Iv i H1). rewrite bitget_div by lia.
      rewrite Forall_forall in Bg. specialize (Bg i H1). unfold big in Bg.
      set (a := Z.abs (at_ x i)) in *. pose proof (halves a n Hn) as Hh.
      assert (Ha : 1 <= a / 2 ^ (n + 1)) by (apply Z.div_le_lower_bound; lia).
      assert (Hm : (a / 2 ^ n) mod 2 = 0 \/ (a / 2 ^ n) mod 2 = 1) by lia.
      set (h := a / 2 ^ (n + 1)) in *. set (g := Z.sgn (at_ x i)). set (m := (a / 2 ^ n) mod 2) in *. rewrite Hh.
      assert (Hg : Z.sgn (g * (h * 2 ^ (n + 1))) = g).
      { rewrite Z.sgn_mul, (Z.sgn_pos (h * 2 ^ (n + 1))) by nia. rewrite Z.mul_1_r. unfold g. destruct (at_ x i); reflexivity. }
      rewrite Hg, Hc2. clearbody m. destruct Hm as [-> | ->]; cbn [Z.eqb Pos.eqb]; ring.
    + apply in_app_or in Hi. destruct Hi as [Hi|Hi]; [contradiction|].
      destruct (in_dec Nat.eq_dec i (add ++ lspa)) as [H2|H2]; [|contradiction].
      assert (Hb : big x (2 ^ n) i).
      { apply in_app_or in Hi. rewrite Forall_forall in Fa, Ba. destruct Hi; auto. }
      assert (Hs : small x (2 ^ (n + 1)) i).
      { assert (Hin : In i (LIP l ++ flat_map (owns (length x)) (LIS l))).
        { apply in_app_or in Hi. destruct Hi as [Hi|Hi].
          - apply in_or_app. left. apply (Permutation_in _ P1). apply in_or_app. auto.
          - apply in_or_app. right. apply (Permutation_in _ P2). apply in_or_app. right. apply in_or_app. auto. }
        rewrite Forall_forall in Sm. auto. }
      unfold big, small in *. set (a := Z.abs (at_ x i)) in *.
      assert (E : a / 2 ^ n = 1).
      { apply Z.le_antisymm; [apply Z.lt_succ_r; apply Z.div_lt_upper_bound; lia|apply Z.div_le_lower_bound; lia]. }
      rewrite E. unfold signed. destruct (0 <=? at_ x i) eqn:E0; unfold a in *; [rewrite Z.sgn_pos by lia|rewrite Z.sgn_neg by lia]; lia.
Qed.

Lemma planes_ok x md md1 k : ints x -> length x = (2 ^ k)%nat -> (2 <= k)%nat -> maxima x md md1 ->
  forall n l, between x (Z.of_nat n) l ->
  exists out, enc_planes x md md1 n l = Ok out /\ Forall sym_ok out /\ (length out <= n * (23 * length x))%nat /\
    forall s ov rest, image x (Z.of_nat n) l ov -> serves s (out ++ rest) ->
      exists s', dec_planes (length x) n l s ov = Ok (s', x).
Proof.
  intros F Lx Hk M. induction n as [|n IH]; intros l B; cbn [enc_planes dec_planes].
  - exists []. split; [reflexivity|]. split; [constructor|]. split; [cbn; lia|].
    intros s ov rest [Il Iz Iv] S. exists s. do 2 f_equal. change (2 ^ Z.of_nat 0) with 1 in *.
    destruct B as [P En Sm Bg W]. apply (nth_ext _ _ 0 0 Il). intros i Hi.
    fold (at_ ov i) (at_ x i). rewrite Il in Hi.
    assert (Hin : In i (owned (length x) l)) by (apply (Permutation_in _ (Permutation_sym P)), in_seq; lia).
    unfold owned in Hin. destruct (in_dec Nat.eq_dec i (LSP l)) as [H1|H1].
    + rewrite (Iv i H1), Z.div_1_r, Z.mul_1_r. apply Z.sgn_abs || (rewrite Z.mul_comm; apply Z.abs_sgn).
    + rewrite (Iz i H1). assert (Hs : small x 1 i).
      { rewrite Forall_forall in Sm. apply Sm. change (2 ^ 0) with 1. rewrite !in_app_iff in *. tauto. }
      unfold small in Hs. lia.
  - replace (Z.of_nat (S n)) with (Z.of_nat n + 1) in B by lia.
    destruct (plane_ok x md md1 k (Z.of_nat n) l F Lx Hk M ltac:(lia) B) as (o1 & l1 & E1 & B1 & K1 & L1 & D1).
    rewrite E1. cbn [obind]. destruct (IH l1 B1) as (o2 & E2 & K2 & L2 & D2). rewrite E2. cbn [obind].
    eexists. split; [reflexivity|]. split; [apply Forall_app2; assumption|]. split; [rewrite app_length; lia|].
    replace (Z.of_nat (S n)) with (Z.of_nat n + 1) by lia. intros s ov rest I S. rewrite <- app_assoc in S.
    destruct (D1 s ov _ I S) as (s1 & ov1 & Ed & I1 & S1). rewrite Ed. cbn [obind]. exact (D2 s1 ov1 _ I1 S1).
Qed.

(** *** The start *)
Lemma bandsize_8 len : bandsize len = 8%nat.
Proof. unfold bandsize. replace (Z.log2 (Z.of_nat len) - (Z.log2 (Z.of_nat len) - 2)) with 2 by lia. reflexivity. Qed.
Lemma initLists_eq len : initLists len = Lists (seq 0 8) [(4, 0); (5, 0); (6, 0); (7, 0)]%nat [].
Proof. unfold initLists. rewrite bandsize_8. reflexivity. Qed.

Lemma start_ok x k n : length x = (2 ^ k)%nat -> (3 <= k)%nat -> 0 <= n -> Forall (fun v => Z.abs v < 2 ^ n) x ->
  between x n (initLists (length x)).
Proof.
  intros L Hk Hn Hb.
  assert (H8 : (8 <= length x)%nat) by (rewrite L; change 8%nat with (2 ^ 3)%nat; apply Nat.pow_le_mono_r; lia).
  assert (P : Permutation (owned (length x) (initLists (length x))) (seq 0 (length x))).
  { rewrite initLists_eq. unfold owned. cbn [LIP LSP LIS]. 
    change (flat_map (owns (length x)) [(4, 0); (5, 0); (6, 0); (7, 0)]%nat) with (flat_map (nodes (length x)) (seq 4 4)).
    rewrite L. rewrite <- (nodes_all k (k - 3) 3) by lia. reflexivity. }
  assert (Sm : Forall (small x (2 ^ n)) (seq 0 (length x))).
  { apply Forall_forall. intros i Hi. apply in_seq in Hi. rewrite Forall_forall in Hb. unfold small, at_. apply (Hb (nth i x 0)).
    apply nth_In. lia. }
  constructor.
  - exact P.
  - rewrite initLists_eq. cbn [LIS]. repeat (apply Forall_cons; [split; cbn [fst snd]; [lia|auto]|]). apply Forall_nil.
  - rewrite initLists_eq in *. unfold owned in P. cbn [LIP LSP LIS] in *. change (seq 0 8 ++ [] ++ ?u) with (seq 0 8 ++ u) in P.
    apply Forall_forall. intros i Hi. rewrite Forall_forall in Sm. apply Sm. apply (Permutation_in _ P). exact Hi.
  - rewrite initLists_eq. constructor.
  - rewrite initLists_eq. cbn [LIS]. unfold weights. cbn [map list_sum fold_right].
    assert (W : forall y, (4 <= y <= 7)%nat -> (entry_weight (length x) (y, 0) <= length x)%nat).
    { intros y Hy. rewrite L. destruct (weight_nat k y 0) as (h & Hh & E & El & Hh2); [lia|]. rewrite E.
      assert (E2 : Z.log2 (Z.of_nat y) = 2) by (assert (y = 4 \/ y = 5 \/ y = 6 \/ y = 7)%nat as [->|[->|[->| ->]]] by lia; reflexivity).
      assert (Hle : (2 ^ h <= 2 ^ k)%nat) by (apply Nat.pow_le_mono_r; lia). lia. }
    pose proof (W 4%nat ltac:(lia)). pose proof (W 5%nat ltac:(lia)). pose proof (W 6%nat ltac:(lia)). pose proof (W 7%nat ltac:(lia)). lia.
Qed.
Lemma start_image x n : image x n (initLists (length x)) (repeat 0 (length x)).
Proof.
  rewrite initLists_eq. constructor; cbn [LSP].
  - apply repeat_length.
  - intros i _. unfold at_. destruct (Nat.lt_ge_cases i (length x)); [apply nth_repeat|apply nth_overflow; now rewrite repeat_length].
  - intros i [].
Qed.
Lemma maxima_hold x k md md1 : length x = (2 ^ k)%nat -> (3 <= k)%nat -> known x md md1 2 ->
  length md = (2 ^ (k - 1))%nat -> maxima x md md1.
Proof.
  intros L Hk [K1 K2] Lm c Hc.
  assert (P1 : (length x = 2 * 2 ^ (k - 1))%nat) by (rewrite L, <- Nat.pow_succ_r'; f_equal; lia).
  split.
  - intros [y t] [Hy Ht] Hm. cbn [fst snd] in *. apply Forall_forall. intros i Hi. unfold small, at_.
    apply owns_descendant in Hi. cbn [fst snd] in Hi. destruct Hi as [Hi Hd]. unfold maxDescendant in Hm.
    destruct Ht as [->|[-> Hg]]; cbn [Nat.eqb] in *.
    + destruct (Nat.lt_ge_cases (2 * y) (length x)) as [H|H].
      * destruct (K1 y ltac:(lia) H) as [H1 _]. specialize (H1 i Hd Hi). lia.
      * elim (descendant_beyond _ k y i L ltac:(lia) Hd Hi).
    + destruct (K2 y ltac:(lia) ltac:(lia)) as [H1 _]. specialize (H1 i Hd Hi). lia.
  - intros y [Hy _] Hm. cbn [fst] in Hy. unfold maxDescendant in Hm. cbn [Nat.eqb] in Hm.
    destruct (Nat.lt_ge_cases y (length md)) as [H|H]; [lia|]. rewrite nth_overflow in Hm by exact H. lia.
Qed.

(** *** Header *)
Lemma getBits_serves c bs : forall s rest, serves s (map (fun b => (b, c)) bs ++ rest) ->
  exists s', getBits (length bs) c s = Ok (bs, s') /\ serves s' rest.
Proof.
  induction bs as [|b bs IH]; intros s rest S; cbn [length getBits map app serves] in *; [eauto|].
  destruct S as (s1 & D & S). rewrite D. cbn [obind]. destruct (IH s1 rest S) as (s2 & E & S'). rewrite E. cbn [obind]. eauto.
Qed.
Lemma de2bi_ok n : forall v, 0 <= v -> length (de2bi v n) = n /\ Forall bit (de2bi v n) /\ bi2de (de2bi v n) = v mod 2 ^ Z.of_nat n.
Proof.
  induction n as [|n IH]; intros v Hv; cbn [de2bi length bi2de]; [split; [reflexivity|split; [constructor|]]; change (2 ^ Z.of_nat 0) with 1; lia|].
  destruct (IH (v / 2) ltac:(lia)) as (L & F & E). rewrite Z.rem_mod_nonneg by lia. 
  assert (Em : v mod 2 mod 256 = v mod 2) by lia. rewrite Em.
  split; [now rewrite L|]. split; [constructor; [unfold bit; lia|exact F]|]. rewrite E.
  rewrite Nat2Z.inj_succ, Z.pow_succ_r by lia. pose proof (Z.pow_pos_nonneg 2 (Z.of_nat n) ltac:(lia) ltac:(lia)).
  rewrite Z.rem_mul_r by lia. reflexivity.
Qed.

(** What the decoder makes of the bits of the scale factor. *)
Definition wavmax_of (bs : list Z) : f64 :=
  let temp := f64_of_Z (bi2de (tl bs)) in
  if hd 0 bs =? 0 then mul64 temp f64_2m7 else add64 (mul64 temp f64_2m3) (f64_of_Z 1).

Lemma combine_pairs (l : list sym) : combine (map fst l) (map snd l) = l.
Proof. induction l as [|[a b] l IH]; cbn; [reflexivity|]. now rewrite IH. Qed.
Lemma symbols_of l : Forall sym_ok l -> Forall bit (map fst l) /\ Forall context (map snd l).
Proof. intros F. split; apply Forall_map; (eapply Forall_impl; [|exact F]); intros p [A B]; assumption. Qed.

Lemma effect_round md0 md10 x k bits scalar bw old : length x = (2 ^ k)%nat -> (3 <= k <= 22)%nat -> (1 <= bits <= 15)%nat ->
  Forall (fun v => Z.abs v < 2 ^ (Z.of_nat bits + 1)) x -> Exists (fun v => v <> 0) x ->
  maximumWaveletCoefficient scalar = Ok bw -> Forall bit bw -> length bw = 8%nat ->
  exists bytes, encodeEffect md0 md10 resetCounter x bits scalar old = Ok (bytes, resetCounter) /\
    Forall (fun v => 0 <= v < 256) bytes /\
    decodeEffect resetCounter bytes (repeat 0 (length x)) (length x) = Ok (x, wavmax_of bw, Z.of_nat bits).
Proof.
  intros L Hk Hb Fx Nz Hw Fw Lw.
  assert (F : ints x).
  { eapply Forall_impl; [|exact Fx]. cbv beta. intros v Hv.
    assert (2 ^ (Z.of_nat bits + 1) <= 2 ^ 16) by (apply Z.pow_le_mono_r; lia). lia. }
  destruct (maxima_ok md0 md10 x k F L ltac:(lia)) as (md & md1 & Em & Kn & Lm & _).
  pose proof (maxima_hold x k md md1 L ltac:(lia) Kn Lm) as M.
  assert (St : between x (Z.of_nat (S bits)) (initLists (length x))).
  { apply (start_ok x k); [exact L|lia|lia|]. replace (Z.of_nat (S bits)) with (Z.of_nat bits + 1) by lia. exact Fx. }
  destruct (planes_ok x md md1 k F L ltac:(lia) M (S bits) _ St) as (out & Eo & Ko & Lo & D).
  destruct (de2bi_ok MAXALLOCBITS_SIZE (Z.of_nat bits) ltac:(lia)) as (Lh & Fh & Eh).
  unfold encodeEffect. rewrite (proj2 (Nat.eqb_neq bits 0)) by lia.
  assert (Ez : forallb (fun v => v =? 0) x = false).
  { destruct (forallb (fun v => v =? 0) x) eqn:E; [|reflexivity]. rewrite forallb_forall in E. apply Exists_exists in Nz.
    destruct Nz as (v & Hv & Hn). specialize (E v Hv). lia. }
  rewrite Ez, Hw. cbn [obind]. unfold spiht_encode. rewrite Em. cbn [obind]. rewrite Eo. cbn [obind].
  set (header := map (fun b => (b, 0)) (de2bi (Z.of_nat bits) MAXALLOCBITS_SIZE ++ bw)).
  set (syms := header ++ out).
  assert (Ks : Forall sym_ok syms).
  { apply Forall_app2; [|exact Ko]. unfold header. apply Forall_map. apply Forall_app2; (eapply Forall_impl; [|eassumption]);
      intros b Hbit; (split; [exact Hbit|unfold context; cbn [snd]; lia]). }
  destruct (symbols_of syms Ks) as [Fs Fc].
  assert (Lsy : Z.of_nat (length syms) < 2 ^ 31 - 16).
  { assert (Hl : (length x <= 2 ^ 22)%nat) by (rewrite L; apply Nat.pow_le_mono_r; lia).
    assert (Hl2 : Z.of_nat (length x) <= 4194304).
    { apply Nat2Z.inj_le in Hl. rewrite Nat2Z.inj_pow in Hl. exact Hl. }
    unfold syms, header. rewrite app_length, map_length, app_length, Lh, Lw. unfold MAXALLOCBITS_SIZE.
    assert (Hm : Z.of_nat (length out) <= Z.of_nat (S bits) * (23 * Z.of_nat (length x))).
    { apply Nat2Z.inj_le in Lo. rewrite !Nat2Z.inj_mul in Lo. change (Z.of_nat 23) with 23 in Lo. exact Lo. }
    assert (Z.of_nat (S bits) * (23 * Z.of_nat (length x)) <= 16 * (23 * 4194304)) by (apply Z.mul_le_mono_nonneg; lia).
    pose proof (Z.le_trans _ _ _ Hm H) as Hq. clear - Hq. unfold sym in *. lia. }
  assert (C : counting (Z.of_nat (length (map fst syms))) resetCounter) by (rewrite map_length; apply reset_counting; lia).
  destruct (encode_returns resetCounter (map fst syms) (map snd syms) C Fs Fc ltac:(now rewrite !map_length))
    as [(_ & code & cs' & Ea & Fb & _)|[Hall _]].
  2: { exfalso. unfold syms, header in Hall. rewrite !map_app in Hall. apply Forall_app in Hall. destruct Hall as [Hall _].
       apply Forall_app in Hall. destruct Hall as [Hall _]. rewrite map_map in Hall. cbn [fst] in Hall. rewrite map_id in Hall.
       assert (E0 : bi2de (de2bi (Z.of_nat bits) MAXALLOCBITS_SIZE) = 0).
       { revert Hall. generalize (de2bi (Z.of_nat bits) MAXALLOCBITS_SIZE). intros l. induction l as [|b l IH]; intros H; [reflexivity|].
         inversion H; subst. cbn [bi2de]. rewrite IH by assumption. reflexivity. }
       rewrite E0 in Eh. unfold MAXALLOCBITS_SIZE in Eh. change (2 ^ Z.of_nat 4) with 16 in Eh. lia. }
  rewrite Ea. cbn [obind]. exists (convert2bytes code). split; [reflexivity|].
  destruct (bytes_round code Fb) as (z & _ & Ebz & Fbyte). split; [exact Fbyte|].
  unfold decodeEffect. rewrite Ebz.
  assert (Sv : serves (initDecoding resetCounter (code ++ repeat 0 z)) syms).
  { rewrite <- (combine_pairs syms). exact (lossless _ _ _ _ _ z C Fs Fc Ea). }
  unfold syms, header in Sv. rewrite map_app, <- app_assoc in Sv.
  destruct (getBits_serves 0 _ _ _ Sv) as (s1 & G1 & S1). rewrite Lh in G1.
  unfold getMaxAllocBits. rewrite G1. cbn [obind].
  rewrite Eh. unfold MAXALLOCBITS_SIZE. change (2 ^ Z.of_nat 4) with 16. rewrite Z.mod_small by lia.
  destruct bw as [|mode bs]; [discriminate Lw|]. cbn [map app serves] in S1. destruct S1 as (s2 & D2 & S2).
  destruct (getBits_serves 0 _ _ _ S2) as (s3 & G3 & S3). cbn [length] in Lw. injection Lw as Lw. rewrite Lw in G3.
  unfold getWavmax. rewrite D2. cbn [obind]. unfold WAVMAXLENGTH. change (8 - 1)%nat with 7%nat. rewrite G3. cbn [obind].
  rewrite Nat2Z.id.
  assert (Er : resize (repeat 0 (length x)) (length x) = repeat 0 (length x)).
  { unfold resize. rewrite repeat_length, Nat.sub_diag. cbn [repeat]. rewrite app_nil_r.
    rewrite <- (repeat_length 0 (length x)) at 1. apply firstn_all. }
  rewrite Er. rewrite <- (app_nil_r out) in S3.
  destruct (D s3 (repeat 0 (length x)) [] (start_image x _) S3) as (s4 & Ed). rewrite Ed. reflexivity.
Qed.

(** *** Empty streams *)
Definition quiet : list sym := repeat (0, 0) 12 ++ repeat (0, 2) 8 ++ repeat (0, 3) 4.
Lemma quiet_serves : serves (initDecoding resetCounter (convert2bits [])) quiet.
Proof.
  unfold quiet. cbn [repeat app serves].
  repeat (eexists; split; [vm_compute; reflexivity|]). exact I.
Qed.
Lemma nothing_round old : forall k, (3 <= k)%nat -> old = repeat 0 (2 ^ k) ->
  decodeEffect resetCounter [] old (2 ^ k) = Ok (repeat 0 (2 ^ k)%nat, wavmax_of (repeat 0 8), 0).
Proof.
  intros k Hk ->. unfold decodeEffect.
  assert (Er : resize (repeat 0 (2 ^ k)) (2 ^ k) = repeat 0 (2 ^ k)).
  { unfold resize. rewrite repeat_length, Nat.sub_diag. cbn [repeat]. rewrite app_nil_r.
    rewrite <- (repeat_length 0 (2 ^ k)) at 1. apply firstn_all. }
  rewrite Er. set (zs := repeat 0 (2 ^ k)). pose proof quiet_serves as Q.
  change quiet with (map (fun b => (b, 0)) (repeat 0 4) ++ map (fun b => (b, 0)) (repeat 0 8) ++ repeat (0, 2) 8 ++ repeat (0, 3) 4) in Q.
  destruct (getBits_serves 0 _ _ _ Q) as (s1 & G1 & Q1). change (length (repeat 0 4)) with 4%nat in G1.
  unfold getMaxAllocBits, MAXALLOCBITS_SIZE. rewrite G1. cbn [obind]. change (bi2de (repeat 0 4)) with 0.
  change (map (fun b => (b, 0)) (repeat 0 8) ++ repeat (0, 2) 8 ++ repeat (0, 3) 4)
    with ((0, 0) :: map (fun b => (b, 0)) (repeat 0 7) ++ repeat (0, 2) 8 ++ repeat (0, 3) 4) in Q1.
  cbn [serves] in Q1. destruct Q1 as (s2 & D2 & Q2).
  destruct (getBits_serves 0 _ _ _ Q2) as (s3 & G3 & Q3). change (length (repeat 0 7)) with 7%nat in G3.
  unfold getWavmax. rewrite D2. cbn [obind]. unfold WAVMAXLENGTH. change (8 - 1)%nat with 7%nat. rewrite G3. cbn [obind].
  change (S (Z.to_nat 0)) with 1%nat. cbn [dec_planes]. unfold dec_plane. rewrite initLists_eq. cbn [LIP LIS LSP].
  change (Z.of_nat 0) with 0. change (2 ^ 0) with 1.
  assert (LipZ : forall lip s rest, serves s (repeat (0, 2) (length lip) ++ rest) ->
    exists s', dec_lip 1 lip s zs = Ok (lip, [], s', zs) /\ serves s' rest).
  { induction lip as [|i lip IH]; intros s rest S; cbn [length repeat app serves dec_lip] in *; [eauto|].
    destruct S as (s' & D & S). rewrite D. cbn [obind]. change (0 =? 1) with false. cbn iota.
    destruct (IH s' rest S) as (s'' & E & S'). rewrite E. cbn [obind]. eauto. }
  destruct (LipZ (seq 0 8) s3 (repeat (0, 3) 4)) as (s4 & E4 & Q4); [exact Q3|].
  rewrite E4. cbn [obind].
  assert (LisZ : forall q fuel s rest, (length q < fuel)%nat -> Forall (fun e => snd e = 0%nat) q ->
    serves s (repeat (0, 3) (length q) ++ rest) ->
    exists s', dec_lis fuel (2 ^ k) 1 q (seq 0 8) ([] ++ []) s zs = Ok (q, seq 0 8, [], s', zs) /\ serves s' rest).
  { induction q as [|[y t] q IH]; intros fuel s rest Hf Ft S; (destruct fuel as [|fuel]; [cbn [length] in Hf; lia|]);
      cbn [length repeat app serves dec_lis] in *; [eauto|].
    inversion Ft as [|? ? Ht Ft']; subst. cbn [snd] in Ht. subst t. cbn [Nat.eqb].
    destruct S as (s' & D & S). rewrite D. cbn [obind]. change (0 =? 1) with false. cbn iota.
    destruct (IH fuel s' rest ltac:(lia) Ft' S) as (s'' & E & S'). rewrite E. cbn [obind]. eauto. }
  destruct (LisZ [(4, 0); (5, 0); (6, 0); (7, 0)]%nat (lis_fuel (2 ^ k) [(4, 0); (5, 0); (6, 0); (7, 0)]%nat) s4 []) as (s5 & E5 & _).
  - assert (H8 : (8 <= 2 ^ k)%nat) by (change 8%nat with (2 ^ 3)%nat; apply Nat.pow_le_mono_r; lia).
    assert (Wp : forall y, (4 <= y <= 7)%nat -> (1 <= entry_weight (2 ^ k) (y, 0))%nat).
    { intros y Hy. apply weight_pos. split; cbn [fst snd]; [lia|auto]. }
    unfold lis_fuel. cbn [map list_sum fold_right length].
    pose proof (Wp 4%nat ltac:(lia)). pose proof (Wp 5%nat ltac:(lia)). pose proof (Wp 6%nat ltac:(lia)). pose proof (Wp 7%nat ltac:(lia)). lia.
  - repeat constructor.
  - rewrite app_nil_r. exact Q4.
  - rewrite E5. cbn [obind]. cbn [length firstn dec_refine obind]. reflexivity.
Qed.

(** *** Short blocks *)
Lemma lip_needs x c lip r : enc_lip x c lip = Ok r -> Forall (fun i => (i < length x)%nat) lip.
Proof.
  revert r. induction lip as [|i lip IH]; intros r H; [constructor|]. cbn [enc_lip] in H.
  destruct (magnitude x i) as [a| | |] eqn:Ea; try discriminate H. cbn [obind] in H.
  constructor.
  - unfold magnitude, coef in Ea. destruct (nth_error x i) eqn:En; [|discriminate Ea]. apply nth_error_Some. congruence.
  - destruct (coef x i); try discriminate H; cbn [obind] in H.
    destruct (c <=? a).
    + destruct (enc_lip x c lip) as [[[? ?] ?]| | |] eqn:E; try discriminate H. eauto.
    + destruct (enc_lip x c lip) as [[[? ?] ?]| | |] eqn:E; try discriminate H. eauto.
Qed.
Lemma short_fails md0 md10 cs x bits scalar old r : (length x < 8)%nat -> (1 <= bits)%nat -> Exists (fun v => v <> 0) x ->
  encodeEffect md0 md10 cs x bits scalar old <> Ok r.
Proof.
  intros L Hb Nz H. unfold encodeEffect in H. rewrite (proj2 (Nat.eqb_neq bits 0)) in H by lia.
  assert (Ez : forallb (fun v => v =? 0) x = false).
  { destruct (forallb (fun v => v =? 0) x) eqn:E; [|reflexivity]. rewrite forallb_forall in E. apply Exists_exists in Nz.
    destruct Nz as (v & Hv & Hn). specialize (E v Hv). lia. }
  rewrite Ez in H. destruct (maximumWaveletCoefficient scalar) as [bw| | |]; try discriminate H. cbn [obind] in H.
  unfold spiht_encode in H. destruct (initMaxDescendants md0 md10 x) as [[md md1]| | |]; try discriminate H. cbn [obind] in H.
  cbn [enc_planes] in H. unfold enc_plane in H. rewrite initLists_eq in H. cbn [LIP] in H.
  destruct (enc_lip x (2 ^ Z.of_nat bits) (seq 0 8)) as [r0| | |] eqn:E; try discriminate H.
  apply lip_needs in E. rewrite Forall_forall in E. specialize (E 7%nat ltac:(apply in_seq; lia)). lia.
Qed.

Lemma zero_block md0 md10 block k bits scale :
  length block = (2 ^ k)%nat -> (3 <= k)%nat -> Forall (fun v => v = 0) block ->
  encodeEffect md0 md10 resetCounter block bits scale [] = Ok ([], resetCounter) /\
  exists scale', decodeEffect resetCounter [] (repeat 0 (length block)) (length block) = Ok (block, scale', 0).
Proof.
  intros L Hk Hz. assert (E : block = repeat 0 (length block)).
  { clear L. induction Hz as [|v l -> Hz IH]; [reflexivity|]. cbn [length repeat]. now rewrite <- IH. }
  split.
  - unfold encodeEffect. destruct (bits =? 0)%nat; [reflexivity|].
    assert (Ez : forallb (fun v => v =? 0) block = true).
    { apply forallb_forall. intros v Hv. rewrite Forall_forall in Hz. rewrite (Hz v Hv). reflexivity. }
    now rewrite Ez.
  - exists (wavmax_of (repeat 0 8)). rewrite E at 3. rewrite L. apply nothing_round; [exact Hk|reflexivity].
Qed.
Lemma all_maxima md0 md10 block k : ints block -> length block = (2 ^ k)%nat -> (3 <= k)%nat ->
  exists md md1, initMaxDescendants md0 md10 block = Ok (md, md1) /\
    forall j, (2 <= j)%nat ->
      (if (2 * j <? length block)%nat then largest block (descendant j) (maxDescendant md md1 j 0)
       else maxDescendant md md1 j 0 = 0) /\
      (if (4 * j <? length block)%nat then largest block (grandchild_or_deeper j) (maxDescendant md md1 j 1)
       else maxDescendant md md1 j 1 = 0).
Proof.
  intros F L Hk. destruct (maxima_ok md0 md10 block k F L Hk) as (md & md1 & E & [K1 K2] & Lm & Lm1).
  exists md, md1. split; [exact E|]. intros j Hj. unfold maxDescendant. cbn [Nat.eqb].
  assert (P1 : (length block = 2 * 2 ^ (k - 1))%nat) by (rewrite L, <- Nat.pow_succ_r'; f_equal; lia).
  assert (P2 : (2 ^ (k - 1) = 2 * 2 ^ (k - 2))%nat) by (rewrite <- Nat.pow_succ_r'; f_equal; lia).
  split.
  - destruct (2 * j <? length block)%nat eqn:Ej; [apply Nat.ltb_lt in Ej; apply K1; assumption|].
    apply Nat.ltb_ge in Ej. apply nth_overflow. lia.
  - destruct (4 * j <? length block)%nat eqn:Ej; [apply Nat.ltb_lt in Ej; apply K2; assumption|].
    apply Nat.ltb_ge in Ej. apply nth_overflow. lia.
Qed.
