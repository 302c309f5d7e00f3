(** Base 64 of interchange files, numbers and names. *)
From Coq Require Import String.
From Verif Require Import Base BitsModel FloatBase FloatModel FloatProof TypesModel TypesSpec SemanticModel ConformModel ConformProof JsonModel JsonSpec.
Local Open Scope Z_scope.

(** *** Dropping zeros *)
Lemma strip_app a b : strip (a ++ b) = match strip b with [] => strip a | _ :: _ => a ++ strip b end.
Proof.
  induction a as [|v a IH]; cbn [app strip]; [destruct (strip b); reflexivity|]. rewrite IH.
  destruct (strip b) as [|x r]; [reflexivity|]. destruct a; reflexivity.
Qed.
Lemma strip_split l : exists n, l = strip l ++ repeat 0 n.
Proof.
  induction l as [|v l [n IH]]; [exists 0%nat; reflexivity|]. cbn [strip]. destruct (strip l) as [|x r] eqn:E.
  - destruct (Z.eqb_spec v 0) as [->|N]; [exists (S n); cbn; rewrite IH at 1; reflexivity|exists n; cbn; rewrite IH at 1; reflexivity].
  - exists n. cbn [app]. rewrite IH at 1. reflexivity.
Qed.
Lemma strip_last l : strip l = [] \/ exists s v, strip l = s ++ [v] /\ v <> 0.
Proof.
  induction l as [|v l IH]; [left; reflexivity|]. cbn [strip]. destruct IH as [->|(s & x & -> & N)].
  - destruct (Z.eqb_spec v 0) as [->|N]; [left; reflexivity|right; exists [], v; auto].
  - right. exists (v :: s), x. split; [destruct (s ++ [x]) eqn:E; [destruct s; discriminate E|rewrite <- E; reflexivity]|exact N].
Qed.
Lemma strip_nil l : strip l = [] <-> Forall (fun v => v = 0) l.
Proof.
  induction l as [|v l IH]; [split; constructor|]. cbn [strip]. split.
  - destruct (strip l) as [|x r]; [|discriminate]. destruct (Z.eqb_spec v 0); [|discriminate]. constructor; [assumption|apply IH; reflexivity].
  - intros H. inversion H; subst. rewrite (proj2 IH) by assumption. reflexivity.
Qed.
Lemma strip_idem l : strip (strip l) = strip l.
Proof.
  destruct (strip_last l) as [->|(s & v & -> & N)]; [reflexivity|]. rewrite strip_app. cbn [strip].
  destruct (Z.eqb_spec v 0); [contradiction|reflexivity].
Qed.
Lemma drop_zeros_repeat n l : drop_zeros (repeat 0 n ++ l) = drop_zeros l.
Proof. induction n; cbn; auto. Qed.
Lemma drop_zeros_id v l : v <> 0 -> drop_zeros (v :: l) = v :: l.
Proof. destruct v; [congruence|reflexivity|reflexivity]. Qed.
Lemma rev_repeat (n : nat) : rev (repeat 0 n) = repeat 0 n.
Proof. induction n; [reflexivity|]. cbn [repeat rev]. rewrite IHn. change [0] with (repeat 0 1). rewrite <- repeat_app, Nat.add_comm. reflexivity. Qed.
Lemma trim_ok l : l = [] \/ Exists (fun v => v <> 0) l -> trim l = Ok (strip l).
Proof.
  intros [->|H]; [reflexivity|]. unfold trim. destruct l as [|x l]; [inversion H|]. set (k := x :: l) in *.
  destruct (strip_split k) as [n E]. destruct (strip_last k) as [C|(s & v & Es & N)].
  - apply strip_nil in C. apply Exists_exists in H. destruct H as (y & Hy & Ny). rewrite Forall_forall in C. elim Ny. exact (C y Hy).
  - rewrite E at 1. rewrite rev_app_distr, rev_repeat, drop_zeros_repeat, Es, rev_app_distr. cbn [rev app]. rewrite drop_zeros_id by exact N.
    cbn [rev]. rewrite rev_involutive. reflexivity.
Qed.
Lemma trim_zeros l : l <> [] -> Forall (fun v => v = 0) l -> trim l = Throw.
Proof.
  intros N H. unfold trim. destruct l as [|x l]; [congruence|]. assert (E : x :: l = repeat 0 (length (x :: l))).
  { clear N. induction H as [|y k -> _ IH]; [reflexivity|]. cbn. f_equal. exact IH. }
  rewrite E, rev_repeat. rewrite <- (app_nil_r (repeat 0 _)), drop_zeros_repeat. reflexivity.
Qed.

(** *** Characters *)
Definition bit (b : Z) : Prop := b = 0 \/ b = 1.
Lemma six_ok a b c d e f : bit a -> bit b -> bit c -> bit d -> bit e -> bit f ->
  exists s, (forall r, bits2base64 32 0 (a :: b :: c :: d :: e :: f :: r) = s :: bits2base64 32 0 r) /\ six_bits 6 32 (value64 s) = [a; b; c; d; e; f].
Proof.
  intros [->| ->] [->| ->] [->| ->] [->| ->] [->| ->] [->| ->]; (eexists; split; [intros r; reflexivity|vm_compute; reflexivity]).
Qed.
Lemma six_last l : (length l < 6)%nat -> Forall bit l -> last l 1 = 1 ->
  exists n, flat_map (fun c => six_bits 6 32 (value64 c)) (bits2base64 32 0 l) = l ++ repeat 0 n.
Proof.
  intros H F L.
  destruct l as [|a l]; [exists 0%nat; reflexivity|].
  inversion_clear F as [|? ? Ha F1].
  destruct l as [|b l]; [cbn in L; subst; exists 5%nat; vm_compute; reflexivity|].
  inversion_clear F1 as [|? ? Hb F2].
  destruct l as [|c l]; [cbn in L; subst; exists 4%nat; destruct Ha as [->| ->]; vm_compute; reflexivity|].
  inversion_clear F2 as [|? ? Hc F3].
  destruct l as [|d l]; [cbn in L; subst; exists 3%nat; destruct Ha as [->| ->], Hb as [->| ->]; vm_compute; reflexivity|].
  inversion_clear F3 as [|? ? Hd F4].
  destruct l as [|e l]; [cbn in L; subst; exists 2%nat; destruct Ha as [->| ->], Hb as [->| ->], Hc as [->| ->]; vm_compute; reflexivity|].
  inversion_clear F4 as [|? ? He F5].
  destruct l as [|f l]; [cbn in L; subst; exists 1%nat; destruct Ha as [->| ->], Hb as [->| ->], Hc as [->| ->], Hd as [->| ->]; vm_compute; reflexivity|].
  cbn in H. lia.
Qed.
Lemma chars_ok n : forall l, (length l <= n)%nat -> Forall bit l -> last l 1 = 1 ->
  exists n, flat_map (fun c => six_bits 6 32 (value64 c)) (bits2base64 32 0 l) = l ++ repeat 0 n.
Proof.
  induction n as [|n IH]; intros l H F L; [apply six_last; [lia|exact F|exact L]|].
  destruct (Nat.lt_ge_cases (length l) 6) as [C|C]; [apply six_last; assumption|].
  destruct l as [|a [|b [|c [|d [|e [|f r]]]]]]; try (cbn in C; lia).
  inversion_clear F as [|? ? Ha F1]. inversion_clear F1 as [|? ? Hb F2]. inversion_clear F2 as [|? ? Hc F3].
  inversion_clear F3 as [|? ? Hd F4]. inversion_clear F4 as [|? ? He F5]. inversion_clear F5 as [|? ? Hf F6].
  destruct (six_ok a b c d e f Ha Hb Hc Hd He Hf) as (s & E1 & E2). rewrite E1. cbn [flat_map]. rewrite E2.
  destruct (IH r) as [k Ek]; [cbn in H; lia|exact F6|destruct r; [reflexivity|exact L]|].
  exists k. rewrite Ek. reflexivity.
Qed.
Lemma base64_ok l : Forall bit l -> last l 1 = 1 -> base642bits (bits2base64 32 0 l) = Ok l.
Proof.
  intros F L. unfold base642bits. destruct l as [|x l]; [reflexivity|]. set (k := x :: l) in *.
  destruct (chars_ok (length k) k (le_n _) F L) as [n ->].
  destruct (exists_last (l := k)) as (s & v & E); [discriminate|].
  assert (v = 1) as -> by (rewrite E, last_last in L; exact L).
  rewrite trim_ok.
  - f_equal. rewrite strip_app, (proj2 (strip_nil (repeat 0 n))) by (apply Forall_forall; intros y Hy; exact (repeat_spec _ _ _ Hy)).
    rewrite E, strip_app. reflexivity.
  - right. rewrite E. apply Exists_exists. exists 1. split; [apply in_or_app; left; apply in_or_app; right; left; reflexivity|discriminate].
Qed.

(** *** Bytes *)
Lemma sweep256 (f : Z -> bool) : forallb f (map Z.of_nat (seq 0 256)) = true -> forall v, 0 <= v < 256 -> f v = true.
Proof.
  intros H v Hv. rewrite forallb_forall in H. apply H. apply in_map_iff. exists (Z.to_nat v). split; [lia|apply in_seq; lia].
Qed.
Lemma byte_whole v : 0 <= v < 256 -> bits_byte (byte_bits v) = v.
Proof. intros H. apply Z.eqb_eq. revert v H. apply sweep256. vm_compute. reflexivity. Qed.
Lemma byte_last v : 0 <= v < 256 -> bits2bytes (strip (byte_bits v)) = if v =? 0 then [] else [v].
Proof.
  intros H. assert (E : str_eqb (bits2bytes (strip (byte_bits v))) (if v =? 0 then [] else [v]) = true).
  { revert v H. apply (sweep256 (fun v => str_eqb (bits2bytes (strip (byte_bits v))) (if v =? 0 then [] else [v]))). vm_compute. reflexivity. }
  apply str_eqb_ok. exact E.
Qed.
Lemma byte_len v : length (byte_bits v) = 8%nat.
Proof. reflexivity. Qed.
Lemma bits2bytes_cons v s : bits2bytes (byte_bits v ++ s) = bits_byte (byte_bits v) :: bits2bytes s.
Proof.
  unfold bits2bytes. rewrite app_length, byte_len. replace (8 + length s + 7)%nat with (length s + 7 + 1 * 8)%nat by lia.
  rewrite Nat.div_add by lia. rewrite Nat.add_comm. cbn [Nat.add bits2bytes_loop]. reflexivity.
Qed.
Lemma bits2bytes_nil l : bits2bytes l = [] -> l = [].
Proof.
  unfold bits2bytes. destruct l as [|x l]; [reflexivity|]. replace (length (x :: l) + 7)%nat with (length l + 1 * 8)%nat by (cbn; lia).
  rewrite Nat.div_add by lia. rewrite Nat.add_comm. discriminate.
Qed.
Lemma bytes_ok l : Forall (fun v => 0 <= v < 256) l -> bits2bytes (strip (flat_map byte_bits l)) = strip l.
Proof.
  induction 1 as [|v l Hv _ IH]; [reflexivity|]. cbn [flat_map strip]. rewrite strip_app.
  destruct (strip (flat_map byte_bits l)) as [|x r].
  - change (bits2bytes []) with (@nil Z) in IH. rewrite <- IH. exact (byte_last v Hv).
  - rewrite bits2bytes_cons, IH, (byte_whole v Hv). destruct (strip l) as [|y s]; [apply bits2bytes_nil in IH; discriminate IH|reflexivity].
Qed.
Lemma byte_bits_bit v : Forall bit (byte_bits v).
Proof. unfold byte_bits. apply Forall_forall. intros b H. apply in_map_iff in H. destruct H as (j & <- & _). unfold bit. destruct (Z.testbit v (Z.of_nat j)); auto. Qed.
Lemma strip_Forall (P : Z -> Prop) l : Forall P l -> Forall P (strip l).
Proof. intros H. destruct (strip_split l) as [n E]. rewrite E in H. apply Forall_app in H. tauto. Qed.
Lemma stream_ok l : Forall (fun v => 0 <= v < 256) l -> l = [] \/ Exists (fun v => v <> 0) l ->
  exists bits, bytes2bits l = Ok bits /\ loadBitstream (JString (bits2base64 32 0 bits)) = Ok (strip l).
Proof.
  intros F N. exists (strip (flat_map byte_bits l)).
  assert (Fb : Forall bit (flat_map byte_bits l)).
  { apply Forall_forall. intros b H. apply in_flat_map in H. destruct H as (v & _ & H). pose proof (byte_bits_bit v) as G. rewrite Forall_forall in G. exact (G b H). }
  split.
  - unfold bytes2bits. apply trim_ok. destruct N as [->|N]; [left; reflexivity|right].
    destruct (strip_last (flat_map byte_bits l)) as [C|(s & v & E & Nv)].
    + exfalso. pose proof (bytes_ok l F) as G. rewrite C in G. change (bits2bytes []) with (@nil Z) in G. symmetry in G. apply strip_nil in G.
      apply Exists_exists in N. destruct N as (y & Hy & Ny). rewrite Forall_forall in G. elim Ny. exact (G y Hy).
    + destruct (strip_split (flat_map byte_bits l)) as [n E1]. rewrite E1, E. apply Exists_exists. exists v.
      split; [apply in_or_app; left; apply in_or_app; right; left; reflexivity|exact Nv].
  - unfold loadBitstream. rewrite base64_ok; [cbn [obind]; rewrite bytes_ok by exact F; reflexivity|apply strip_Forall, Fb|].
    destruct (strip_last (flat_map byte_bits l)) as [->|(s & v & E & Nv)]; [reflexivity|]. rewrite E, last_last.
    assert (Hv : bit v) by (apply strip_Forall in Fb; rewrite E in Fb; apply Forall_app in Fb; destruct Fb as [_ Fb]; inversion Fb; assumption).
    destruct Hv; [contradiction|assumption].
Qed.
Lemma bits2base64_text l : Forall bit l -> forall c t, In c [1; 2; 4; 8; 16; 32] -> 0 <= t -> ~ In 0 (bits2base64 c t l).
Proof.
  assert (N : forall t, 0 <= t -> char64 t <> 0) by (intros t Ht; unfold char64; destruct ((0 <=? t) && (t <=? 25)) eqn:E1; [lia|];
    destruct ((26 <=? t) && (t <=? 51)) eqn:E2; [lia|]; destruct ((52 <=? t) && (t <=? 61)) eqn:E3; [lia|]; destruct (t =? 62); discriminate).
  induction 1 as [|b l _ _ IH]; intros c t Hc Ht; cbn [bits2base64].
  - destruct (0 <? t); [intros [C|[]]; exact (N t Ht C)|intros []].
  - set (t' := if b =? 1 then t + c else t). assert (0 <= t') by (unfold t'; cbn in Hc; destruct (b =? 1); lia).
    assert (G : Z.shiftr c 1 = 0 \/ In (Z.shiftr c 1) [1; 2; 4; 8; 16; 32]).
    { cbn in Hc. repeat destruct Hc as [<-|Hc]; try contradiction; cbn; auto 10. }
    destruct (Z.eqb_spec (Z.shiftr c 1) 0) as [E|E].
    + intros [C|C]; [exact (N t' ltac:(assumption) C)|]. revert C. apply IH; [cbn; auto 10|lia].
    + destruct G as [G|G]; [contradiction|]. apply IH; assumption.
Qed.

