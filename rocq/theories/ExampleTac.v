(** Tactics used by the examples that show concrete values meeting the hypotheses of theorems. *)
From Verif Require Import Base BitsModel FloatBase FloatModel TypesModel SemanticModel MetaSpec MetaProof.

Lemma text_check l : forallb (fun x => (0 <=? x) && (x <? 256)) l = true -> (length l <= 255)%nat -> text l.
Proof.
  intros H Hl. split; [|exact Hl]. apply Forall_forall. intros x Hx. rewrite forallb_forall in H. specialize (H x Hx).
  unfold is_byte. lia.
Qed.
Lemma nbits_check n z : (0 <=? z) && (z <? 2 ^ n) = true -> nbits n z.
Proof. unfold nbits. lia. Qed.
Lemma opt_all_some {A} (P : A -> Prop) x : P x -> opt_all P (Some x).
Proof. intros H y E. injection E as <-. exact H. Qed.
Lemma opt_all_none {A} (P : A -> Prop) : opt_all P None.
Proof. intros y E. discriminate E. Qed.
Lemma known_check n : existsb (fun p => String.eqb n (fst p)) semantic_names = true -> known_semantic (bytes_of n).
Proof.
  intros H. apply existsb_exists in H. destruct H as ([m c] & Hin & E). apply String.eqb_eq in E. cbn in E. subst.
  exists m, c. auto.
Qed.
Ltac small := repeat first
  [ match goal with |- _ = _ => reflexivity end
  | match goal with |- opt_all _ None => apply opt_all_none end
  | match goal with |- opt_all _ (Some _) => apply opt_all_some end
  | match goal with |- known_semantic _ => apply known_check; vm_compute; reflexivity end
  | match goal with |- nbits _ _ => apply nbits_check; vm_compute; reflexivity end
  | match goal with |- text _ => apply text_check; [reflexivity|cbn; lia] end
  | match goal with |- effect_ok _ _ => constructor; cbn [e_id e_pos e_phase e_semantic e_kfs e_base e_type e_timeline] end
  | match goal with |- Forall _ _ => constructor end
  | match goal with |- _ /\ _ => split end
  | match goal with |- finite _ => reflexivity end
  | match goal with |- kf_ok _ => unfold kf_ok; cbn [k_pos k_amp k_freq] end
  | match goal with |- device_ok _ => unfold device_ok; cbn end
  | progress unfold int8, vec8
  | match goal with |- exists x, Some ?a = Some x /\ _ => exists a end
  | match goal with |- exists x y, Some ?a = Some x /\ _ /\ Some ?b = Some y /\ _ => exists a, b end
  | match goal with |- None = None /\ None = None \/ _ => left end
  | match goal with |- Some _ = None /\ _ \/ _ => right end
  | cbn; lia
  | split; congruence ].
