(** Proofs about Akima curves with two keyframes in one sample. *)
From Coq Require Import Reals Psatz.
From Flocq Require Import Core.Core.
From Verif Require Import Base FloatBase FloatModel FloatProof Float64Proof TypesModel ToolsModel SynthModel SynthSpec SynthProof InterpModel InterpSpec InterpBase AkimaProof.
Local Open Scope Z_scope.
Ltac Zify.zify_post_hook ::= Z.div_mod_to_equations.

Ltac fcases := intros; repeat match goal with x : f64 |- _ => destruct x end; try discriminate; cbn in *; try discriminate; repeat match goal with |- context [Bool.eqb ?a ?b] => destruct (Bool.eqb a b) end; reflexivity.
Lemma div_zero (x : f64) : is_finite (div64 x (f64_of_Z 0)) = false.
Proof. destruct x; reflexivity. Qed.
Lemma sub_nf_l (x y : f64) : is_finite x = false -> is_finite (sub64 x y) = false.
Proof. fcases. Qed.
Lemma add_nf_l (x y : f64) : is_finite x = false -> is_finite (add64 x y) = false.
Proof. fcases. Qed.
Lemma add_nf_r (x y : f64) : is_finite y = false -> is_finite (add64 x y) = false.
Proof. fcases. Qed.
Lemma abs_nf (x : f64) : is_finite x = false -> Babs x = B754_nan \/ Babs x = B754_infinity false.
Proof. intros H. destruct x; try discriminate; cbn; auto. Qed.
Lemma mul_nf_0 (x : f64) : is_finite x = false -> mul64 x (f64_of_Z 0) = B754_nan.
Proof. fcases. Qed.
(** A number that is not finite plus one that is not negative. *)
Definition not_negative (x : f64) : Prop := match x with B754_infinity true | B754_finite true _ _ _ => False | _ => True end.
Lemma abs_not_negative (x : f64) : not_negative (Babs x).
Proof. destruct x; exact I. Qed.
Lemma add_inf_or_nan (x y : f64) : not_negative x -> (y = B754_nan \/ y = B754_infinity false) -> add64 x y = B754_nan \/ add64 x y = B754_infinity false.
Proof. intros H [-> | ->]; destruct x as [s|s| |s m e W]; cbn; auto; destruct s; cbn in *; auto; contradiction. Qed.

Section N.
Variable fpow : f64 -> f64 -> f64.
Hypothesis Hpow : pow_faithful fpow.
Variable points : list point.
Hypothesis Hn : (3 <= length points)%nat.
Hypothesis Hord : ordered points.
Hypothesis Hfirst : time_of points 0 = 0.
Hypothesis Hlast : last_time points < 2 ^ 31 - 1.
Notation n := (length points).
Notation T := (time_of points).
Notation m := (akima_m points).
Notation m1 := (akima_m1 m).
Notation bs := (map (akima_b fpow m1 n) (seq 0 n)).

Lemma T_le i : (i + 1 < n)%nat -> T i <= T (i + 1).
Proof.
  intros H. destruct (nth_error points i) as [p|] eqn:E; [|apply nth_error_None in E; lia].
  destruct (nth_error points (S i)) as [q|] eqn:F; [|apply nth_error_None in F; lia].
  replace (i + 1)%nat with (S i) by lia. rewrite (proj1 (time_nth _ _ _ E)), (proj1 (time_nth _ _ _ F)). exact (Hord i p q E F).
Qed.
Lemma T_in i : (i < n)%nat -> 0 <= T i <= last_time points.
Proof.
  intros H. split.
  - induction i as [|i IH]; [lia|]. specialize (IH ltac:(lia)). pose proof (T_le i ltac:(lia)). replace (i + 1)%nat with (S i) in * by lia. lia.
  - rewrite last_time_of. remember (n - 1 - i)%nat as d eqn:Ed. revert i H Ed. induction d as [|d IH]; intros i H Ed; [replace (n - 1)%nat with i by lia; lia|].
    specialize (IH (i + 1)%nat ltac:(lia) ltac:(lia)). pose proof (T_le i ltac:(lia)). lia.
Qed.
Lemma max_inf : forall l, fold_left (fun mx i => if flt mx (akima_f m1 i) then akima_f m1 i else mx) l (B754_infinity false) = B754_infinity false.
Proof. induction l as [|i l IH]; cbn [fold_left]; [reflexivity|]. destruct (akima_f m1 i) as [s|[|]| |s p e W]; exact IH. Qed.
Lemma max_in i : forall l mx, In i l -> akima_f m1 i = B754_infinity false -> is_nan mx = false ->
  fold_left (fun mx i => if flt mx (akima_f m1 i) then akima_f m1 i else mx) l mx = B754_infinity false.
Proof.
  induction l as [|j l IH]; intros mx I Ei Hm; [destruct I|]. cbn [fold_left]. destruct (Nat.eq_dec j i) as [-> |Nj].
  - rewrite Ei. replace (if flt mx (B754_infinity false) then B754_infinity false else mx) with (B754_infinity false : f64); [apply max_inf|].
    destruct mx as [s|[|]| |s p e W]; try reflexivity. discriminate.
  - apply IH; [destruct I; [contradiction|assumption]|exact Ei|]. destruct (akima_f m1 j) as [s|s| |s p e W] eqn:Ej; [destruct (flt mx _); [reflexivity|exact Hm]..| |destruct (flt mx _); [reflexivity|exact Hm]].
    replace (flt mx B754_nan) with false; [exact Hm|]. destruct mx as [s|[|]| |s p e W]; reflexivity.
Qed.
Lemma b_nf i : (i + 1 < n)%nat -> T i = T (i + 1) -> is_finite (at_ bs (i + 1)) = false.
Proof.
  intros Hi He. rewrite at_map by exact Hi.
  assert (Lm : length m = (n - 1)%nat) by (unfold akima_m; rewrite map_length, seq_length; reflexivity).
  assert (M : is_finite (at_ m1 (i + 2)) = false).
  { replace (at_ m1 (i + 2)) with (at_ m i).
    - unfold akima_m. rewrite at_map by lia. unfold akima_dx. rewrite He, Z.sub_diag. apply div_zero.
    - unfold akima_m1, at_ at 2. cbv zeta. replace (i + 2)%nat with (S (S i)) by lia. cbn [app nth]. rewrite app_nth1 by lia. reflexivity. }
  assert (D : akima_dm m1 (i + 1) = B754_nan \/ akima_dm m1 (i + 1) = B754_infinity false).
  { apply abs_nf, sub_nf_l. replace (i + 1 + 1)%nat with (i + 2)%nat by lia. exact M. }
  assert (F : akima_f m1 (i + 1) = B754_nan \/ akima_f m1 (i + 1) = B754_infinity false) by (apply add_inf_or_nan; [apply abs_not_negative|exact D]).
  unfold akima_b. replace (i + 1 + 1)%nat with (i + 2)%nat by lia.
  replace (flt _ _) with false; [exact M|]. symmetry. destruct F as [F|F]; rewrite F.
  - match goal with |- flt ?x _ = _ => destruct x as [s|[|]| |s p e W] end; reflexivity.
  - unfold akima_max. rewrite (max_in (i + 1) (seq 0 n)); [|apply in_seq; lia|exact F|reflexivity].
    destruct (proj2 Hpow) as (Fp & Pp). change 10 with AKIMA_THRESHOLD in Fp, Pp. change (-8) with AKIMA_THRESHOLD2 in Fp, Pp.
    destruct (fpow (f64_of_Z AKIMA_THRESHOLD) (f64_of_Z AKIMA_THRESHOLD2)) as [s|s| |s p e W]; try discriminate; [destruct s; reflexivity|].
    destruct s; [|reflexivity]. exfalso. destruct Pp as (Pp & _). apply (Rle_not_lt _ _ Pp). apply F2R_lt_0. reflexivity.
Qed.
Lemma at_nan d c b y : is_finite b = false -> is_nan (akima_at d c b y 0) = true.
Proof. intros H. unfold akima_at. rewrite (mul_nf_0 (add64 _ b)) by (apply add_nf_r; exact H). destruct y; reflexivity. Qed.

Lemma akima_same i : (i + 1 < n)%nat -> T i = T (i + 1) -> ((i + 2 = n)%nat \/ T (i + 1) < T (i + 2)) ->
  exists ys y, akimaInterpolation fpow points = Ok ys /\ Z.of_nat (length ys) = last_time points + 1 /\
    nth_error ys (Z.to_nat (T (i + 1))) = Some y /\ is_nan y = true.
Proof.
  intros Hi He Hnext. pose proof (b_nf i Hi He) as NF.
  unfold akimaInterpolation. replace (n <? 3)%nat with false by (symmetry; apply Nat.ltb_ge; exact Hn). cbv zeta.
  pose proof (T_in 0 ltac:(lia)) as R0. rewrite int_ok_fits by lia. cbn [obind]. replace (last_time points + 1 <? 0) with false by lia.
  destruct (akima_loop _ _ _ _ _ _ _) as [ys c] eqn:E.
  destruct (loop_values _ _ _ _ _ _ _ _ _ E) as (Ec & V); [intros k K; pose proof (T_le k ltac:(lia)); lia|lia|].
  destruct (loop_count _ _ _ _ _ _ _ _ _ E) as (_ & L & _). cbn [Nat.add] in Ec. rewrite <- last_time_of in Ec. subst c.
  replace (last_time points + 1 <=? last_time points) with false by lia. rewrite Z.sub_diag.
  replace (last_time points + 1 - last_time points - 1) with 0 by lia. cbn [Z.to_nat repeat]. rewrite app_nil_r.
  match goal with |- exists ys0 y, Ok ?l = _ /\ _ => exists l; assert (Ll : Z.of_nat (length l) = last_time points + 1) by (rewrite app_length; cbn [length]; lia) end.
  destruct (Nat.eq_dec (i + 2) n) as [En|En].
  - replace (i + 1)%nat with (n - 1)%nat in * by lia. rewrite nth_error_app2; rewrite <- last_time_of; [|lia].
    replace (Z.to_nat (last_time points) - length ys)%nat with 0%nat by lia. cbn [nth_error]. eexists. split; [reflexivity|]. split; [exact Ll|]. split; [reflexivity|]. apply at_nan. exact NF.
  - destruct Hnext as [Hx|Hnext]; [contradiction|]. pose proof (T_in (i + 1) Hi).
    specialize (V (i + 1)%nat (T (i + 1)) ltac:(lia)). replace (i + 1 + 1)%nat with (i + 2)%nat in V by lia. specialize (V ltac:(lia)). rewrite Hfirst, Z.sub_0_r, Z.sub_diag in V.
    rewrite nth_error_app1 by (apply nth_error_Some; congruence). rewrite V. eexists. split; [reflexivity|]. split; [exact Ll|]. split; [reflexivity|]. apply at_nan. exact NF.
Qed.
End N.
