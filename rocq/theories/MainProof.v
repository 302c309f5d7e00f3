(** Proofs about the programs: options, numbers, the encoder. *)
From Coq Require Import Strings.String.
From Verif Require Import Base FloatBase FloatModel TypesModel SemanticModel ToolsModel ToolsSpec ToolsProof RefactorModel PcmModel StreamModel MainModel MainSpec.
Local Open Scope Z_scope.
Local Open Scope list_scope.
Ltac Zify.zify_post_hook ::= Z.div_mod_to_equations.

Lemma obind_inv {A B} (m : outcome A) (k : A -> outcome B) b : obind m k = Ok b -> exists a, m = Ok a /\ k a = Ok b.
Proof. destruct m; cbn; intros H; try discriminate H. eauto. Qed.

(** *** Options *)
Lemma find_token_split ts o : match find_token ts o with
  | Some r => exists pre, ts = pre ++ o :: r /\ ~ In o pre
  | None => ~ In o ts end.
Proof.
  induction ts as [|t ts IH]; cbn; [tauto|]. destruct (str_eqb t o) eqn:E.
  - apply str_eqb_iff in E. subst. exists []. split; [reflexivity|tauto].
  - assert (N : t <> o) by (intros ->; assert (str_eqb o o = true) by (apply str_eqb_iff; reflexivity); congruence).
    destruct (find_token ts o) as [r|].
    + destruct IH as (pre & -> & P). exists (t :: pre). split; [reflexivity|]. intros [->|H]; tauto.
    + intros [->|H]; tauto.
Qed.
Lemma get_value args name : getCmdOption args (bytes_of name) <> [] -> value args name (getCmdOption args (bytes_of name)).
Proof.
  intros H. split; [exact H|]. revert H. unfold getCmdOption. pose proof (find_token_split args (bytes_of name)) as S.
  destruct (find_token args (bytes_of name)) as [[|v r]|]; [congruence| |congruence].
  intros _. destruct S as (pre & E & N). exists pre, r. split; [exact E|exact N].
Qed.
Lemma follows_get args name v : follows args name v -> getCmdOption args (bytes_of name) = v.
Proof. intros (pre & post & E & N). exact (option_value _ _ _ _ _ E N). Qed.
Lemma follows_given args name v : follows args name v -> given args name.
Proof. intros (pre & post & -> & N). unfold given. apply in_or_app. right. now left. Qed.
Lemma value_get args name v : value args name v <-> v <> [] /\ getCmdOption args (bytes_of name) = v.
Proof.
  split.
  - intros [H F]. split; [exact H|exact (follows_get _ _ _ F)].
  - intros [H <-]. exact (get_value _ _ H).
Qed.
Lemma chosen_option args a b v : chosen args a b v <-> v <> [] /\ option2 args a b = v.
Proof.
  unfold chosen, option2. setoid_rewrite value_get. destruct (getCmdOption args (bytes_of a)) as [|x l].
  - split.
    + intros [[H E]|[_ H]]; [congruence|exact H].
    + intros H. right. split; [|exact H]. intros u [Hu <-]. congruence.
  - split.
    + intros [H|[H _]]; [exact H|]. exfalso. apply (H (x :: l)). split; [discriminate|reflexivity].
    + intros H. left. exact H.
Qed.
Lemma unchosen_option args a b : unchosen args a b <-> option2 args a b = [].
Proof.
  unfold unchosen, option2. setoid_rewrite value_get. destruct (getCmdOption args (bytes_of a)) as [|x l].
  - split.
    + intros H. destruct (getCmdOption args (bytes_of b)) as [|y m]; [reflexivity|]. exfalso. apply (proj2 (H (y :: m))). split; [discriminate|reflexivity].
    + intros E u. rewrite E. split; intros [Hu <-]; congruence.
  - split; [|discriminate]. intros H. exfalso. apply (proj1 (H (x :: l))). split; [discriminate|reflexivity].
Qed.
Lemma has2_either args a b : has2 args a b = true <-> either args a b.
Proof. unfold has2, either, given. rewrite Bool.orb_true_iff, !option_exists. tauto. Qed.
Lemma has2_not args a b : has2 args a b = false <-> ~ either args a b.
Proof. rewrite <- has2_either. destruct (has2 args a b); split; congruence. Qed.
Lemma has_not args a : cmdOptionExists args (bytes_of a) = false <-> ~ given args a.
Proof. unfold given. rewrite <- option_exists. destruct (cmdOptionExists args (bytes_of a)); split; congruence. Qed.

(** *** Numbers *)
Lemma is_digit_iff c : is_digit c = true <-> digit c.
Proof. unfold is_digit, digit. lia. Qed.
Lemma is_space_iff c : is_space c = true <-> space c.
Proof. unfold is_space, space. lia. Qed.
Lemma skip_spaces_split s : exists blank, s = blank ++ skip_spaces s /\ Forall space blank /\
  (forall c r, skip_spaces s = c :: r -> ~ space c).
Proof.
  induction s as [|c s (b & E & F & N)]; cbn.
  - exists []. repeat split; [constructor|discriminate].
  - destruct (is_space c) eqn:S.
    + exists (c :: b). cbn. rewrite <- E. repeat split; [constructor; [apply is_space_iff; exact S|exact F]|exact N].
    + exists []. repeat split; [constructor|]. intros d r H. injection H as <- <-. rewrite <- is_space_iff. congruence.
Qed.
Lemma skip_spaces_app b s : Forall space b -> (forall c r, s = c :: r -> ~ space c) -> skip_spaces (b ++ s) = s.
Proof.
  induction 1 as [|c b Hc _ IH]; intros N; cbn.
  - destruct s as [|c r]; [reflexivity|]. cbn. destruct (is_space c) eqn:E; [|reflexivity].
    apply is_space_iff in E. destruct (N _ _ eq_refl E).
  - apply is_space_iff in Hc. rewrite Hc. exact (IH N).
Qed.
Lemma digits_value_app ds rest : Forall digit ds -> (forall c r, rest = c :: r -> ~ digit c) ->
  forall acc, digits_value acc (ds ++ rest) = fold_left (fun n c => 10 * n + (c - 48)) ds acc.
Proof.
  induction 1 as [|c ds Hc _ IH]; intros N acc; cbn.
  - destruct rest as [|c r]; [reflexivity|]. cbn. destruct (is_digit c) eqn:E; [|reflexivity].
    apply is_digit_iff in E. destruct (N _ _ eq_refl E).
  - apply is_digit_iff in Hc. rewrite Hc. apply IH. exact N.
Qed.
Lemma digits_split s : exists ds rest, s = ds ++ rest /\ Forall digit ds /\ (forall c r, rest = c :: r -> ~ digit c).
Proof.
  induction s as [|c s (ds & rest & E & F & N)].
  - exists [], []. repeat split; [constructor|discriminate].
  - destruct (is_digit c) eqn:D.
    + exists (c :: ds), rest. cbn. rewrite <- E. repeat split; [constructor; [apply is_digit_iff; exact D|exact F]|exact N].
    + exists [], (c :: s). repeat split; [constructor|]. intros d r H. injection H as <- <-. rewrite <- is_digit_iff. congruence.
Qed.
Lemma number_at_iff s z : number_at s = Some z <->
  exists ds rest, s = ds ++ rest /\ ds <> [] /\ Forall digit ds /\ (forall c r, rest = c :: r -> ~ digit c) /\ z = number ds.
Proof.
  split.
  - intros H. destruct (digits_split s) as (ds & rest & E & F & N). exists ds, rest. 
    destruct s as [|c r]; [discriminate H|]. unfold number_at in H. destruct (is_digit c) eqn:D; [|discriminate H].
    injection H as <-. destruct ds as [|d ds].
    + cbn in E. destruct (N _ _ (eq_sym E)). apply is_digit_iff. exact D.
    + repeat split; [exact E|discriminate|exact F|exact N|]. pose proof (digits_value_app (d :: ds) rest F N 0) as G. rewrite <- E in G. exact G.
  - intros (ds & rest & -> & D & F & N & ->). destruct ds as [|c ds]; [congruence|]. unfold number_at.
    cbn [app]. pose proof (Forall_inv F) as Hc. apply is_digit_iff in Hc. rewrite Hc. f_equal.
    exact (digits_value_app (c :: ds) rest F N 0).
Qed.
Lemma cast_i32_iff z : z = cast i32 z <-> - 2 ^ 31 <= z < 2 ^ 31.
Proof.
  unfold cast, i32, ct_signed, ct_width, to_signed. change (2 ^ (Z.of_nat 32 - 1)) with 2147483648. change (2 ^ Z.of_nat 32) with 4294967296.
  change (2 ^ 31) with 2147483648. split; intros H; lia.
Qed.
Definition signed_at (s : str) : option Z :=
  match s with
  | 45 :: r => option_map Z.opp (number_at r)
  | 43 :: r => number_at r
  | r => number_at r
  end.
Lemma signed_other c r : c <> 45 -> c <> 43 -> signed_at (c :: r) = number_at (c :: r).
Proof.
  intros H1 H2. unfold signed_at. destruct c as [|p|p]; try reflexivity.
  do 6 (destruct p as [p|p|]; try reflexivity); congruence.
Qed.
Lemma signed_at_iff s z : signed_at s = Some z <-> exists sg k r n, s = sg ++ r /\ sign sg k /\ number_at r = Some n /\ z = k * n.
Proof.
  split.
  - intros H. destruct s as [|c r]; [discriminate H|].
    destruct (Z.eq_dec c 45) as [->|N1]; [|destruct (Z.eq_dec c 43) as [->|N2]].
    + cbn [signed_at] in H. destruct (number_at r) as [n|] eqn:E; [|discriminate H]. injection H as <-.
      exists [45], (-1), r, n. split; [reflexivity|split; [constructor|split; [exact E|lia]]].
    + exists [43], 1, r, z. split; [reflexivity|split; [constructor|split; [exact H|lia]]].
    + rewrite signed_other in H by assumption. exists [], 1, (c :: r), z. split; [reflexivity|split; [constructor|split; [exact H|lia]]].
  - intros (sg & k & r & n & -> & S & E & ->). destruct S; cbn [app].
    + destruct r as [|c r]; [discriminate E|]. rewrite signed_other; [rewrite E; f_equal; lia| |];
        intros ->; cbn in E; discriminate E.
    + cbn [signed_at]. rewrite E. f_equal; lia.
    + cbn [signed_at]. rewrite E. cbn [option_map]. f_equal; lia.
Qed.
Lemma stoi_unfold s : stoi s = match signed_at (skip_spaces s) with Some z => if z =? cast i32 z then Ok z else Throw | None => Throw end.
Proof.
  unfold stoi. destruct (skip_spaces s) as [|c r]; [reflexivity|]. 
  destruct (Z.eq_dec c 45) as [->|N1]; [reflexivity|]. destruct (Z.eq_dec c 43) as [->|N2]; [reflexivity|].
  rewrite signed_other by assumption. destruct c as [|p|p]; try reflexivity.
  do 6 (destruct p as [p|p|]; try reflexivity); congruence.
Qed.
Lemma sign_head sg k r n : sign sg k -> number_at r = Some n -> forall c l, sg ++ r = c :: l -> ~ space c.
Proof.
  intros S E c l H. unfold space. destruct S; cbn in H.
  - subst r. cbn in E. destruct (is_digit c) eqn:D; [|discriminate E]. apply is_digit_iff in D. unfold digit in D. lia.
  - injection H as <- <-. lia.
  - injection H as <- <-. lia.
Qed.
Lemma stoi_iff s z : stoi s = Ok z <-> numeral s z.
Proof.
  rewrite stoi_unfold. split.
  - intros H. destruct (signed_at (skip_spaces s)) as [y|] eqn:E; [|discriminate H].
    destruct (y =? cast i32 y) eqn:C; [|discriminate H]. injection H as ->. apply Z.eqb_eq, cast_i32_iff in C.
    apply signed_at_iff in E as (sg & k & r & n & E & S & A & ->). apply number_at_iff in A as (ds & rest & -> & D & F & N & ->).
    destruct (skip_spaces_split s) as (b & Es & Fb & _). rewrite E in Es. 
    exists b, sg, k, ds, rest. repeat split; try assumption; lia.
  - intros (b & sg & k & ds & rest & -> & Fb & S & D & F & N & -> & C).
    assert (A : number_at (ds ++ rest) = Some (number ds)) by (apply number_at_iff; exists ds, rest; repeat split; assumption).
    rewrite (skip_spaces_app b _ Fb (sign_head _ _ _ _ S A)).
    assert (G : signed_at (sg ++ ds ++ rest) = Some (k * number ds)).
    { apply signed_at_iff. exists sg, k, (ds ++ rest), (number ds). repeat split; assumption. }
    rewrite G. apply cast_i32_iff in C. rewrite <- C, Z.eqb_refl. reflexivity.
Qed.
Lemma stoi_throw s : stoi s = Throw <-> forall z, ~ numeral s z.
Proof.
  split.
  - intros H z N. apply stoi_iff in N. congruence.
  - intros H. destruct (stoi s) as [z| | |] eqn:E; [apply stoi_iff in E; destruct (H _ E)|reflexivity| |];
      rewrite stoi_unfold in E; destruct (signed_at _) as [y|]; [destruct (y =? _)| |destruct (y =? _)|]; discriminate E.
Qed.

Lemma number_app a b acc : fold_left (fun n c => 10 * n + (c - 48)) (a ++ b) acc =
  fold_left (fun n c => 10 * n + (c - 48)) b (fold_left (fun n c => 10 * n + (c - 48)) a acc).
Proof. apply fold_left_app. Qed.
Lemma digits_ok n : forall z, 0 <= z < 10 ^ Z.of_nat n -> (0 < n)%nat -> digits n z <> [] /\ Forall digit (digits n z) /\ number (digits n z) = z.
Proof.
  induction n as [|n IH]; intros z Hz Hn; [lia|]. cbn [digits]. destruct (z <? 10) eqn:L.
  - repeat split; [discriminate|repeat constructor; unfold digit; lia|unfold number; cbn [fold_left]; lia].
  - assert (Hp : 10 ^ Z.of_nat (S n) = 10 * 10 ^ Z.of_nat n) by (rewrite Nat2Z.inj_succ, Z.pow_succ_r by lia; reflexivity).
    destruct n as [|n]; [cbn in Hz; lia|].
    destruct (IH (z / 10)) as (_ & F & E); [|lia|].
    + rewrite Hp in Hz. generalize dependent (10 ^ Z.of_nat (S n)). intros P. lia.
    + repeat split.
      * intros H. apply app_eq_nil in H as [_ H]. discriminate H.
      * apply Forall_app. split; [exact F|]. repeat constructor; unfold digit; lia.
      * unfold number in *. rewrite number_app, E. cbn [fold_left]. lia.
Qed.
Lemma to_string_numeral z : - 2 ^ 31 <= z < 2 ^ 31 -> numeral (to_string z) z.
Proof.
  intros H. unfold to_string. change (2 ^ 31) with 2147483648 in H. destruct (z <? 0) eqn:L.
  - destruct (digits_ok 10 (- z)) as (D & F & E); [change (10 ^ Z.of_nat 10) with 10000000000; lia|lia|].
    exists [], [45], (-1), (digits 10 (- z)), []. cbn [app]. rewrite app_nil_r, E.
    repeat split; try assumption; try constructor; try discriminate; try lia.
  - destruct (digits_ok 10 z) as (D & F & E); [change (10 ^ Z.of_nat 10) with 10000000000; lia|lia|].
    exists [], [], 1, (digits 10 z), []. cbn [app]. rewrite app_nil_r, E.
    repeat split; try assumption; try constructor; try discriminate; try lia.
Qed.

Lemma option_int_iff args a z : option_int args a = Ok z <-> number_given args a z.
Proof.
  unfold option_int, number_given. destruct (cmdOptionExists args (bytes_of a)) eqn:G.
  - split.
    + intros H. apply obind_inv in H as (n & S & H). injection H as <-. apply stoi_iff in S.
      assert (N : getCmdOption args (bytes_of a) <> []).
      { intros E. rewrite E in S. destruct S as (b & sg & k & ds & r & Es & _ & _ & D & _). symmetry in Es. 
        apply app_eq_nil in Es as [_ Es]. apply app_eq_nil in Es as [_ Es]. apply app_eq_nil in Es as [Es _]. congruence. }
      exists (getCmdOption args (bytes_of a)). split; [|exact S]. exact (proj2 (get_value _ _ N)).
    + destruct z as [n|].
      * intros (s & F & S). rewrite (follows_get _ _ _ F). apply stoi_iff in S. rewrite S. reflexivity.
      * intros N. apply has_not in N. congruence.
  - split.
    + intros H. injection H as <-. apply has_not. exact G.
    + destruct z as [n|]; [|reflexivity]. intros (s & F & _). apply follows_given in F. apply has_not in G. tauto.
Qed.
