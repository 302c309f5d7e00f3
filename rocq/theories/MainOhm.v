(** Proofs about the programs: OHM files, and arguments nobody looks for. *)
From Coq Require Import Strings.String.
From Flocq Require IEEE754.Binary IEEE754.Bits.
From Verif Require Import Base FloatBase FloatModel TypesModel SemanticModel ToolsModel ToolsSpec ToolsProof RefactorModel JsonModel PcmModel StreamModel MainModel MainSpec MainProof MainEncode.
Local Open Scope Z_scope.
Local Open Scope list_scope.
Ltac Zify.zify_post_hook ::= Z.div_mod_to_equations.

(** *** Modalities *)
Definition all_names : list (str * Z) := map (fun p => (bytes_of (fst p), snd p)) (app modalities_read effect_names).
Definition spec_names : list (str * Z) :=
  map (fun p => (bytes_of (fst p), snd p)) modality_names ++ map (fun p => (bytes_of (fst p) ++ bytes_of " effect", snd p)) modality_names.
Fixpoint lookup (l : list (str * Z)) (s : str) : Z := match l with [] => 0 | (n, m) :: r => if str_eqb n s then m else lookup r s end.
Lemma convert_lookup s : convertToModality s = lookup all_names s.
Proof.
  unfold convertToModality, all_names. generalize (app modalities_read effect_names). induction l as [|[n m] l IH]; [reflexivity|].
  cbn [List.find map lookup fst snd]. destruct (str_eqb (bytes_of n) s); [reflexivity|exact IH].
Qed.
Lemma names_in s m : names s m <-> In (s, m) spec_names.
Proof.
  unfold names, spec_names. rewrite in_app_iff, !in_map_iff. split.
  - intros (n & I & [->| ->]); [left|right]; exists (n, m); split; auto.
  - intros [([n k] & E & I)|([n k] & E & I)]; cbn [fst snd] in E; injection E as <- <-; exists n; auto.
Qed.
Lemma lookup_in l s : lookup l s <> 0 -> In (s, lookup l s) l.
Proof.
  induction l as [|[n m] l IH]; cbn [lookup]; [congruence|]. destruct (str_eqb n s) eqn:E.
  - apply str_eqb_iff in E. subst. intros _. now left.
  - intros H. right. exact (IH H).
Qed.
Notation electro := electrotactile (only parsing).
(** Every name is found; the exception is the one missing. *)
Lemma names_found : forallb (fun p => (lookup all_names (fst p) =? snd p) || str_eqb (fst p) electro) spec_names = true.
Proof. vm_compute. reflexivity. Qed.
Lemma found_names : forallb (fun p => existsb (fun q => str_eqb (fst p) (fst q) && (snd p =? snd q)) spec_names) all_names = true.
Proof. vm_compute. reflexivity. Qed.
Lemma modality_iff s m : s <> electro -> (modality_of s m <-> convertToModality s = m).
Proof.
  intros N. rewrite convert_lookup.
  assert (A : forall k, names s k -> lookup all_names s = k).
  { intros k H. apply names_in in H. pose proof names_found as F. rewrite forallb_forall in F. specialize (F _ H). cbn [fst snd] in F.
    apply Bool.orb_true_iff in F as [F|F]; [apply Z.eqb_eq; exact F|]. apply str_eqb_iff in F. congruence. }
  assert (B : lookup all_names s <> 0 -> names s (lookup all_names s)).
  { intros H. apply lookup_in in H. pose proof found_names as F. rewrite forallb_forall in F. specialize (F _ H). cbn [fst snd] in F.
    apply existsb_exists in F as ([t k] & I & F). cbn [fst snd] in F. apply andb_prop in F as [F1 F2]. apply str_eqb_iff in F1. apply Z.eqb_eq in F2.
    apply names_in. congruence. }
  split.
  - intros [H|[H ->]]; [exact (A _ H)|]. destruct (Z.eq_dec (lookup all_names s) 0) as [E|E]; [exact E|]. destruct (H _ (B E)).
  - intros <-. destruct (Z.eq_dec (lookup all_names s) 0) as [E|E]; [|left; exact (B E)].
    rewrite E. destruct (existsb (fun q => str_eqb s (fst q)) spec_names) eqn:X.
    + apply existsb_exists in X as ([t k] & I & X). cbn [fst] in X. apply str_eqb_iff in X. subst t. left.
      apply names_in in I. pose proof (A _ I) as K. congruence.
    + right. split; [|reflexivity]. intros k H. apply names_in in H.
      assert (existsb (fun q => str_eqb s (fst q)) spec_names = true) by (apply existsb_exists; exists (s, k); split; [exact H|apply str_eqb_iff; reflexivity]). congruence.
Qed.
Lemma electro_missing : modality_of electro 13 /\ convertToModality electro = 0.
Proof.
  split; [|vm_compute; reflexivity]. left. exists "Electrotactile"%string. split; [|right; reflexivity]. repeat ((left; reflexivity) || right).
Qed.

(** *** Metadata *)
Lemma channels_same ks : forall j cs, channels_from j ks cs -> ohm_to_channels (List.length ks) j ks = Ok cs.
Proof.
  induction ks as [|k ks IH]; intros j cs H; inversion H; subst; [reflexivity|]. cbn [List.length ohm_to_channels].
  match goal with X : channels_from _ _ _ |- _ => rewrite (IH _ _ X) end.
  match goal with X : channel_from _ _ _ |- _ => unfold channel_from in X; subst end. reflexivity.
Qed.
Lemma channels_exist ks : forall j, exists cs, channels_from j ks cs.
Proof.
  induction ks as [|k ks IH]; intros j; [exists []; constructor|]. destruct (IH (j + 1)) as (cs & H).
  eexists. econstructor; [reflexivity|exact H].
Qed.
Lemma perceptions_same i l p : described l -> perception_from i l p -> forall ls ps, ohm_to_perceptions (i + 1) ls = Ok ps ->
  ohm_to_perceptions i (l :: ls) = Ok (p :: ps).
Proof.
  intros [[C _] N] (m & cs & M & K & ->) ls ps H. cbn [ohm_to_perceptions]. rewrite C, Nat2Z.id, (channels_same _ _ _ K). cbn [obind]. rewrite H. cbn [obind].
  apply modality_iff in M; [|exact N]. rewrite M. reflexivity.
Qed.
Lemma perception_exists i l : described l -> exists p, perception_from i l p.
Proof.
  intros [_ N]. destruct (channels_exist (l_channels l) 0) as (cs & H). eexists. exists (convertToModality (l_desc l)), cs.
  split; [apply modality_iff; [exact N|reflexivity]|split; [exact H|reflexivity]].
Qed.
Lemma perceptions_exist ls : Forall described ls -> forall i, exists ps, ohm_to_perceptions i ls = Ok ps /\ List.length ps = List.length ls.
Proof.
  induction 1 as [|l ls D _ IH]; intros i; [exists []; split; reflexivity|]. destruct (IH (i + 1)) as (ps & H & L).
  destruct (perception_exists i l D) as (p & P). exists (p :: ps). split; [exact (perceptions_same _ _ _ D P _ _ H)|cbn; congruence].
Qed.
Lemma perceptions_inv i l ls ps : ohm_to_perceptions i (l :: ls) = Ok ps -> exists p ps', ps = p :: ps' /\ ohm_to_perceptions (i + 1) ls = Ok ps' /\
  forall q, described l -> perception_from i l q -> q = p.
Proof.
  intros H. pose proof H as H0. cbn [ohm_to_perceptions] in H. apply obind_inv in H as (cs & C & H). apply obind_inv in H as (ps' & P & H). injection H as <-.
  eexists _, ps'. split; [reflexivity|split; [exact P|]]. intros q D Q. rewrite (perceptions_same _ _ _ D Q _ _ P) in H0. congruence.
Qed.

(** *** Elements *)
Lemma vec_set_app {A} (d : list A) x y r : vec_set (d ++ x :: r) (List.length d) y = d ++ y :: r.
Proof. induction d as [|a d IH]; [reflexivity|]. cbn. now rewrite IH. Qed.
Lemma nth_app {A} (d : list A) x r : nth_error (d ++ x :: r) (List.length d) = Some x.
Proof. induction d as [|a d IH]; [reflexivity|exact IH]. Qed.
Lemma processed_from w cfg ts f ls1 : forall i qs done ps rest,
  elements_processed w cfg ts f i ls1 qs -> Forall described ls1 -> i = Z.of_nat (List.length done) ->
  ohm_to_perceptions i (ls1 ++ rest) = Ok ps ->
  exists ps', ohm_to_perceptions (i + Z.of_nat (List.length ls1)) rest = Ok ps' /\
  encode_elements w cfg ts f (List.length done) (ls1 ++ rest) 0 (done ++ ps) =
  encode_elements w cfg ts f (List.length (done ++ qs)) rest 0 ((done ++ qs) ++ ps').
Proof.
  induction ls1 as [|l ls1 IH]; intros i qs done ps rest E D I P.
  - inversion E; subst. exists ps. cbn [app List.length]. rewrite Z.add_0_r, app_nil_r. split; [exact P|reflexivity].
  - cbn [app] in P. destruct (perceptions_inv _ _ _ _ P) as (p & ps1 & -> & P1 & U). apply Forall_cons_iff in D as [Dl D].
    assert (G : forall q qs1, encode_elements w cfg ts f (List.length done) ((l :: ls1) ++ rest) 0 (done ++ p :: ps1) =
       encode_elements w cfg ts f (S (List.length done)) (ls1 ++ rest) 0 (done ++ q :: ps1) ->
       elements_processed w cfg ts f (i + 1) ls1 qs1 ->
       exists ps', ohm_to_perceptions (i + Z.of_nat (List.length (l :: ls1))) rest = Ok ps' /\
       encode_elements w cfg ts f (List.length done) ((l :: ls1) ++ rest) 0 (done ++ p :: ps1) =
       encode_elements w cfg ts f (List.length (done ++ q :: qs1)) rest 0 ((done ++ q :: qs1) ++ ps')).
    { intros q qs1 St El. destruct (IH (i + 1) qs1 (done ++ [q]) ps1 rest El D) as (ps' & P' & R).
      - rewrite app_length. cbn [List.length]. lia.
      - exact P1.
      - exists ps'. split; [rewrite <- P'; f_equal; cbn [List.length]; lia|]. rewrite St.
        rewrite <- !app_assoc in R. cbn [app] in R. rewrite app_length in R. cbn [List.length] in R. rewrite Nat.add_1_r in R. rewrite R.
        rewrite <- !app_assoc. reflexivity. }
    inversion E as [|? ? ? p0 q qs1 Rg Pf Cv El|? ? ? p0 qs1 Rg Pf Uk El]; subst; pose proof (U _ Dl Pf) as ->.
    + apply (G q); [|exact El]. cbn [app encode_elements]. change (0 =? EXIT_SUCCESS) with true. cbv zeta iota. rewrite Rg, nth_app, (input_known _ _ _ _ _ _ _ Cv).
      cbn [obind]. change (0 =? EXIT_SUCCESS) with true. cbv iota. rewrite vec_set_app. reflexivity.
    + apply (G p); [|exact El]. cbn [app encode_elements]. change (0 =? EXIT_SUCCESS) with true. cbv zeta iota. rewrite Rg, nth_app, (input_unknown _ _ _ _ _ Uk).
      cbn [obind]. change (0 =? EXIT_SUCCESS) with true. cbv iota. rewrite vec_set_app. reflexivity.
Qed.
Lemma encoded_processed w cfg ts f i ls qs : elements_encoded w cfg ts f i ls qs -> elements_processed w cfg ts f i ls qs.
Proof. induction 1; [constructor|econstructor; eassumption]. Qed.

Lemma ohm_open w args f cfg ts o ps : input w args f -> settings w args cfg -> timescale_asked args ts -> extension f "ohm" -> ohm_file w f o ->
  ohm_to_perceptions 0 (o_elements o) = Ok ps -> List.length ps = List.length (o_elements o) ->
  encoder_main w args =
  do '(c, ps) <- encode_elements w cfg ts f 0 (o_elements o) 0 ps;
  if c =? EXIT_FAILURE then Ok (c, [])
  else do x <- encoder_contents args (finish_experience args (ohm_experience w o ts ps)); Ok (c, written w (encoder_output args) x).
Proof.
  intros I S T E F P L. rewrite (ready _ _ _ _ _ I S T). unfold encoder_input. rewrite ext_iff in E by reflexivity. rewrite E.
  change (str_eqb (bytes_of "ohm") (bytes_of "ohm")) with true. cbv iota zeta. unfold ohm_file in F. rewrite F. unfold loadMetadataFromOHM. rewrite P. cbn [obind h_perceptions].
  cbn [app]. rewrite L, Nat.eqb_refl. change EXIT_SUCCESS with 0. destruct (encode_elements _ _ _ _ _ _ _ _) as [[c qs]| | |]; reflexivity.
Qed.
Lemma ohm_done w args f cfg ts o qs h c name : input w args f -> settings w args cfg -> timescale_asked args ts -> extension f "ohm" -> ohm_file w f o ->
  Forall described (o_elements o) -> elements_processed w cfg ts f 0 (o_elements o) qs ->
  finished args (ohm_experience w o ts qs) h -> written_as args h c -> output args name ->
  encoder_main w args = Ok (0, if w_writable w name then [(name, c)] else []).
Proof.
  intros I S T E F D P Fi W O. destruct (perceptions_exist _ D 0) as (ps & Hp & L).
  rewrite (ohm_open _ _ _ _ _ _ _ I S T E F Hp L). rewrite <- (app_nil_r (o_elements o)) in Hp |- *.
  destruct (processed_from w cfg ts f (o_elements o) 0 qs [] ps [] P D eq_refl Hp) as (ps' & Hn & R). cbn [ohm_to_perceptions] in Hn. injection Hn as <-.
  cbn [List.length app] in R. rewrite R. cbn [encode_elements obind]. rewrite app_nil_r. change (0 =? EXIT_FAILURE) with false. cbv iota.
  exact (close w args _ h c name 0 Fi W O).
Qed.
Lemma ohm_failed w args f cfg ts o ls1 l ls2 qs : input w args f -> settings w args cfg -> timescale_asked args ts -> extension f "ohm" -> ohm_file w f o ->
  Forall described (o_elements o) -> o_elements o = ls1 ++ l :: ls2 -> elements_processed w cfg ts f 0 ls1 qs ->
  element_fails w cfg ts f (Z.of_nat (List.length ls1)) l -> encoder_main w args = Ok (1, []).
Proof.
  intros I S T E F D Eo P X. destruct (perceptions_exist _ D 0) as (ps & Hp & L).
  rewrite (ohm_open _ _ _ _ _ _ _ I S T E F Hp L). rewrite Eo in Hp, D |- *. apply Forall_app in D as [D1 D2]. apply Forall_cons_iff in D2 as [Dl _].
  destruct (processed_from w cfg ts f ls1 0 qs [] ps (l :: ls2) P D1 eq_refl Hp) as (ps' & Hn & R).
  cbn [List.length app] in R. rewrite R. rewrite Z.add_0_l in Hn. destruct (perceptions_inv _ _ _ _ Hn) as (p & ps1 & -> & _ & U).
  cbn [encode_elements]. change (0 =? EXIT_SUCCESS) with true. cbv zeta iota. destruct X as [X|(X & p' & q & Pf & Cv)]; rewrite X; [reflexivity|].
  rewrite (U _ Dl Pf) in Cv. rewrite nth_app, (input_known _ _ _ _ _ _ _ Cv). cbn [obind]. destruct ls2; reflexivity.
Qed.
Lemma ohm_unreadable w args f cfg ts o : input w args f -> settings w args cfg -> timescale_asked args ts -> extension f "ohm" ->
  ToolsModel.loadFile (Ohm [] 0 [] []) (w_bytes w f) = (false, o) -> encoder_main w args = Ok (1, []).
Proof.
  intros I S T E F. rewrite (ready _ _ _ _ _ I S T). unfold encoder_input. rewrite ext_iff in E by reflexivity. rewrite E.
  change (str_eqb (bytes_of "ohm") (bytes_of "ohm")) with true. cbv iota zeta. rewrite F. reflexivity.
Qed.

(** *** Back to OHM *)
Lemma gain_round g : word g -> not_nan g -> bits_of_f32 (f32_of_bits g) = g.
Proof.
  intros [W0 W1] N. unfold bits_of_f32, f32_of_bits.
  assert (B : Bits.bits_of_b32 (Bits.b32_of_bits g) = g).
  { apply Bits.bits_of_binary_float_of_bits. split; [exact W0|exact W1]. }
  destruct (Bits.b32_of_bits g) as [s|s|s pl Hpl|s m e He] eqn:E; try exact B. exfalso.
  assert (P : Z.pos pl < 2 ^ 23).
  { pose proof Hpl as Q. unfold Binary.nan_pl in Q. apply Z.ltb_lt in Q. rewrite Digits.Zpos_digits2_pos in Q.
    assert (K : Digits.Zdigits Zaux.radix2 (Z.pos pl) <= 23) by lia. exact (Digits.Zpower_gt_Zdigits Zaux.radix2 23 (Z.pos pl) K). }
  unfold Bits.bits_of_b32, Bits.bits_of_binary_float, Bits.join_bits in B. rewrite Z.shiftl_mul_pow2 in B by lia.
  unfold not_nan in N. change (2 ^ 23) with 8388608 in *.
  assert (H : exists k, (k = 511 \/ k = 255) /\ k * 8388608 + Z.pos pl = g) by (destruct s; [exists 511|exists 255]; (split; [tauto|exact B])).
  destruct H as (k & Hk & Hg). clear B E W0 W1. change (2 ^ 8) with 256 in N. pose proof (Pos2Z.is_pos pl) as P0. generalize dependent (Z.pos pl). intros q Hq Hg P0. idtac. assert (D1 : g / 8388608 = k) by lia. assert (D2 : g mod 8388608 = q) by lia. rewrite D1, D2 in N. lia.
Qed.
Lemma mask_round m : word m -> cast u32 m = m.
Proof. intros [W0 W1]. unfold cast, u32, ct_signed, ct_width, to_unsigned. change (2 ^ Z.of_nat 32) with 4294967296. change (2 ^ 32) with 4294967296 in W1. lia. Qed.
Lemma i16_round v : - 2 ^ 15 <= v < 2 ^ 15 -> cast i16 v = v.
Proof.
  unfold cast, i16, ct_signed, ct_width, to_signed. change (2 ^ (Z.of_nat 16 - 1)) with 32768. change (2 ^ Z.of_nat 16) with 65536. change (2 ^ 15) with 32768. lia.
Qed.
Lemma channels_length j ks cs : channels_from j ks cs -> List.length cs = List.length ks.
Proof. induction 1; cbn; congruence. Qed.
Lemma channels_back j ks cs : channels_from j ks cs -> Forall ohm_channel_good ks -> map channel_to_ohm cs = ks.
Proof.
  induction 1 as [|j k ks c cs C _ IH]; intros F; [reflexivity|]. apply Forall_cons_iff in F as [(G & N & M) F]. cbn [map]. rewrite (IH F).
  unfold channel_from in C. subst c. unfold channel_to_ohm. cbn [c_desc c_gain c_mask]. rewrite (gain_round _ G N), (mask_round _ M). destruct k; reflexivity.
Qed.
Lemma channels_any n : forall j ks cs, n = List.length ks -> ohm_to_channels n j ks = Ok cs -> channels_from j ks cs.
Proof.
  induction n as [|n IH]; intros j [|k ks] cs L H; try discriminate L.
  - injection H as <-. constructor.
  - cbn [ohm_to_channels] in H. apply obind_inv in H as (cs' & H & R). injection R as <-. constructor; [reflexivity|]. apply IH; [injection L; auto|exact H].
Qed.
Lemma elements_back f ls : Forall ohm_element_good ls -> forall i, exists ps, ohm_to_perceptions i ls = Ok ps /\ map (perception_to_ohm f) ps = map (renamed f) ls.
Proof.
  induction 1 as [|l ls [[C C1] G] _ IH]; intros i; [exists []; split; reflexivity|]. destruct (IH (i + 1)) as (ps & P & M).
  destruct (channels_exist (l_channels l) 0) as (cs & Hc). cbn [ohm_to_perceptions]. rewrite C, Nat2Z.id, (channels_same _ _ _ Hc). cbn [obind]. rewrite P. cbn [obind].
  eexists. split; [reflexivity|]. cbn [map]. rewrite M. f_equal. unfold perception_to_ohm, renamed. cbn [p_channels p_desc]. cbv zeta.
  rewrite (channels_length _ _ _ Hc). rewrite <- C, (i16_round (l_count l)); [|change (2 ^ 15) with 32768 in *; lia]. f_equal.
  rewrite C, Nat2Z.id. rewrite <- (channels_length _ _ _ Hc), firstn_all. exact (channels_back _ _ _ Hc G).
Qed.
Lemma metadata_back now o h f : ohm_good o -> h_perceptions h = [] ->
  exists h', loadMetadataFromOHM now o h = Ok h' /\ extractMetadataToOHM f h' = Ok (Ohm OHM_HEADER (o_version o) (o_desc o) (map (renamed f) (o_elements o))).
Proof.
  intros [V G] N. destruct (elements_back f _ G 0) as (ps & P & M). unfold loadMetadataFromOHM. rewrite P, N. cbn [obind app].
  eexists. split; [reflexivity|]. unfold extractMetadataToOHM. cbn [h_version h_desc h_perceptions].
  assert (T : numeral (to_string (o_version o)) (o_version o)) by (apply to_string_numeral; change (2 ^ 15) with 32768 in V; change (2 ^ 31) with 2147483648; lia).
  pose proof T as T0. apply stoi_iff in T. destruct (to_string (o_version o)) as [|c s] eqn:E.
  - discriminate T.
  - rewrite T. cbn [obind]. rewrite (i16_round _ V), M. reflexivity.
Qed.
Lemma version_throws f h : h_version h <> [] -> (forall z, ~ numeral (h_version h) z) -> extractMetadataToOHM f h = Throw.
Proof. intros N H. apply stoi_throw in H. unfold extractMetadataToOHM. destruct (h_version h); [congruence|]. rewrite H. reflexivity. Qed.

(** *** Arguments nobody looks for *)
Lemma find_token_insert a x y b o : ~ In o [x; y] -> (forall a', a <> a' ++ [o]) ->
  getCmdOption (a ++ x :: y :: b) o = getCmdOption (a ++ b) o /\ cmdOptionExists (a ++ x :: y :: b) o = cmdOptionExists (a ++ b) o.
Proof.
  intros N L. assert (Nx : str_eqb x o = false) by (apply str_eqb_false; intros ->; apply N; now left).
  assert (Ny : str_eqb y o = false) by (apply str_eqb_false; intros ->; apply N; right; now left).
  unfold getCmdOption, cmdOptionExists. induction a as [|t a IH].
  - cbn [app find_token]. rewrite Nx, Ny. split; reflexivity.
  - cbn [app find_token]. destruct (str_eqb t o) eqn:E.
    + apply str_eqb_iff in E. subst t. destruct a as [|u a]; [destruct (L [] eq_refl)|]. split; reflexivity.
    + apply IH. intros a' ->. exact (L (t :: a') eq_refl).
Qed.
Lemma encoder_insert w a x y b : Forall (fun o => ~ In (bytes_of o) [x; y] /\ forall a', a <> a' ++ [bytes_of o]) encoder_options ->
  encoder_main w (a ++ x :: y :: b) = encoder_main w (a ++ b).
Proof.
  intros F. assert (K : forall o, In o encoder_options ->
    getCmdOption (a ++ x :: y :: b) (bytes_of o) = getCmdOption (a ++ b) (bytes_of o) /\ cmdOptionExists (a ++ x :: y :: b) (bytes_of o) = cmdOptionExists (a ++ b) (bytes_of o)).
  { rewrite Forall_forall in F. intros o I. destruct (F o I) as [F1 F2]. apply find_token_insert; assumption. }
  assert (G : forall o, In o encoder_options -> getCmdOption (a ++ x :: y :: b) (bytes_of o) = getCmdOption (a ++ b) (bytes_of o)) by (intros o I; apply K; exact I).
  assert (X : forall o, In o encoder_options -> cmdOptionExists (a ++ x :: y :: b) (bytes_of o) = cmdOptionExists (a ++ b) (bytes_of o)) by (intros o I; apply K; exact I).
  clear K F. unfold encoder_main, encoder_config, encoder_contents, encoder_output, finish_experience, option_int, option2, has2.
  rewrite !X by (repeat ((left; reflexivity) || right)). rewrite !G by (repeat ((left; reflexivity) || right)). reflexivity.
Qed.
Lemma ignored_bitrate w before n after : Forall (fun o => n <> bytes_of o /\ forall b, before <> b ++ [bytes_of o]) encoder_options ->
  encoder_main w (before ++ bytes_of "--bitrate" :: n :: after) = encoder_main w (before ++ after).
Proof.
  intros F. apply encoder_insert. assert (B : Forall (fun o => bytes_of "--bitrate" <> bytes_of o) encoder_options) by (repeat constructor; discriminate).
  rewrite Forall_forall in *. intros o I. destruct (F o I) as [F1 F2]. split; [|exact F2]. intros [E|[E|[]]]; [exact (B o I E)|exact (F1 E)].
Qed.
Lemma plain_arguments before n : forallb (fun o => negb (str_eqb n (bytes_of o)) && negb (str_eqb (last before []) (bytes_of o))) encoder_options = true ->
  Forall (fun o => n <> bytes_of o /\ forall b, before <> b ++ [bytes_of o]) encoder_options.
Proof.
  rewrite forallb_forall, Forall_forall. intros H o I. specialize (H o I). apply andb_prop in H as [H1 H2]. apply Bool.negb_true_iff in H1, H2. split.
  - intros E. apply str_eqb_iff in E. congruence.
  - intros b E. rewrite E, last_last in H2. assert (str_eqb (bytes_of o) (bytes_of o) = true) by (apply str_eqb_iff; reflexivity). congruence.
Qed.
Lemma number_unique args a x y : number_given args a x -> number_given args a y -> x = y.
Proof. intros H1 H2. apply option_int_iff in H1, H2. congruence. Qed.
Lemma bitrate_used w args r b : number_given args "-kb" (Some r) -> settings w args b ->
  exists blocklength cutoff wavelet vectorial, b = choose_config (w_cube w) (w_square w) (Some r) None blocklength cutoff wavelet vectorial.
Proof.
  intros H (r' & bu & bl & cf & wv & ve & R & _ & _ & _ & _ & _ & ->). rewrite (number_unique _ _ _ _ R H). exists bl, cf, wv, ve. reflexivity.
Qed.
