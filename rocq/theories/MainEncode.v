(** Proofs about the programs: the encoder. *)
From Coq Require Import Strings.String.
From Verif Require Import Base FloatBase FloatModel TypesModel SemanticModel ToolsModel ToolsSpec ToolsProof RefactorModel PcmModel StreamModel MainModel MainSpec MainProof.
Local Open Scope Z_scope.
Local Open Scope list_scope.
Ltac Zify.zify_post_hook ::= Z.div_mod_to_equations.

Lemma last_split (c : Z) s : In c s -> exists base ext, s = base ++ c :: ext /\ ~ In c ext.
Proof.
  induction s as [|x s IH]; [intros []|]. intros H. destruct (in_dec Z.eq_dec c s) as [I|N].
  - destruct (IH I) as (b & e & -> & Ne). exists (x :: b), e. split; [reflexivity|exact Ne].
  - destruct H as [->|H]; [|tauto]. exists [], s. split; [reflexivity|exact N].
Qed.
Definition plain (e : string) : bool := negb (existsb (Z.eqb 46) (bytes_of e)) && negb (Nat.eqb (List.length (bytes_of e)) 0).
Lemma ext_iff f e : plain e = true -> (extension f e <-> getFileExt f = bytes_of e).
Proof.
  intros P. apply andb_prop in P as [P1 P2].
  assert (N : ~ In 46 (bytes_of e)).
  { intros I. apply Bool.negb_true_iff in P1. assert (existsb (Z.eqb 46) (bytes_of e) = true) by (apply existsb_exists; exists 46; split; [exact I|reflexivity]). congruence. }
  assert (D : bytes_of e <> []) by (intros D; rewrite D in P2; discriminate P2).
  split.
  - intros (base & ->). exact (file_ext base _ N).
  - intros H. destruct (in_dec Z.eq_dec 46 f) as [I|I].
    + destruct (last_split _ _ I) as (b & x & -> & Nx). rewrite (file_ext b x Nx) in H. subst x. exists b. reflexivity.
    + rewrite (file_no_ext f I) in H. congruence.
Qed.
Ltac ext := rewrite ext_iff by reflexivity.
Lemma str_eqb_false a b : a <> b -> str_eqb a b = false.
Proof. intros H. destruct (str_eqb a b) eqn:E; [|reflexivity]. apply str_eqb_iff in E. congruence. Qed.

Lemma input_known w cfg ts f p c q : converts w cfg ts f p c q -> encode_input w cfg ts f p = Ok (Some (c, q)).
Proof.
  unfold encode_input. intros [[E|E] H|[E|E] H|s E -> H];
    (rewrite ext_iff in E by reflexivity); rewrite E; cbn -[bytes_of]; rewrite H; reflexivity.
Qed.
Lemma input_unknown w cfg ts f p : unknown_kind f -> encode_input w cfg ts f p = Ok None.
Proof.
  unfold unknown_kind, encode_input, is_ahap, is_ivs, is_wav. intros H.
  repeat match goal with H : Forall _ (_ :: _) |- _ => apply Forall_cons_iff in H as [?E H] end.
  rewrite ext_iff in E, E0, E1, E2, E3 by reflexivity.
  rewrite !(str_eqb_false (getFileExt f)) by assumption. reflexivity.
Qed.
Lemma input_cases w cfg ts f p r : encode_input w cfg ts f p = Ok r ->
  match r with Some (c, q) => converts w cfg ts f p c q | None => unknown_kind f end.
Proof.
  unfold encode_input, is_ahap, is_ivs, is_wav, unknown_kind. intros H.
  destruct (str_eqb (getFileExt f) (bytes_of "json")) eqn:E1; [|destruct (str_eqb (getFileExt f) (bytes_of "ahap")) eqn:E2].
  1, 2: cbn [orb] in H; apply obind_inv in H as ([c q] & H & R); injection R as <-;
    apply ConvAhap; [|exact H]; first [left; ext; apply str_eqb_iff; eassumption|right; ext; apply str_eqb_iff; eassumption].
  cbn [orb] in H.
  destruct (str_eqb (getFileExt f) (bytes_of "xml")) eqn:E3; [|destruct (str_eqb (getFileExt f) (bytes_of "ivs")) eqn:E4].
  1, 2: cbn [orb] in H; apply obind_inv in H as ([c q] & H & R); injection R as <-;
    apply ConvIvs; [|exact H]; first [left; ext; apply str_eqb_iff; eassumption|right; ext; apply str_eqb_iff; eassumption].
  cbn [orb] in H.
  destruct (str_eqb (getFileExt f) (bytes_of "wav")) eqn:E5.
  - apply obind_inv in H as (s & S & H). apply obind_inv in H as ([c q] & H & R). injection R as <-.
    apply (ConvWav _ _ _ _ _ _ _ s); [|exact S|exact H]. ext. apply str_eqb_iff. exact E5.
  - injection H as <-.
    repeat constructor; ext; intros C; apply str_eqb_iff in C; congruence.
Qed.

Lemma finished_iff args h h' : finished args h h' <-> h' = finish_experience args h.
Proof.
  unfold finished, finish_experience. 
  destruct (has2 args "-r" "--refactor") eqn:R; [apply has2_either in R|apply has2_not in R];
  (destruct (has2 args "-l" "--linearize") eqn:L; [apply has2_either in L|apply has2_not in L]);
  (split; [intros (h1 & [[? ->]|[? ->]] & [[? ->]|[? ->]]); tauto || reflexivity|intros ->; eexists; split; [|]; eauto]).
Qed.
Lemma written_iff args h c : written_as args h c <-> encoder_contents args h = Ok c.
Proof.
  unfold written_as, encoder_contents, binary. destruct (has2 args "-b" "--binary") eqn:B; [apply has2_either in B|apply has2_not in B].
  - split.
    + intros [[_ (d & N & ->)]|[N _]]; [|tauto]. apply option_int_iff in N. rewrite N. destruct d; reflexivity.
    + intros H. apply obind_inv in H as (d & N & H). apply option_int_iff in N. left. split; [exact B|]. exists d. split; [exact N|].
      destruct d; injection H as <-; reflexivity.
  - split.
    + intros [[N _]|[_ ->]]; [tauto|reflexivity].
    + intros H. injection H as <-. right. split; [exact B|reflexivity].
Qed.
Lemma output_iff args f : output args f <-> f = encoder_output args.
Proof.
  unfold output, encoder_output, binary. rewrite chosen_option, unchosen_option.
  destruct (option2 args "-o" "--output") as [|x l].
  - destruct (has2 args "-b" "--binary") eqn:B; [apply has2_either in B|apply has2_not in B]; (split; [intros [[H <-]|[_ [[? ->]|[? ->]]]]; tauto|intros ->; right; tauto]).
  - split; [intros [[_ <-]|[H _]]; [reflexivity|discriminate H]|]. intros ->. left. split; [discriminate|reflexivity].
Qed.
Lemma switch args a b : (b = true <-> ~ given args a) <-> b = negb (cmdOptionExists args (bytes_of a)).
Proof.
  rewrite <- has_not. destruct (cmdOptionExists args (bytes_of a)), b; cbn; split; intros H; try reflexivity; try discriminate;
    try (split; congruence); destruct H as [H1 H2]; try (specialize (H1 eq_refl); congruence); try (specialize (H2 eq_refl); congruence).
Qed.
Lemma settings_iff w args cfg : settings w args cfg <-> encoder_config w args = Ok cfg.
Proof.
  unfold settings, encoder_config, cutoff_given. split.
  - intros (r & b & l & x & wv & ve & R & B & L & X & W & V & ->). apply option_int_iff in R, B, L. rewrite R, B, L. cbn [obind].
    apply switch in W, V. subst wv ve. destruct x as [x|].
    + destruct X as (G & X). apply option_exists in G. rewrite G, X. reflexivity.
    + apply has_not in X. rewrite X. reflexivity.
  - intros H. apply obind_inv in H as (r & R & H). apply obind_inv in H as (b & B & H). apply obind_inv in H as (l & L & H).
    apply obind_inv in H as (x & X & H). injection H as <-. apply option_int_iff in R, B, L.
    exists r, b, l, x, (negb (cmdOptionExists args (bytes_of "--disable-wavelet"))), (negb (cmdOptionExists args (bytes_of "--disable-vectorial"))).
    repeat (split; [first [assumption|apply switch; reflexivity|idtac]|]); [|reflexivity].
    destruct (cmdOptionExists args (bytes_of "-cf")) eqn:G.
    + apply obind_inv in X as (y & Y & X). injection X as <-. apply option_exists in G. split; assumption.
    + injection X as <-. apply has_not. exact G.
Qed.
Definition ts_of (o : option Z) : Z := match o with Some z => cast u32 z | None => 1000 end.
Lemma timescale_iff args ts : timescale_asked args ts <-> exists o, option_int args "-ts" = Ok o /\ ts = ts_of o.
Proof.
  unfold timescale_asked. split; intros (z & N & ->); exists z; split; try (apply option_int_iff; exact N); destruct z; reflexivity.
Qed.

(** The program for an input. *)
Lemma encoder_open w args f : input w args f -> encoder_main w args =
  do cfg <- encoder_config w args;
  do ts <- option_int args "-ts";
  do r <- encoder_input w cfg (ts_of ts) f;
  match r with
  | None => Ok (EXIT_FAILURE, [])
  | Some (codeExit, h) =>
      if codeExit =? EXIT_FAILURE then Ok (codeExit, [])
      else do c <- encoder_contents args (finish_experience args h); Ok (codeExit, written w (encoder_output args) c)
  end.
Proof.
  intros (N & C & R). apply has2_not in N. apply chosen_option in C as [D E]. unfold encoder_main. rewrite N. cbv zeta. rewrite E.
  destruct f as [|x l]; [congruence|]. rewrite R. reflexivity.
Qed.
Lemma ready w args f cfg ts : input w args f -> settings w args cfg -> timescale_asked args ts -> encoder_main w args =
  do r <- encoder_input w cfg ts f;
  match r with
  | None => Ok (EXIT_FAILURE, [])
  | Some (codeExit, h) =>
      if codeExit =? EXIT_FAILURE then Ok (codeExit, [])
      else do c <- encoder_contents args (finish_experience args h); Ok (codeExit, written w (encoder_output args) c)
  end.
Proof.
  intros I S T. apply settings_iff in S. apply timescale_iff in T as (o & O & ->). rewrite (encoder_open _ _ _ I), S. cbn [obind]. rewrite O. reflexivity.
Qed.
Lemma close w args h h' c name code : finished args h h' -> written_as args h' c -> output args name ->
  (do c <- encoder_contents args (finish_experience args h); Ok (code, written w (encoder_output args) c)) =
  Ok (code : Z, if w_writable w name then [(name, c)] else []).
Proof.
  intros F W O. apply finished_iff in F. apply output_iff in O. apply written_iff in W. subst. rewrite W. reflexivity.
Qed.

(** *** One file *)
Lemma not_ohm w cfg ts f p c q : converts w cfg ts f p c q -> str_eqb (getFileExt f) (bytes_of "ohm") = false.
Proof. intros [[E|E] _|[E|E] _|s E _ _]; (rewrite ext_iff in E by reflexivity); rewrite E; reflexivity. Qed.
Lemma one_file w args f cfg ts q h c name : input w args f -> settings w args cfg -> timescale_asked args ts ->
  converts w cfg ts f blank_perception 0 q -> finished args (with_perceptions ts [q]) h -> written_as args h c -> output args name ->
  encoder_main w args = Ok (0, if w_writable w name then [(name, c)] else []).
Proof.
  intros I S T C F W O. rewrite (ready _ _ _ _ _ I S T). unfold encoder_input. rewrite (not_ohm _ _ _ _ _ _ _ C). 
  change perception0 with blank_perception. rewrite (input_known _ _ _ _ _ _ _ C). cbn [obind Z.eqb EXIT_FAILURE].
  exact (close w args _ h c name 0 F W O).
Qed.
Lemma one_refused w args f cfg ts q : input w args f -> settings w args cfg -> timescale_asked args ts ->
  converts w cfg ts f blank_perception 1 q -> encoder_main w args = Ok (1, []).
Proof.
  intros I S T C. rewrite (ready _ _ _ _ _ I S T). unfold encoder_input. rewrite (not_ohm _ _ _ _ _ _ _ C).
  change perception0 with blank_perception. rewrite (input_known _ _ _ _ _ _ _ C). reflexivity.
Qed.
Lemma one_unknown w args f cfg ts : input w args f -> settings w args cfg -> timescale_asked args ts ->
  unknown_kind f -> ~ extension f "ohm" -> ~ extension f "hjif" -> encoder_main w args = Ok (1, []).
Proof.
  intros I S T U N1 N2. rewrite (ready _ _ _ _ _ I S T). unfold encoder_input.
  rewrite ext_iff in N1, N2 by reflexivity. rewrite (str_eqb_false _ _ N1), (str_eqb_false _ _ N2), (input_unknown _ _ _ _ _ U). reflexivity.
Qed.
Lemma no_input w args : ~ helped args -> (unchosen args "-f" "--file" \/ exists f, chosen args "-f" "--file" f /\ w_regular w f = false) ->
  encoder_main w args = Ok (1, []).
Proof.
  intros N H. apply has2_not in N. unfold encoder_main. rewrite N. cbv zeta. destruct H as [H|(f & H & R)].
  - apply unchosen_option in H. rewrite H. reflexivity.
  - apply chosen_option in H as [D E]. rewrite E. destruct f; [congruence|]. rewrite R. reflexivity.
Qed.

(** *** The status *)
Lemma input_status w cfg ts f c h : answers w -> encoder_input w cfg ts f = Ok (Some (c, h)) -> (c = -1 /\ extension f "hjif") \/ c = 0 \/ c = 1.
Proof.
  intros A. assert (K : forall f p c q, converts w cfg ts f p c q -> c = 0 \/ c = 1).
  { intros f' p c' q [_ H|_ H|s _ _ H]; apply (A f' p c' q ts); eauto. }
  unfold encoder_input. destruct (str_eqb (getFileExt f) (bytes_of "ohm")).
  - destruct (ToolsModel.loadFile _ _) as [[|] o]; [|discriminate]. intros H. apply obind_inv in H as (h1 & _ & H). cbv zeta in H.
    apply obind_inv in H as ([c' ps] & H & R). injection R as <- <-. right.
    assert (G : forall ls i c0 ps c1 ps1, c0 = 0 \/ c0 = 1 -> encode_elements w cfg ts f i ls c0 ps = Ok (c1, ps1) -> c1 = 0 \/ c1 = 1).
    { induction ls as [|l ls IH]; intros i c0 qs c1 qs1 H0 H1; cbn [encode_elements] in H1.
      - congruence.
      - destruct (c0 =? EXIT_SUCCESS) eqn:Z0; [|congruence]. destruct (w_regular w _); [|injection H1 as <- <-; right; reflexivity].
        destruct (nth_error qs i) as [p|]; [|discriminate H1]. apply obind_inv in H1 as (r & Hr & H1). apply input_cases in Hr.
        destruct r as [[c2 q]|]; [apply K in Hr; exact (IH _ _ _ _ _ Hr H1)|exact (IH _ _ _ _ _ H0 H1)]. }
    revert H. apply G. destruct (Nat.eqb _ _); [left|right]; reflexivity.
  - intros H. apply obind_inv in H as (r & Hr & H). apply input_cases in Hr. destruct r as [[c' q]|].
    + injection H as <- <-. right. exact (K _ _ _ _ Hr).
    + destruct (str_eqb (getFileExt f) (bytes_of "hjif")) eqn:E.
      * apply obind_inv in H as ([b h1] & _ & H). injection H as <- <-. left. split; [reflexivity|]. ext. apply str_eqb_iff. exact E.
      * injection H as <- <-. right. right. reflexivity.
Qed.
Lemma status w args f code out name : answers w -> input w args f -> output args name -> encoder_main w args = Ok (code, out) ->
  (code = 1 /\ out = []) \/
  ((code = 0 \/ code = -1 /\ extension f "hjif") /\ exists c, out = if w_writable w name then [(name, c)] else []).
Proof.
  intros A I O H. rewrite (encoder_open _ _ _ I) in H. apply obind_inv in H as (cfg & _ & H). apply obind_inv in H as (ts & _ & H).
  apply obind_inv in H as (r & R & H). destruct r as [[c h]|]; [|injection H as <- <-; left; split; reflexivity].
  apply input_status in R; [|exact A]. destruct (c =? EXIT_FAILURE) eqn:C.
  - injection H as <- <-. apply Z.eqb_eq in C. left. split; [exact C|reflexivity].
  - apply Z.eqb_neq in C. apply obind_inv in H as (x & _ & H). injection H as <- <-. right. apply output_iff in O. subst name.
    split; [unfold EXIT_FAILURE in C; tauto|]. exists x. reflexivity.
Qed.
Lemma hjif_status w args f code out : input w args f -> extension f "hjif" -> encoder_main w args = Ok (code, out) -> code = -1.
Proof.
  intros I E H. rewrite (encoder_open _ _ _ I) in H. apply obind_inv in H as (cfg & _ & H). apply obind_inv in H as (ts & _ & H).
  apply obind_inv in H as (r & R & H). rewrite ext_iff in E by reflexivity.
  assert (U : encode_input w cfg (ts_of ts) f perception0 = Ok None) by (unfold encode_input; rewrite E; reflexivity).
  unfold encoder_input in R. rewrite U, E in R. 
  change (str_eqb (bytes_of "hjif") (bytes_of "ohm")) with false in R. change (str_eqb (bytes_of "hjif") (bytes_of "hjif")) with true in R. cbv iota zeta in R. cbn [obind] in R.
  apply obind_inv in R as ([b h] & _ & R). injection R as <-. cbn [Z.eqb EXIT_FAILURE] in H. apply obind_inv in H as (x & _ & H). injection H as <- _. reflexivity.
Qed.
Lemma elements_read_only w cfg ts f ls : forall i c ps, encode_elements (read_only w) cfg ts f i ls c ps = encode_elements w cfg ts f i ls c ps.
Proof.
  induction ls as [|l ls IH]; intros i c ps; [reflexivity|]. cbn [encode_elements]. destruct (c =? EXIT_SUCCESS); [|reflexivity].
  change (w_sibling (read_only w)) with (w_sibling w). change (w_regular (read_only w)) with (w_regular w).
  destruct (w_regular w _); [|reflexivity]. destruct (nth_error ps i); [|reflexivity].
  change (encode_input (read_only w)) with (encode_input w). destruct (encode_input w cfg ts _ _) as [[[c' q]|]| | |]; try reflexivity; cbn [obind]; apply IH.
Qed.
Lemma input_read_only w cfg ts f : encoder_input (read_only w) cfg ts f = encoder_input w cfg ts f.
Proof.
  unfold encoder_input. change (encode_input (read_only w)) with (encode_input w). change (w_hjif (read_only w)) with (w_hjif w).
  change (w_bytes (read_only w)) with (w_bytes w). change (w_now (read_only w)) with (w_now w).
  destruct (str_eqb _ _); [|reflexivity]. destruct (ToolsModel.loadFile _ _) as [[|] o]; [|reflexivity].
  destruct (loadMetadataFromOHM _ _ _); try reflexivity. cbn [obind]. cbv zeta. rewrite elements_read_only. reflexivity.
Qed.
Lemma unwritable w args code out : encoder_main w args = Ok (code, out) -> encoder_main (read_only w) args = Ok (code, []).
Proof.
  unfold encoder_main. destruct (has2 args "-h" "--help"); [intros H; injection H as <- <-; reflexivity|]. cbv zeta.
  change (w_regular (read_only w)) with (w_regular w). destruct (negb _); [intros H; injection H as <- <-; reflexivity|].
  change (encoder_config (read_only w)) with (encoder_config w). intros H.
  apply obind_inv in H as (cfg & -> & H). apply obind_inv in H as (ts & -> & H). cbn [obind]. rewrite input_read_only.
  apply obind_inv in H as (r & -> & H). cbn [obind]. destruct r as [[c h]|]; [|injection H as <- <-; reflexivity].
  destruct (c =? EXIT_FAILURE); [injection H as <- <-; reflexivity|]. apply obind_inv in H as (x & -> & H). injection H as <- <-. reflexivity.
Qed.
