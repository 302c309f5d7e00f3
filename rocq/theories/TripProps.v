(** Property C57: a stream that is written and read. *)
From Coq Require Import Strings.String Sorting.Sorted Sorting.Permutation.
From Verif Require Import Base BitsModel FloatBase FloatModel TypesModel TypesSpec MetaModel BandModel DataModel CrcModel
  StreamModel MetaSpec MetaProof DataSpec DataProof MergeProof DataTop SemanticModel ExampleTac DataProps UnitSpec UnitProof StreamSpec TripSpec TripProof.
Local Open Scope string_scope.
Local Open Scope Z_scope.
Local Open Scope list_scope.

(** ** C57 *)
(** An experience that is written as a stream and read again is restored: every perception, channel and band in its place, and every
    effect and keyframe in its band at its time. *)
Theorem C57_round_trip : forall fuel n pd h, 0 < pd < 2 ^ 24 -> streamable known_semantic pd h -> fits fuel pd h ->
  2 ^ 24 <= Z.of_nat fuel * pd -> Forall (fun p => (library_depth (p_library p) <= n)%nat) (h_perceptions h) ->
  exists file h', writeStream fuel pd h = Ok file /\ readStream n file = Ok h' /\ back h h'.
Proof. exact round_trip. Qed.
Print Assumptions C57_round_trip.

(** Two perceptions, three channels, four bands of three types, a library, an avatar. *)
Definition ex_kf (p f : Z) : keyframe := Keyframe (Some p) (Some ex_one) (Some f).
Definition ex_trip_h : haptics :=
  Haptics (bytes_of "2022") (bytes_of "Main") 2 (bytes_of "today") [233]
    [ Perception 1 3 (bytes_of "touch") (Some 4) None 6
        [ Channel 2 (bytes_of "left") ex_one ex_one 1 [0; 7] [Band CurveB (Some 2) (Some 0) 0 1000
            [ex_e 4 0 [0; 150; 400]; Effect 9 450 None None [] None ReferenceE [] [] []; ex_e (-1) 500 [7; 7; 65535]] None;
            Band TransientB None (Some 0) 0 1000 [Effect (-1) 120 None None [ex_kf 0 40; ex_kf 3 50] None BasisE [] [] []] (Some 3)]
            None None None None None None None None;
          Channel 5 [] ex_one ex_one 1 [] [Band VectorialB None (Some 0) 20 300
            [Effect (-1) 120 (Some ex_one) None [Keyframe (Some 0) None (Some 12); ex_kf 199 40] (Some 2) BasisE [] [] []] None]
            (Some 1) (Some 2) (Some 8000) (Some 12) None None None None ]
        [] (Some (-3)) None [Effect 9 0 None None [Keyframe (Some 0) (Some ex_one) (Some 40)] None BasisE [] [] []];
      Perception 2 3 [] None None 0 [Channel 1 [] ex_one ex_one 1 [] [Band CurveB (Some 0) (Some 0) 0 500 [ex_e (-1) 777 [1; 2]] None]
        None None None None None None None None] [] None None [] ]
    [Avatar 3 0 1 None] None [].
Lemma ex_trip_packets : fits (Z.to_nat 167773) 100 ex_trip_h.
Proof.
  split.
  - intros init w H.
    assert (C : match writeInitPackets (SWriter ex_trip_h 0 (value_or (h_timescale ex_trip_h) 1000)) with
      | Ok (i, _) => forallb (fun p => vec_size p <? 2 ^ 20) i && (vec_size (concat i) <? 2 ^ 30) | _ => false end = true) by (vm_compute; reflexivity).
    rewrite H in C. apply andb_true_iff in C. destruct C as [C1 C2]. split; [|lia].
    apply Forall_forall. intros p Hp. rewrite forallb_forall in C1. specialize (C1 p Hp). lia.
  - intros ds H.
    assert (C : match writeData (Z.to_nat 167773) 100 ex_trip_h with
      | Ok i => forallb (fun p => vec_size p <=? 2 ^ 20) i && (vec_size (concat i) <? 2 ^ 30) | _ => false end = true) by (vm_compute; reflexivity).
    rewrite H in C. apply andb_true_iff in C. destruct C as [C1 C2]. split; [|lia].
    apply Forall_forall. intros p Hp. rewrite forallb_forall in C1. specialize (C1 p Hp). lia.
Qed.
Lemma no_boundary pd l : forallb (fun e => negb (e_type e =? ReferenceE)) (match rev l with [] => [] | e :: _ => [e] end) = true -> not_ending_on_boundary pd l.
Proof.
  intros H a e Ea Hty. exfalso. subst l. rewrite rev_app_distr in H. cbn in H. rewrite Hty in H. discriminate H.
Qed.
Ltac ex_any_effect :=
  cbv beta; unfold effect_data_ok, ex_e, ex_k, ex_kf, kf_data_ok;
  cbn [b_type b_effects map e_pos e_type e_kfs e_semantic e_phase e_base e_id k_pos k_amp k_freq];
  split; [small|]; first [right; reflexivity | left; split; [reflexivity|]; split; [discriminate|]; split;
    [repeat (apply Forall_cons; [cbn [k_pos k_amp k_freq]; split; [eexists; split; [reflexivity|small]|split; [small|split; [small|split; intros C; first [discriminate C|split; first [discriminate|reflexivity]]]]]|]); apply Forall_nil|small]].
Ltac ex_band_ok := unfold band_streamable, in_sequence; split;
  [unfold band_ok; cbn; small|split; [unfold data_band; cbn; auto|split; [discriminate|split; [repeat (apply Forall_cons; [ex_any_effect|]); apply Forall_nil|split;
    [cbn; repeat constructor; cbn; lia|split; [cbn; repeat (constructor; [|repeat (constructor; try lia)]); constructor|split;
      [apply no_boundary; reflexivity|cbn; repeat (constructor; [cbn; intuition discriminate|]); constructor]]]]]]].
Ltac ex_channel_ok := unfold channel_streamable; split; [unfold channel_ok, location_ok; cbn; small|split; [discriminate|cbn; repeat (apply Forall_cons; [ex_band_ok|]); apply Forall_nil]].
Example C57_hyps : 0 < 100 < 2 ^ 24 /\ streamable known_semantic 100 ex_trip_h /\ fits (Z.to_nat 167773) 100 ex_trip_h /\
  2 ^ 24 <= Z.of_nat (Z.to_nat 167773) * 100 /\ Forall (fun p => (library_depth (p_library p) <= 2)%nat) (h_perceptions ex_trip_h).
Proof.
  split; [lia|]. split; [|split; [exact ex_trip_packets|split; [vm_compute; discriminate|cbn; repeat constructor]]].
  unfold streamable. do 5 (split; [cbn; small|]). split; [cbn; small; unfold avatar_ok; cbn; small|]. split; [cbn; lia|].
  split; [cbn; small|]. split; [cbn; lia|]. split; [discriminate|]. split.
  { unfold ex_trip_h. cbn [h_perceptions]. repeat (apply Forall_cons; [unfold perception_streamable; cbn [p_library p_modality p_channels];
      split; [unfold perception_ok; cbn; small|split; [small|split; [reflexivity|split; [reflexivity|split; [discriminate|repeat (apply Forall_cons; [ex_channel_ok|]); apply Forall_nil]]]]]|]).
    apply Forall_nil. }
  split; [cbn; repeat (constructor; [cbn; intuition discriminate|]); constructor|].
  split; [cbn; repeat (constructor; [cbn; intuition discriminate|]); constructor|].
  split; [vm_compute; discriminate|]. split; [reflexivity|].
  split; [cbn; repeat (constructor; [cbn; lia|]); constructor|]. cbn. repeat (constructor; [lia|]). constructor.
Qed.
