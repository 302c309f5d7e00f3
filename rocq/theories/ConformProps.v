(** What the conformance checker accepts. *)
From Coq Require Import String.
From Verif Require Import Base BitsModel FloatBase FloatModel TypesModel SemanticModel ConformModel ConformSpec ConformUnit ConformProof.
Local Open Scope Z_scope.

(** *** C42: the checker accepts exactly the conformant experiences, and always answers *)
Theorem C42_conformance h : dirs_typed h -> blocks_typed h -> checkExperience h = Ok true <-> conforms h.
Proof. exact (conformance h). Qed.
Print Assumptions C42_conformance.
Theorem C42_answers h : blocks_typed h -> enums_valid h -> exists r, checkExperience h = Ok r.
Proof. exact (conformance_total h). Qed.
Print Assumptions C42_answers.

Definition f32_100 : f32 := f32_of_Z 100.
Definition cx_reference := Effect 7 0 None (Some (bytes_of "UX/Click")) [] None ReferenceE [] [] [].
Definition cx_basis (i : Z) := Effect i 250 None None [Keyframe (Some 0) (Some f32_100) None] (Some 0) BasisE [] [] [].
Definition cx_curve := Band CurveB (Some 3) None 0 1000 [cx_basis 1; cx_reference] None.
Definition cx_wavelet := Band WaveletB None (Some 512) 100 1000 [Effect 1 0 None None [] None BasisE [] [] []] None.
Definition cx_channel :=
  Channel 4 [] f32_100 f32_100 1 [] [cx_curve; cx_wavelet] None (Some 2) None None (Some (Vec 90 (-90) 0)) (Some (Vec 2 3 1)) None
    (Some [Vec 0 3 1]).
Definition cx_device := Device 2 [] None (Some f32_100) (Some (f32_of_Z 10)) (Some (f32_of_Z 50)) None None None None None None None None None.
Definition cx_perception := Perception 1 9 [] None None 5 [cx_channel] [cx_device] None None [cx_basis 7].
Definition cx_experience := Haptics (bytes_of "2023-1") (bytes_of "Main") 2 (bytes_of "2024-02-30") [] [cx_perception]
  [Avatar 9 1 0 (Some (bytes_of "https://example.org/mesh"))] (Some 8000) [].
Example C42_hyps : dirs_typed cx_experience /\ blocks_typed cx_experience /\ enums_valid cx_experience.
Proof.
  split; [|split; [|split]].
  - intros p c v [<-|[]] [<-|[]] E. injection E as <-. vm_compute. intuition discriminate.
  - intros p c b n [<-|[]] [<-|[]] [<-|[<-|[]]] E; [discriminate E|]. injection E as <-. vm_compute. intuition discriminate.
  - intros p [<-|[]]. vm_compute. intuition discriminate.
  - intros p c b [<-|[]] [<-|[]] [<-|[<-|[]]]; (split; [vm_compute; intuition discriminate|discriminate]).
Qed.
Example C42_accepts : checkExperience cx_experience = Ok true.
Proof. vm_compute. reflexivity. Qed.

(** *** C77: a perception may declare a semantic scheme - refuted: none is accepted, not even the standard one *)
Theorem C77_scheme_refuted h p u : In p (h_perceptions h) -> p_scheme p = Some u -> checkExperience h <> Ok true.
Proof. exact (scheme_rejected h p u). Qed.
Print Assumptions C77_scheme_refuted.
Example C77_hyps : exists h p u, In p (h_perceptions h) /\ p_scheme p = Some u /\ u = bytes_of "urn:mpeg:mpegi:haptics:effectsemantic:2023".
Proof.
  exists (Haptics [] [] 1 [] [] [Perception 1 0 [] None (Some (bytes_of "urn:mpeg:mpegi:haptics:effectsemantic:2023")) 5 [] [] None None []] [] None []).
  eexists. eexists. split; [left; reflexivity|]. split; reflexivity.
Qed.

(** *** C78: only dates and URIs are accepted as such - refuted: four digits anywhere make a date, any text is a URI *)
Theorem C78_date_refuted s : dateCheck s = true <-> has_four_digits s.
Proof. exact (date_ok s). Qed.
Print Assumptions C78_date_refuted.
Theorem C78_uri_refuted s : URICheck s = true <-> s <> [].
Proof. exact (uri_ok s). Qed.
Print Assumptions C78_uri_refuted.
Theorem C78_version s : versionCheck s = true <-> valid_version s.
Proof. exact (version_ok s). Qed.
Print Assumptions C78_version.
Example C78_date_value : dateCheck (bytes_of "room 1234, never") = true /\ URICheck (bytes_of " <not a uri> ") = true.
Proof. split; vm_compute; reflexivity. Qed.

(** *** C79: every reference in an accepted experience has its effect - refuted inside composite effects and in the library *)
Definition cx_dangling (band_effects library : list effect) : haptics :=
  Haptics (bytes_of "2023") (bytes_of "Main") 1 (bytes_of "2024") []
    [Perception 1 0 [] None None 5 [Channel 0 [] f32_100 f32_100 0 [] [Band TransientB None None 0 1000 band_effects None] None None None None None None None None]
       [] None None library] [] (Some 1000) [].
Theorem C79_nested_refuted : exists h p c b e r,
  checkExperience h = Ok true /\ In p (h_perceptions h) /\ In c (p_channels p) /\ In b (c_bands c) /\ In e (b_effects b) /\
  In r (e_timeline e) /\ e_type r = ReferenceE /\ forall l, In l (p_library p) -> e_id l <> e_id r.
Proof.
  exists (cx_dangling [Effect 1 0 None None [] None CompositeE [cx_reference] [] []] []). do 5 eexists.
  split; [vm_compute; reflexivity|]. do 5 (split; [left; reflexivity|]). split; [reflexivity|intros l []].
Qed.
Print Assumptions C79_nested_refuted.
Theorem C79_library_refuted : exists h p c b e,
  checkExperience h = Ok true /\ In p (h_perceptions h) /\ In c (p_channels p) /\ In b (c_bands c) /\ In e (b_effects b) /\
  e_type e = ReferenceE /\ forall l, In l (p_library p) -> e_type l = ReferenceE.
Proof.
  exists (cx_dangling [cx_reference] [cx_reference]). do 4 eexists.
  split; [vm_compute; reflexivity|]. do 4 (split; [left; reflexivity|]). split; [reflexivity|intros l [<-|[]]; reflexivity].
Qed.
Print Assumptions C79_library_refuted.
(** Directly in a band, every reference has its effect. *)
Theorem C79_band h p c b e : dirs_typed h -> blocks_typed h -> checkExperience h = Ok true ->
  In p (h_perceptions h) -> In c (p_channels p) -> In b (c_bands c) -> In e (b_effects b) -> e_type e = ReferenceE ->
  exists l, In l (p_library p) /\ e_id l = e_id e.
Proof. exact (band_reference h p c b e). Qed.
Print Assumptions C79_band.
Example C79_hyps : checkExperience cx_experience = Ok true /\ e_type cx_reference = ReferenceE /\ In cx_reference (b_effects cx_curve).
Proof. split; [vm_compute; reflexivity|]. split; [reflexivity|]. right. left. reflexivity. Qed.
