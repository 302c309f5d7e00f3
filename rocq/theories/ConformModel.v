(** The conformance checker of interchange files: IOHaptics/src/IOJson.cpp 83-588.  No proofs in this file.
    Messages to [std::cerr] are not modelled, except for the table lookups they contain (which may throw). *)
From Coq Require Import String Ascii.
From Verif Require Import Base BitsModel FloatBase FloatModel TypesModel SemanticModel ToolsModel.
Local Open Scope Z_scope.

(** *** Regular expressions *)

(** The fragment of ECMAScript expressions used: one character out of a set, sequence, optional part, repetition of
    a set, end of the text. *)
Inductive re : Type :=
| RSet (p : Z -> bool)
| RSeq (a b : re)
| ROpt (a : re)
| RStar (p : Z -> bool)
| REnd.
(** Greedy matching with backtracking: [k] is what must follow. *)
Fixpoint star {A} (p : Z -> bool) (s : str) (k : str -> option A) : option A :=
  match s with
  | [] => k []
  | c :: s' => if p c then match star p s' k with Some x => Some x | None => k s end else k s
  end.
Fixpoint rmatch {A} (r : re) (s : str) (k : str -> option A) : option A :=
  match r with
  | RSet p => match s with c :: s' => if p c then k s' else None | [] => None end
  | RSeq a b => rmatch a s (fun s' => rmatch b s' k)
  | ROpt a => match rmatch a s k with Some x => Some x | None => k s end
  | RStar p => star p s k
  | REnd => match s with [] => k s | _ :: _ => None end
  end.
(** [regex_search] with an expression that starts with [^]: the matched text ([pieces_match[0]]).  ([^] and [$] only
    match at the ends of the text: the multiline option is not set.) *)
Definition search_start (r : re) (s : str) : option str :=
  match rmatch r s Some with Some rest => Some (firstn (length s - length rest) s) | None => None end.
(** [regex_search] in general: whether there is a match anywhere. *)
Fixpoint search (r : re) (s : str) : bool :=
  match rmatch r s Some with
  | Some _ => true
  | None => match s with [] => false | _ :: s' => search r s' end
  end.

Definition ch (s : string) : Z := match s with String c _ => Z.of_N (N_of_ascii c) | EmptyString => 0 end.
Definition one_of (s : string) (c : Z) : bool := existsb (Z.eqb c) (bytes_of s).
Definition none_of (s : string) (c : Z) : bool := negb (one_of s c).
(** The character class [a-b]. *)
Definition within (a b : string) (c : Z) : bool := (ch a <=? c) && (c <=? ch b).
(** [.]: anything but a line terminator. *)
Definition any (c : Z) : bool := negb ((c =? 10) || (c =? 13)).
Fixpoint rseq (l : list re) : re :=
  match l with [] => ROpt REnd | [r] => r | r :: l' => RSeq r (rseq l') end.
Definition rc (s : string) : re := RSet (one_of s).
Definition rplus (p : Z -> bool) : re := RSeq (RSet p) (RStar p).
Definition digit : Z -> bool := within "0" "9".
Definition rd : re := RSet digit.
Definition r01 : re := RSet (within "0" "1").
Definition r02 : re := RSet (within "0" "2").
Definition r03 : re := RSet (within "0" "3").
Definition r05 : re := RSet (within "0" "5").

(** IOJson.cpp 83-93: URICheck.  The expression, as it stands in the code, is an optional group (none of [:/?#], then
    [:]), an optional group ([//], none of [/?#]), none of [?#], an optional group ([?], none of [#]) and an optional
    group ([#], anything). *)
Definition uri_re : re :=
  rseq [ROpt (RSeq (rplus (none_of ":/?#")) (rc ":"));
        ROpt (rseq [rc "/"; rc "/"; RStar (none_of "/?#")]);
        RStar (none_of "?#");
        ROpt (RSeq (rc "?") (RStar (none_of "#")));
        ROpt (RSeq (rc "#") (RStar any))].
Definition URICheck (uri : str) : bool :=
  match search_start uri_re uri with
  | Some m => negb (str_eqb m [])
  | None => false
  end.

(** IOJson.cpp 95-106: dateCheck.  [+-]?[0-9]{4}, then optionally a month, then optionally a day, then optionally a
    time with a zone. *)
Definition date_re : re :=
  let hms := rseq [rc "T"; r02; rd; rc ":"; r05; rd; ROpt (rc ":");
                   ROpt (rseq [r05; rd; ROpt (RSeq (RSet any) (rplus digit))]);
                   rc "+-"; r02; rd; rc ":"; r05; rd; ROpt (rc "Z")] in
  let day := rseq [rc "-"; r03; rd; ROpt hms] in
  let month := rseq [rc "-"; r01; rd; ROpt day] in
  rseq [ROpt (rc "+-"); rd; rd; rd; rd; ROpt month].
Definition dateCheck (date : str) : bool := search date_re date.

(** [atoi] of a text of digits. *)
Definition atoi (s : str) : Z := fold_left (fun v c => 10 * v + (c - 48)) s 0.
(** IOJson.cpp 108-159: versionCheck.  The expression is ^([0-9]{4})(-([0-9]))?$, so the first piece is the first four
    characters and the third the character after the hyphen, or empty. *)
Definition version_re : re := rseq [rd; rd; rd; rd; ROpt (RSeq (rc "-") rd); REnd].
Definition MIN_VERSION_YEAR := 2023.
Definition versionCheck (version : str) : bool :=
  match search_start version_re version with
  | None => false
  | Some _ =>
      let piece1 := firstn 4 version in
      let piece3 := skipn 5 version in
      if isNumber piece1 then
        if atoi piece1 <? MIN_VERSION_YEAR then false
        else if negb (str_eqb piece3 []) then
          if isNumber piece3 then negb (atoi piece3 <=? 0) else false
        else true
      else false
  end.

(** *** The checks *)

(** [conformant &= check] for every element, in order: nothing is skipped, so an exception or undefined behaviour in
    any of them is the result. *)
Fixpoint check_all {A} (check : A -> outcome bool) (l : list A) : outcome bool :=
  match l with
  | [] => Ok true
  | x :: l' => do b <- check x; do r <- check_all check l'; Ok (b && r)
  end.
(** The number of elements with an id. *)
Definition instances {A} (id : A -> Z) (i : Z) (l : list A) : nat := length (filter (fun x => id x =? i) l).
Definition unique {A} (id : A -> Z) (i : Z) (l : list A) : bool := Nat.leb (instances id i l) 1.
Definition has_id {A} (id : A -> Z) (i : Z) (l : list A) : bool := existsb (fun x => id x =? i) l.
Definition is_some {A} (o : option A) : bool := match o with Some _ => true | None => false end.

(** "Main" and "Simple Parametric". *)
Definition MAIN : str := bytes_of "Main".
Definition SIMPLE : str := bytes_of "Simple Parametric".
Definition is_simple (h : haptics) : bool := str_eqb (h_profile h) SIMPLE.
(** IOJson.h 95-103. *)
Definition MAX_TIMESCALE_PARAMETRIC := 1000.
Definition MAX_TIMESCALE_MAIN := 48000.
Definition MAX_CHANNELS_LEVEL1 := 127.
Definition MAX_CHANNELS_LEVEL2 := 65535.
Definition MAX_BANDS_LEVEL1 := 7.
Definition MAX_BANDS_LEVEL2 := 63.
Definition VECTOR_RANGE : f32 := @B754_finite 24 128 false 16646144 (-17) eq_refl.
Definition MIN_UNIT_VECTOR_NORM : f32 := @B754_finite 24 128 false 16609444 (-24) eq_refl.
Definition MAX_UNIT_VECTOR_NORM : f32 := @B754_finite 24 128 false 8472494 (-23) eq_refl.

(** Perception.h 46-61. *)
Definition VibrotactileM := 6.
Definition ForceM := 9.
Definition VibrotactileTextureM := 10.
Definition StiffnessM := 11.

(** IOJson.cpp 208-233: semanticConformanceCheckAvatar. *)
Definition checkAvatar (h : haptics) (a : avatar) : outcome bool :=
  Ok (negb (a_id a =? 0) && unique a_id (a_id a) (h_avatars h) &&
      match a_mesh a with Some m => URICheck m | None => true end).

(** IOJson.cpp 321-366: semanticConformanceCheckReferenceDevice. *)
Definition below (a b : option f32) : bool := match a, b with Some x, Some y => flt x y | _, _ => false end.
Definition checkDevice (p : perception) (d : device) : outcome bool :=
  Ok (unique d_id (d_id d) (p_devices p) && negb (below (d_maxf d) (d_minf d)) && negb (below (d_resf d) (d_minf d)) &&
      negb (below (d_maxf d) (d_resf d))).

(** IOJson.cpp 512-561: semanticConformanceCheckEffect.  The message for a reference that is not found looks the name
    of the band type up. *)
Definition valid_band_type (t : Z) : bool := (0 <=? t) && (t <=? 3).
Definition checkEffect (h : haptics) (p : perception) (b : band) (e : effect) : outcome bool :=
  let simple := negb (is_simple h && (e_type e =? CompositeE)) in
  let keyframes := negb ((b_type b =? WaveletB) && negb (Nat.eqb (length (e_kfs e)) 0)) in
  do reference <-
    (if e_type e =? ReferenceE then
       if has_id e_id (e_id e) (p_library p) then Ok true
       else if valid_band_type (b_type b) then Ok false else Throw
     else Ok true);
  let semantic :=
    match e_semantic e with
    | Some s =>
        negb ((negb (is_some (p_scheme p)) || match p_scheme p with Some u => str_eqb u DEFAULT_SEMANTIC_SCHEME | None => false end) &&
              negb (existsb (fun x => str_eqb s (fst x)) semantic_table))
    | None => true
    end in
  Ok (simple && keyframes && reference && semantic).

(** IOJson.cpp 562-588: semanticConformanceCheckLibraryEffect. *)
Definition checkLibraryEffect (h : haptics) (p : perception) (e : effect) : outcome bool :=
  Ok (negb (is_simple h && (e_type e =? CompositeE)) && unique e_id (e_id e) (p_library p)).

(** IOJson.cpp 471-511: semanticConformanceCheckBand. *)
Definition checkBand (h : haptics) (p : perception) (b : band) : outcome bool :=
  let curve := negb (negb (b_type b =? CurveB) && is_some (b_curve b)) in
  do block <- (if b_type b =? WaveletB then isPowerOfTwo (value_or (b_block b) 0) else Ok true);
  let simple := negb (is_simple h && (b_type b =? WaveletB)) in
  let limits := negb (b_up b <? b_low b) in
  do effects <- check_all (checkEffect h p b) (b_effects b);
  Ok (curve && block && simple && limits && effects).

(** IOJson.cpp 401-413: whether the direction is nearly a unit vector.  The squares of [pow] are taken in [double], where
    they are exact. *)
Definition coordinate (z : Z) : f64 := f64_of_f32 (div32 (f32_of_Z z) VECTOR_RANGE).
Definition norm (v : vector) : f64 :=
  Bsqrt mode_NE (add64 (add64 (mul64 (coordinate (vx v)) (coordinate (vx v))) (mul64 (coordinate (vy v)) (coordinate (vy v))))
                   (mul64 (coordinate (vz v)) (coordinate (vz v)))).
Definition unitary (v : vector) : bool :=
  negb (flt (norm v) (f64_of_f32 MIN_UNIT_VECTOR_NORM) || flt (f64_of_f32 MAX_UNIT_VECTOR_NORM) (norm v)).
(** IOJson.cpp 434-462: the actuator resolution and targets. *)
Definition inside (r t : vector) : bool :=
  negb ((vx t <? 0) || (vx r <? vx t) || (vy t <? 0) || (vy r <? vy t) || (vz t <? 0) || (vz r <? vz t)).
Definition checkActuators (c : channel) : bool :=
  match c_res c with
  | Some r =>
      negb ((vx r <? 0) || (vy r <? 0) || (vz r <? 0)) &&
      match c_target c with Some l => forallb (inside r) l | None => true end
  | None => negb (is_some (c_target c))
  end.
(** IOJson.cpp 368-470: semanticConformanceCheckChannel. *)
Definition checkChannel (h : haptics) (p : perception) (c : channel) : outcome bool :=
  let ids := unique c_id (c_id c) (p_channels p) in
  let reference := match c_device c with Some i => has_id d_id i (p_devices p) | None => true end in
  let direction := match c_dir c with Some v => unitary v | None => true end in
  let count := negb ((h_level h =? 1) && (MAX_BANDS_LEVEL1 <? vec_size (c_bands c))) &&
               negb (negb (h_level h =? 1) && (h_level h =? 2) && (MAX_BANDS_LEVEL2 <? vec_size (c_bands c))) in
  do bands <- check_all (checkBand h p) (c_bands c);
  Ok (ids && reference && direction && count && checkActuators c && bands).

(** IOJson.cpp 235-320: semanticConformanceCheckPerception.  The message for a modality that is not allowed looks its
    name up; a declared semantic scheme is always an error (280-284). *)
Definition valid_modality (m : Z) : bool := (0 <=? m) && (m <=? 13).
Definition checkPerception (h : haptics) (p : perception) : outcome bool :=
  let ids := unique p_id (p_id p) (h_perceptions h) in
  do modality <-
    (if is_simple h && (h_level h =? 1) then
       if (p_modality p =? ForceM) || (p_modality p =? VibrotactileM) || (p_modality p =? StiffnessM) ||
          (p_modality p =? VibrotactileTextureM) then Ok true
       else if valid_modality (p_modality p) then Ok false else Throw
     else Ok true);
  let avatar := negb (negb (p_avatar p =? 0) && negb (has_id a_id (p_avatar p) (h_avatars h))) in
  let scheme := negb (is_some (p_scheme p)) in
  let count := negb ((h_level h =? 1) && (MAX_CHANNELS_LEVEL1 <? vec_size (p_channels p))) &&
               negb (negb (h_level h =? 1) && (h_level h =? 2) && (MAX_CHANNELS_LEVEL2 <? vec_size (p_channels p))) in
  do devices <- check_all (checkDevice p) (p_devices p);
  do channels <- check_all (checkChannel h p) (p_channels p);
  do effects <- check_all (checkLibraryEffect h p) (p_library p);
  Ok (ids && modality && avatar && scheme && count && devices && channels && effects).

(** IOJson.cpp 161-207: semanticConformanceCheckExperience. *)
Definition checkExperience (h : haptics) : outcome bool :=
  let profile := str_eqb (h_profile h) MAIN || is_simple h in
  let level := (h_level h =? 1) || (h_level h =? 2) in
  let timescale :=
    match h_timescale h with
    | Some t =>
        if is_simple h && negb (t =? MAX_TIMESCALE_PARAMETRIC) then false
        else negb (str_eqb (h_profile h) MAIN && (MAX_TIMESCALE_MAIN <? t))
    | None => true
    end in
  do avatars <- check_all (checkAvatar h) (h_avatars h);
  do perceptions <- check_all (checkPerception h) (h_perceptions h);
  Ok (versionCheck (h_version h) && profile && level && dateCheck (h_date h) && timescale && avatars && perceptions).
