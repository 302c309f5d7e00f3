(** Import of IVS files: source/Encoder/src/IvsEncoder.cpp and source/Encoder/include/IvsEncoder.h.  No proofs in this file.
    An XML document stands for what the getters (IvsEncoder.cpp 224-405) see of it: an attribute that is absent
    is [None], an integer attribute is the number [as_int] gives (pugixml is trusted).  Sums and products of
    times in milliseconds are assumed not to overflow [int]. *)
From Coq Require Import Strings.String.
From Verif Require Import Base FloatBase FloatModel TypesModel ToolsModel SynthModel SemanticModel.
Local Open Scope Z_scope.
Local Open Scope list_scope.

(** The attributes of a "basis-effect". *)
Record basis := Basis {
  ba_name : str;
  ba_type : str;
  ba_waveform : str;
  ba_duration : option Z;
  ba_magnitude : option Z;
  ba_period : option Z;
  ba_attack_time : option Z;
  ba_attack_level : option Z;
  ba_fade_time : option Z;
  ba_fade_level : option Z
}.
(** The attributes of a "launch-event". *)
Record launch := Launch {
  la_effect : str;
  la_time : option Z;
  la_duration : option Z;   (* duration-override *)
  la_magnitude : option Z;  (* magnitude-override *)
  la_period : option Z      (* period-override *)
}.
(** The attributes of a "repeat-event". *)
Record repeat_event := Repeat { re_time : option Z; re_duration : option Z; re_count : option Z }.
(** A "timeline-effect". *)
Record timeline_effect := Timeline { te_name : str; te_launches : list launch; te_repeats : list repeat_event }.
(** A document. *)
Record ivs := Ivs { iv_modified : str; iv_basis : list basis; iv_timelines : list timeline_effect }.

(** getTime, getDuration and getCount: IvsEncoder.cpp 281-306. *)
Definition launch_time (l : launch) : Z := value_or (la_time l) (-1).
Definition repeat_time (r : repeat_event) : Z := value_or (re_time r) (-1).
Definition repeat_duration (r : repeat_event) : Z := value_or (re_duration r) (-1).
Definition repeat_count (r : repeat_event) : Z := value_or (re_count r) 0.
(** getDuration and getMagnitude of a launched effect: IvsEncoder.cpp 308-331. *)
Definition getDuration (b : basis) (l : launch) : Z :=
  match la_duration l with Some d => d | None => value_or (ba_duration b) (-1) end.
Definition getMagnitude (b : basis) (l : launch) : Z :=
  match la_magnitude l with Some d => d | None => value_or (ba_magnitude b) (-1) end.
(** floatToInt: IvsEncoder.cpp 407-415 (MS_2_MICROSECONDS: Tools.h). *)
Definition floatToInt (f : Z) : Z := if f <? 0 then (f + (2 ^ 31 - 1) + 1) / 1000 else f.
(** getPeriod: IvsEncoder.cpp 333-347. *)
Definition getPeriod (b : basis) (l : launch) : Z :=
  match la_period l with
  | Some p => floatToInt p
  | None => match ba_period b with Some p => floatToInt p | None => -1 end
  end.
(** getWaveform: IvsEncoder.cpp 349-369. *)
Definition getWaveform (b : basis) : Z :=
  let w := ba_waveform b in
  if str_eqb w (bytes_of "sine") then Sine
  else if str_eqb w (bytes_of "square") then Square
  else if str_eqb w (bytes_of "triangle") then Triangle
  else if str_eqb w (bytes_of "sawtooth-up") then SawToothUp
  else if str_eqb w (bytes_of "sawtooth-down") then SawToothDown
  else -1.
(** millisecondsToTimeScale: IvsEncoder.cpp 417-420. *)
Definition millisecondsToTimeScale (milliseconds timescale : Z) : outcome Z :=
  int_of_float i32 (mul64 (mul64 (f64_of_Z milliseconds) MS_2_S) (f64_of_Z timescale)).
(** MAGNITUDE_2_AMPLITUDE, .0001F: IvsEncoder.h 94. *)
Definition MAGNITUDE_2_AMPLITUDE : f32 := @B754_finite 24 128 false 13743895 (-37) eq_refl.
Definition amplitude_of (magnitude : Z) : f32 := mul32 (f32_of_Z magnitude) MAGNITUDE_2_AMPLITUDE.

(** getLaunchedEffect: IvsEncoder.cpp 255-270. *)
Definition getLaunchedEffect (bs : list basis) (l : launch) : option basis :=
  find (fun b => str_eqb (la_effect l) (ba_name b)) bs.
(** convertToEffect: IvsEncoder.cpp 154-222; [None]: false.  MAGSWEEP_FREQUENCY: IvsEncoder.h 97. *)
Definition convertToEffect (b : basis) (l : launch) (timescale : Z) : outcome (option effect) :=
  let periodLength := getPeriod b l in
  do kind <-
    (if str_eqb (ba_type b) (bytes_of "periodic") then
       do freq <- int_of_float i32 (div64 f64_1 (mul64 (f64_of_f32 (f32_of_Z periodLength)) MS_2_S));
       Ok (Some (getWaveform b, freq))
     else if str_eqb (ba_type b) (bytes_of "magsweep") then Ok (Some (Sine, 170))
     else Ok None);
  match kind with
  | None => Ok None
  | Some (wave, freq) =>
      do duration <- millisecondsToTimeScale (getDuration b l) timescale;
      let amplitude := amplitude_of (getMagnitude b l) in
      let e := Effect (-1) (launch_time l) (Some f32_0) None
                 [Keyframe (Some 0) (Some amplitude) (Some freq); Keyframe (Some duration) (Some amplitude) (Some freq)]
                 (Some wave) BasisE [] [] [] in
      let attackTime := value_or (ba_attack_time b) (-1) in
      do '(e, attackTime, finished) <-
        (if negb (attackTime =? -1) then
           do attackTime <- millisecondsToTimeScale attackTime timescale;
           let attackAmplitude := amplitude_of (value_or (ba_attack_level b) 0) in
           let e := addAmplitudeAt (Some attackAmplitude) 0 true e in
           if attackTime >=? duration then
             let a := linearInterpolation (0, f64_of_f32 attackAmplitude) (attackTime, f64_of_f32 amplitude) (f64_of_Z duration) in
             Ok (addAmplitudeAt (Some (f32_of_f64 a)) duration true e, attackTime, true)
           else Ok (addAmplitudeAt (Some amplitude) attackTime true e, attackTime, false)
         else Ok (e, attackTime, false));
      if (finished : bool) then Ok (Some e)
      else
        let fadeDuration := value_or (ba_fade_time b) (-1) in
        if negb (fadeDuration =? -1) then
          do fadeDuration <- millisecondsToTimeScale fadeDuration timescale;
          do fadeTime <- int_ok (duration - fadeDuration);
          let fadeAmplitude := amplitude_of (value_or (ba_fade_level b) 0) in
          let actualAttackTime := Z.max attackTime 0 in
          let e :=
            if fadeTime <? actualAttackTime then
              let a := linearInterpolation (fadeTime, f64_of_f32 amplitude) (duration, f64_of_f32 fadeAmplitude)
                         (f64_of_Z actualAttackTime) in
              addAmplitudeAt (Some (f32_of_f64 a)) actualAttackTime false e
            else if fadeTime >? actualAttackTime then addAmplitudeAt (Some amplitude) fadeTime true e
            else e in
          Ok (Some (addAmplitudeAt (Some fadeAmplitude) duration true e))
        else Ok (Some e)
  end.

(** *** The tree of repetitions *)

(** RepeatNode: IvsEncoder.h 100-103.  [None]: a null pointer (the root). *)
Inductive node := Node (value : option repeat_event) (myEffects : list effect) (children : list node).
Definition node_value (n : node) : option repeat_event := match n with Node v _ _ => v end.

(** The order of the repetitions: IvsEncoder.cpp 71-77.  [std::sort] may order elements that compare equal
    (same time, same duration) in any way; here they keep their order. *)
Definition repeat_less (a b : repeat_event) : bool :=
  if negb (repeat_time a =? repeat_time b) then repeat_time a <? repeat_time b
  else repeat_duration a >? repeat_duration b.
Fixpoint insert_repeat (r : repeat_event) (l : list repeat_event) : list repeat_event :=
  match l with
  | [] => [r]
  | x :: l' => if repeat_less r x then r :: x :: l' else x :: insert_repeat r l'
  end.
Definition sortRepeats (l : list repeat_event) : list repeat_event := fold_left (fun s r => insert_repeat r s) l [].

(** isRepeatNested: IvsEncoder.cpp 127-136 (children always have a value). *)
Definition isRepeatNested (parent : option repeat_event) (child : repeat_event) : bool :=
  match parent with
  | Some p => (repeat_time p <=? repeat_time child) && (repeat_time child <? repeat_time p + repeat_duration p)
  | None => false
  end.
(** The search loop: IvsEncoder.cpp 82-94.  [researchNode] is a reference to the root, so that line 92 copies
    the last child over the root: the result is the new root. *)
Fixpoint research (root : node) (r : repeat_event) : node :=
  match root with
  | Node v es ch =>
      (fix last_child (l : list node) : node :=
         match l with
         | [] => root
         | [lastChild] => if isRepeatNested (node_value lastChild) r then research lastChild r else root
         | _ :: l' => last_child l'
         end) ch
  end.
(** IvsEncoder.cpp 95. *)
Definition push_child (c root : node) : node := match root with Node v es ch => Node v es (ch ++ [c]) end.
(** IvsEncoder.cpp 79-96. *)
Definition repeatTree (sorted : list repeat_event) : node :=
  fold_left (fun root r => push_child (Node (Some r) [] []) (research root r)) sorted (Node None [] []).

(** IvsEncoder.h 121-129: insertion after the last effect with a smaller position, at the end if there is none. *)
Fixpoint insert_at_last (e : effect) (l : list effect) : option (list effect) :=
  match l with
  | [] => None
  | x :: l' =>
      match insert_at_last e l' with
      | Some r => Some (x :: r)
      | None => if e_pos x <? e_pos e then Some (x :: e :: l') else None
      end
  end.
Definition insertEffect (e : effect) (l : list effect) : list effect :=
  match insert_at_last e l with Some r => r | None => l ++ [e] end.
(** pushEffect: IvsEncoder.h 105-131; [None]: false. *)
Definition in_range (v : option repeat_event) (p : Z) : bool :=
  match v with
  | Some r => negb ((repeat_time r >? p) || (p >=? repeat_time r + repeat_duration r))
  | None => true
  end.
Fixpoint pushEffect (e : effect) (n : node) : option node :=
  match n with
  | Node v es ch =>
      if in_range v (e_pos e) then
        match (fix children (l : list node) : option (list node) :=
                 match l with
                 | [] => None
                 | x :: l' =>
                     match pushEffect e x with
                     | Some x' => Some (x' :: l')
                     | None => match children l' with Some r => Some (x :: r) | None => None end
                     end
                 end) ch with
        | Some ch' => Some (Node v es ch')
        | None => Some (Node v (insertEffect e es) ch)
        end
      else None
  end.

(** [e.setPosition(delay + e.getPosition())]. *)
Definition delayed (delay : Z) (e : effect) : effect := set_pos (delay + e_pos e) e.
(** The effects at the front that come before a position. *)
Fixpoint before (position : Z) (l : list effect) : list effect * list effect :=
  match l with
  | [] => ([], [])
  | e :: l' => if e_pos e <? position then let '(a, b) := before position l' in (e :: a, b) else ([], l)
  end.
Definition node_position (n : node) : Z := match node_value n with Some r => repeat_time r | None => 0 end.
(** IvsEncoder.h 173-178. *)
Definition replays (count duration : Z) (l : list effect) : list effect :=
  flat_map (fun i => map (fun e => set_pos (e_pos e + Z.of_nat i * duration) e) l) (seq 0 (Z.to_nat (count + 1))).
(** linearize: IvsEncoder.h 133-181: the effects added to [effectLibrary], the result, the new [delay].  The three
    loops are one loop over the children: before each child come the effects that precede it. *)
Fixpoint linearize (n : node) (delay : Z) : list effect * Z * Z :=
  match n with
  | Node v es ch =>
      let count := match v with Some r => repeat_count r | None => 0 end in
      let duration := match v with Some r => repeat_duration r | None => 0 end in
      let '(l, duration, delay) :=
        (fix loop (ch : list node) (es : list effect) (duration delay : Z) : list effect * Z * Z :=
           match ch with
           | [] => (map (delayed delay) es, duration, delay)
           | c :: ch' =>
               let '(a, b) := before (node_position c) es in
               let '(lc, t, d) := linearize c delay in
               let '(l, duration', delay') := loop ch' b (duration + t) (d + t) in
               (map (delayed delay) a ++ lc ++ l, duration', delay')
           end) ch es duration delay in
      (replays count duration l, count * duration, delay)
  end.

(** *** Timelines and documents *)

(** The loop over the launch events: IvsEncoder.cpp 102-111. *)
Fixpoint pushLaunches (bs : list basis) (timescale : Z) (ls : list launch) (tree : node) : outcome node :=
  match ls with
  | [] => Ok tree
  | l :: ls' =>
      match getLaunchedEffect bs l with
      | None => pushLaunches bs timescale ls' tree
      | Some b =>
          do o <- convertToEffect b l timescale;
          pushLaunches bs timescale ls'
            (match o with
             | Some e => match pushEffect e tree with Some t => t | None => tree end
             | None => tree
             end)
      end
  end.
(** IvsEncoder.cpp 65-115: the effects of a timeline. *)
Definition timelineEffects (bs : list basis) (timescale : Z) (t : timeline_effect) : outcome (list effect) :=
  do tree <- pushLaunches bs timescale (te_launches t) (repeatTree (sortRepeats (te_repeats t)));
  let '(l, _, _) := linearize tree 0 in Ok l.

(** injectIntoBands: IvsEncoder.cpp 138-152 (MIN_FREQUENCY = 0, MAX_FREQUENCY = 1000).  [getKeyframeAt] throws
    without keyframes, [value()] without a position. *)
Definition injectIntoBands (timescale : Z) (e : effect) (c : channel) : outcome channel :=
  do position <- millisecondsToTimeScale (e_pos e) timescale;
  let e := set_pos position e in
  match rev (e_kfs e) with
  | [] => Throw
  | k :: _ =>
      do duration <- pos_value k;
      do o <- findBandAvailable c position duration VectorialB;
      match o with
      | Some i => Ok (set_bands (upd_at (c_bands c) i (addEffect e)) c)
      | None => Ok (set_bands (c_bands c ++ [addEffect e (Band VectorialB None (Some 0) 0 1000 [] None)]) c)
      end
  end.
Fixpoint injectAll (timescale : Z) (l : list effect) (c : channel) : outcome channel :=
  match l with
  | [] => Ok c
  | e :: r => do c <- injectIntoBands timescale e c; injectAll timescale r c
  end.
(** One timeline into one channel. *)
Definition encodeTimeline (bs : list basis) (timescale : Z) (t : timeline_effect) (c : channel) : outcome channel :=
  do l <- timelineEffects bs timescale t; injectAll timescale l c.
(** encode: IvsEncoder.cpp 56-122: timeline number [n] goes to channel number [n], which is made if absent. *)
Definition new_channel (name date : str) : channel :=
  Channel 0 (name ++ bytes_of " - " ++ date) f32_1 f32_1 0 [] [] None None None None None None None None.
Fixpoint encodeTimelines (bs : list basis) (date : str) (timescale : Z) (n : nat) (ts : list timeline_effect) (p : perception)
  : outcome perception :=
  match ts with
  | [] => Ok p
  | t :: ts' =>
      let p := if (length (p_channels p) <=? n)%nat then addChannel (new_channel (te_name t) date) p else p in
      match nth_error (p_channels p) n with
      | None => Throw
      | Some c =>
          do c' <- encodeTimeline bs timescale t c;
          encodeTimelines bs date timescale (S n) ts' (set_channels (vec_set (p_channels p) n c') p)
      end
  end.
Definition encode (d : ivs) (timescale : Z) (p : perception) : outcome perception :=
  encodeTimelines (iv_basis d) (iv_modified d) timescale 0 (iv_timelines d) p.
