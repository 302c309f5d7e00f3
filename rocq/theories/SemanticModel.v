(** The table of effect semantics: source/Types/include/EffectSemantic.h.  No proofs in this file. *)
From Coq Require Import String Ascii.
From Verif Require Import Base BitsModel FloatBase TypesModel.

(** The bytes of a string literal. *)
Fixpoint bytes_of (s : string) : str :=
  match s with
  | EmptyString => []
  | String c r => Z.of_N (N_of_ascii c) :: bytes_of r
  end.

(** EffectSemantic.h 42-121 (the codes) and 123-201 ([stringToEffectSemantic]).  The inverse map
    ([effectSemanticToString], 203-281) lists the same pairs. *)
Definition semantic_names : list (string * Z) :=
  [("UX/Undefined", 0);
   ("UX/Click", 1);
   ("UX/DoubleClick", 2);
   ("UX/Success", 3);
   ("UX/Error", 4);
   ("UX/Alarm", 5);
   ("UX/Confirmatioon", 6);
   ("UX/Wrong", 7);
   ("UX/Ring", 8);
   ("UX/Message", 9);
   ("Avatar/Undefined", 256);
   ("Avatar/Jumping", 257);
   ("Avatar/Fall", 258);
   ("Avatar/Crawl", 259);
   ("Avatar/Swim", 260);
   ("Avatar/Collision", 261);
   ("Avatar/Grab", 262);
   ("Avatar/Touch", 263);
   ("Avatar/Swip", 264);
   ("Avatar/Footstep", 265);
   ("SpecialFX/Undefined", 512);
   ("SpecialFX/Washout", 513);
   ("SpecialFX/Noise", 514);
   ("WeaponCombat/Undefined", 768);
   ("WeaponCombat/Blade", 769);
   ("WeaponCombat/Hit", 770);
   ("WeaponCombat/HandThrown", 771);
   ("WeaponCombat/ElasticPropulsion", 772);
   ("WeaponCombat/Pneumatic", 773);
   ("WeaponCombat/Handgun", 774);
   ("WeaponCombat/Rifle", 775);
   ("WeaponCombat/Shotgun", 776);
   ("WeaponCombat/Gun", 777);
   ("WeaponCombat/Machinegun", 778);
   ("WeaponCombat/Taser", 779);
   ("WeaponCombat/ElectricShock", 780);
   ("WeaponCombat/Mine", 781);
   ("WeaponCombat/Missile", 782);
   ("WeaponCombat/Grenade", 783);
   ("WeaponCombat/Blast", 784);
   ("Ambient/Undefined", 1024);
   ("Ambient/Wind", 1025);
   ("Ambient/Heat", 1026);
   ("Ambient/Cold", 1027);
   ("Ambient/Rain", 1028);
   ("Ambient/Waterfall", 1029);
   ("Ambient/WaterDrop", 1030);
   ("Ambient/ElectricBuzz", 1031);
   ("Ambient/Ignition", 1032);
   ("Ambient/Cracks", 1033);
   ("Ambient/Earthquack", 1034);
   ("Ambient/Sparks", 1035);
   ("Ambient/Thunderbolt", 1036);
   ("Texture/Undefined", 1280);
   ("Texture/Rock", 1281);
   ("Texture/Gravel", 1282);
   ("Texture/Sand", 1283);
   ("Texture/Wood", 1284);
   ("Texture/Metal", 1285);
   ("Texture/Plastic", 1286);
   ("Vehicle/Undefined", 1536);
   ("Vehicle/Engine", 1537);
   ("Vehicle/Doors", 1538);
   ("Vehicle/Brake", 1539);
   ("Vehicle/MechanicalContraption", 1540);
   ("Vehicle/Drift", 1541);
   ("Vehicle/RoadFriction", 1542);
   ("Vehicle/RoadBump", 1543);
   ("Vehicle/Tires", 1544);
   ("Vehicle/AirFriction", 1545);
   ("Music/Undefined", 1792);
   ("Music/HardMaterial", 1793);
   ("Music/BouncyMaterial", 1794);
   ("Music/Pucking", 1795);
   ("Music/Bowing", 1796);
   ("Music/Striking", 1797);
   ("Music/BrassInstrument", 1798);
   ("Music/WoodWindInstrument", 1799)]%string.
Definition semantic_table : list (str * Z) := map (fun p => (bytes_of (fst p), snd p)) semantic_names.

(** Equality of [std::string]. *)
Fixpoint str_eqb (a b : str) : bool :=
  match a, b with
  | [], [] => true
  | x :: a', y :: b' => (x =? y) && str_eqb a' b'
  | _, _ => false
  end.

(** [stringToEffectSemantic.at(name)]: throws [std::out_of_range] for an unknown name. *)
Definition semantic_code (name : str) : outcome Z :=
  match find (fun p => str_eqb name (fst p)) semantic_table with
  | Some p => Ok (snd p)
  | None => Throw
  end.
(** [effectSemanticToString.at(code)]: throws for an unknown code. *)
Definition semantic_name (code : Z) : outcome str :=
  match find (fun p => code =? snd p) semantic_table with
  | Some p => Ok (fst p)
  | None => Throw
  end.
