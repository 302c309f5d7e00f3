(** [float] and [double] as Flocq binary32 / binary64 with a single NaN, rounding to nearest even.
    Simplification: all NaNs are identified (no NaN payload or sign). *)
From Verif Require Import Base.
From Flocq Require Export Core.Zaux IEEE754.BinarySingleNaN.

Notation f32 := (binary_float 24 128).
Notation f64 := (binary_float 53 1024).

#[global] Instance prec24 : FLX.Prec_gt_0 24 := eq_refl.
#[global] Instance prec53 : FLX.Prec_gt_0 53 := eq_refl.
#[global] Instance emax128 : Prec_lt_emax 24 128 := eq_refl.
#[global] Instance emax1024 : Prec_lt_emax 53 1024 := eq_refl.

(** C++ [==], [<], [<=] on floating values (all false on NaN). *)
Definition feq {p e} (x y : binary_float p e) : bool :=
  match Bcompare x y with Some Eq => true | _ => false end.
Definition flt {p e} (x y : binary_float p e) : bool :=
  match Bcompare x y with Some Lt => true | _ => false end.
Definition fle {p e} (x y : binary_float p e) : bool :=
  match Bcompare x y with Some Lt | Some Eq => true | _ => false end.

(** C++ [==] on [std::optional<T>]: both empty, or both present with equal contents. *)
Definition opt_eqb {A} (eqb : A -> A -> bool) (x y : option A) : bool :=
  match x, y with
  | None, None => true
  | Some a, Some b => eqb a b
  | _, _ => false
  end.

(** The number 1. *)
Definition f32_1 : f32 := @B754_finite 24 128 false 8388608 (-23) eq_refl.
Definition f64_1 : f64 := @B754_finite 53 1024 false 4503599627370496 (-52) eq_refl.
