(** Real-number vocabulary for the statements about quantised fields. *)
From Coq Require Import Reals.
From Verif Require Import Base FloatBase FloatModel.
Local Open Scope R_scope.

(** The mathematical clamp. *)
Definition clampR (lo hi x : R) : R := Rmax lo (Rmin hi x).

(** A range used by the format: finite bounds around 0, at most 2^20 apart, whose difference is a
    binary32 number. *)
Definition range_ok (mn mx : f32) : Prop :=
  is_finite mn = true /\ is_finite mx = true /\
  B2R mn <= 0 <= B2R mx /\ 1 <= B2R mx - B2R mn <= 1048576 /\
  exists r : f32, is_finite r = true /\ B2R r = B2R mx - B2R mn.

(** The unsigned C++ type T can hold n-bit codes. *)
Definition code_type (T : ctype) (n : nat) : Prop :=
  ct_signed T = false /\ (1 <= n <= ct_width T)%nat /\ (n <= 32)%nat.

(** One read-and-rewrite of a field, and [m] of them in a row. *)
Definition rewrite_code (T : ctype) (n : nat) (mn mx : f32) (k : Z) : outcome Z :=
  encodeFloat T n (decodeFloat n k mn mx) mn mx.
Fixpoint rewrites (m : nat) (T : ctype) (n : nat) (mn mx : f32) (k : Z) : outcome Z :=
  match m with
  | O => Ok k
  | S m' => do k' <- rewrite_code T n mn mx k; rewrites m' T n mn mx k'
  end.
