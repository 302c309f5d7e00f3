(** Vocabulary for the statements about the coding of wavelet blocks. *)
From Coq Require Import Reals.
From Flocq Require Import Core.Raux.
From Verif Require Import Base SpihtModel.

(** The tree of coefficients: the children of [j] are [2j] and [2j + 1]. *)
Definition descendant (j i : nat) : Prop := exists d, (1 <= d)%nat /\ (i / 2 ^ d = j)%nat.
Definition grandchild_or_deeper (j i : nat) : Prop := exists d, (2 <= d)%nat /\ (i / 2 ^ d = j)%nat.

(** [m] is the largest magnitude among the coefficients of the block that satisfy [P]. *)
Definition largest (x : list Z) (P : nat -> Prop) (m : Z) : Prop :=
  (forall i, P i -> (i < length x)%nat -> Z.abs (nth i x 0) <= m) /\
  (exists i, P i /\ (i < length x)%nat /\ Z.abs (nth i x 0) = m).

(** Coefficients are [int]s that have a magnitude. *)
Definition ints (x : list Z) : Prop := Forall (fun v => Z.abs v < 2 ^ 31) x.

(** What the header of a block keeps of a scale factor: below 1 the factor rounded down to a multiple
    of 1/128, above the factor rounded down to a multiple of 1/8. *)
Definition header_scale (q : R) : R :=
  if Rlt_dec q 1 then (IZR (Zfloor (q * 128)) / 128)%R else (1 + IZR (Zfloor ((q - 1) * 8)) / 8)%R.
