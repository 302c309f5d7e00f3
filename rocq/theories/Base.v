(** Common notions: outcomes, bit vectors, integer conversions. *)
From Coq Require Export ZArith List Bool Lia Arith.
From Coq Require Export ZifyBool ZifyNat.
Export ListNotations.

Open Scope Z_scope.

(** Result of running a modelled C++ function.  [Throw] is a C++ exception that
    leaves the function, [UB] is undefined behaviour (out-of-bounds access,
    unspecified conversion...), [NoFuel] is a loop or recursion that has not
    finished within the fuel given to the model. *)
Inductive outcome (A : Type) : Type :=
| Ok (a : A)
| Throw
| UB
| NoFuel.
Arguments Ok {A} a.
Arguments Throw {A}.
Arguments UB {A}.
Arguments NoFuel {A}.

Definition obind {A B} (m : outcome A) (f : A -> outcome B) : outcome B :=
  match m with
  | Ok a => f a
  | Throw => Throw
  | UB => UB
  | NoFuel => NoFuel
  end.

Definition omap {A B} (f : A -> B) (m : outcome A) : outcome B :=
  obind m (fun a => Ok (f a)).

Notation "'do' x <- m ; k" := (obind m (fun x => k))
  (at level 200, x name, m at level 100, k at level 200).
Notation "'do' ' p <- m ; k" := (obind m (fun p => k))
  (at level 200, p strict pattern, m at level 100, k at level 200).

Definition bits := list bool.

(** Big-endian value of a bit string (specification notion). *)
Definition bits_val (bs : bits) : Z :=
  fold_left (fun acc b => 2 * acc + Z.b2z b) bs 0.

(** Conversion of an integer to an unsigned (resp. two's complement signed)
    C++ integer type of [w] bits. *)
Definition to_unsigned (w : nat) (z : Z) : Z := z mod 2 ^ Z.of_nat w.
Definition to_signed (w : nat) (z : Z) : Z :=
  (z + 2 ^ (Z.of_nat w - 1)) mod 2 ^ Z.of_nat w - 2 ^ (Z.of_nat w - 1).

(** A C++ integer type. *)
Record ctype := CT { ct_width : nat; ct_signed : bool }.
Definition u8 := CT 8 false.
Definition u16 := CT 16 false.
Definition u32 := CT 32 false.
Definition i8 := CT 8 true.
Definition i16 := CT 16 true.
Definition i32 := CT 32 true.

Definition cast (T : ctype) (z : Z) : Z :=
  if ct_signed T then to_signed (ct_width T) z else to_unsigned (ct_width T) z.

(** Representable values of a C++ integer type. *)
Definition in_type (T : ctype) (z : Z) : Prop :=
  if ct_signed T
  then - 2 ^ (Z.of_nat (ct_width T) - 1) <= z < 2 ^ (Z.of_nat (ct_width T) - 1)
  else 0 <= z < 2 ^ Z.of_nat (ct_width T).

(** A byte of a file, as an unsigned value.  (The C++ code holds it in a signed
    [char]; bit tests on either representation agree.) *)
Definition is_byte (z : Z) : Prop := 0 <= z < 256.
