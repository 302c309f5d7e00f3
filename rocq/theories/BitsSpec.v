(** Specification notions for C01 and C03: what a writable field is, and reading or
    writing a sequence of fields with the model's [readNBits] and [writeNBits]. *)
From Verif Require Import Base BitsModel.

(** Field well-formedness: a value of type T stored in n bits. *)
Definition field_ok (T : ctype) (n : nat) (v : Z) : Prop :=
  if ct_signed T
  then (0 < n)%nat /\ (n = ct_width T /\ - 2 ^ (Z.of_nat n - 1) <= v < 2 ^ (Z.of_nat n - 1)
       \/ (n < ct_width T)%nat /\ 0 <= v < 2 ^ Z.of_nat n)
  else (n <= ct_width T)%nat /\ 0 <= v < 2 ^ Z.of_nat n.

(** Vectors have three signed 8-bit components. *)
Definition i8_ok (z : Z) : Prop := - 128 <= z < 128.
Definition vector_ok (v : vector) : Prop := i8_ok (vx v) /\ i8_ok (vy v) /\ i8_ok (vz v).

(** One [readNBits] call per (type, width). *)
Fixpoint read_fields (ws : list (ctype * nat)) (st : rstate) : list Z * rstate :=
  match ws with
  | [] => ([], st)
  | (T, n) :: ws' =>
      let '(v, st1) := readNBits T n st in
      let '(vs, st2) := read_fields ws' st1 in
      (v :: vs, st2)
  end.

(** One [writeNBits] call per field. *)
Definition write_fields (fs : list (ctype * nat * Z)) : bits :=
  flat_map (fun f => writeNBits (snd (fst f)) (snd f)) fs.

