(** Specification notions for the checksum properties C07-C09. *)
From Verif Require Import Base.

(** Flip the bits of [m] where [e] is set. *)
Definition corrupt (m e : bits) : bits := map (fun p => xorb (fst p) (snd p)) (combine m e).

(** [e] is a nonzero error pattern whose set bits lie within a window of [w] positions. *)
Definition error_burst (w : nat) (e : bits) : Prop :=
  exists a burst b, e = repeat false a ++ burst ++ repeat false b
                    /\ (length burst <= w)%nat /\ In true burst.
