(** Vocabulary for the statements about the arithmetic coder. *)
From Verif Require Import Base ArithModel.

(** Symbols and contexts the coder is made for. *)
Definition bit (x : Z) : Prop := x = 0 \/ x = 1.
Definition context (c : Z) : Prop := 0 <= c < 7.

(** Counters in use: seven contexts, at least one symbol counted, no more zeros than symbols, and
    [n] more symbols can be counted. *)
Definition counting (n : Z) (cs : counters) : Prop :=
  length cs = 7%nat /\ Forall (fun p => 0 <= fst p <= snd p /\ 1 <= snd p /\ snd p + n < 2 ^ 31) cs.

(** The decoder in state [s] answers the questions for the contexts of [l] with the symbols of [l]. *)
Fixpoint serves (s : dec_state) (l : list (Z * Z)) : Prop :=
  match l with
  | [] => True
  | (x, c) :: l' => exists s', arith_decode s c = Ok (x, s') /\ serves s' l'
  end.
