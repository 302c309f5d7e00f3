(** What the properties of curve bands say, independently of the code. *)
From Verif Require Import Base FloatBase FloatModel TypesModel.
Local Open Scope Z_scope.

(** Two samples are nearly equal: their difference is at most 100 epsilon (25 * 2^-50). *)
Definition nearly_equal (a b : f64) : Prop :=
  fle (Babs (sub64 a b)) (@B754_finite 53 1024 false 7036874417766400 (-98) eq_refl) = true.
(** The signal turns at [v], and is not flat there. *)
Definition turns (a v b : f64) : Prop :=
  ((fle a v = true /\ fle b v = true) \/ (fle v a = true /\ fle v b = true)) /\ ~ (nearly_equal v a /\ nearly_equal v b).
(** The samples that matter: the first, the last, and those where the signal turns. *)
Definition salient (signal : list f64) (i : nat) : Prop :=
  (i < length signal)%nat /\
  (i = 0%nat \/ S i = length signal \/
   exists a v b j, i = S j /\ nth_error signal j = Some a /\ nth_error signal (S j) = Some v /\ nth_error signal (S (S j)) = Some b /\ turns a v b).
(** The tick nearest to sample [i], halves rounded up. *)
Definition tick (timescale fs : Z) (i : nat) : Z := (2 * timescale * Z.of_nat i + fs) / (2 * fs).
(** [i] is the last salient sample of its tick. *)
Definition last_of_tick (timescale fs : Z) (signal : list f64) (i : nat) : Prop :=
  salient signal i /\ forall j, salient signal j -> tick timescale fs j = tick timescale fs i -> (j <= i)%nat.
Definition keyframe_at (timescale fs : Z) (signal : list f64) (i : nat) : keyframe :=
  Keyframe (Some (tick timescale fs i)) (Some (f32_of_f64 (nth i signal f64_0))) None.
(** The positions strictly increase. *)
Definition increasing (kfs : list keyframe) : Prop :=
  forall i j a b ta tb, (i < j)%nat -> nth_error kfs i = Some a -> nth_error kfs j = Some b ->
    k_pos a = Some ta -> k_pos b = Some tb -> ta < tb.
