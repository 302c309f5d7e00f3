(** Properties C85 and C86: reading arbitrary stream files. *)
From Coq Require Import Sorting.Sorted Sorting.Permutation.
From Verif Require Import Base BitsModel FloatBase FloatModel TypesModel TypesSpec MetaModel BandModel DataModel CrcModel
  StreamModel MetaSpec DataSpec UnitSpec FinishProof.
Local Open Scope Z_scope.
Local Open Scope list_scope.

(** ** C85 *)
(** Reading ends whatever the bytes of the file: every loop and every recursion is finite. *)
Theorem C85_ends : forall file, Z.of_nat (length file) < 2 ^ 31 - 9 ->
  exists n, forall fuel, (n <= fuel)%nat -> readStream fuel file <> NoFuel.
Proof. exact stream_ends. Qed.
Print Assumptions C85_ends.
(** In a unit, a nesting of library effects that is larger than the number of bits cannot be met. *)
Theorem C85_unit : forall fuel unit r crc, (length unit < fuel)%nat -> readMIHSUnit fuel unit r crc <> NoFuel.
Proof. exact unit_ends. Qed.
Print Assumptions C85_unit.
(** A file that ends in the middle of the second unit. *)
Definition fx_file : list Z := writeBitset (unit_header SilentU 0 100 0) ++ [4; 0; 200; 7; 0].
Example C85_hyps : Z.of_nat (length fx_file) < 2 ^ 31 - 9 /\ exists h, readStream 1 fx_file = Ok h.
Proof. split; [reflexivity|]. eexists. vm_compute. reflexivity. Qed.

(** ** C86 *)
(** A file whose first unit starts with a timing packet that states more bytes than the unit has left makes the
    reader move beyond the end of the unit. *)
Theorem C86_overlong_refuted : forall fuel u us, Forall framed_unit (u :: us) -> vec_size (concat (u :: us)) < 2 ^ 35 ->
  9 < field 36 32 u -> field 72 6 u = TimingP -> field 36 32 u < 3 + field 78 17 u ->
  readStream fuel (writeBitset (concat (u :: us))) = UB.
Proof. exact overlong. Qed.
Print Assumptions C86_overlong_refuted.
Definition fx_long : bits := unit_header TemporalU 0 0 10 ++ writeNBits 6 TimingP ++ writeNBits 17 8 ++ writeNBits 57 0.
Example C86_overlong_hyps : Forall framed_unit [fx_long] /\ vec_size (concat [fx_long]) < 2 ^ 35 /\ 9 < field 36 32 fx_long /\
  field 72 6 fx_long = TimingP /\ field 36 32 fx_long < 3 + field 78 17 fx_long.
Proof. split; [apply Forall_cons; [split; vm_compute; reflexivity|apply Forall_nil]|]. repeat split; vm_compute; reflexivity. Qed.
(** A file whose first unit sets the timescale to 0 and then states a time makes the reader divide by zero. *)
Theorem C86_timescale_refuted : forall fuel u us, Forall framed_unit (u :: us) -> vec_size (concat (u :: us)) < 2 ^ 35 ->
  field 72 6 u = InitializationTimingP -> field 78 17 u = 15 -> field 128 32 u = 0 ->
  field 216 6 u = TimingP -> 27 < field 36 32 u -> readStream fuel (writeBitset (concat (u :: us))) = UB.
Proof. exact zero_timescale. Qed.
Print Assumptions C86_timescale_refuted.
Definition fx_zero : bits := unit_header InitializationU 0 0 28 ++ writeNBits 6 InitializationTimingP ++ writeNBits 17 15 ++ writeNBits 1 0
  ++ writeNBits 32 5 ++ writeNBits 32 0 ++ writeNBits 56 0 ++ writeNBits 6 TimingP ++ writeNBits 17 7 ++ writeNBits 57 0.
Example C86_timescale_hyps : Forall framed_unit [fx_zero] /\ vec_size (concat [fx_zero]) < 2 ^ 35 /\
  field 72 6 fx_zero = InitializationTimingP /\ field 78 17 fx_zero = 15 /\ field 128 32 fx_zero = 0 /\
  field 216 6 fx_zero = TimingP /\ 27 < field 36 32 fx_zero.
Proof. split; [apply Forall_cons; [split; vm_compute; reflexivity|apply Forall_nil]|]. repeat split; vm_compute; reflexivity. Qed.
