(** The properties of the arithmetic coder. *)
From Verif Require Import Base ArithModel ArithSpec ArithProof.

(** *** C10: lossless *)
(** [cs]: the counters at the beginning, on both sides; [k]: zeros that may follow the code, as they
    do when it is packed into bytes. *)
Theorem C10_lossless : forall cs symbols ctx out cs' k,
  counting (Z.of_nat (length symbols)) cs ->
  Forall bit symbols -> Forall context ctx -> length ctx = length symbols ->
  arith_encode cs symbols ctx = Ok (out, cs') ->
  exists s, decode_all (initDecoding cs (out ++ repeat 0 k)) ctx = Ok (symbols, s) /\
    rescaleCounter (de_counters s) = Ok cs'.
Proof. exact decoded_counters. Qed.
Print Assumptions C10_lossless.
Example C10_lossless_ex :
  let symbols := [0; 1; 1; 0; 1; 0; 0; 0; 1] in let ctx := [0; 0; 1; 2; 1; 6; 0; 3; 3] in
  counting (Z.of_nat (length symbols)) resetCounter /\ Forall bit symbols /\ Forall context ctx /\
  length ctx = length symbols /\
  match arith_encode resetCounter symbols ctx with
  | Ok (out, _) => match decode_all (initDecoding resetCounter out) ctx with Ok (xs, _) => xs = symbols | _ => False end
  | _ => False
  end.
Proof.
  cbv zeta. split; [apply reset_counting; cbn; lia|].
  split; [repeat (apply Forall_cons; [unfold bit; lia|]); apply Forall_nil|].
  split; [repeat (apply Forall_cons; [unfold context; lia|]); apply Forall_nil|].
  split; [reflexivity|]. vm_compute. reflexivity.
Qed.

(** *** C11: the interval *)
(** After every message prefix the interval is inside [0, 1024), wider than a quarter of it, and every
    context splits it into two nonempty parts.  The loops end: no result is [NoFuel]. *)
Theorem C11_encoder : forall cs symbols ctx c,
  counting (Z.of_nat (length symbols) + 1) cs -> Forall context ctx -> length ctx = length symbols ->
  context c ->
  exists s out p a, enc_symbols (Enc 0 RANGE_MAX 0 cs) symbols ctx = Ok (s, out) /\
    0 <= en_lower s /\ en_upper s <= 1024 /\ 256 < en_upper s - en_lower s /\
    counter_at (en_counters s) c = Ok p /\ part0 p (en_upper s - en_lower s) = Ok a /\
    0 < a < en_upper s - en_lower s.
Proof. exact enc_states. Qed.
Print Assumptions C11_encoder.
Theorem C11_decoder : forall cs bs ctx,
  Forall bit bs -> counting (Z.of_nat (length ctx)) cs -> Forall context ctx ->
  exists xs s, decode_all (initDecoding cs bs) ctx = Ok (xs, s) /\ length xs = length ctx /\ Forall bit xs /\
    0 <= de_lower s <= de_leading s /\ de_leading s < de_upper s /\ de_upper s <= 1024 /\
    256 < de_upper s - de_lower s.
Proof. exact dec_states. Qed.
Print Assumptions C11_decoder.
(** The encoder returns when there is a symbol 1, and throws when there is none. *)
Theorem C11_returns : forall cs symbols ctx,
  counting (Z.of_nat (length symbols)) cs ->
  Forall bit symbols -> Forall context ctx -> length ctx = length symbols ->
  (Exists (fun x => x = 1) symbols /\ exists out cs', arith_encode cs symbols ctx = Ok (out, cs') /\
     Forall bit out /\ last out 0 = 1 /\ length cs' = 7%nat /\
     Forall (fun p => 1 <= fst p <= 31 /\ snd p = 32) cs')
  \/ (Forall (fun x => x = 0) symbols /\ arith_encode cs symbols ctx = Throw).
Proof. exact encode_returns. Qed.
Print Assumptions C11_returns.
Example C11_returns_ex :
  counting 3 resetCounter /\ arith_encode resetCounter [0; 0; 0] [1; 1; 2] = Throw /\
  (exists r, arith_encode resetCounter [0; 1; 0] [1; 1; 2] = Ok r).
Proof.
  split; [apply reset_counting; lia|]. split; [vm_compute; reflexivity|].
  eexists ([_; _; _], [_; _; _; _; _; _; _]). vm_compute. reflexivity.
Qed.

(** *** C15: packing *)
Theorem C15_bits : forall bs, Forall bit bs ->
  exists k, (k < 8)%nat /\ convert2bits (convert2bytes bs) = bs ++ repeat 0 k /\
    Forall (fun v => 0 <= v < 256) (convert2bytes bs).
Proof. exact bytes_round. Qed.
Print Assumptions C15_bits.
Theorem C15_bytes : forall bytes, Forall (fun v => 0 <= v < 256) bytes -> convert2bytes (convert2bits bytes) = bytes.
Proof. exact bits_round. Qed.
Print Assumptions C15_bytes.
Example C15_ex : convert2bytes [1; 0; 1; 0; 0; 0; 0; 0; 1; 1] = [5; 3] /\
  convert2bits [5; 3] = [1; 0; 1; 0; 0; 0; 0; 0; 1; 1; 0; 0; 0; 0; 0; 0].
Proof. split; reflexivity. Qed.
