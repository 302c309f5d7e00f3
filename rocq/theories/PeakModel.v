(** The psychohaptic model: source/PsychohapticModel/src/PsychohapticModel.cpp 40-398, without the Fourier transform
    (lines 71-80).  Numbers of bins are below 2^31, so that [int] and [size_t] indices are natural numbers.
    No proofs in this file. *)
From Verif Require Import Base FloatBase FloatModel ToolsModel SynthModel SpihtModel WaveletModel.
Local Open Scope nat_scope.

(** PsychohapticModel.h 62-65: [peaks], as a list of pairs of location and height (the vectors are of the same
    length). *)
Definition peak := (nat * f64)%type.
(** [v[i]] for a vector. *)
Definition at_ (x : list f64) (i : nat) : outcome f64 := match nth_error x i with Some v => Ok v | None => UB end.

(** PsychohapticModel.cpp 168-174: the first index from [j] on where the value is not [b]; [l] are the values from [j]
    on. *)
Fixpoint plateau_end (l : list f64) (b : f64) (j : nat) : nat :=
  match l with
  | [] => j
  | y :: l' => if feq y b then plateau_end l' b (S j) else j
  end.
(** PsychohapticModel.cpp 177-181, 186-190: the location of a peak with a plateau. *)
Definition plateau_peak (size i ip : nat) : nat := let m := (i + ip) / 2 in if size <=? m then size - 1 else m.
(** PsychohapticModel.cpp 158-198: the loop; [i] is never 0. *)
Fixpoint peaks_loop (fuel : nat) (x : list f64) (i : nat) : outcome (list peak) :=
  match fuel with
  | O => NoFuel
  | S fuel' =>
      if i <? length x - 1 then
        do a <- at_ x (i - 1);
        do b <- at_ x i;
        if flt a b then
          do c <- at_ x (i + 1);
          if flt c b then do r <- peaks_loop fuel' x (S i); Ok ((i, b) :: r)
          else if feq c b then
            let ip := plateau_end (skipn (i + 1) x) b (i + 1) in
            if length x - 1 <=? ip then do r <- peaks_loop fuel' x (S ip); Ok ((plateau_peak (length x) i ip, b) :: r)
            else
              do d <- at_ x (ip + 1);
              if flt d b then do r <- peaks_loop fuel' x (S ip); Ok ((plateau_peak (length x) i ip, b) :: r)
              else peaks_loop fuel' x (S i)
          else peaks_loop fuel' x (S i)
        else peaks_loop fuel' x (S i)
      else Ok []
  end.
(** PsychohapticModel.cpp 148-202: findAllPeakLocations, for a spectrum that is not empty. *)
Definition findAllPeakLocations (x : list f64) : outcome (list peak) := peaks_loop (length x) x 1.

(** PsychohapticModel.cpp 220-224, 242-246: the location of the first higher peak in [l]. *)
Definition first_higher (h : f64) (l : list peak) : option nat :=
  match find (fun p => flt h (snd p)) l with Some p => Some (fst p) | None => None end.
(** PsychohapticModel.cpp 228-238, 250-260: the last index in [js] with the lowest value so far, starting with value
    [m]; the index is [v] if there is none.  The branches for a peak at the border are not reached: the loop is not entered
    then. *)
Fixpoint scan (x : list f64) (js : list nat) (m : f64) (v : nat) : outcome nat :=
  match js with
  | [] => Ok v
  | j :: js' => do y <- at_ x j; if fle y m then scan x js' y j else scan x js' m v
  end.
(** PsychohapticModel.cpp 374-383: max. *)
Definition max_ (v1 v2 : f64) : f64 := if flt v2 v1 then v1 else v2.
(** PsychohapticModel.cpp 218-275: the prominence of the peak [p]; [before] are the peaks before it, from right to left,
    [after] those after it. *)
Definition prominence (x : list f64) (before after : list peak) (p : peak) : outcome f64 :=
  let j_min := match first_higher (snd p) before with Some l => l | None => 0 end in
  do left <- scan x (rev (seq j_min (fst p - j_min))) (snd p) 0;
  let j_max := match first_higher (snd p) after with Some l => l | None => length x - 1 end in
  do right <- scan x (seq (S (fst p)) (j_max - fst p)) (snd p) 0;
  do l <- at_ x left;
  do r <- at_ x right;
  Ok (sub64 (snd p) (max_ l r)).
(** PsychohapticModel.cpp 204-279: peakProminence. *)
Fixpoint peakProminence (x : list f64) (before ps : list peak) : outcome (list peak) :=
  match ps with
  | [] => Ok []
  | p :: after =>
      do h <- prominence x before after p;
      do r <- peakProminence x (p :: before) after;
      Ok ((fst p, h) :: r)
  end.
(** PsychohapticModel.cpp 281-297: filterPeakCriterion. *)
Definition filterPeakCriterion (ps : list peak) (min_peak_val : f64) : list peak := filter (fun p => fle min_peak_val (snd p)) ps.
(** PsychohapticModel.cpp 299-334: findPeaks.  The early returns for no peaks give the same. *)
Fixpoint heights (x : list f64) (ps : list peak) : outcome (list peak) :=
  match ps with
  | [] => Ok []
  | p :: ps' => do h <- at_ x (fst p); do r <- heights x ps'; Ok ((fst p, h) :: r)
  end.
Definition findPeaks (x : list f64) (min_peak_prominence min_peak_height : f64) : outcome (list peak) :=
  match x with
  | [] => Ok []
  | _ :: _ =>
      do all <- findAllPeakLocations x;
      let high := filterPeakCriterion all min_peak_height in
      do prominences <- peakProminence x [] high;
      heights x (filterPeakCriterion prominences min_peak_prominence)
  end.

(** *** Masking *)
(** PsychohapticModel.h 54-60: the constants; -mask_c is -30. *)
Definition mask_a : f64 := f64_of_Z 5.
Definition mask_b : f64 := f64_of_Z 1400.
Definition MIN_PEAK_PROMINENCE : f64 := f64_of_Z 12.
Definition MIN_PEAK_HEIGHT_DIFF : f64 := f64_of_Z 45.
Definition f64_10 : f64 := f64_of_Z 10.
(** PsychohapticModel.cpp 344-356 and 359-367: the mask of one peak of frequency [f] at frequency [g]. *)
Definition mask_value (f height g : f64) : f64 :=
  let sum1 := add64 (sub64 height mask_a) (mul64 (div64 mask_a mask_b) f) in
  let factor1 := div64 (f64_of_Z (-30)) (mul64 f f) in
  let val := sub64 g f in
  add64 (mul64 (mul64 val val) factor1) sum1.
(** PsychohapticModel.cpp 358-371: the peaks from the second on. *)
Fixpoint mask_loop (freqs : list f64) (ps : list peak) (mask : list f64) : outcome (list f64) :=
  match ps with
  | [] => Ok mask
  | p :: ps' =>
      do f <- at_ freqs (fst p);
      mask_loop freqs ps' (map (fun '(g, m) => let val := mask_value f (snd p) g in if flt m val then val else m) (combine freqs mask))
  end.
(** PsychohapticModel.cpp 336-372: peakMask; [freqs] has an entry for every bin. *)
Definition peakMask (freqs : list f64) (ps : list peak) : outcome (list f64) :=
  match ps with
  | [] => Ok []
  | p :: ps' => do f <- at_ freqs (fst p); mask_loop freqs ps' (map (mask_value f (snd p)) freqs)
  end.
(** PsychohapticModel.cpp 385-396: findMaxVector. *)
Definition findMaxVector (x : list f64) : outcome f64 :=
  match x with
  | [] => UB
  | v :: l => Ok (fold_left (fun m y => if flt m y then y else m) l v)
  end.
(** PsychohapticModel.cpp 108-128: globalMaskingThreshold; [pow10] is [pow(10, .)], [mask.at(i)] throws. *)
Definition globalMaskingThreshold (pow10 : f64 -> f64) (freqs percthres spect : list f64) : outcome (list f64) :=
  do top <- findMaxVector spect;
  do ps <- findPeaks spect MIN_PEAK_PROMINENCE (sub64 top MIN_PEAK_HEIGHT_DIFF);
  do mask <- peakMask freqs ps;
  match mask with
  | [] => Ok percthres
  | _ :: _ =>
      if length mask <? length percthres then Throw
      else Ok (map (fun '(m, t) => add64 (pow10 (div64 m f64_10)) t) (combine mask percthres))
  end.

(** *** The frequencies of the bins and the thresholds *)
(** PsychohapticModel.cpp 45-48: the frequencies from the current one on. *)
Fixpoint freqs_loop (n : nat) (cur step : f64) : list f64 :=
  match n with
  | O => []
  | S n' => cur :: freqs_loop n' (add64 cur step) step
  end.
(** PsychohapticModel.cpp 42-48: freqs; [2 * bl - 1] is below 2^53. *)
Definition model_freqs (bl : nat) (fs : Z) : list f64 :=
  freqs_loop bl f64_0 (div64 (f64_of_Z fs) (f64_of_Z (2 * Z.of_nat bl - 1))).
(** PsychohapticModel.cpp 130-146: perceptualThreshold; [raw] is the expression of line 135 as a function of the
    frequency. *)
Fixpoint model_percthres (raw : f64 -> f64) (freqs : list f64) : list f64 :=
  match freqs with
  | [] => []
  | f :: freqs' => if fle f64_1 (raw f) then repeat f64_1 (length freqs) else raw f :: model_percthres raw freqs'
  end.

(** *** Bands *)
(** PsychohapticModel.cpp 62-66: the loop from [i = 2]; [book] and [cumulative] are the last entries so far. *)
Fixpoint book_loop (n : nat) (book cumulative : Z) : list Z * list Z :=
  match n with
  | O => ([], [])
  | S n' => let book' := (book * 2)%Z in let cumulative' := (cumulative * 2)%Z in
            let '(b, c) := book_loop n' book' cumulative' in (book' :: b, cumulative' :: c)
  end.
(** PsychohapticModel.cpp 51-67: [book] and [book_cumulative], for [bl >= 8]. *)
Definition model_book (bl : nat) : list Z * list Z :=
  let l_book := S (dwtlevel bl) in
  let b0 := (Z.of_nat bl / 2 ^ Z.of_nat (dwtlevel bl))%Z in
  let '(b, c) := book_loop (l_book - 2) b0 (b0 * 2) in
  (b0 :: b0 :: b, 0%Z :: b0 :: (b0 * 2)%Z :: c).
(** PsychohapticModel.cpp 97-101: the sums over the bins from [i] to [stop]; [spect] and [mask] are the rest from [i] on. *)
Fixpoint band_sums (pow10 : f64 -> f64) (spect mask : list f64) (i : nat) (n : nat) (energy maskenergy : f64) : outcome (f64 * f64) :=
  match n with
  | O => Ok (energy, maskenergy)
  | S n' => do s <- at_ spect i; do m <- at_ mask i; band_sums pow10 spect mask (S i) n' (add64 energy (pow10 (div64 s f64_10))) (add64 maskenergy m)
  end.
(** PsychohapticModel.cpp 93-104: SMR and band energy of the bands; [i] runs on from band to band. *)
Fixpoint band_results (pow10 log10 : f64 -> f64) (spect mask : list f64) (i : nat) (stops : list Z) : outcome (list (f64 * f64)) :=
  match stops with
  | [] => Ok []
  | stop :: stops' =>
      do '(e, m) <- band_sums pow10 spect mask i (Z.to_nat stop - i) f64_0 f64_0;
      do r <- band_results pow10 log10 spect mask (Nat.max i (Z.to_nat stop)) stops';
      Ok ((mul64 f64_10 (log10 (div64 e m)), e) :: r)
  end.
(** PsychohapticModel.cpp 82-87: the magnitude of a bin from its absolute value after the scaling; the factor is a static
    variable of the function, set at the first call of the process.  [inv_sqrt] is [1 / sqrt(.)], [None] before the first
    call. *)
Definition use_correction (inv_sqrt : nat -> f64) (bl : nat) (correction : option f64) : f64 :=
  match correction with Some c => c | None => inv_sqrt bl end.
Definition magnitudes (inv_sqrt : nat -> f64) (log10 : f64 -> f64) (bl : nat) (correction : option f64) (absolutes : list f64)
  : list f64 * option f64 :=
  let c := use_correction inv_sqrt bl correction in
  (map (fun a => mul64 (f64_of_Z 20) (log10 (mul64 c a))) (firstn bl absolutes), Some c).
(** PsychohapticModel.cpp 69-106: getSMR, from the absolute values of the spectrum on. *)
Definition model_SMR (inv_sqrt : nat -> f64) (pow10 log10 : f64 -> f64) (bl : nat) (freqs percthres : list f64) (correction : option f64)
  (absolutes : list f64) : outcome (list (f64 * f64) * option f64) :=
  let '(spect, correction') := magnitudes inv_sqrt log10 bl correction absolutes in
  do mask <- globalMaskingThreshold pow10 freqs percthres spect;
  do r <- band_results pow10 log10 spect mask 0 (tl (snd (model_book bl)));
  Ok (r, correction').
