(** Property C155: binning a demodulator in binary64. *)
From Coq Require Import String Reals Floats.SpecFloat.
From Verif Require Import Base.Base Base.Num Model.Demodulate Model.DemodLoad Model.DemodTurn
  Spec.Terminates Spec.AngleSpec Spec.FloatSpec Spec.BinFloatSpec Proofs.RoundImages Proofs.BinFloatFacts Proofs.FourTimesFacts Proofs.RoundFacts.
Local Open Scope Z_scope.

(** ** C155.  Full statement: binning by [b] gives, in binary64, the means of the blocks up to b^2 + 1 units of
    2^-52 of the mean of the absolute values, without any error for entries of few bits binned by a power of two, and
    keeps matrices that hold one number.  The last is true for b = 2 and false for b = 3 and b = 4. *)
Theorem C155_means files (d d0 : demodulator b64) b top :
  0 <= t_rows (mij d0) -> 0 <= t_cols (mij d0) -> 1 <= b -> load files = Ok d0 ->
  t_rows (mij d) = t_rows (mij d0) -> t_cols (mij d) = t_cols (mij d0) ->
  (t_rows (mij d) / b) mod 2 = 0 -> (t_cols (mij d) / b) mod 2 = 0 ->
  tensor_bounded top (mij d0) -> b * b + 8 <= 2 ^ 52 -> (IZR (b * b) * top <= powerRZ 2 1019)%R ->
  returns (fun fuel => demod_rebin fuel files d b)
    (fun d' => t_rows (mij d') = t_rows (mij d) / b /\ t_cols (mij d') = t_cols (mij d) / b /\
       forall i j Y X, 0 <= i < 3 -> 0 <= j < 4 -> 0 <= Y < t_rows (mij d) / b -> 0 <= X < t_cols (mij d) / b ->
         off_by (IZR (b * b + 1) * powerRZ 2 (-52) * block_size (mij d0) b i j Y X + powerRZ 2 (-1075))%R
           (t_cell (mij d') i j Y X) (block_mean (mij d0) b i j Y X)).
Proof. exact (c155_means files d d0 b top). Qed.
Print Assumptions C155_means.

Theorem C155_exact files (d d0 : demodulator b64) e k top :
  0 <= t_rows (mij d0) -> 0 <= t_cols (mij d0) -> 0 <= e -> load files = Ok d0 ->
  t_rows (mij d) = t_rows (mij d0) -> t_cols (mij d) = t_cols (mij d0) ->
  (t_rows (mij d) / 2 ^ e) mod 2 = 0 -> (t_cols (mij d) / 2 ^ e) mod 2 = 0 ->
  tensor_fixed top k (mij d0) -> 0 <= top -> 0 <= k <= 900 -> 2 ^ e * 2 ^ e * (top + 1) < 2 ^ 53 ->
  returns (fun fuel => demod_rebin fuel files d (2 ^ e))
    (fun d' => forall i j Y X, 0 <= i < 3 -> 0 <= j < 4 -> 0 <= Y < t_rows (mij d) / 2 ^ e -> 0 <= X < t_cols (mij d) / 2 ^ e ->
       is_value (t_cell (mij d') i j Y X) (block_mean (mij d0) (2 ^ e) i j Y X)).
Proof. exact (c155_exact files d d0 e k top). Qed.
Print Assumptions C155_exact.

(** For every [b] the means of entries of few bits are the nearest numbers, and a number of few bits everywhere is kept. *)
Theorem C155_rounded files (d d0 : demodulator b64) b k top :
  0 <= t_rows (mij d0) -> 0 <= t_cols (mij d0) -> 1 <= b -> load files = Ok d0 ->
  t_rows (mij d) = t_rows (mij d0) -> t_cols (mij d) = t_cols (mij d0) ->
  (t_rows (mij d) / b) mod 2 = 0 -> (t_cols (mij d) / b) mod 2 = 0 ->
  tensor_fixed top k (mij d0) -> 0 <= top -> 0 <= k <= 900 -> b * b * (top + 1) < 2 ^ 53 ->
  returns (fun fuel => demod_rebin fuel files d b)
    (fun d' => forall i j Y X, 0 <= i < 3 -> 0 <= j < 4 -> 0 <= Y < t_rows (mij d) / b -> 0 <= X < t_cols (mij d) / b ->
       nearest (t_cell (mij d') i j Y X) (block_mean (mij d0) b i j Y X)).
Proof. exact (c155_rounded files d d0 b k top). Qed.
Print Assumptions C155_rounded.

Theorem C155_few_bits_partial files (d d0 : demodulator b64) (v : b64) c b k :
  0 <= t_rows (mij d0) -> 0 <= t_cols (mij d0) -> 1 <= b -> load files = Ok d0 ->
  t_rows (mij d) = t_rows (mij d0) -> t_cols (mij d) = t_cols (mij d0) ->
  (t_rows (mij d) / b) mod 2 = 0 -> (t_cols (mij d) / b) mod 2 = 0 ->
  tensor_constant v (mij d0) -> is_value v (IZR c / IZR (2 ^ k)) -> 0 <= k <= 900 -> b * b * (Z.abs c + 1) < 2 ^ 53 ->
  returns (fun fuel => demod_rebin fuel files d b)
    (fun d' => forall i j Y X, 0 <= i < 3 -> 0 <= j < 4 -> 0 <= Y < t_rows (mij d) / b -> 0 <= X < t_cols (mij d) / b ->
       is_value (t_cell (mij d') i j Y X) (fval v)).
Proof. exact (c155_few_bits files d d0 v c b k). Qed.
Print Assumptions C155_few_bits_partial.

(** Any number everywhere, binned by 2 *)
Theorem C155_constant_partial files (d d0 : demodulator b64) (v : b64) :
  0 <= t_rows (mij d0) -> 0 <= t_cols (mij d0) -> load files = Ok d0 ->
  t_rows (mij d) = t_rows (mij d0) -> t_cols (mij d) = t_cols (mij d0) ->
  (t_rows (mij d) / 2) mod 2 = 0 -> (t_cols (mij d) / 2) mod 2 = 0 ->
  tensor_constant v (mij d0) -> is_binary64 v -> finite64 v -> (Rabs (fval v) <= powerRZ 2 1019)%R ->
  returns (fun fuel => demod_rebin fuel files d 2)
    (fun d' => forall i j Y X, 0 <= i < 3 -> 0 <= j < 4 -> 0 <= Y < t_rows (mij d) / 2 -> 0 <= X < t_cols (mij d) / 2 ->
       is_value (t_cell (mij d') i j Y X) (fval v)).
Proof. exact (c155_pairs files d d0 v). Qed.
Print Assumptions C155_constant_partial.

(** and binned by 3: 0.1 everywhere becomes 0.09999999999999999. *)
Theorem C155_constant_refuted : exists d0 d', load (tenth_files 6) = Ok d0 /\ tensor_constant one_tenth (mij d0) /\
  demod_rebin 10 (tenth_files 6) d0 3 = Ok d' /\ t_rows (mij d') = 2 /\ t_cols (mij d') = 2 /\
  t_cell (mij d') 0 0 0 0 = S754_finite false 7205759403792793 (-56).
Proof. exact c155_nine. Qed.
Print Assumptions C155_constant_refuted.

(** Powers of two beyond 2 do not help: binned by 4, 0.1 everywhere becomes 0.10000000000000002. *)
Theorem C155_four_refuted : exists d0 d', load (tenth_files 8) = Ok d0 /\ tensor_constant one_tenth (mij d0) /\
  demod_rebin 10 (tenth_files 8) d0 4 = Ok d' /\ t_rows (mij d') = 2 /\ t_cols (mij d') = 2 /\
  t_cell (mij d') 0 0 0 0 = S754_finite false 7205759403792795 (-56).
Proof. exact c155_sixteen. Qed.
Print Assumptions C155_four_refuted.

(** 0.1 everywhere, binned by 2 *)
Example C155_case : exists d0, load (tenth_files 4) = Ok d0 /\
  t_rows (mij d0) = 4 /\ t_cols (mij d0) = 4 /\ tensor_constant one_tenth (mij d0) /\ tensor_bounded 1 (mij d0) /\
  is_binary64 one_tenth /\ finite64 one_tenth /\ (Rabs (fval one_tenth) <= powerRZ 2 1019)%R /\
  2 * 2 + 8 <= 2 ^ 52 /\ (IZR (2 * 2) * 1 <= powerRZ 2 1019)%R.
Proof. exact c155_tenths. Qed.

(** Halves, binned by 2, and binned by 3 *)
Example C155_exact_case : exists d0, load (constant_files nhalf 4) = Ok d0 /\ t_rows (mij d0) = 4 /\ t_cols (mij d0) = 4 /\
  tensor_fixed 3 1 (mij d0) /\ 2 ^ 1 * 2 ^ 1 * (3 + 1) < 2 ^ 53.
Proof.
  destruct (constant_loaded nhalf 4) as (d0 & E & R & C & V). exists d0.
  split; [exact E|]. split; [exact R|]. split; [exact C|]. split; [|vm_compute; reflexivity].
  intros i j Y X Hi Hj HY HX. exists 1. split; [vm_compute; discriminate|].
  change (IZR 1 / IZR (2 ^ 1))%R with (1 / 2)%R. rewrite (V i j Y X Hi Hj HY HX). exact half_value.
Qed.
Example C155_rounded_case : exists d0, load (constant_files nhalf 6) = Ok d0 /\ t_rows (mij d0) = 6 /\ t_cols (mij d0) = 6 /\
  (6 / 3) mod 2 = 0 /\ tensor_constant nhalf (mij d0) /\ is_value nhalf (IZR 1 / IZR (2 ^ 1)) /\ 3 * 3 * (Z.abs 1 + 1) < 2 ^ 53.
Proof.
  destruct (constant_loaded nhalf 6) as (d0 & E & R & C & V). exists d0.
  split; [exact E|]. split; [exact R|]. split; [exact C|]. split; [reflexivity|]. split; [exact V|].
  split; [|vm_compute; reflexivity]. change (IZR 1 / IZR (2 ^ 1))%R with (1 / 2)%R. exact half_value.
Qed.
