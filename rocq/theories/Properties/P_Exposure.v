(** Property C156: exposures in binary64. *)
From Coq Require Import String Reals Floats.SpecFloat.
From Verif Require Import Base.Base Base.Num Model.Stokes Model.Demodulate Model.Pol Spec.FloatSpec Spec.ExposureSpec Proofs.ExposureFacts Spec.MosaicSpec.
Local Open Scope Z_scope.

(** ** C156.  Full statement: in binary64, an image exposed c times as long has c times the I, Q, U and pB, and the same DoLP,
    without any further rounding.  True for powers of two, *)
Theorem C156_powers_partial k (d d' : arr b64) dic s : ordinary d -> ordinary d' -> mosaic d -> exposed k d d' -> data_stokes dic d = Ok s ->
  exists s', data_stokes dic d' = Ok s' /\ forall y x, 0 <= y < rows d / 2 -> 0 <= x < cols d / 2 ->
    rescaled k (cell (sI s) y x) (cell (sI s') y x) /\ rescaled k (cell (sQ s) y x) (cell (sQ s') y x) /\
    rescaled k (cell (sU s) y x) (cell (sU s') y x) /\ rescaled k (cell (pB s) y x) (cell (pB s') y x) /\
    rescaled 0 (cell (DoLP s) y x) (cell (DoLP s') y x).
Proof. exact (c156_stokes k d d' dic s). Qed.
Print Assumptions C156_powers_partial.

(** also after demodulation, where the calibration succeeded, *)
Theorem C156_demodulated_partial k (d : demodulator b64) data data' old old' h w :
  moderate_image data -> moderate_image data' -> moderate_matrices (mij d) -> mosaic data -> exposed k data data' ->
  h = rows data / 2 -> w = cols data / 2 -> t_rows (mij d) = h -> t_cols (mij d) = w -> flags_fit d old h w -> flags_fit d old' h w ->
  exists s s', demod_raw d data old = Ok s /\ demod_raw d data' old' = Ok s' /\
    forall Y X, 0 <= Y < h -> 0 <= X < w -> (forall f, fit_found_flags d = Some f -> neqb (cell f Y X) n1 = true) ->
      rescaled k (cell (sI s) Y X) (cell (sI s') Y X) /\ rescaled k (cell (sQ s) Y X) (cell (sQ s') Y X) /\
      rescaled k (cell (sU s) Y X) (cell (sU s') Y X) /\ rescaled k (cell (pB s) Y X) (cell (pB s') Y X) /\
      rescaled 0 (cell (DoLP s) Y X) (cell (DoLP s') Y X).
Proof. exact (c156_demodulated k d data data' old old' h w). Qed.
Print Assumptions C156_demodulated_partial.

(** and false for 3: the DoLP of pixels 1, 1, 3, 3 is 0.7071067811865476, that of 3, 3, 9, 9 is 0.7071067811865475. *)
Theorem C156_three_refuted : exists s s', data_stokes polarcam_angles (two_rows 1 3) = Ok s /\ data_stokes polarcam_angles (two_rows 3 9) = Ok s' /\
  cell (DoLP s) 0 0 = S754_finite false 6369051672525773 (-53) /\ cell (DoLP s') 0 0 = S754_finite false 6369051672525772 (-53).
Proof. exact c156_three. Qed.
Print Assumptions C156_three_refuted.

(** Pixels 1, 1, 3, 3 exposed eight times as long *)
Example C156_case : ordinary (two_rows 1 3) /\ ordinary (two_rows 8 24) /\ mosaic (two_rows 1 3) /\ exposed 3 (two_rows 1 3) (two_rows 8 24) /\
  exists s, data_stokes polarcam_angles (two_rows 1 3) = Ok s.
Proof. exact c156_case. Qed.

(** and demodulated *)
Example C156_demodulated_case old : let d := mkdemodulator (mktensor 1 1 (fun _ _ _ _ => nhalf)) None in
  moderate_image (two_rows 1 3) /\ moderate_image (two_rows 8 24) /\ moderate_matrices (mij d) /\ mosaic (two_rows 1 3) /\
  exposed 3 (two_rows 1 3) (two_rows 8 24) /\ flags_fit d old 1 1.
Proof. exact (c156_demod_case old). Qed.
