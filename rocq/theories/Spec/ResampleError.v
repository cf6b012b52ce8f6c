(** How far resampled pixels may be from the interpolated ones. *)
From Coq Require Import Reals ZArith.
Local Open Scope R_scope.

(** For images of [h] by [w] pixels that are at most [M] in absolute value. *)
Definition resample_error (h w : Z) (M : R) : R := 12 * IZR (h + w + 4) * M * powerRZ 2 (-53) + powerRZ 2 (-1072).
