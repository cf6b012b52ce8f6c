(** Matrices computed by a calibration (vocabulary for C150). *)
From Coq Require Import Reals.
From Verif Require Import Base.Base Spec.FloatSpec Spec.DemodSpec Spec.NearSpec Spec.PixelSpec Spec.CorrectSpec.
Local Open Scope R_scope.

(** [M] (3x4) undoes [N] (4x3) up to [dl]: the entries of their product are within [dl] of those of the identity. *)
Definition undoes (dl : R) (N M : Z -> Z -> R) : Prop :=
  forall i l, (0 <= i < 3)%Z -> (0 <= l < 3)%Z -> Rabs (sum4 (fun k => M i k * N k l) - (if (i =? l)%Z then 1 else 0)) <= dl.

(** How far a Stokes parameter computed with row [i] of [M] may be from the one of light of intensity [I], when the pixels are
    off by [near] (micropolarizers) and [noise], relative to the intensity of the flat image, and the computation rounds by [round]. *)
Definition light_error (dl near noise round I : R) (M : Z -> Z -> R) (i : Z) : R :=
  row_sum M i * (near * I + noise + round * (I + noise)) + 3 * dl * I.
