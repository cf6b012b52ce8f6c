(** Interpolation of half-size fields, and sums of fields. *)
From Coq Require Import Reals.
From Verif Require Import Base.Base Spec.MosaicSpec.

(** Value at pixel (y, x) of an [h] x [w] field stretched to twice its sides: the mean over the
    corners of the surrounding square, some of which coincide on even rows and columns and beyond
    the last ones. *)
Definition stretched (h w : Z) (f : Z -> Z -> R) (y x : Z) : R :=
  let Y := y / 2 in
  let X := x / 2 in
  let Y' := if y mod 2 =? 0 then Y else next h Y in
  let X' := if x mod 2 =? 0 then X else next w X in
  ((f Y X + f Y' X + f Y X' + f Y' X') / 4)%R.

(** An image of counts. *)
Definition nonnegative (d : arr R) : Prop :=
  forall y x, 0 <= y < rows d -> 0 <= x < cols d -> (0 <= cell d y x)%R.
