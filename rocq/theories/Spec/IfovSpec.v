(** Means of four pixels and corrected superpixels without rounding (vocabulary for C144). *)
From Coq Require Import Reals ZArith.
From Verif Require Import Base.Base Base.Num Spec.AngleSpec Spec.MosaicSpec Spec.DemodSpec Spec.FloatSpec.
Local Open Scope R_scope.

(** Mean of a pixel and of the pixels of its family one superpixel above, to the left, and both; 0 in the first two rows and columns. *)
Definition smoothed (f : Z -> Z -> R) (y x : Z) : R :=
  if ((y <? 2) || (x <? 2))%bool%Z then 0
  else (f (y - 2)%Z (x - 2)%Z + f (y - 2)%Z x + f y (x - 2)%Z + f y x) / 4.

(** A pixel corrected by the matrix of its superpixel, whose entry (k, l) is held by [C k l] in the top left pixel of the superpixel. *)
Definition matrix_at (C : Z -> Z -> arr b64) (y x : Z) : Z -> Z -> b64 := fun k l => cell (C k l) (2 * (y / 2)) (2 * (x / 2)).
Definition exact_corrected (C : Z -> Z -> arr b64) (offset data : arr b64) (y x : Z) : R :=
  exact_row (matrix_at C y x) (fun l => sample (values data) l (y / 2) (x / 2) - sample (values offset) l (y / 2) (x / 2)) (family y x).
(** The same with absolute values everywhere: the size of what is added up. *)
Definition size_corrected (C : Z -> Z -> arr b64) (offset data : arr b64) (y x : Z) : R :=
  abs_row (matrix_at C y x) (fun l => sample (absolute data) l (y / 2) (x / 2) + sample (absolute offset) l (y / 2) (x / 2)) (family y x).

(** [P] holds of the entries of the matrices of all superpixels of an image of [h] rows and [w] columns. *)
Definition entries (P : Z -> Z -> b64 -> Prop) (C : Z -> Z -> arr b64) (h w : Z) : Prop :=
  forall k l y x, (0 <= k < 4)%Z -> (0 <= l < 4)%Z -> (0 <= y < h)%Z -> (0 <= x < w)%Z -> P k l (matrix_at C y x k l).

(** A multiple of 2^-p of at most [big] times 2^-p. *)
Definition fixed_point (p big : Z) (x : b64) : Prop :=
  exists m, (Z.abs m <= big)%Z /\ is_value x (IZR m * powerRZ 2 (- p)).
