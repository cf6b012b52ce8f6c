(** Rays from a pixel; angles in degrees, anti-clockwise with rows counted downwards. *)
From Coq Require Import Reals.
From Verif Require Import Base.Base.

Definition ray_row (cy theta t : R) : R := (cy - t * sin (theta * PI / 180))%R.
Definition ray_col (cx theta t : R) : R := (cx + t * cos (theta * PI / 180))%R.

(** The point of the ray at distance [t] lies in the pixel of row [y] and column [x]. *)
Definition on_pixel (cy cx : Z) (theta t : R) (y x : Z) : Prop :=
  (IZR y <= ray_row (IZR cy) theta t < IZR y + 1 /\ IZR x <= ray_col (IZR cx) theta t < IZR x + 1)%R.

(** The pixel is less than [d] rows and columns away from the point of the ray at distance [t]. *)
Definition near_ray (cy cx : Z) (theta t d : R) (y x : Z) : Prop :=
  (Rabs (IZR y - ray_row (IZR cy) theta t) < d /\ Rabs (IZR x - ray_col (IZR cx) theta t) < d)%R.

(** No inner radius, and an outer radius (if any) of more than two pixels. *)
Definition whole_ray (r : option (R * R)) : Prop :=
  match r with None => True | Some (rin, rout) => (rin <= 0 /\ 2 < rout)%R end.

(** Distance to which the ray is followed. *)
Definition reach (r : option (R * R)) : R :=
  match r with None => IZR (10 ^ 18) | Some (_, rout) => rout end.

(** Outermost pixels of an image, within [m] of its border. *)
Definition at_border (ht wd m y x : Z) : Prop := y <= m \/ ht - 1 - m <= y \/ x <= m \/ wd - 1 - m <= x.
