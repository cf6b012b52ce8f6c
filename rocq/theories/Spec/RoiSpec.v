(** Independent description of polar regions of interest. *)
From Coq Require Import Reals.
From Verif Require Import Base.Base.

(** [rho], [phi] (degrees in [0, 360), 0 for the centre itself) are the polar
    coordinates of the point at vertical offset [dy] and horizontal offset [dx]. *)
Definition polar_of (dy dx rho phi : R) : Prop :=
  (0 <= rho /\ 0 <= phi < 360 /\
   dx = rho * cos (phi / 180 * PI) /\ dy = rho * sin (phi / 180 * PI) /\
   (rho = 0 -> phi = 0))%R.

(** Annular sector: r1 < distance <= r2 and t1 <= angle < t2. *)
Definition in_sector (dy dx r1 r2 t1 t2 : R) : Prop :=
  exists rho phi, polar_of dy dx rho phi /\ (r1 < rho <= r2)%R /\ (t1 <= phi < t2)%R.

(** Euclidean distance of two pixels (or superpixels). *)
Definition dist (y x y' x' : Z) : R :=
  sqrt (IZR ((y - y') * (y - y') + (x - x') * (x - x'))).

(** [P] selects exactly the pixels in the ring (r, r + step] around (cy, cx) and the
    sector [t1, t2). *)
Definition ring_mask (cy cx r step : Z) (t1 t2 : R) (P : Z -> Z -> bool) : Prop :=
  forall y x, P y x = true <->
    in_sector (IZR y - IZR cy) (IZR x - IZR cx) (IZR r) (IZR (r + step)) t1 t2.
