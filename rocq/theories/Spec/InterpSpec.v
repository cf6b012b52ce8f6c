(** Linear interpolation between samples. *)
From Coq Require Import Reals.
From Verif Require Import Base.Base.
Local Open Scope R_scope.

(** [v] is the value at real position [p] of the polygon through the samples [f 0 ... f (n-1)]. *)
Definition on_polygon (n : Z) (f : Z -> R) (p v : R) : Prop :=
  exists i t, (0 <= i <= n - 2)%Z /\ 0 <= t <= 1 /\ p = IZR i + t /\ v = (1 - t) * f i + t * f (i + 1)%Z.

(** [v] is the bilinear interpolation of the samples of [a] at the real position (p, q). *)
Definition bilinear (a : arr R) (p q v : R) : Prop :=
  exists i j s t,
    (0 <= i <= rows a - 2)%Z /\ (0 <= j <= cols a - 2)%Z /\ 0 <= s <= 1 /\ 0 <= t <= 1 /\
    p = IZR i + s /\ q = IZR j + t /\
    v = (1 - s) * (1 - t) * cell a i j + (1 - s) * t * cell a i (j + 1)%Z +
        s * (1 - t) * cell a (i + 1)%Z j + s * t * cell a (i + 1)%Z (j + 1)%Z.

(** Position, in samples, of sample [k] of [m] spread evenly over [n]. *)
Definition spread (n m k : Z) : R := IZR k * IZR (n - 1) / IZR (m - 1).

(** The subimage of family [k] of a mosaic. *)
Definition family_image {A} (d : arr A) (k : Z) : arr A :=
  mkarr (rows d / 2) (cols d / 2) (fun Y X => cell d (2 * Y + k / 2) (2 * X + k mod 2))%Z.
