(** Samples that stand for a position (vocabulary for C146). *)
From Coq Require Import Reals.
From Verif Require Import Base.Base Model.CongridKind.
Local Open Scope R_scope.

(** [i] is the sample that the kind asks for at position [r]: the nearest one (the lower or the upper of two), the last one
    not above, the first one not below. *)
Definition asked (k : kind) (r : R) (i : Z) : Prop :=
  match k with
  | Nearest => IZR i - / 2 < r <= IZR i + / 2
  | NearestUp => IZR i - / 2 <= r < IZR i + / 2
  | Previous => IZR i <= r < IZR i + 1
  | Next => IZR i - 1 < r <= IZR i
  end.
(** for some position within [e] of [r]; for every one *)
Definition asked_near (k : kind) (e r : R) (i : Z) : Prop := exists r', Rabs (r' - r) <= e /\ asked k r' i.
Definition surely_asked (k : kind) (e r : R) (i : Z) : Prop := forall r', Rabs (r' - r) <= e -> asked k r' i.

(** Rounding error of the positions over [n] samples *)
Definition position_error (n : Z) : R := 3 * powerRZ 2 (-53) * IZR (n - 1).

(** The first [h] rows and [w] columns of [out] hold the pixels of [a] in the rows and columns given by two increasing maps. *)
Definition takes {A} (h w : Z) (out a : arr A) (f g : Z -> Z) : Prop :=
  (forall y, 0 <= y < h -> 0 <= f y < rows a)%Z /\ (forall x, 0 <= x < w -> 0 <= g x < cols a)%Z /\
  (forall y y', 0 <= y <= y' -> y' < h -> f y <= f y')%Z /\ (forall x x', 0 <= x <= x' -> x' < w -> g x <= g x')%Z /\
  forall y x, (0 <= y < h)%Z -> (0 <= x < w)%Z -> cell out y x = cell a (f y) (g x).
