(** Vocabulary for symmetries of lines of pixels (C135). *)
From Verif Require Import Base.Base.

(** [j]/[dx]'s steps of [dy]: [k * dy / dx] to the nearest integer, the smaller one of two. *)
Definition half_down (dy dx k : Z) : Z := (2 * dy * k + dx - 1) / (2 * dx).

(** Rows and columns exchanged. *)
Definition swap3 {D} (r : list Z * list Z * D) : list Z * list Z * D := let '(ys, xs, d) := r in (xs, ys, d).

(** [l'] is [l] read backwards, up to element [n]. *)
Definition backwards (n : Z) (l l' : list Z) : Prop :=
  forall k, 0 <= k <= n -> nth_error l' (Z.to_nat (n - k)) = nth_error l (Z.to_nat k).
