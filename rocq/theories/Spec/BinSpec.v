(** Matrices of a demodulator and bins of superpixels (vocabulary for C117). *)
From Coq Require Import Reals.
From Verif Require Import Base.Base Base.Num Model.Demodulate Spec.SumSpec.

(** All superpixels of each complete [b] x [b] bin have the same matrix. *)
Definition constant_in_bins (m : tensor R) (b : Z) : Prop :=
  forall i j Y X u v, 0 <= i < 3 -> 0 <= j < 4 -> 0 <= Y < t_rows m / b -> 0 <= X < t_cols m / b -> 0 <= u < b -> 0 <= v < b ->
    t_cell m i j (b * Y + u) (b * X + v) = t_cell m i j (b * Y) (b * X).

(** [m'] holds the mean matrices of the bins. *)
Definition means_of_bins (m m' : tensor R) (b : Z) : Prop :=
  t_rows m' = t_rows m / b /\ t_cols m' = t_cols m / b /\
  forall i j Y X, 0 <= i < 3 -> 0 <= j < 4 -> 0 <= Y < t_rows m / b -> 0 <= X < t_cols m / b ->
    t_cell m' i j Y X = (rsum2 b b (fun u v => t_cell m i j (b * Y + u) (b * X + v)) / IZR (b * b))%R.

(** [a'] holds the sums of the bins of [a]. *)
Definition sums_of_bins (a a' : arr R) (b : Z) : Prop :=
  rows a' = rows a / b /\ cols a' = cols a / b /\
  forall Y X, 0 <= Y < rows a' -> 0 <= X < cols a' ->
    cell a' Y X = rsum2 b b (fun u v => cell a (b * Y + u) (b * X + v)).
