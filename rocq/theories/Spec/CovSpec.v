(** Covariance tensors. *)
From Verif Require Import Base.Base Model.Demodulate.

Definition same_tensor33 {A} (m m' : tensor A) : Prop :=
  t_rows m = t_rows m' /\ t_cols m = t_cols m' /\
  forall i j y x, 0 <= i < 3 -> 0 <= j < 3 -> 0 <= y < t_rows m' -> 0 <= x < t_cols m' ->
    t_cell m i j y x = t_cell m' i j y x.
