(** Orders of addition and errors of corrected images (vocabulary for C127). *)
From Coq Require Import Reals Permutation.
From Verif Require Import Base.Base Base.Num Model.MeanFloat Spec.AngleSpec Spec.FloatSpec Spec.CorrectSpec.
Local Open Scope R_scope.

(** [o] adds every pixel of [a] once. *)
Definition order_of {A} (a : arr A) (o : order A) : Prop := Permutation (order_pixels o) (concat (to_list a)).

(** Every pixel is a finite binary64 number, not 0 and far from the ends of the exponent range. *)
Definition sensible (d : arr b64) : Prop :=
  forall y x, (0 <= y < rows d)%Z -> (0 <= x < cols d)%Z ->
    is_binary64 (cell d y x) /\ finite64 (cell d y x) /\ moderate (fval (cell d y x)).
Definition positive (d : arr b64) : Prop := forall y x, (0 <= y < rows d)%Z -> (0 <= x < cols d)%Z -> 0 < fval (cell d y x).

(** Relative error of a pixel after correct_flat with a mean known to [eps], and after products and sums on top of it. *)
Definition flat_error (eps : R) : R := eps + powerRZ 2 (-51) * (1 + eps).
Definition row_error (eps : R) : R := flat_error eps + powerRZ 2 (-50) * (1 + flat_error eps).
