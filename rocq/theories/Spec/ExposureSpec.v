(** Images exposed longer by a power of two. *)
From Coq Require Import Reals ZArith.
From Verif Require Import Base.Base Base.Num Model.Stokes Model.Demodulate Spec.AngleSpec Spec.FloatSpec.
Local Open Scope R_scope.

(** [y] is exactly 2^k times [x]. *)
Definition rescaled (k : Z) (x y : b64) : Prop := exists v, is_value x v /\ is_value y (powerRZ 2 k * v).

(** Every pixel of [d'] is exactly 2^k times that of [d]. *)
Definition exposed (k : Z) (d d' : arr b64) : Prop :=
  rows d' = rows d /\ cols d' = cols d /\
  forall y x, (0 <= y < rows d)%Z -> (0 <= x < cols d)%Z -> rescaled k (cell d y x) (cell d' y x).

(** Two rows of two pixels each *)
Definition two_rows (a b : Z) : arr b64 := mkarr 2 2 (fun y _ => nofZ (if (y =? 0)%Z then a else b)).

(** Numbers that are 0 or of ordinary size, in images and in the matrices of a demodulator *)
Definition moderate (v : b64) : Prop :=
  is_binary64 v /\ finite64 v /\ (fval v = 0 \/ powerRZ 2 (-200) <= Rabs (fval v) <= powerRZ 2 200).
Definition moderate_image (d : arr b64) : Prop :=
  forall y x, (0 <= y < rows d)%Z -> (0 <= x < cols d)%Z -> moderate (cell d y x).
Definition moderate_matrices (m : tensor b64) : Prop :=
  forall i j Y X, (0 <= i < 3)%Z -> (0 <= j < 4)%Z -> (0 <= Y < t_rows m)%Z -> (0 <= X < t_cols m)%Z -> moderate (t_cell m i j Y X).

(** Flags and the Stokes vector of before, if there are flags, have [h] x [w] elements. *)
Definition flags_fit (d : demodulator b64) (old : stokes b64) (h w : Z) : Prop :=
  forall f, fit_found_flags d = Some f ->
    (rows f = h /\ cols f = w) /\ (rows (sI old) = h /\ cols (sI old) = w) /\
    (rows (sQ old) = h /\ cols (sQ old) = w) /\ (rows (sU old) = h /\ cols (sU old) = w).
