(** Vocabulary for corrections in binary64. *)
From Coq Require Import Reals Floats.SpecFloat.
From Verif Require Import Base.Base Base.Num Spec.AngleSpec.
Local Open Scope R_scope.

(** Numbers far from overflow and underflow. *)
Definition moderate (r : R) : Prop := powerRZ 2 (-300) <= Rabs r <= powerRZ 2 300.

(** A difference that is not a number. *)
Definition no_difference (x y : b64) : Prop :=
  x = S754_nan \/ y = S754_nan \/ exists s, x = S754_infinity s /\ y = S754_infinity s.
