(** Propagated errors in binary64 (vocabulary for C141). *)
From Coq Require Import Reals ZArith.
From Verif Require Import Base.Base Base.Num Model.Demosaic Model.Stokes Model.Demodulate Spec.AngleSpec Spec.FloatSpec.
Local Open Scope R_scope.

(** A finite binary64 number that is zero or of a size between 2^-k and 2^k. *)
Definition usual (k : Z) (x : b64) : Prop :=
  is_binary64 x /\ finite64 x /\ (fval x = 0 \/ powerRZ 2 (- k) <= Rabs (fval x) <= powerRZ 2 k).
Definition usual_image (k h w : Z) (a : arr b64) : Prop :=
  rows a = h /\ cols a = w /\ forall y x, (0 <= y < h)%Z -> (0 <= x < w)%Z -> usual k (cell a y x).
Definition usual_stokes (k h w : Z) (s : stokes b64) : Prop :=
  usual_image k h w (sI s) /\ usual_image k h w (sQ s) /\ usual_image k h w (sU s).
Definition usual_tensor (k h w : Z) (m : tensor b64) : Prop :=
  t_rows m = h /\ t_cols m = w /\
  forall i j y x, (0 <= i < 3)%Z -> (0 <= j < 4)%Z -> (0 <= y < h)%Z -> (0 <= x < w)%Z -> usual k (t_cell m i j y x).

(** The same numbers as real numbers. *)
Definition real_stokes (s : stokes b64) : stokes R := mkstokes (values (sI s)) (values (sQ s)) (values (sU s)).
Definition real_tensor (m : tensor b64) : tensor R := mktensor (t_rows m) (t_cols m) (fun i j y x => fval (t_cell m i j y x)).
Definition real_demodulator (d : demodulator b64) : demodulator R :=
  mkdemodulator (real_tensor (mij d)) (option_map values (fit_found_flags d)).
