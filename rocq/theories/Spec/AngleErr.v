(** How far apart two directions are (vocabulary for C118). *)
From Coq Require Import Reals ZArith.
From Verif Require Import Base.Base Base.Num Model.Stokes Model.Pol Spec.AngleSpec Spec.FloatSpec.
Local Open Scope R_scope.

(** [a] and [b] differ by at most [e], up to multiples of [period]. *)
Definition close_angle (period e a b : R) : Prop := exists n : Z, Rabs (a - b - IZR n * period) <= e.

(** (Q, U) of [s'] is at most [e] away from (Q, U) of [s]. *)
Definition moved (e : R) (s s' : stokes R) (y x : Z) : Prop :=
  Rsqr (cell (sQ s') y x - cell (sQ s) y x) + Rsqr (cell (sU s') y x - cell (sU s) y x) <= Rsqr e.

(** A library function arctan2 that is off by at most [eps], up to full turns: arctan2 (-0.0) (-1.0) is - pi.
    Nothing is said about (0, 0). *)
Definition accurate_arctan2 (eps : R) (at2 : b64 -> b64 -> b64) : Prop :=
  forall u q, is_binary64 u -> finite64 u -> is_binary64 q -> finite64 q -> (fval u <> 0 \/ fval q <> 0) ->
    is_binary64 (at2 u q) /\ finite64 (at2 u q) /\ close_angle (2 * PI) eps (fval (at2 u q)) (atan2 (fval u) (fval q)).
