(** Arrays of binary64 angles in radians. *)
From Coq Require Import Reals ZArith Floats.SpecFloat.
From Verif Require Import Base.Base Base.Num Spec.AngleSpec.
Local Open Scope R_scope.

(** The binary64 number nearest to pi. *)
Definition pi_float : R := 884279719003555 / 281474976710656.

(** An angle whose reduction ends: not a number, or at most 2^55 rad. *)
Definition reducible (v : b64) : Prop := is_binary64 v /\ (v = S754_nan \/ (finite64 v /\ Rabs (fval v) <= 36028797018963968)).
(** An angle whose reduction does not. *)
Definition irreducible (v : b64) : Prop :=
  (exists s, v = S754_infinity s) \/ (is_binary64 v /\ finite64 v /\ 36028797018963968 < Rabs (fval v)).

(** [w] is [v] reduced to (-pi/2, pi/2] by [n] half turns; every step and two more may lose 2^-53 of [v]. *)
Definition reduced64 (v w : b64) : Prop :=
  match v with
  | S754_nan => w = S754_nan
  | _ => (- (pi_float / 2) < fval v <= pi_float / 2 -> w = v) /\
         is_binary64 w /\ finite64 w /\ - (pi_float / 2) < fval w <= pi_float / 2 /\
         exists n : Z, Rabs (fval w - (fval v + IZR n * pi_float)) <= (IZR (Z.abs n) + 2) * (/ 9007199254740992 * Rabs (fval v))
  end.
