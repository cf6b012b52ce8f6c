(** Angles in floating point that sectors are measured with. *)
From Coq Require Import Reals Floats.SpecFloat.
From Verif Require Import Base.Base Base.Num Model.Pol Spec.AngleSpec.

(** The binary64 numbers nearest to k pi / 4 *)
Definition eighth (k : Z) : b64 :=
  match k with
  | 0 => S754_zero false
  | 1 => S754_finite false 7074237752028440 (-53)
  | 2 => S754_finite false 7074237752028440 (-52)
  | 3 => S754_finite false 5305678314021330 (-51)
  | 4 => S754_finite false 7074237752028440 (-51)
  | -1 => S754_finite true 7074237752028440 (-53)
  | -2 => S754_finite true 7074237752028440 (-52)
  | -3 => S754_finite true 5305678314021330 (-51)
  | _ => S754_nan
  end.

(** What is assumed of np.arctan2 on whole numbers: its results are within one unit in the last place of the largest angle,
    and the nearest numbers in the eight principal directions. *)
Definition usual_arctan2 (at2 : b64 -> b64 -> b64) : Prop :=
  forall dy dx, Z.abs dy < 2 ^ 31 -> Z.abs dx < 2 ^ 31 ->
    let a := at2 (nofZ dy) (nofZ dx) in
    is_binary64 a /\ finite64 a /\ (Rabs (fval a - atan2 (IZR dy) (IZR dx)) <= powerRZ 2 (-51))%R /\
    forall k, -3 <= k <= 4 -> atan2 (IZR dy) (IZR dx) = (IZR k * (PI / 4))%R -> a = eighth k.

(** Multiples of 30 or of 45 degrees *)
Definition round_angle (z : Z) : Prop := z mod 30 = 0 \/ z mod 45 = 0.

(** Two calls with the same outcome: the same exception, or images with the same pixels. *)
Definition same_outcome {A} (r r' : result (arr A)) : Prop :=
  match r, r' with
  | Ok a, Ok b => rows a = rows b /\ cols a = cols b /\ forall y x, 0 <= y < rows a -> 0 <= x < cols a -> cell a y x = cell b y x
  | Raise e, Raise e' => e = e'
  | _, _ => False
  end.
