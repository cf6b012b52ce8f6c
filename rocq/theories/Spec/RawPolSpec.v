(** What a superpixel of integer counts measures, and what binary64 results must be. *)
From Coq Require Import Reals ZArith.
From Verif Require Import Base.Base Base.Num Model.Stokes Model.Pol Spec.AngleSpec Spec.MosaicSpec Spec.FloatSpec.
Local Open Scope R_scope.

(** The counts behind the polarizers of superpixel (Y, X) of a sensor whose pixel (y, x) counted [n y x]. *)
Definition behind (n : Z -> Z -> Z) (k Y X : Z) : R := IZR (n (2 * Y + k / 2) (2 * X + k mod 2))%Z.

(** The results for a sensor of [height] by [width] pixels: I, Q and U hold exactly half the sum and the two
    differences, pB is the binary64 number nearest to the polarized intensity, and DoLP is off by at most 2^-51
    of the degree of polarization; where nothing was counted DoLP is 0. *)
Definition measures (a : arrangement) (n : Z -> Z -> Z) (height width : Z) (s : stokes b64) : Prop :=
  rows (sI s) = (height / 2)%Z /\ cols (sI s) = (width / 2)%Z /\
  rows (DoLP s) = (height / 2)%Z /\ cols (DoLP s) = (width / 2)%Z /\
  forall Y X, (0 <= Y < height / 2)%Z -> (0 <= X < width / 2)%Z ->
    let c k := behind n k Y X in
    let total := c 0%Z + c 1%Z + c 2%Z + c 3%Z in
    let dq := c (p0 a) - c (p90 a) in
    let du := c (p45 a) - c (pm45 a) in
    is_value (cell (sI s) Y X) (total / 2) /\ is_value (cell (sQ s) Y X) dq /\ is_value (cell (sU s) Y X) du /\
    nearest (cell (pB s) Y X) (sqrt (dq * dq + du * du)) /\
    (total <> 0 -> within (/ 2 ^ 51) (cell (DoLP s) Y X) (sqrt (dq * dq + du * du) / (total / 2))) /\
    (total = 0 -> is_value (cell (DoLP s) Y X) 0).
