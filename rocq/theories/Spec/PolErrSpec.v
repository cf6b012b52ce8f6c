(** Errors of pB and DoLP (vocabulary for C148). *)
From Coq Require Import Reals.
From Verif Require Import Base.Base Base.Num Model.Stokes Model.Pol Model.PolFloat Model.Demodulate Spec.AngleSpec Spec.FloatSpec Spec.DemodSpec Spec.MosaicSpec Spec.MeanSpec Spec.AngleErr.
Local Open Scope R_scope.

(** Error of pB [P] computed from Q and U, the errors of which add up to [e] *)
Definition pB_error (e P : R) : R := e + powerRZ 2 (-50) * (P + e) + powerRZ 2 (-520).
(** Error of DoLP [D] computed from pB with error [b] and intensity [I] with error [e] *)
Definition DoLP_error (b e I D : R) : R := 3 * (b + D * e) / I + powerRZ 2 (-52) * D + powerRZ 2 (-1074).
(** The binary64 number [x] differs from the orientation [a] by at most [e], up to half turns. *)
Definition off_angle (e : R) (x : b64) (a : R) : Prop := is_binary64 x /\ finite64 x /\ close_angle PI e (fval x) a.

(** pB, DoLP and AoLP of [s] against those of [r] at a pixel where the intensity is known to [eI] and Q and U together to [e]:
    pB always, DoLP where there is light, AoLP where there is polarization. *)
Definition polarization_known (eps : R) (at2 : b64 -> b64 -> b64) (s : stokes b64) (r : stokes R) (y x : Z) (eI e : R) : Prop :=
  let P := cell (pB r) y x in let b := pB_error e P in
  off_by b (cell (pB s) y x) P /\
  (powerRZ 2 (-400) <= cell (sI r) y x -> 2 * eI <= cell (sI r) y x ->
     off_by (DoLP_error b eI (cell (sI r) y x) (cell (DoLP r) y x)) (cell (DoLP s) y x) (cell (DoLP r) y x)) /\
  (accurate_arctan2 eps at2 -> e < P -> off_angle (eps / 2 + asin (e / P) / 2 + powerRZ 2 (-1074)) (cell (AoLP64 at2 s) y x) (cell (AoLP r) y x)).

(** Stokes parameters that a demodulation matrix gives for an image, without rounding, and the rounding error of the code
    for an image corrected with a mean known to [eps] (C127) *)
Definition demodulated (m : tensor b64) (a : arr R) (h w : Z) : stokes R :=
  let row i := mkarr h w (fun Y X => exact_row (fun i j => t_cell m i j Y X) (fun k => sample a k Y X) i) in
  mkstokes (row 0%Z) (row 1%Z) (row 2%Z).
Definition demod_error (eps : R) (m : tensor b64) (a : arr R) (i Y X : Z) : R :=
  row_error eps * abs_row (fun i j => t_cell m i j Y X) (fun k => Rabs (sample a k Y X)) i + powerRZ 2 (-1070).
