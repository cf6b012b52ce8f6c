(** Demodulation as a fit to four pixels (vocabulary for C126). *)
From Coq Require Import Reals.
From Verif Require Import Base.Base Model.Stokes Model.Demodulate Model.DemodFit Spec.DemodSpec Spec.FitSpec Spec.MosaicSpec.
Local Open Scope R_scope.

(** How badly light (I, Q, U) explains the samples [v] of micropolarizers [p]: sum of squared differences. *)
Definition residual (p : four param3) (v : Z -> R) (I Q U : R) : R :=
  sum4 (fun k => Rsqr (v k - recorded (p_t (f4 p k)) (p_e (f4 p k)) (p_phi (f4 p k)) I Q U)).

(** The demodulator has an image's size and the previous Stokes parameters fit, as for an image of that size. *)
Definition fits {A} (d : demodulator A) (data : arr A) (old : stokes A) : Prop :=
  let h := (rows data / 2)%Z in let w := (cols data / 2)%Z in
  mosaic data /\ t_rows (mij d) = h /\ t_cols (mij d) = w /\
  forall f, fit_found_flags d = Some f ->
     (rows f = h /\ cols f = w) /\ (rows (sI old) = h /\ cols (sI old) = w) /\
     (rows (sQ old) = h /\ cols (sQ old) = w) /\ (rows (sU old) = h /\ cols (sU old) = w).

(** In superpixel (Y, X) the demodulator holds the pseudo-inverse for micropolarizers [p], which determine the light. *)
Definition calibrated (d : demodulator R) (p : four param3) (Y X : Z) : Prop :=
  (forall f, fit_found_flags d = Some f -> cell f Y X = 1) /\
  pseudo_inverse (entry43 (modulation_of p)) (fun i j => t_cell (mij d) i j Y X) /\ rank3 (entry43 (modulation_of p)).

(** Four micropolarizers that are said to be turned by [theta], or to transmit [c] times as much, as four others. *)
Definition turned_by (theta : R) (p p' : four param3) : Prop :=
  forall k, (0 <= k < 4)%Z -> p_t (f4 p' k) = p_t (f4 p k) /\ p_e (f4 p' k) = p_e (f4 p k) /\ p_phi (f4 p' k) = p_phi (f4 p k) + theta.
Definition brighter_by (c : R) (p p' : four param3) : Prop :=
  forall k, (0 <= k < 4)%Z -> p_t (f4 p' k) = c * p_t (f4 p k) /\ p_e (f4 p' k) = p_e (f4 p k) /\ p_phi (f4 p' k) = p_phi (f4 p k).

(** Four ideal micropolarizers in the given arrangement. *)
Definition ideal_at (a : arrangement) (p : four param3) : Prop :=
  f4 p (p0 a) = (1, 1, 0) /\ f4 p (p45 a) = (1, 1, PI / 4) /\ f4 p (pm45 a) = (1, 1, - (PI / 4)) /\ f4 p (p90 a) = (1, 1, PI / 2).
