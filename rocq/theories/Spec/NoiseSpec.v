(** Noise of the pixels in the Stokes parameters (vocabulary for C129). *)
From Coq Require Import Reals.
From Verif Require Import Base.Base Model.Stokes Model.DemodFit Spec.DemodSpec Spec.FitSpec Spec.MosaicSpec.
Local Open Scope R_scope.

(** I, Q or U *)
Definition component (i : Z) (I Q U : R) : R := if (i =? 0)%Z then I else if (i =? 1)%Z then Q else U.
Definition stokes_at (s : stokes R) (i Y X : Z) : R := component i (cell (sI s) Y X) (cell (sQ s) Y X) (cell (sU s) Y X).

(** Weights of the four pixels that give I, Q or U for whatever light. *)
Definition unbiased (p : four param3) (i : Z) (w : Z -> R) : Prop :=
  forall I Q U, sum4 (fun k => w k * recorded (p_t (f4 p k)) (p_e (f4 p k)) (p_phi (f4 p k)) I Q U) = component i I Q U.

(** Variance of the weighted sum, for independent pixels of variances [v]. *)
Definition variance (v w : Z -> R) : R := sum4 (fun k => Rsqr (w k) * v k).

(** The image with [delta] added to pixel (y, x). *)
Definition bumped (y x : Z) (delta : R) (d : arr R) : arr R :=
  mkarr (rows d) (cols d) (fun y' x' => if ((y' =? y) && (x' =? x))%Z then cell d y' x' + delta else cell d y' x').

(** Weights that give the Stokes parameters behind ideal micropolarizers: half of all, 0 minus 90 degrees, 45 minus -45 degrees. *)
Definition theoretical (a : arrangement) (i k : Z) : R :=
  if (i =? 0)%Z then 1 / 2 else
  if (i =? 1)%Z then (if (k =? p0 a)%Z then 1 else if (k =? p90 a)%Z then -1 else 0)
  else (if (k =? p45 a)%Z then 1 else if (k =? pm45 a)%Z then -1 else 0).
