(** Propagation of the errors of the pixels (vocabulary for C113). *)
From Coq Require Import Reals.
From Verif Require Import Base.Base Spec.MosaicSpec Spec.DemodSpec.
Local Open Scope R_scope.

(** The four pixels [v] with pixel j replaced *)
Definition changed (v : Z -> R) (j : Z) (t : R) : Z -> R := fun k => if (k =? j)%Z then t else v k.
(** Row i of the matrix [m] times the pixels [v] *)
Definition row (m : Z -> Z -> R) (i : Z) (v : Z -> R) : R := sum4 (fun k => m i k * v k).

(** [s] is the error of [f I Q U] for independent errors [sigma] of the four pixels [v] that I, Q and U are
    computed from: the root of the sum of the squares of the derivatives with respect to the pixels times
    their errors. *)
Definition by_pixels (f : R -> R -> R -> R) (m : Z -> Z -> R) (v sigma : Z -> R) (s : R) : Prop :=
  exists D : Z -> R,
    (forall j, (0 <= j < 4)%Z ->
       derivable_pt_lim (fun t => f (row m 0 (changed v j t)) (row m 1 (changed v j t)) (row m 2 (changed v j t)))
         (v j) (D j)) /\
    s = sqrt (sum4 (fun j => (D j * sigma j) * (D j * sigma j))).

(** Covariance of rows i and k *)
Definition covariance (m : Z -> Z -> R) (sigma : Z -> R) (i k : Z) : R :=
  sum4 (fun j => m i j * m k j * (sigma j * sigma j)).

(** The matrix for ideal polarizers: I is half of the sum of the pixels, Q and U are differences. *)
Definition ideal_matrix (a : arrangement) (m : Z -> Z -> R) : Prop :=
  (forall j, (0 <= j < 4)%Z -> m 0%Z j = 1 / 2 /\
     m 1%Z j = (if (j =? p0 a)%Z then 1 else if (j =? p90 a)%Z then -1 else 0) /\
     m 2%Z j = (if (j =? p45 a)%Z then 1 else if (j =? pm45 a)%Z then -1 else 0)).
