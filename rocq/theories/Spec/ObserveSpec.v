(** What a camera records (vocabulary for C121). *)
From Coq Require Import Reals.
From Verif Require Import Base.Base Model.Stokes Model.DemodFit Spec.MosaicSpec Spec.SumSpec Spec.DemodSpec Spec.FitSpec.
Local Open Scope R_scope.

(** Pixels of [raw] are, up to [noise], those of the dark image plus the sensitivity times the light behind the micropolarizers [p]. *)
Definition observed (noise : R) (p : Z -> Z -> four param3) (gain dark raw : arr R) (I Q U : Z -> Z -> R) : Prop :=
  forall Y X k, (0 <= Y < rows raw / 2)%Z -> (0 <= X < cols raw / 2)%Z -> (0 <= k < 4)%Z ->
    let f := f4 (p Y X) k in
    Rabs (sample raw k Y X - (sample dark k Y X + sample gain k Y X * recorded (p_t f) (p_e f) (p_phi f) (I Y X) (Q Y X) (U Y X))) <= noise.

(** The flat image shows the sensitivity of the pixels, which is nowhere below [low]. *)
Definition flat_of (low bright : R) (gain flat : arr R) : Prop :=
  0 < low /\ 0 < bright /\ forall y x, (0 <= y < rows flat)%Z -> (0 <= x < cols flat)%Z ->
    low <= cell gain y x /\ cell flat y x = cell gain y x * bright.

(** The mean of an image. *)
Definition mean_of (a : arr R) : R := rsum2 (rows a) (cols a) (cell a) / IZR (rows a * cols a).

(** Stokes parameters given as functions of the position. *)
Definition scene (h w : Z) (I Q U : Z -> Z -> R) : stokes R := mkstokes (mkarr h w I) (mkarr h w Q) (mkarr h w U).
