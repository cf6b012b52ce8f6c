(** Changing the units of pixel values (vocabulary for C128). *)
From Coq Require Import Reals.
From Verif Require Import Base.Base Base.Num Model.Cleaning.
Local Open Scope R_scope.

(** New units: [scale] of them make an old one, and zero lies elsewhere. *)
Definition unit_change (scale zero v : R) : R := scale * v + zero.

(** A filter that does not care about units, as a median of pixels. *)
Definition unitless (F : filter_oracle) : Prop :=
  forall scale zero a size y x, 0 < scale -> F (amap (unit_change scale zero) a) size y x = unit_change scale zero (F a size y x).
