(** Missing pixels (vocabulary for C134): the value that is not a number. *)
From Coq Require Import Floats.SpecFloat.
From Verif Require Import Base.Base Base.Num.

Definition missing (d : arr b64) (y x : Z) : Prop := cell d y x = S754_nan.

(** The cell of an image binned by [b] that takes the pixel at [y] of one axis: pixels of one
    orientation are two apart. *)
Definition binned (b y : Z) : Z := 2 * (y / (2 * b)) + y mod 2.
