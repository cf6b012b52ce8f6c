(** Vocabulary for symmetries of the sensor (C125). *)
From Coq Require Import Reals.
From Verif Require Import Base.Base Spec.MosaicSpec.

(** The image with rows and columns exchanged, and the image upside down. *)
Definition transposed {A} (a : arr A) : arr A := mkarr (cols a) (rows a) (fun y x => cell a x y).
Definition upside {A} (a : arr A) : arr A := mkarr (rows a) (cols a) (fun y x => cell a (rows a - 1 - y) x).

(** Where they move position [k] of a superpixel. *)
Definition tpos (k : Z) : Z := if k =? 1 then 2 else if k =? 2 then 1 else k.
Definition upos (k : Z) : Z := if k <? 2 then k + 2 else k - 2.

(** The arrangement of the polarizers of the moved sensor. *)
Definition placed (f : Z -> Z) (a : arrangement) : arrangement :=
  mkarrangement (f (p0 a)) (f (p45 a)) (f (pm45 a)) (f (p90 a)).

(** The arrangement in which every polarizer is said to be turned by 45 degrees (90 + 45 = -45
    modulo 180), and that in which all angles have the opposite sign. *)
Definition turned (a : arrangement) : arrangement := mkarrangement (pm45 a) (p0 a) (p90 a) (p45 a).
Definition opposite (a : arrangement) : arrangement := mkarrangement (p0 a) (pm45 a) (p45 a) (p90 a).

(** Two angles of polarization that differ by half turns. *)
Definition same_direction (s t : R) : Prop := exists k : Z, s = (t + IZR k * PI)%R.
