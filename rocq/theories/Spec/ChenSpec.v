(** Correction of each superpixel by its own 4x4 matrix and offsets. *)
From Coq Require Import Reals.
From Verif Require Import Base.Base Base.Num Spec.MosaicSpec.

(** [M k l] is the entry (k, l) of the matrix of superpixel (Y, X). *)
Definition corrected {A} `{Num A} (M : Z -> Z -> Z -> Z -> A) (offset data : arr A) (y x : Z) : A :=
  let Y := y / 2 in
  let X := x / 2 in
  let k := family y x in
  let d l := sample data l Y X -! sample offset l Y X in
  ((M k 0 Y X *! d 0 +! M k 1 Y X *! d 1) +! M k 2 Y X *! d 2) +! M k 3 Y X *! d 3.
