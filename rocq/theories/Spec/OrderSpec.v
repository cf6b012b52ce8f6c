(** Vocabulary for the order of corrections (C124). *)
From Coq Require Import Reals.
From Verif Require Import Base.Base.

(** The pixels of [d] that binning by [b] adds up in pixel (Y, X): those of the family of
    (Y, X) in a square of [b] by [b] superpixels. *)
Definition block (d : arr R) (b Y X u v : Z) : R := cell d (2 * b * (Y / 2) + Y mod 2 + 2 * u) (2 * b * (X / 2) + X mod 2 + 2 * v).

(** Some, or all, of them are in relation [P] with those of [dark]. *)
Definition some_pixel (data dark : arr R) (b Y X : Z) (P : R -> R -> Prop) : Prop :=
  exists u v, 0 <= u < b /\ 0 <= v < b /\ P (block data b Y X u v) (block dark b Y X u v).
Definition all_pixels (data dark : arr R) (b Y X : Z) (P : R -> R -> Prop) : Prop :=
  forall u v, 0 <= u < b -> 0 <= v < b -> P (block data b Y X u v) (block dark b Y X u v).
