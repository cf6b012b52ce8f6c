(** Vocabulary for pixel-wise statements. *)
From Coq Require Import Reals.
From Verif Require Import Base.Base.

(** [v] limited to the interval [lo, hi]. *)
Definition clamp (lo hi v : R) : R := Rmax lo (Rmin v hi).

(** Array [a] has the shape of [b] and holds [f y x] at every pixel. *)
Definition holds {A B} (a : arr A) (b : arr B) (f : Z -> Z -> A) : Prop :=
  rows a = rows b /\ cols a = cols b /\
  forall y x, 0 <= y < rows b -> 0 <= x < cols b -> cell a y x = f y x.
