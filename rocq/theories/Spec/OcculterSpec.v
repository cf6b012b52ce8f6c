(** First jump of a profile, independently of the search loop. *)
From Coq Require Import Reals.
From Verif Require Import Base.Base Spec.SumSpec.

(** The sample [i] comes after at least six others and exceeds [th] times their mean. *)
Definition jump_at (profile : Z -> R) (n : Z) (th : R) (i : Z) : Prop :=
  5 < i < n /\ (th * (rsum i profile / IZR i) < profile i)%R.

(** [i] is the first jump of the profile of length [n]. *)
Definition first_jump_at (profile : Z -> R) (n : Z) (th : R) (i : Z) : Prop :=
  jump_at profile n th i /\ forall j, j < i -> ~ jump_at profile n th j.

(** Profiles of an image from its centre (hy, hx) to the left, right, top and bottom. *)
Definition leftwards (d : arr R) (hy hx i : Z) : R := cell d hy (hx - 1 - i).
Definition rightwards (d : arr R) (hy hx i : Z) : R := cell d hy (hx + i).
Definition upwards (d : arr R) (hy hx i : Z) : R := cell d (hy - 1 - i) hx.
Definition downwards (d : arr R) (hy hx i : Z) : R := cell d (hy + i) hx.
