(** Integers of a fixed number of bits (vocabulary for C114). *)
From Coq Require Import Reals.
From Verif Require Import Base.Base Model.IntData.

(** The numbers a type can represent. *)
Definition representable (t : itype) (z : Z) : Prop :=
  if is_signed t then - 2 ^ (bits t - 1) <= z < 2 ^ (bits t - 1) else 0 <= z < 2 ^ bits t.

(** [w] is what is stored for [z]: representable, and different by a multiple of the number of values. *)
Definition stored (t : itype) (z w : Z) : Prop := representable t w /\ exists k, w = z + k * 2 ^ bits t.

(** 1 if a < b, else 0 *)
Definition borrow (a b : Z) : R := if a <? b then 1%R else 0%R.
(** 1 if a + b does not fit, else 0 *)
Definition carry (t : itype) (a b : Z) : R := if a + b <? 2 ^ bits t then 0%R else 1%R.

Definition whole (r : R) : Prop := exists z, r = IZR z.
