(** Types of integers and what arithmetic with them should give (vocabulary for C142). *)
From Coq Require Import Reals.
From Verif Require Import Base.Base Base.Num Model.IntData Model.IntTypes Spec.AngleSpec Spec.FloatSpec Spec.IntSpec.

(** int8, uint8, ..., uint64 *)
Definition numpy_type (t : itype) : Prop := bits t = 8 \/ bits t = 16 \/ bits t = 32 \/ bits t = 64.

(** An image of integers of the type *)
Definition image_of (t : itype) (d : arr Z) : Prop :=
  forall y x, 0 <= y < rows d -> 0 <= x < cols d -> representable t (cell d y x).

(** [t] has room for all numbers of [P]. *)
Definition room (t : itype) (P : Z -> Prop) : Prop := forall z, P z -> representable t z.
(** [t] is the narrowest type with room for [P], signed if and only if [P] has negative numbers. *)
Definition narrowest (t : itype) (P : Z -> Prop) : Prop :=
  numpy_type t /\ room t P /\ (forall v, numpy_type v -> room v P -> bits t <= bits v) /\
  (is_signed t = true <-> exists z, P z /\ z < 0).
(** The type of the pixels is the narrowest with room for [P]; they are floats if there is none. *)
Definition type_for (P : Z -> Prop) (p : pixels) : Prop :=
  match p with Ints t _ => narrowest t P | Floats _ => forall v, numpy_type v -> ~ room v P end.

Definition height_of (p : pixels) : Z := match p with Ints _ d => rows d | Floats d => rows d end.
Definition width_of (p : pixels) : Z := match p with Ints _ d => cols d | Floats d => cols d end.
(** The number a pixel stands for *)
Definition pixel_value (p : pixels) (y x : Z) : R :=
  match p with Ints _ d => IZR (cell d y x) | Floats d => fval (cell d y x) end.

Definition compute (op : operator) (a b : Z) : Z := match op with Plus => a + b | Minus => a - b | Times => a * b end.

(** Sums, differences and products of every two numbers of the types have room in a type made of both. *)
Definition roomy (t1 t2 : itype) : Prop :=
  (is_signed t1 = true /\ is_signed t2 = false /\ bits t1 <= bits t2 <= 32) \/
  (is_signed t1 = false /\ is_signed t2 = true /\ bits t2 <= bits t1 <= 32).

(** What becomes of the numbers [a] and [b]: the low bits of the result, or the result if binary64 numbers can
    express it. *)
Definition pixel_of (op : operator) (p : pixels) (y x a b : Z) : Prop :=
  match p with
  | Ints t d => stored t (compute op a b) (cell d y x)
  | Floats d => Z.abs a < 2 ^ 53 -> Z.abs b < 2 ^ 53 -> Z.abs (compute op a b) < 2 ^ 53 ->
      is_value (cell d y x) (IZR (compute op a b))
  end.

(** The image as real numbers *)
Definition int_pixels (p : pixels) : arr R := mkarr (height_of p) (width_of p) (pixel_value p).
