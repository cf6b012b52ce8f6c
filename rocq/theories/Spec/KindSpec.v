(** Hiding pixels and arithmetic with real numbers (vocabulary for C151). *)
From Coq Require Import Reals.
From Verif Require Import Base.Base Base.Num Model.IntData Model.IntTypes Model.Kinds Spec.AngleSpec Spec.FloatSpec.

Local Open Scope R_scope.

Definition compute_real (op : operator) (a b : R) : R := match op with Plus => a + b | Minus => a - b | Times => a * b end.

(** [d] has the pixels of binary64 numbers. *)
Definition image64 (d : arr b64) : Prop :=
  forall y x, (0 <= y < rows d)%Z -> (0 <= x < cols d)%Z -> is_binary64 (cell d y x).

(** The pixels of superpixel (Y, X) are all shown or all hidden. *)
Definition whole_superpixels (m : arr bool) (M : Z -> Z -> bool) : Prop :=
  forall y x, (0 <= y < rows m)%Z -> (0 <= x < cols m)%Z -> cell m y x = M (y / 2)%Z (x / 2)%Z.

Definition height_any (c : contents) : Z := match c with Mask m => rows m | Numbers (Ints _ d) => rows d | Numbers (Floats d) => rows d end.
Definition width_any (c : contents) : Z := match c with Mask m => cols m | Numbers (Ints _ d) => cols d | Numbers (Floats d) => cols d end.
(** The number an element stands for; "true" stands for 1. *)
Definition value_at (c : contents) (y x : Z) : R :=
  match c with Mask m => if cell m y x then 1 else 0 | Numbers (Ints _ d) => IZR (cell d y x) | Numbers (Floats d) => fval (cell d y x) end.
(** An element that binary64 numbers can express, far from overflow *)
Definition plain_at (c : contents) (y x : Z) : Prop :=
  match c with
  | Mask _ => True
  | Numbers (Ints _ d) => (Z.abs (cell d y x) < 2 ^ 53)%Z
  | Numbers (Floats d) => is_binary64 (cell d y x) /\ finite64 (cell d y x) /\ Rabs (fval (cell d y x)) <= powerRZ 2 500
  end.
Definition of_floats (c : contents) : Prop := match c with Numbers (Floats _) => True | _ => False end.
