(** Rings of pixels and their statistics (vocabulary for C132). *)
From Coq Require Import Reals Permutation Floats.SpecFloat.
From Verif Require Import Base.Base Base.Num Model.MeanFloat Model.NrgfFloat Spec.AngleSpec Spec.FloatSpec.
Local Open Scope R_scope.

(** Sums over a list of pixels. *)
Definition over (ps : list (Z * Z)) (f : Z -> Z -> R) : R := fold_right (fun p s => f (fst p) (snd p) + s) 0 ps.
Definition average (ps : list (Z * Z)) (f : Z -> Z -> R) : R := over ps f / INR (length ps).
Definition deviation (ps : list (Z * Z)) (f : Z -> Z -> R) : R :=
  sqrt (average ps (fun y x => Rsqr (f y x - average ps f))).

(** The plan adds the pixels [ps] of the ring, in orders of at most [d] levels. *)
Definition plan_for (ps : list (Z * Z)) (d : nat) (pl : ring_plan) : Prop :=
  ring_size pl = Z.of_nat (length ps) /\
  (Permutation (order_pixels (sum_mean pl)) ps /\ (depth (sum_mean pl) <= d)%nat) /\
  (Permutation (order_pixels (sum_squares pl)) ps /\ (depth (sum_squares pl) <= d)%nat).

(** The pixels of [ps] are integers 0 .. [top]. *)
Definition counts_at (top : Z) (ps : list (Z * Z)) (d : arr b64) : Prop :=
  forall y x, In (y, x) ps -> exists m, (0 <= m <= top)%Z /\ is_value (cell d y x) (IZR m).

(** 0.1, and the pixels of a 5 x 5 image in the ring (1, 2] around (2, 2), added one after the other. *)
Definition tenth : b64 := S754_finite false 7205759403792794 (-56).
Definition eight : list (Z * Z) := [(0, 2); (1, 1); (1, 3); (2, 0); (2, 4); (3, 1); (3, 3); (4, 2)]%Z.
Definition in_turn : order (Z * Z) :=
  fold_left (fun o p => Plus o (Pixel p)) [(1, 1); (1, 3); (2, 0); (2, 4); (3, 1); (3, 3); (4, 2)]%Z (Pixel (0, 2)%Z).
Definition in_turn_plan : ring_plan := mkplan in_turn in_turn 8.
