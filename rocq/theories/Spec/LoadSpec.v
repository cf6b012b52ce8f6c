(** Vocabulary for saved demodulation tensors and fitted angles. *)
From Coq Require Import String Ascii Reals.
From Verif Require Import Base.Base Model.Demodulate Model.DemodLoad.
Local Open Scope string_scope.
Local Open Scope list_scope.
Local Open Scope Z_scope.

(** Characters p and p+1 of [s] are the decimal digits i and j. *)
Definition pair_at (s : string) (p : nat) (i j : Z) : Prop :=
  0 <= i < 10 /\ 0 <= j < 10 /\
  String.get p s = Some (ascii_of_N (Z.to_N (48 + i))) /\
  String.get (S p) s = Some (ascii_of_N (Z.to_N (48 + j))).

(** The first two adjacent digits of a file name are i and j. *)
Definition numbered (name : string) (i j : Z) : Prop :=
  exists p, pair_at name p i j /\ forall q i' j', (q < p)%nat -> ~ pair_at name q i' j'.

Definition unnumbered (name : string) : Prop := forall p i j, ~ pair_at name p i j.

Definition same_tensor {A} (m m' : tensor A) : Prop :=
  t_rows m = t_rows m' /\ t_cols m = t_cols m' /\
  forall i j y x, 0 <= i < 3 -> 0 <= j < 4 -> 0 <= y < t_rows m' -> 0 <= x < t_cols m' ->
    t_cell m i j y x = t_cell m' i j y x.

(** A mean fitted phase [m] (degrees) is within 22.5 degrees of the angle [a], modulo 180. *)
Definition close_to (a m : R) : Prop := exists n : Z, (Rabs (m - a - 180 * IZR n) < 22.5)%R.

(** The value of the i-th mean (0 .. 3) is [v]. *)
Definition item (l : list R) (k : Z) (v : R) : Prop := 0 <= k /\ nth_error l (Z.to_nat k) = Some v.
