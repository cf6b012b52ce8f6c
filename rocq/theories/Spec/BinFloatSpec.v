(** Exact means of blocks of a tensor of binary64 numbers. *)
From Coq Require Import Reals Floats.SpecFloat.
From Verif Require Import Base.Base Base.Num Model.Demodulate Model.DemodLoad Spec.SumSpec Spec.FloatSpec.

(** Mean of the [b] x [b] block at (b Y, b X) of matrix (i, j), and mean of the absolute values. *)
Definition block_mean (m : tensor b64) (b i j Y X : Z) : R :=
  (lsum (plain_block (values (tslice m i j)) b Y X) / IZR (b * b))%R.
Definition block_size (m : tensor b64) (b i j Y X : Z) : R :=
  (lsum (plain_block (absolute (tslice m i j)) b Y X) / IZR (b * b))%R.

(** Every entry is a whole number of at most [top] divided by 2^k. *)
Definition tensor_fixed (top k : Z) (m : tensor b64) : Prop :=
  forall i j Y X, 0 <= i < 3 -> 0 <= j < 4 -> 0 <= Y < t_rows m -> 0 <= X < t_cols m ->
    exists c, Z.abs c <= top /\ is_value (t_cell m i j Y X) (IZR c / IZR (2 ^ k)).

(** Every entry of the matrices is the same number. *)
Definition tensor_constant {A} (v : A) (m : tensor A) : Prop :=
  forall i j Y X, 0 <= i < 3 -> 0 <= j < 4 -> 0 <= Y < t_rows m -> 0 <= X < t_cols m -> t_cell m i j Y X = v.

(** What a calibration with one number everywhere writes, and with 0.1 *)
Definition constant_files (v : b64) (n : Z) : folder b64 :=
  let f := full n n v in written_files (mkcalibration (mktensor n n (fun _ _ _ _ => v)) f f f f).
Definition one_tenth : b64 := S754_finite false 7205759403792794 (-56).
Definition tenth_files (n : Z) : folder b64 := constant_files one_tenth n.
