(** Binary64 results compared with exact ones. *)
From Coq Require Import Reals ZArith.
From Verif Require Import Base.Base Base.Num Model.Demosaic Model.Stokes Model.Demodulate Spec.AngleSpec Spec.DemodSpec.
Local Open Scope R_scope.

(** The binary64 number [x] is exactly [r]. *)
Definition is_value (x : b64) (r : R) : Prop := is_binary64 x /\ finite64 x /\ fval x = r.

(** [x] is a binary64 number nearest to [r]. *)
Definition nearest (x : b64) (r : R) : Prop :=
  is_binary64 x /\ finite64 x /\ forall z, is_binary64 z -> finite64 z -> Rabs (fval x - r) <= Rabs (fval z - r).

(** [x] differs from [r] by at most [eps] of it. *)
Definition within (eps : R) (x : b64) (r : R) : Prop :=
  is_binary64 x /\ finite64 x /\ Rabs (fval x - r) <= eps * Rabs r.

(** An image that holds integers 0 .. [top], as cameras deliver and Codec.v decodes. *)
Definition counts (top : Z) (d : arr b64) : Prop :=
  forall y x, (0 <= y < rows d)%Z -> (0 <= x < cols d)%Z -> exists m, (0 <= m <= top)%Z /\ is_value (cell d y x) (IZR m).

(** The image as real numbers. *)
Definition values (d : arr b64) : arr R := amap fval d.

(** [a] holds, without any rounding error, the pixels of [r]. *)
Definition exact_image (a : arr b64) (r : arr R) : Prop :=
  rows a = rows r /\ cols a = cols r /\
  forall y x, (0 <= y < rows r)%Z -> (0 <= x < cols r)%Z -> is_value (cell a y x) (cell r y x).
Definition exact_quad (a : quad b64) (r : quad R) : Prop :=
  forall k, (0 <= k < 4)%Z -> exact_image (qnth a k) (qnth r k).
Definition exact_stokes (a : stokes b64) (r : stokes R) : Prop :=
  exact_image (sI a) (sI r) /\ exact_image (sQ a) (sQ r) /\ exact_image (sU a) (sU r).

(** Same outcome: results related by [rel], or the same exception. *)
Definition same_outcome {A B} (rel : A -> B -> Prop) (a : result A) (b : result B) : Prop :=
  match a, b with
  | Ok u, Ok v => rel u v
  | Raise e, Raise e' => e = e'
  | NoFuel, NoFuel => True
  | _, _ => False
  end.

(** ** Images of any finite binary64 numbers *)

(** Every pixel is a finite binary64 number of absolute value at most [top]. *)
Definition bounded (top : R) (d : arr b64) : Prop :=
  forall y x, (0 <= y < rows d)%Z -> (0 <= x < cols d)%Z ->
    is_binary64 (cell d y x) /\ finite64 (cell d y x) /\ Rabs (fval (cell d y x)) <= top.

(** The absolute values of the pixels, as real numbers. *)
Definition absolute (d : arr b64) : arr R := amap (fun x => Rabs (fval x)) d.

(** [x] differs from [r] by at most [err]. *)
Definition off_by (err : R) (x : b64) (r : R) : Prop :=
  is_binary64 x /\ finite64 x /\ Rabs (fval x - r) <= err.

(** The pixels of [a] differ from those of [r] by at most [g] times those of [m], plus [e]. *)
Definition off_image (g e : R) (a : arr b64) (r m : arr R) : Prop :=
  rows a = rows r /\ cols a = cols r /\ rows m = rows r /\ cols m = cols r /\
  forall y x, (0 <= y < rows r)%Z -> (0 <= x < cols r)%Z -> off_by (g * cell m y x + e) (cell a y x) (cell r y x).
Definition off_quad (g e : R) (a : quad b64) (r m : quad R) : Prop :=
  forall k, (0 <= k < 4)%Z -> off_image g e (qnth a k) (qnth r k) (qnth m k).
(** Stokes parameters are compared with the total intensity of the absolute values. *)
Definition off_stokes (g e : R) (a : stokes b64) (r m : stokes R) : Prop :=
  off_image g e (sI a) (sI r) (sI m) /\ off_image g e (sQ a) (sQ r) (sI m) /\ off_image g e (sU a) (sU r) (sI m).

(** Pixels that are zero or positive and far from the ends of the exponent range. *)
Definition ordinary (d : arr b64) : Prop :=
  forall y x, (0 <= y < rows d)%Z -> (0 <= x < cols d)%Z ->
    is_binary64 (cell d y x) /\ finite64 (cell d y x) /\
    (fval (cell d y x) = 0 \/ powerRZ 2 (-400) <= fval (cell d y x) <= powerRZ 2 400).

(** Every entry of the demodulation tensor is a finite binary64 number of absolute value at most [top]. *)
Definition tensor_bounded (top : R) (m : tensor b64) : Prop :=
  forall i j Y X, (0 <= i < 3)%Z -> (0 <= j < 4)%Z -> (0 <= Y < t_rows m)%Z -> (0 <= X < t_cols m)%Z ->
    is_binary64 (t_cell m i j Y X) /\ finite64 (t_cell m i j Y X) /\ Rabs (fval (t_cell m i j Y X)) <= top.

(** Row [i] of a matrix of binary64 numbers applied, without rounding, to four numbers;
    the same with the absolute values of the matrix. *)
Definition exact_row (m : Z -> Z -> b64) (v : Z -> R) (i : Z) : R := row_product (fun i j => fval (m i j)) v i.
Definition abs_row (m : Z -> Z -> b64) (v : Z -> R) (i : Z) : R := row_product (fun i j => Rabs (fval (m i j))) v i.
