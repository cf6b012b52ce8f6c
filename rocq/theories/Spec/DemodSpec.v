(** Matrices, pseudo-inverses and micropolarizers, independently of the code. *)
From Coq Require Import Reals.
From Verif Require Import Base.Base Base.Num.
Local Open Scope R_scope.

(** Row [i] of a 3x4 matrix applied to four numbers. *)
Definition row_product {A} `{Num A} (m : Z -> Z -> A) (v : Z -> A) (i : Z) : A :=
  ((m i 0%Z *! v 0%Z +! m i 1%Z *! v 1%Z) +! m i 2%Z *! v 2%Z) +! m i 3%Z *! v 3%Z.

Definition sum3 (f : Z -> R) : R := f 0%Z + f 1%Z + f 2%Z.
Definition sum4 (f : Z -> R) : R := f 0%Z + f 1%Z + f 2%Z + f 3%Z.

(** [P] (3x4) is the Moore-Penrose inverse of [M] (4x3). *)
Definition pseudo_inverse (M P : Z -> Z -> R) : Prop :=
  let MP k l := sum3 (fun i => M k i * P i l) in
  let PM i j := sum4 (fun k => P i k * M k j) in
  (forall k j, (0 <= k < 4)%Z -> (0 <= j < 3)%Z -> sum4 (fun l => MP k l * M l j) = M k j) /\
  (forall i k, (0 <= i < 3)%Z -> (0 <= k < 4)%Z -> sum3 (fun j => PM i j * P j k) = P i k) /\
  (forall k l, (0 <= k < 4)%Z -> (0 <= l < 4)%Z -> MP k l = MP l k) /\
  (forall i j, (0 <= i < 3)%Z -> (0 <= j < 3)%Z -> PM i j = PM j i).

(** The three columns of [M] are linearly independent. *)
Definition rank3 (M : Z -> Z -> R) : Prop :=
  forall a b c, (forall k, (0 <= k < 4)%Z -> M k 0%Z * a + M k 1%Z * b + M k 2%Z * c = 0) ->
    a = 0 /\ b = 0 /\ c = 0.

(** What a micropolarizer of throughput [t], efficiency [e] and orientation [phi] records
    of light with Stokes parameters (I, Q, U). *)
Definition recorded (t e phi I Q U : R) : R :=
  t / 2 * (I + e * (Q * cos (2 * phi) + U * sin (2 * phi))).

(** A field of numbers on an h x w grid. *)
Definition grid_is {A} (a : arr A) (h w : Z) (f : Z -> Z -> A) : Prop :=
  rows a = h /\ cols a = w /\
  forall y x, (0 <= y < h)%Z -> (0 <= x < w)%Z -> cell a y x = f y x.
