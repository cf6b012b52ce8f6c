(** Moving the superpixels of a sensor. *)
From Coq Require Import QArith.
From Verif Require Import Base.Base Model.Stokes Model.Demodulate.
Local Open Scope Z_scope.

(** The matrices of [m'] at (y, x) are the ones [m] has at [src (y, x)]. *)
Definition moved {A} (src : Z * Z -> Z * Z) (m m' : tensor A) : Prop :=
  t_rows m' = t_rows m /\ t_cols m' = t_cols m /\
  forall i j y x, 0 <= i < 3 -> 0 <= j < 4 -> 0 <= y < t_rows m -> 0 <= x < t_cols m ->
    t_cell m' i j y x = t_cell m i j (fst (src (y, x))) (snd (src (y, x))).

(** A quarter turn anticlockwise of an n x n grid brings (x, n-1-y) to (y, x). *)
Definition quarter (n : Z) (p : Z * Z) : Z * Z := (snd p, n - 1 - fst p).
Definition quarters (n k : Z) (p : Z * Z) : Z * Z := Nat.iter (Z.to_nat (k mod 4)) (quarter n) p.
Definition half_turn (h w : Z) (p : Z * Z) : Z * Z := (h - 1 - fst p, w - 1 - snd p).
Definition upside_down (h : Z) (p : Z * Z) : Z * Z := (h - 1 - fst p, snd p).
Definition left_right (w : Z) (p : Z * Z) : Z * Z := (fst p, w - 1 - snd p).

(** [src] keeps the h x w grid. *)
Definition keeps (src : Z * Z -> Z * Z) (h w : Z) : Prop :=
  forall y x, 0 <= y < h -> 0 <= x < w ->
    0 <= fst (src (y, x)) < h /\ 0 <= snd (src (y, x)) < w.

(** The image seen in a mirror, pixel by pixel *)
Definition mirrored {A} (a b : arr A) : Prop :=
  rows b = rows a /\ cols b = cols a /\
  forall y x, 0 <= y < rows a -> 0 <= x < cols a -> cell b y x = cell a y (cols a - 1 - x).

(** The other pixel of the same row of a superpixel *)
Definition neighbour (k : Z) : Z := match k with 0 => 1 | 1 => 0 | 2 => 3 | _ => 2 end.

(** Test tensors and images *)
Definition counting (h w : Z) : tensor Q := mktensor h w (fun i j y x => inject_Z (1000 * i + 100 * j + 10 * y + x)).
(** One ideal superpixel (0, 45, -45 and 90 degrees), light polarized at 0 degrees *)
Definition ideal_tensor : tensor Q :=
  mktensor 1 1 (fun i j _ _ =>
    if i =? 0 then 1 # 2
    else if i =? 1 then (if j =? 0 then 1 else if j =? 3 then -(1) else 0)%Q
    else (if j =? 1 then 1 else if j =? 2 then -(1) else 0)%Q).
Definition light0 : arr Q := of_list 0%Q 2 2 [1; 1 # 2; 1 # 2; 0]%Q.
Definition light0_mirrored : arr Q := of_list 0%Q 2 2 [1 # 2; 1; 0; 1 # 2]%Q.
Definition nothing : stokes Q := mkstokes (full 1 1 0%Q) (full 1 1 0%Q) (full 1 1 0%Q).
