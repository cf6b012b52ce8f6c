(** Properties C63, C64: lines of pixels. *)
From Coq Require Import Reals Lra Floats.SpecFloat.
From Verif Require Import Base.Base Base.Num Model.LinRoi Spec.LineSpec Proofs.LineFacts Proofs.LineFloatFacts.
Local Open Scope Z_scope.

(** ** C63.  Full statement: [linear_roi] samples start first, moves at most one
    pixel per sample and stays inside the bounding box of start and end, so a
    segment inside the image never fails.  False: one sample is taken beyond the
    end, and equal points fail.  What holds, in exact arithmetic: *)
Theorem C63_walk_partial y1 x1 y2 x2 :
  (y1, x1) <> (y2, x2) ->
  let n := longer (y2 - y1) (x2 - x1) in
  exists ys xs density, DDA (A := R) y1 x1 y2 x2 = Ok (ys, xs, density) /\
    Z.of_nat (length ys) = n + 2 /\ Z.of_nat (length xs) = n + 2 /\
    item ys 0 y1 /\ item xs 0 x1 /\ item ys n y2 /\ item xs n x2 /\
    (forall k y y', item ys k y -> item ys (k + 1) y' -> Z.abs (y' - y) <= 1) /\
    (forall k x x', item xs k x -> item xs (k + 1) x' -> Z.abs (x' - x) <= 1) /\
    (forall k y, k <= n -> item ys k y -> between y1 y2 y) /\
    (forall k x, k <= n -> item xs k x -> between x1 x2 x).
Proof. exact (dda_walk y1 x1 y2 x2). Qed.
Print Assumptions C63_walk_partial.

(** The samples in closed form, with the returned density. *)
Theorem C63_points y1 x1 y2 x2 :
  let dy := y2 - y1 in let dx := x2 - x1 in let n := longer dy dx in
  0 < n ->
  DDA (A := R) y1 x1 y2 x2 =
    Ok (map (along y1 dy n) (zrange (n + 2)), map (along x1 dx n) (zrange (n + 2)),
        (sqrt (IZR (dx * dx + dy * dy)) / IZR (n + 2))%R).
Proof. exact (dda_points y1 x1 y2 x2). Qed.
Print Assumptions C63_points.

(** With one pixel to spare beyond the end the values are those of the image. *)
Theorem C63_values_partial {B} (data : arr B) y1 x1 y2 x2 :
  let dy := y2 - y1 in let dx := x2 - x1 in let n := longer dy dx in
  0 < n ->
  0 <= y1 < rows data -> 0 <= x1 < cols data -> 1 <= y2 < rows data - 1 -> 1 <= x2 < cols data - 1 ->
  linear_roi (A := R) data y1 x1 y2 x2 =
    Ok (map (along y1 dy n) (zrange (n + 2)), map (along x1 dx n) (zrange (n + 2)),
        map (fun k => cell data (along y1 dy n k) (along x1 dx n k)) (zrange (n + 2))).
Proof. exact (linear_roi_inside data y1 x1 y2 x2). Qed.
Print Assumptions C63_values_partial.

(** Every line at most 45 degrees steep overshoots its end. *)
Theorem C63_overshoot_refuted y1 x1 y2 x2 :
  x1 <> x2 -> Z.abs (y2 - y1) <= Z.abs (x2 - x1) ->
  exists ys xs density, DDA (A := R) y1 x1 y2 x2 = Ok (ys, xs, density) /\
    item xs (Z.abs (x2 - x1) + 1) (x2 + Z.sgn (x2 - x1)).
Proof. exact (dda_overshoot y1 x1 y2 x2). Qed.
Print Assumptions C63_overshoot_refuted.

(** A row read up to the last column fails on every image... *)
Theorem C63_far_edge_refuted {B} (data : arr B) y x1 :
  0 <= y < rows data -> 0 <= x1 < cols data - 1 ->
  linear_roi (A := R) data y x1 y (cols data - 1) = Raise IndexError.
Proof. exact (linear_roi_far_edge data y x1). Qed.
Print Assumptions C63_far_edge_refuted.

(** ... and read down to the first column it ends with the pixel of the last one. *)
Theorem C63_near_edge_refuted {B} (data : arr B) y x1 :
  0 <= y < rows data -> 0 < x1 < cols data ->
  exists ys xs vals, linear_roi (A := R) data y x1 y 0 = Ok (ys, xs, vals) /\
    item xs (x1 + 1) (-1) /\ nth_error vals (Z.to_nat (x1 + 1)) = Some (cell data y (cols data - 1)).
Proof. exact (linear_roi_near_edge data y x1). Qed.
Print Assumptions C63_near_edge_refuted.

Theorem C63_same_point_refuted y x :
  DDA (A := R) y x y x = Raise ValueError /\ DDA (A := b64) y x y x = Raise ValueError.
Proof. exact (dda_same y x). Qed.
Print Assumptions C63_same_point_refuted.

(** In binary64 the end point itself can be missed: 0.1 added ten times is below 1,
    so the row of the end is never reached on its column. *)
Theorem C63_float_refuted :
  exists density, DDA (A := b64) 0 0 1 10 = Ok (repeat 0 11 ++ [1], zrange 12, density).
Proof. eexists; vm_compute; reflexivity. Qed.
Print Assumptions C63_float_refuted.

(** Rounding moves a pixel only where the line meets it exactly, and then by one towards zero
    in the shorter direction. *)
Theorem C63_float_partial y1 x1 y2 x2 :
  Z.abs y1 <= 65536 -> Z.abs x1 <= 65536 -> Z.abs y2 <= 65536 -> Z.abs x2 <= 65536 -> (y1, x1) <> (y2, x2) ->
  let dy := y2 - y1 in let dx := x2 - x1 in let n := longer dy dx in
  exists ys xs density, DDA (A := b64) y1 x1 y2 x2 = Ok (ys, xs, density) /\
    Z.of_nat (length ys) = n + 2 /\ Z.of_nat (length xs) = n + 2 /\
    (forall k y, item ys k y -> beside y1 dy n k y) /\ (forall k x, item xs k x -> beside x1 dx n k x) /\
    (Z.abs dy = n -> forall k y, item ys k y -> y = y1 + k * Z.sgn dy) /\
    (Z.abs dx = n -> forall k x, item xs k x -> x = x1 + k * Z.sgn dx).
Proof. exact (c63_float y1 x1 y2 x2). Qed.
Print Assumptions C63_float_partial.

Theorem C63_float_values_partial {B} (data : arr B) y1 x1 y2 x2 :
  rows data <= 65536 -> cols data <= 65536 -> (y1, x1) <> (y2, x2) ->
  0 <= y1 < rows data -> 0 <= x1 < cols data -> 1 <= y2 < rows data - 1 -> 1 <= x2 < cols data - 1 ->
  exists ys xs vals, linear_roi (A := b64) data y1 x1 y2 x2 = Ok (ys, xs, vals) /\
    length ys = length vals /\ length xs = length vals /\ Z.of_nat (length vals) = longer (y2 - y1) (x2 - x1) + 2 /\
    forall k y x, item ys k y -> item xs k x ->
      beside y1 (y2 - y1) (longer (y2 - y1) (x2 - x1)) k y /\ beside x1 (x2 - x1) (longer (y2 - y1) (x2 - x1)) k x /\
      nth_error vals (Z.to_nat k) = Some (cell data y x).
Proof. exact (c63_float_values data y1 x1 y2 x2). Qed.
Print Assumptions C63_float_values_partial.

Definition ramp : arr Z := mkarr 6 7 (fun y x => 10 * y + x).

Example C63_case :
  ((1, 0) <> (3, 5) /\ 0 < longer 2 5 /\ 1 <= 3 < rows ramp - 1 /\ 1 <= 5 < cols ramp - 1) /\
  map (along 1 2 5) (zrange 7) = [1; 1; 1; 2; 2; 3; 3] /\
  map (along 0 5 5) (zrange 7) = [0; 1; 2; 3; 4; 5; 6] /\
  linear_roi (A := b64) ramp 1 0 3 5 =
    Ok ([1; 1; 1; 2; 2; 2; 3], [0; 1; 2; 3; 4; 5; 6], [10; 11; 12; 23; 24; 25; 36]) /\
  linear_roi (A := b64) ramp 2 3 2 6 = Raise IndexError /\
  linear_roi (A := b64) ramp 2 2 2 0 = Ok ([2; 2; 2; 2], [2; 1; 0; -1], [22; 21; 20; 26]).
Proof. repeat split; vm_compute; congruence || reflexivity. Qed.

(** ** C64.  The slope is compared in binary64; 2^52 pixels are no restriction. *)
Theorem C64_bresenham y1 x1 y2 x2 :
  x1 <> x2 -> Z.abs (y2 - y1) <= Z.abs (x2 - x1) <= 2 ^ 52 ->
  exists ys xs, bresenham y1 x1 y2 x2 = Ok (ys, xs) /\
    Z.of_nat (length ys) = Z.abs (x2 - x1) + 1 /\ Z.of_nat (length xs) = Z.abs (x2 - x1) + 1 /\
    item ys 0 y1 /\ item xs 0 x1 /\ item ys (Z.abs (x2 - x1)) y2 /\ item xs (Z.abs (x2 - x1)) x2 /\
    forall k y x, item ys k y -> item xs k x ->
      x = x1 + k * Z.sgn (x2 - x1) /\ (Rabs (IZR y - ideal_row y1 x1 y2 x2 x) <= 1 / 2)%R.
Proof. exact (bresenham_nearest y1 x1 y2 x2). Qed.
Print Assumptions C64_bresenham.

(** Steeper lines come back with rows and columns exchanged: the answer is that of
    the call with the coordinates of both points exchanged. *)
Theorem C64_steep y1 x1 y2 x2 :
  x1 <> x2 -> Z.abs (x2 - x1) < Z.abs (y2 - y1) <= 2 ^ 52 ->
  bresenham y1 x1 y2 x2 = bresenham x1 y1 x2 y2.
Proof. exact (bresenham_steep y1 x1 y2 x2). Qed.
Print Assumptions C64_steep.

Example C64_case :
  bresenham 1 0 3 5 = Ok ([1; 1; 2; 2; 3; 3], [0; 1; 2; 3; 4; 5]) /\
  bresenham 3 5 1 0 = Ok ([3; 3; 2; 2; 1; 1], [5; 4; 3; 2; 1; 0]) /\
  bresenham 0 1 5 3 = Ok ([1; 1; 2; 2; 3; 3], [0; 1; 2; 3; 4; 5]) /\
  bresenham 0 1 5 1 = Raise ZeroDivisionError.
Proof. repeat split; vm_compute; reflexivity. Qed.
