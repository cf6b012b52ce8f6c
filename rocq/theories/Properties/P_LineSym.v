(** C135: symmetries of lines of pixels. *)
From Coq Require Import Reals Lra Floats.SpecFloat.
From Verif Require Import Base.Base Base.Num Model.LinRoi Spec.LineSpec Spec.SymmetrySpec Spec.LineSymmetry Proofs.LineSymFacts.

(** Full statement: the transposed, reversed, moved and mirrored line has the transposed, reversed,
    moved and mirrored pixels.  Transposition, exactly and in binary64, errors included: *)
Theorem C135_transposed {B} (data : arr B) y1 x1 y2 x2 :
  linear_roi (A := R) (transposed data) x1 y1 x2 y2 = on_ok swap3 (linear_roi (A := R) data y1 x1 y2 x2) /\
  linear_roi (A := b64) (transposed data) x1 y1 x2 y2 = on_ok swap3 (linear_roi (A := b64) data y1 x1 y2 x2).
Proof. exact (c135_transposed data y1 x1 y2 x2). Qed.
Print Assumptions C135_transposed.

(** Reversal, in exact arithmetic up to the end point... *)
Theorem C135_backwards_partial y1 x1 y2 x2 : (y1, x1) <> (y2, x2) ->
  exists ys xs ys' xs' density,
    DDA (A := R) y1 x1 y2 x2 = Ok (ys, xs, density) /\ DDA (A := R) y2 x2 y1 x1 = Ok (ys', xs', density) /\
    backwards (longer (y2 - y1) (x2 - x1)) ys ys' /\ backwards (longer (y2 - y1) (x2 - x1)) xs xs'.
Proof. exact (c135_backwards y1 x1 y2 x2). Qed.
Print Assumptions C135_backwards_partial.

(** ... and in binary64 except where the line meets a pixel exactly, and there up to one pixel. *)
Theorem C135_backwards_float_partial y1 x1 y2 x2 :
  Z.abs y1 <= 65536 -> Z.abs x1 <= 65536 -> Z.abs y2 <= 65536 -> Z.abs x2 <= 65536 -> (y1, x1) <> (y2, x2) ->
  let n := longer (y2 - y1) (x2 - x1) in
  exists ys xs d ys' xs' d', DDA (A := b64) y1 x1 y2 x2 = Ok (ys, xs, d) /\ DDA (A := b64) y2 x2 y1 x1 = Ok (ys', xs', d') /\
    forall k y x y' x', item ys k y -> item xs k x -> item ys' (n - k) y' -> item xs' (n - k) x' ->
      Z.abs (y - y') <= 1 /\ Z.abs (x - x') <= 1 /\
      (~ (n | k * (y2 - y1)) -> y = y') /\ (~ (n | k * (x2 - x1)) -> x = x').
Proof. exact (c135_backwards_float y1 x1 y2 x2). Qed.
Print Assumptions C135_backwards_float_partial.

(** The line moved by (cy, cx), exactly. *)
Theorem C135_moved_partial y1 x1 y2 x2 cy cx : (y1, x1) <> (y2, x2) ->
  0 <= y1 -> 0 <= x1 -> 0 <= y2 -> 0 <= x2 -> 0 <= y1 + cy -> 0 <= x1 + cx -> 0 <= y2 + cy -> 0 <= x2 + cx ->
  exists ys xs ys' xs' density,
    DDA (A := R) y1 x1 y2 x2 = Ok (ys, xs, density) /\ DDA (A := R) (y1 + cy) (x1 + cx) (y2 + cy) (x2 + cx) = Ok (ys', xs', density) /\
    forall k, 0 <= k <= longer (y2 - y1) (x2 - x1) ->
      exists y x, item ys k y /\ item xs k x /\ item ys' k (y + cy) /\ item xs' k (x + cx).
Proof. exact (c135_moved y1 x1 y2 x2 cy cx). Qed.
Print Assumptions C135_moved_partial.

(** In binary64 the line from (0, 0) to (1, 10) ends in row 0, reversed it begins in row 1, and moved by
    one row it ends in row 2. *)
Theorem C135_float_refuted :
  exists d d' d'', DDA (A := b64) 0 0 1 10 = Ok (repeat 0 11 ++ [1], zrange 12, d) /\
    DDA (A := b64) 1 10 0 0 = Ok (1 :: repeat 0 11, [10; 9; 8; 7; 6; 5; 4; 3; 2; 1; 0; -1], d') /\
    DDA (A := b64) 1 0 2 10 = Ok (repeat 1 10 ++ [2; 2], zrange 12, d'').
Proof. do 3 eexists. vm_compute. repeat split; reflexivity. Qed.
Print Assumptions C135_float_refuted.

(** Upside down: false wherever the line passes between two rows; the row below the mirrored one is taken. *)
Theorem C135_mirrored_refuted y1 x1 y2 x2 c : (y1, x1) <> (y2, x2) -> 0 <= y1 <= c -> 0 <= y2 <= c ->
  exists ys xs ys' density,
    DDA (A := R) y1 x1 y2 x2 = Ok (ys, xs, density) /\ DDA (A := R) (c - y1) x1 (c - y2) x2 = Ok (ys', xs, density) /\
    let n := longer (y2 - y1) (x2 - x1) in
    forall k, 0 <= k <= n -> exists y, item ys k y /\
      item ys' k (c - y - (if (k * (y2 - y1)) mod n =? 0 then 0 else 1)).
Proof. exact (c135_mirrored y1 x1 y2 x2 c). Qed.
Print Assumptions C135_mirrored_refuted.

(** [bresenham]: moved and mirrored in both directions, always. *)
Theorem C135_bresenham y1 x1 y2 x2 s t cy cx ys xs :
  x1 <> x2 -> Z.abs (y2 - y1) <= Z.abs (x2 - x1) <= 2 ^ 52 -> s = 1 \/ s = -1 -> t = 1 \/ t = -1 ->
  bresenham y1 x1 y2 x2 = Ok (ys, xs) ->
  bresenham (cy + s * y1) (cx + t * x1) (cy + s * y2) (cx + t * x2) = Ok (map (fun y => cy + s * y) ys, map (fun x => cx + t * x) xs).
Proof. exact (c135_bresenham y1 x1 y2 x2 s t cy cx ys xs). Qed.
Print Assumptions C135_bresenham.

(** Reversed if the line is an odd number of columns long, not in general. *)
Theorem C135_bresenham_backwards_partial y1 x1 y2 x2 :
  Z.odd (x2 - x1) = true -> Z.abs (y2 - y1) <= Z.abs (x2 - x1) <= 2 ^ 52 ->
  exists ys xs ys' xs', bresenham y1 x1 y2 x2 = Ok (ys, xs) /\ bresenham y2 x2 y1 x1 = Ok (ys', xs') /\
    backwards (Z.abs (x2 - x1)) ys ys' /\ backwards (Z.abs (x2 - x1)) xs xs'.
Proof. exact (c135_bresenham_backwards y1 x1 y2 x2). Qed.
Print Assumptions C135_bresenham_backwards_partial.

Theorem C135_bresenham_refuted :
  bresenham 0 0 1 2 = Ok ([0; 0; 1], [0; 1; 2]) /\ bresenham 1 2 0 0 = Ok ([1; 1; 0], [2; 1; 0]).
Proof. split; vm_compute; reflexivity. Qed.
Print Assumptions C135_bresenham_refuted.

Definition slope : arr Z := mkarr 6 7 (fun y x => 10 * y + x).

Example C135_case :
  linear_roi (A := b64) slope 1 0 3 5 = Ok ([1; 1; 1; 2; 2; 2; 3], [0; 1; 2; 3; 4; 5; 6], [10; 11; 12; 23; 24; 25; 36]) /\
  linear_roi (A := b64) (transposed slope) 0 1 5 3 = Ok ([0; 1; 2; 3; 4; 5; 6], [1; 1; 1; 2; 2; 2; 3], [10; 11; 12; 23; 24; 25; 36]) /\
  (map (along 1 2 5) (zrange 6), map (along 3 (-2) 5) (zrange 6)) = ([1; 1; 1; 2; 2; 3], [3; 2; 2; 1; 1; 1]) /\
  (map (along 2 2 5) (zrange 6), map (along (5 - 1) (-2) 5) (zrange 6)) = ([2; 2; 2; 3; 3; 4], [4; 3; 3; 2; 2; 2]) /\
  ~ (longer 2 5 | 1 * 2) /\ Z.odd (5 - 0) = true /\ bresenham 1 0 3 5 = Ok ([1; 1; 2; 2; 3; 3], [0; 1; 2; 3; 4; 5]) /\
  bresenham (9 + -1 * 1) 0 (9 + -1 * 3) 5 = Ok ([8; 8; 7; 7; 6; 6], [0; 1; 2; 3; 4; 5]) /\
  bresenham 3 5 1 0 = Ok ([3; 3; 2; 2; 1; 1], [5; 4; 3; 2; 1; 0]).
Proof. repeat split; try (vm_compute; reflexivity). intros [z Hz]. change (longer 2 5) with 5 in Hz. lia. Qed.
