(** Property C80: lines of pixels from a centre along an angle. *)
From Coq Require Import Reals Lra.
From Verif Require Import Base.Base Base.Num Model.PolarLine Spec.LineSpec Spec.RaySpec Spec.Terminates
  Proofs.PolarLineFacts Proofs.PolarInnerFacts.
Local Open Scope Z_scope.

(** ** C80.  Full statement: for every centre of the image, angle and radii,
    [linear_roi_from_polar] returns pixels of the image that start at the centre (or at the
    inner radius), move at most one pixel per sample and follow the ray until it leaves the
    image or reaches the outer radius.  False for centres in the first two rows or columns, for
    inner radii beyond the border and for outer radii of at most two pixels.  What holds, in exact
    arithmetic (the last two rows and columns may be missed at the end, as may the last three
    pixels before the outer radius): *)
Theorem C80_ray_partial {B} (data : arr B) cy cx theta r :
  2 <= cy < rows data -> 2 <= cx < cols data -> whole_ray r ->
  exists vals ys xs density m,
    evaluates (fun fuel => linear_roi_from_polar fuel data (IZR cy) (IZR cx) theta r) (vals, ys, xs, density) /\
    0 < m /\ length vals = Z.to_nat m /\ length ys = Z.to_nat m /\ length xs = Z.to_nat m /\
    item ys 0 cy /\ item xs 0 cx /\
    (forall k y x, item ys k y -> item xs k x ->
       0 <= y < rows data /\ 0 <= x < cols data /\
       nth_error vals (Z.to_nat k) = Some (cell data y x) /\
       exists t, (0 <= t < reach r + 2)%R /\ near_ray cy cx theta t 3 y x) /\
    (forall k y x y' x', item ys k y -> item xs k x -> item ys (k + 1) y' -> item xs (k + 1) x' ->
       Z.abs (y' - y) <= 1 /\ Z.abs (x' - x) <= 1 /\ (y', x') <> (y, x)) /\
    (forall y x, item ys (m - 1) y -> item xs (m - 1) x ->
       at_border (rows data) (cols data) 2 y x \/
       exists t, (reach r - 3 <= t)%R /\ near_ray cy cx theta t 3 y x).
Proof. exact (ray_followed data cy cx theta r). Qed.
Print Assumptions C80_ray_partial.

(** From an inner radius that lies, with three pixels more, inside the image and four below the
    outer radius, the line starts at the pixel of a point of the ray less than one beyond that radius. *)
Theorem C80_inner_partial {B} (data : arr B) cy cx theta rin rout :
  2 <= cy < rows data -> 2 <= cx < cols data -> (0 < rin)%R -> (rin + 4 <= rout)%R ->
  (1 < ray_row (IZR cy) theta (rin + 3) < IZR (rows data))%R ->
  (1 < ray_col (IZR cx) theta (rin + 3) < IZR (cols data))%R ->
  exists vals ys xs density m,
    evaluates (fun fuel => linear_roi_from_polar fuel data (IZR cy) (IZR cx) theta (Some (rin, rout))) (vals, ys, xs, density) /\
    0 < m /\ length vals = Z.to_nat m /\ length ys = Z.to_nat m /\ length xs = Z.to_nat m /\
    (forall y x, item ys 0 y -> item xs 0 x -> exists t, (rin <= t < rin + 1)%R /\ on_pixel cy cx theta t y x) /\
    (forall k y x, item ys k y -> item xs k x ->
       0 <= y < rows data /\ 0 <= x < cols data /\
       nth_error vals (Z.to_nat k) = Some (cell data y x) /\
       exists t, (rin <= t < rout + 2)%R /\ near_ray cy cx theta t 3 y x) /\
    (forall k y x y' x', item ys k y -> item xs k x -> item ys (k + 1) y' -> item xs (k + 1) x' ->
       Z.abs (y' - y) <= 1 /\ Z.abs (x' - x) <= 1 /\ (y', x') <> (y, x)) /\
    (forall y x, item ys (m - 1) y -> item xs (m - 1) x ->
       at_border (rows data) (cols data) 2 y x \/
       exists t, (rout - 3 <= t)%R /\ near_ray cy cx theta t 3 y x).
Proof. exact (c80_inner data cy cx theta rin rout). Qed.
Print Assumptions C80_inner_partial.

(** With the centre in the first two rows or columns every angle fails. *)
Theorem C80_border_centre_refuted {B} fuel (data : arr B) cy cx theta r :
  cy <= 1 \/ cx <= 1 -> whole_ray r ->
  linear_roi_from_polar fuel data (IZR cy) (IZR cx) theta r = Raise ValueError.
Proof. exact (border_centre fuel data cy cx theta r). Qed.
Print Assumptions C80_border_centre_refuted.

(** An inner radius beyond the right border fails, *)
Theorem C80_inner_right_refuted {B} (data : arr B) cy cx rin rout :
  2 <= cy < rows data -> 2 <= cx < cols data -> cols data <= rin -> (IZR (cols data) <= rout - 1)%R ->
  exists n, forall fuel, (n <= fuel)%nat ->
    linear_roi_from_polar fuel data (IZR cy) (IZR cx) 0 (Some (IZR rin, rout)) = Raise IndexError.
Proof. exact (inner_right data cy cx rin rout). Qed.
Print Assumptions C80_inner_right_refuted.

(** and one beyond the left border starts with pixels of the opposite side, under negative columns. *)
Theorem C80_inner_left_refuted {B} (data : arr B) cy cx rin rout :
  2 <= cy < rows data -> 2 <= cx < cols data -> cx < rin <= cols data -> (IZR cx <= rout - 1)%R ->
  returns (fun fuel => linear_roi_from_polar fuel data (IZR cy) (IZR cx) 180 (Some (IZR rin, rout)))
    (fun '(vals, ys, xs, _) => item ys 0 cy /\ item xs 0 (cx - rin) /\
       nth_error vals 0 = Some (cell data cy (cols data + (cx - rin)))).
Proof. exact (inner_left data cy cx rin rout). Qed.
Print Assumptions C80_inner_left_refuted.

(** Two pixels towards the bottom right are too few. *)
Theorem C80_short_radius_refuted {B} (data : arr B) cy cx rout :
  2 <= cy < rows data -> 2 <= cx < cols data -> (rout <= 2)%R ->
  exists n, forall fuel, (n <= fuel)%nat ->
    linear_roi_from_polar fuel data (IZR cy) (IZR cx) (-45) (Some (0%R, rout)) = Raise ValueError.
Proof. exact (short_radius data cy cx rout). Qed.
Print Assumptions C80_short_radius_refuted.

(** A 9 x 7 image, the centre (4, 3), radii up to 3, none at all, and from 5 to 8. *)
Example C80_case :
  let data := mkarr 9 7 (fun y x => 10 * y + x) in
  (2 <= 4 < rows data /\ 2 <= 3 < cols data) /\
  whole_ray (Some (0, 3)%R) /\ whole_ray None /\
  (3 < 5 <= cols data /\ (IZR 3 <= 8 - 1)%R) /\ (cols data <= 7 /\ (IZR (cols data) <= 8 - 1)%R) /\
  cell data 4 (cols data + (3 - 5)) = 45.
Proof. cbn [rows cols cell whole_ray]. repeat split; try lia; lra. Qed.

(** A 20 x 20 image, the centre (10, 10), radii from 2 to 8 at 0 degrees. *)
Example C80_inner_case :
  let data := mkarr 20 20 (fun y x => 10 * y + x) in
  (2 <= 10 < rows data /\ 2 <= 10 < cols data) /\ (0 < 2)%R /\ (2 + 4 <= 8)%R /\
  (1 < ray_row (IZR 10) 0 (2 + 3) < IZR (rows data))%R /\ (1 < ray_col (IZR 10) 0 (2 + 3) < IZR (cols data))%R.
Proof.
  cbn [rows cols]. unfold ray_row, ray_col. replace (0 * PI / 180)%R with 0%R by lra. rewrite sin_0, cos_0.
  repeat split; try lia; lra.
Qed.
