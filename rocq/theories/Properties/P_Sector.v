(** Property C143: sectors of polar regions in floating point. *)
From Coq Require Import Reals Lra.
From Verif Require Import Base.Base Base.Num Model.Roi Model.PolarFloat Spec.AngleSpec Spec.RoiSpec Spec.PixelSpec Spec.MosaicSpec Spec.SectorSpec
  Proofs.SectorFacts.
Local Open Scope R_scope.

(** Full statement: the pixels kept between two angles are those whose direction lies between them, angles being the same
    modulo 360.  The bounds as they are written are compared with angles in [0, 360): see [C143_across_refuted]. *)
Theorem C143_angle at2 cy cx y x :
  usual_arctan2 at2 -> ((y - cy) * (y - cy) + (x - cx) * (x - cx) <= 2 ^ 45)%Z ->
  let before := turned at2 (y - cy) (x - cx) in let f := phi64 at2 cy cx y x in
  is_binary64 before /\ finite64 before /\ 0 <= fval before < 720 /\ is_binary64 f /\ finite64 f /\ 0 <= fval f < 360 /\
  exists rho phi, polar_of (IZR y - IZR cy) (IZR x - IZR cx) rho phi /\ Rabs (fval f - phi) <= powerRZ 2 (-42).
Proof. exact (c143_angle at2 cy cx y x). Qed.
Print Assumptions C143_angle.

(** Bounds that are multiples of 30 or 45 degrees: no pixel is decided wrongly. *)
Theorem C143_pixels_partial at2 {A} (data : arr A) cy cx r1 r2 z1 z2 fill :
  usual_arctan2 at2 ->
  (rows data <= 2 ^ 21)%Z -> (cols data <= 2 ^ 21)%Z -> (Z.abs cy <= 2 ^ 21)%Z -> (Z.abs cx <= 2 ^ 21)%Z ->
  (0 <= r1 < 2 ^ 25)%Z -> (0 <= r2 < 2 ^ 25)%Z -> round_angle z1 -> round_angle z2 -> (Z.abs z1 < 2 ^ 53)%Z -> (Z.abs z2 < 2 ^ 53)%Z ->
  let m := roi_boolean64 at2 data (Some (cy, cx)) r1 r2 (nofZ z1) (nofZ z2) false in
  exists out, roi64 at2 data (Some (cy, cx)) r1 r2 (nofZ z1) (nofZ z2) fill false = Ok out /\ same_shape m data /\
    (forall y x, (0 <= y < rows data)%Z -> (0 <= x < cols data)%Z ->
       (cell m y x = true <-> in_sector (IZR y - IZR cy) (IZR x - IZR cx) (IZR r1) (IZR r2) (IZR z1) (IZR z2))) /\
    holds out data (fun y x => if cell m y x then cell data y x else fill).
Proof. exact (c143_pixels at2 data cy cx r1 r2 z1 z2 fill). Qed.
Print Assumptions C143_pixels_partial.

Theorem C143_superpixels_partial at2 {A} (data : arr A) cy cx r1 r2 z1 z2 fill :
  usual_arctan2 at2 -> mosaic data ->
  (rows data <= 2 ^ 21)%Z -> (cols data <= 2 ^ 21)%Z -> (Z.abs cy <= 2 ^ 21)%Z -> (Z.abs cx <= 2 ^ 21)%Z ->
  (0 <= r1 < 2 ^ 25)%Z -> (0 <= r2 < 2 ^ 25)%Z -> round_angle z1 -> round_angle z2 -> (Z.abs z1 < 2 ^ 53)%Z -> (Z.abs z2 < 2 ^ 53)%Z ->
  let m := roi_boolean64 at2 data (Some (cy, cx)) r1 r2 (nofZ z1) (nofZ z2) true in
  exists out, roi64 at2 data (Some (cy, cx)) r1 r2 (nofZ z1) (nofZ z2) fill true = Ok out /\ same_shape m data /\
    (forall y x, (0 <= y < rows data)%Z -> (0 <= x < cols data)%Z ->
       (cell m y x = true <->
        in_sector (IZR (y / 2) - IZR (Z.quot cy 2)) (IZR (x / 2) - IZR (Z.quot cx 2)) (IZR (Z.quot r1 2)) (IZR (Z.quot r2 2)) (IZR z1) (IZR z2))) /\
    holds out data (fun y x => if cell m y x then cell data y x else fill).
Proof. exact (c143_super at2 data cy cx r1 r2 z1 z2 fill). Qed.
Print Assumptions C143_superpixels_partial.

(** Any other bounds: only pixels within 2^-42 degrees of a bound may be decided wrongly. *)
Theorem C143_any_bounds at2 {A} (data : arr A) cy cx r1 r2 t1 t2 y x :
  usual_arctan2 at2 ->
  (rows data <= 2 ^ 21)%Z -> (cols data <= 2 ^ 21)%Z -> (Z.abs cy <= 2 ^ 21)%Z -> (Z.abs cx <= 2 ^ 21)%Z ->
  (0 <= r1 < 2 ^ 25)%Z -> (0 <= r2 < 2 ^ 25)%Z -> is_binary64 t1 -> finite64 t1 -> is_binary64 t2 -> finite64 t2 ->
  (0 <= y < rows data)%Z -> (0 <= x < cols data)%Z -> let e := powerRZ 2 (-42) in
  let m := cell (roi_boolean64 at2 data (Some (cy, cx)) r1 r2 t1 t2 false) y x in
  let sector := in_sector (IZR y - IZR cy) (IZR x - IZR cx) (IZR r1) (IZR r2) in
  (m = true -> sector (fval t1 - e) (fval t2 + e)) /\ (sector (fval t1 + e) (fval t2 - e) -> m = true).
Proof. exact (c143_any at2 data cy cx r1 r2 t1 t2 y x). Qed.
Print Assumptions C143_any_bounds.

(** The whole circle: the distance alone decides, exactly. *)
Theorem C143_circle at2 {A} (data : arr A) cy cx r1 r2 incl :
  usual_arctan2 at2 -> mosaic data ->
  (rows data <= 2 ^ 21)%Z -> (cols data <= 2 ^ 21)%Z -> (Z.abs cy <= 2 ^ 21)%Z -> (Z.abs cx <= 2 ^ 21)%Z ->
  (0 <= r1 < 2 ^ 25)%Z -> (0 <= r2 < 2 ^ 25)%Z ->
  let m := roi_boolean64 at2 data (Some (cy, cx)) r1 r2 (nofZ 0) (nofZ 360) incl in
  forall y x, (0 <= y < rows data)%Z -> (0 <= x < cols data)%Z ->
    (cell m y x = true <->
     if incl then IZR (Z.quot r1 2) < dist (y / 2) (x / 2) (Z.quot cy 2) (Z.quot cx 2) <= IZR (Z.quot r2 2)
     else IZR r1 < dist y x cy cx <= IZR r2).
Proof. exact (c143_circle at2 data cy cx r1 r2 incl). Qed.
Print Assumptions C143_circle.

Theorem C143_default_centre at2 {A} (data : arr A) r1 r2 t1 t2 fill incl :
  roi64 at2 data None r1 r2 t1 t2 fill incl = roi64 at2 data (Some (Z.quot (rows data) 2, Z.quot (cols data) 2)%Z) r1 r2 t1 t2 fill incl.
Proof. exact (c143_centre at2 data r1 r2 t1 t2 fill incl). Qed.
Print Assumptions C143_default_centre.

(** With theta = [-45, 45] the pixel one row before and two columns after the centre is left out, although its direction is between
    -45 and 45 degrees. *)
Theorem C143_across_refuted at2 {A} (data : arr A) cy cx :
  usual_arctan2 at2 -> (rows data <= 2 ^ 21)%Z -> (cols data <= 2 ^ 21)%Z ->
  (1 <= cy < rows data)%Z -> (0 <= cx)%Z -> (cx + 2 < cols data)%Z ->
  cell (roi_boolean64 at2 data (Some (cy, cx)) 0 5 (nofZ (-45)) (nofZ 45) false) (cy - 1) (cx + 2) = false /\
  exists a, -45 <= a < 45 /\ 2 = sqrt 5 * cos (a / 180 * PI) /\ -1 = sqrt 5 * sin (a / 180 * PI).
Proof. exact (c143_across at2 data cy cx). Qed.
Print Assumptions C143_across_refuted.

(** The outcome, error or image, is the one of exact arithmetic (about which C35-C40 speak), for images of any shape. *)
Theorem C143_exact_arithmetic at2 {A} (data : arr A) cy cx r1 r2 z1 z2 fill incl :
  usual_arctan2 at2 ->
  (rows data <= 2 ^ 21)%Z -> (cols data <= 2 ^ 21)%Z -> (Z.abs cy <= 2 ^ 21)%Z -> (Z.abs cx <= 2 ^ 21)%Z ->
  (0 <= r1 < 2 ^ 25)%Z -> (0 <= r2 < 2 ^ 25)%Z -> round_angle z1 -> round_angle z2 -> (Z.abs z1 < 2 ^ 53)%Z -> (Z.abs z2 < 2 ^ 53)%Z ->
  same_outcome (roi64 at2 data (Some (cy, cx)) r1 r2 (nofZ z1) (nofZ z2) fill incl)
    (roi_from_polar data (Some (IZR cy, IZR cx)) (Some (IZR r1, IZR r2)) (IZR z1, IZR z2) fill incl).
Proof. exact (c143_exact at2 data cy cx r1 r2 z1 z2 fill incl). Qed.
Print Assumptions C143_exact_arithmetic.

(** There is such a library function, and the image of a sector holds some pixels and not others: around (2, 2) the pixel
    (3, 4) is between 0 and 30 degrees, the diagonal pixel (4, 4) not between 0 and 45. *)
Example C143_case : (exists at2, usual_arctan2 at2) /\ round_angle 0 /\ round_angle 30 /\ round_angle (-45) /\ mosaic (full 6 6 1%R) /\
  in_sector (IZR 3 - IZR 2) (IZR 4 - IZR 2) (IZR 1) (IZR 3) (IZR 0) (IZR 30) /\
  ~ in_sector (IZR 4 - IZR 2) (IZR 4 - IZR 2) (IZR 1) (IZR 3) (IZR 0) (IZR 45).
Proof.
  split; [exists some_usual; exact usual_exists|]. split; [left; reflexivity|]. split; [left; reflexivity|]. split; [right; reflexivity|].
  split; [repeat split; cbn; lia|]. exact c143_case_sector.
Qed.
