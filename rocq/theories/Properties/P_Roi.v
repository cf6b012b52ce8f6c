(** Properties C35-C40 and C70: polar regions of interest, occulter masks, radial filter,
    occulter search. *)
From Coq Require Import Reals Lra.
From Verif Require Import Base.Base Base.Num Model.Roi Model.Nrgf Model.Stokes
  Spec.RoiSpec Spec.OcculterSpec Spec.SumSpec Spec.PixelSpec Spec.MosaicSpec Spec.StokesSpec
  Spec.CodecSpec Proofs.RoiFacts Proofs.MaskFacts Proofs.NrgfFacts Proofs.OcculterFacts.
Local Open Scope R_scope.

(** ** C35.  Full statement also says "odd sides are rejected in superpixel mode"; a side
    of length 1 is not (see [C35_side_one_refuted]). *)
Theorem C35_superpixels_partial {A} (data : arr A) cy cx r1 r2 t1 t2 zy zx z1 z2 fill :
  mosaic data ->
  truncated (cy / 2) zy -> truncated (cx / 2) zx ->
  truncated (r1 / 2) z1 -> truncated (r2 / 2) z2 ->
  exists m out,
    roi_boolean data (Some (cy, cx)) (Some (r1, r2)) (t1, t2) true = Ok m /\
    roi_from_polar data (Some (cy, cx)) (Some (r1, r2)) (t1, t2) fill true = Ok out /\
    same_shape m data /\
    (forall y x, (0 <= y < rows data)%Z -> (0 <= x < cols data)%Z ->
       (cell m y x = true <->
        in_sector (IZR (y / 2) - IZR zy) (IZR (x / 2) - IZR zx) (IZR z1) (IZR z2) t1 t2)) /\
    holds out data (fun y x => if cell m y x then cell data y x else fill).
Proof. exact (c35_super data cy cx r1 r2 t1 t2 zy zx z1 z2 fill). Qed.
Print Assumptions C35_superpixels_partial.

Theorem C35_pixels {A} (data : arr A) cy cx r1 r2 t1 t2 fill :
  exists m out,
    roi_boolean data (Some (cy, cx)) (Some (r1, r2)) (t1, t2) false = Ok m /\
    roi_from_polar data (Some (cy, cx)) (Some (r1, r2)) (t1, t2) fill false = Ok out /\
    same_shape m data /\
    (forall y x, (0 <= y < rows data)%Z -> (0 <= x < cols data)%Z ->
       (cell m y x = true <-> in_sector (IZR y - cy) (IZR x - cx) r1 r2 t1 t2)) /\
    holds out data (fun y x => if cell m y x then cell data y x else fill).
Proof. exact (c35_pixel data cy cx r1 r2 t1 t2 fill). Qed.
Print Assumptions C35_pixels.

Theorem C35_default_centre {A} (data : arr A) rho theta fill incl :
  roi_from_polar data None rho theta fill incl =
  roi_from_polar data (Some (IZR (Z.quot (rows data) 2), IZR (Z.quot (cols data) 2))) rho theta fill incl.
Proof. exact (c35_center data rho theta fill incl). Qed.
Print Assumptions C35_default_centre.

Theorem C35_odd_sides_partial {A} (data : arr A) center r1 r2 t1 t2 fill :
  (1 < rows data)%Z -> (1 < cols data)%Z ->
  (rows data mod 2 <> 0 \/ cols data mod 2 <> 0)%Z ->
  roi_from_polar data center (Some (r1, r2)) (t1, t2) fill true = Raise ValueError.
Proof. exact (c35_odd data center r1 r2 t1 t2 fill). Qed.
Print Assumptions C35_odd_sides_partial.

(** A one-row image silently gives an image without rows. *)
Theorem C35_side_one_refuted {A} (data : arr A) w r1 r2 t1 t2 fill :
  (0 <= w)%Z -> rows data = 1%Z -> cols data = (2 * w)%Z ->
  exists out, roi_from_polar data None (Some (r1, r2)) (t1, t2) fill true = Ok out /\
    rows out = 0%Z /\ cols out = (2 * w)%Z.
Proof. exact (c35_one_row data w r1 r2 t1 t2 fill). Qed.
Print Assumptions C35_side_one_refuted.

(** A 6 x 8 image, centre (3, 5) -> (1, 2), radii (1, 4) -> (0, 2): the superpixel next to
    the centre's is selected; and a sector that is not empty. *)
Example C35_case :
  mosaic (full 6 8 1%R) /\ truncated (3 / 2) 1 /\ truncated (5 / 2) 2 /\
  truncated (1 / 2) 0 /\ truncated (4 / 2) 2 /\
  in_sector (IZR 1 - IZR 1) (IZR 3 - IZR 2) (IZR 0) (IZR 2) 0 90.
Proof.
  split; [repeat split; cbn; lia || reflexivity|].
  repeat (split; [split; intros; lra|]).
  exists 1, 0. unfold polar_of.
  replace (0 / 180 * PI) with 0 by field. rewrite cos_0, sin_0. repeat split; lra.
Qed.

(** ** C36.  Refuted: leaving out [rho] always raises TypeError. *)
Theorem C36_default_rho_refuted {A} (data : arr A) center theta fill incl :
  roi_from_polar data center None theta fill incl = Raise TypeError.
Proof. exact (c36_none data center theta fill incl). Qed.
Print Assumptions C36_default_rho_refuted.

(** ** C37 *)
Theorem C37_mask_consistent dic a (data : arr R) s y0 x0 r over :
  describes dic a -> mosaic data -> data_stokes dic data = Ok s ->
  exists data' s' t,
    mask_raw data s y0 x0 r over 0 = Ok (data', s') /\
    data_stokes dic data' = Ok t /\
    stokes_is s' (rows data / 2) (cols data / 2) (cell (sI t)) (cell (sQ t)) (cell (sU t)).
Proof. exact (c37_consistent dic a data s y0 x0 r over). Qed.
Print Assumptions C37_mask_consistent.

Theorem C37_mask_selects (data : arr R) s y0 x0 r over fill data' s' :
  mosaic data -> rows (sI s) = (rows data / 2)%Z -> cols (sI s) = (cols data / 2)%Z ->
  (0 <= y0 < rows data)%Z -> (0 <= x0 < cols data)%Z ->
  mask_raw data s y0 x0 r over fill = Ok (data', s') ->
  holds data' data (fun y x =>
    if Rlt_dec (IZR (Z.quot (r + over) 2)) (dist (y / 2) (x / 2) (y0 / 2) (x0 / 2))
    then cell data y x else fill) /\
  holds (sI s') (sI s) (fun Y X =>
    if Rlt_dec (IZR (Z.quot (r + over) 2)) (dist Y X (y0 / 2) (x0 / 2))
    then cell (sI s) Y X else fill).
Proof. exact (c37_data data s y0 x0 r over fill data' s'). Qed.
Print Assumptions C37_mask_selects.

(** Masking an 8 x 8 image around (4, 3). *)
Example C37_case :
  let data := full 8 8 3 in
  describes polarcam_angles (mkarrangement 0 1 2 3) /\ mosaic data /\
  exists s data' s', data_stokes polarcam_angles data = Ok s /\
    rows (sI s) = (rows data / 2)%Z /\ cols (sI s) = (cols data / 2)%Z /\
    mask_raw data s 4 3 2 0 0 = Ok (data', s').
Proof. exact c37_case. Qed.

(** ** C38.  Full statement: each pixel is selected by exactly one of the two ROIs.  False
    for the superpixel of the centre, true everywhere else. *)
Theorem C38_partition_partial {A} (data : arr A) y0 x0 r big m1 m2 y x :
  mosaic data -> (0 <= r)%Z ->
  roi_boolean data (Some (IZR y0, IZR x0)) (Some (0, IZR r)) full_circle true = Ok m1 ->
  roi_boolean data (Some (IZR y0, IZR x0)) (Some (IZR r, IZR big)) full_circle true = Ok m2 ->
  (0 <= y < rows data)%Z -> (0 <= x < cols data)%Z ->
  dist (y / 2) (x / 2) (Z.quot y0 2) (Z.quot x0 2) <= IZR (Z.quot big 2) ->
  (y / 2, x / 2)%Z <> (Z.quot y0 2, Z.quot x0 2) ->
  xorb (cell m1 y x) (cell m2 y x) = true.
Proof. exact (c38_partition data y0 x0 r big m1 m2 y x). Qed.
Print Assumptions C38_partition_partial.

Theorem C38_centre {A} (data : arr A) y0 x0 r big m1 m2 y x :
  mosaic data -> (0 <= r)%Z ->
  roi_boolean data (Some (IZR y0, IZR x0)) (Some (0, IZR r)) full_circle true = Ok m1 ->
  roi_boolean data (Some (IZR y0, IZR x0)) (Some (IZR r, IZR big)) full_circle true = Ok m2 ->
  (0 <= y < rows data)%Z -> (0 <= x < cols data)%Z ->
  (y / 2, x / 2)%Z = (Z.quot y0 2, Z.quot x0 2) ->
  cell m1 y x = false /\ cell m2 y x = false.
Proof. exact (c38_center data y0 x0 r big m1 m2 y x). Qed.
Print Assumptions C38_centre.

Theorem C38_partition_refuted :
  exists (data : arr R) y0 x0 r big m1 m2 y x,
    mosaic data /\ (0 <= r < big)%Z /\ (0 <= y < rows data)%Z /\ (0 <= x < cols data)%Z /\
    roi_boolean data (Some (IZR y0, IZR x0)) (Some (0, IZR r)) full_circle true = Ok m1 /\
    roi_boolean data (Some (IZR y0, IZR x0)) (Some (IZR r, IZR big)) full_circle true = Ok m2 /\
    cell m1 y x = false /\ cell m2 y x = false.
Proof. exact c38_refuted. Qed.
Print Assumptions C38_partition_refuted.

Example C38_case :
  (dist 1 0 1 1 <= IZR (Z.quot 100 2)) /\ (1, 0)%Z <> (Z.quot 2 2, Z.quot 2 2).
Proof.
  split; [|discriminate]. apply dist_le; [cbn; lia|]. cbn. lia.
Qed.

(** ** C39 *)
Theorem C39_ring_normalised data y0 x0 cy cx rho_min step t1 t2 out k P :
  truncated y0 cy -> truncated x0 cx -> (0 < step)%Z ->
  nrgf data y0 x0 rho_min step (t1, t2) (t1, t2) = Ok out ->
  (0 <= k)%Z ->
  (exists y x, (0 <= y < rows data)%Z /\ (0 <= x < cols data)%Z /\
     IZR (rho_min + k * step + 1) <= dist y x cy cx) ->
  ring_mask cy cx (rho_min + k * step) step t1 t2 P ->
  let h := rows data in
  let w := cols data in
  ((exists y x y' x', (0 <= y < h)%Z /\ (0 <= x < w)%Z /\ P y x = true /\
      (0 <= y' < h)%Z /\ (0 <= x' < w)%Z /\ P y' x' = true /\ cell data y x <> cell data y' x') ->
   rsum_over h w P (cell out) = 0 /\
   rsum_over h w P (fun y x => cell out y x * cell out y x) = rsum_over h w P (fun _ _ => 1)) /\
  ((forall y x y' x', (0 <= y < h)%Z -> (0 <= x < w)%Z -> P y x = true ->
      (0 <= y' < h)%Z -> (0 <= x' < w)%Z -> P y' x' = true -> cell data y x = cell data y' x') ->
   forall y x, (0 <= y < h)%Z -> (0 <= x < w)%Z -> P y x = true -> cell out y x = 0).
Proof. exact (c39_ring data y0 x0 cy cx rho_min step t1 t2 out k P). Qed.
Print Assumptions C39_ring_normalised.

Theorem C39_outside_zero data y0 x0 cy cx rho_min step tm t1 t2 out y x :
  truncated y0 cy -> truncated x0 cx -> (0 < step)%Z ->
  nrgf data y0 x0 rho_min step tm (t1, t2) = Ok out ->
  (0 <= y < rows data)%Z -> (0 <= x < cols data)%Z ->
  dist y x cy cx <= IZR rho_min \/
  (forall r1 r2, ~ in_sector (IZR y - IZR cy) (IZR x - IZR cx) r1 r2 t1 t2) ->
  cell out y x = 0.
Proof. exact (c39_zero data y0 x0 cy cx rho_min step tm t1 t2 out y x). Qed.
Print Assumptions C39_outside_zero.

Theorem C39_gain_offset data y0 x0 rho_min step tm to g o out out' :
  0 < g -> (0 < step)%Z ->
  nrgf data y0 x0 rho_min step tm to = Ok out ->
  nrgf (amap (fun v => g * v + o) data) y0 x0 rho_min step tm to = Ok out' ->
  out' =a= out.
Proof. exact (c39_affine data y0 x0 rho_min step tm to g o out out'). Qed.
Print Assumptions C39_gain_offset.

Theorem C39_total data y0 x0 rho_min step tm to :
  (0 < rows data)%Z -> (0 < cols data)%Z -> (0 < step)%Z ->
  exists out, nrgf data y0 x0 rho_min step tm to = Ok out.
Proof. exact (nrgf_total data y0 x0 rho_min step tm to). Qed.
Print Assumptions C39_total.

(** A 5 x 5 image centred at (2, 2): ring 1 is processed and not uniform. *)
Example C39_case :
  let data := mkarr 5 5 (fun y x => IZR (y + x)) in
  truncated 2 2 /\
  (exists out, nrgf data 2 2 1 1 (0, 360) (0, 360) = Ok out) /\
  (exists y x, (0 <= y < 5)%Z /\ (0 <= x < 5)%Z /\ IZR (1 + 0 * 1 + 1) <= dist y x 2 2) /\
  exists P, ring_mask 2 2 (1 + 0 * 1) 1 0 360 P /\ P 1%Z 1%Z = true /\ P 3%Z 3%Z = true /\
    cell data 1 1 <> cell data 3 3.
Proof. exact c39_case. Qed.

(** ** C40 *)
Theorem C40_mask over rmax y0 x0 r h w :
  (0 <= h)%Z -> (0 <= w)%Z -> (h mod 2 = 0)%Z -> (w mod 2 = 0)%Z ->
  exists m,
    occulter_mask (mkcamera h w (Some (y0, x0, r))) over rmax = Ok m /\ rows m = h /\ cols m = w /\
    let outer := match rmax with None => Z.min y0 x0 | Some v => v end in
    forall y x, (0 <= y < h)%Z -> (0 <= x < w)%Z ->
      (cell m y x = true <->
       IZR (Z.quot (r + over) 2) < dist (y / 2) (x / 2) (Z.quot y0 2) (Z.quot x0 2)
        <= IZR (Z.quot outer 2)).
Proof. exact (c40_mask over rmax y0 x0 r h w). Qed.
Print Assumptions C40_mask.

Theorem C40_roi {A} (data : arr A) fill over :
  mosaic data -> (rows data <= 1952)%Z -> (cols data <= 1952)%Z ->
  exists o, occulter_roi PolarCam data fill over = Ok o /\
    holds o data (fun y x =>
      if Rlt_dec (IZR (Z.quot (536 + over) 2)) (dist (y / 2) (x / 2) 459 470)
      then cell data y x else fill).
Proof. exact (c40_roi data fill over). Qed.
Print Assumptions C40_roi.

(** The other camera class has no occulter position: both methods raise AttributeError. *)
Theorem C40_kasi_refuted {A} (data : arr A) fill over rmax :
  occulter_roi Kasi data fill over = Raise AttributeError /\
  occulter_mask Kasi over rmax = Raise AttributeError.
Proof. exact (conj eq_refl eq_refl). Qed.
Print Assumptions C40_kasi_refuted.

Example C40_case :
  PolarCam = mkcamera 1952 1952 (Some (919, 941, 536)%Z) /\ (1952 mod 2 = 0)%Z /\
  mosaic (full 1952 1952 1%R).
Proof. split; [reflexivity|]. split; [reflexivity|]. repeat split; cbn; lia || reflexivity. Qed.

(** ** C70 *)
Theorem C70_found (d : arr R) th left right up down :
  (0 < rows d)%Z -> (0 < cols d)%Z ->
  let hy := (rows d / 2)%Z in
  let hx := (cols d / 2)%Z in
  first_jump_at (leftwards d hy hx) hx th left ->
  first_jump_at (rightwards d hy hx) (cols d - hx) th right ->
  first_jump_at (upwards d hy hx) hy th up ->
  first_jump_at (downwards d hy hx) (rows d - hy) th down ->
  find_occulter_algo d th =
    Ok ((2 * hy + down - up) / 2, (2 * hx + right - left) / 2, (left + right + up + down) / 4)%Z.
Proof. exact (c70_found d th left right up down). Qed.
Print Assumptions C70_found.

Theorem C70_missing (d : arr R) th :
  (0 < rows d)%Z -> (0 < cols d)%Z ->
  let hy := (rows d / 2)%Z in
  let hx := (cols d / 2)%Z in
  (forall i, ~ jump_at (leftwards d hy hx) hx th i) \/
  (forall i, ~ jump_at (rightwards d hy hx) (cols d - hx) th i) \/
  (forall i, ~ jump_at (upwards d hy hx) hy th i) \/
  (forall i, ~ jump_at (downwards d hy hx) (rows d - hy) th i) ->
  find_occulter_algo d th = Raise ValueError.
Proof. exact (c70_missing d th). Qed.
Print Assumptions C70_missing.

Theorem C70_centred_step (d : arr R) th lo hi a b r :
  rows d = (2 * a)%Z -> cols d = (2 * b)%Z -> (5 < r < a)%Z -> (5 < r < b)%Z ->
  0 <= lo -> 1 <= th -> th * lo < hi ->
  (forall x, (0 <= x < cols d)%Z ->
     cell d a x = if ((b - r <=? x) && (x <? b + r))%Z%bool then lo else hi) ->
  (forall y, (0 <= y < rows d)%Z ->
     cell d y b = if ((a - r <=? y) && (y <? a + r))%Z%bool then lo else hi) ->
  find_occulter_algo d th = Ok (a, b, r).
Proof. exact (c70_step d th lo hi a b r). Qed.
Print Assumptions C70_centred_step.

(** A 20 x 24 image of a dark square of half-side 6 and threshold 4. *)
Example C70_case :
  let d := mkarr 20 24 (fun y x => if ((4 <=? y) && (y <? 16) && (6 <=? x) && (x <? 18))%Z%bool
                                   then 10 else 100) in
  find_occulter_algo d 4 = Ok (10, 12, 6)%Z /\
  find_occulter_algo (full 20 24 10) 4 = Raise ValueError.
Proof. exact c70_case. Qed.
