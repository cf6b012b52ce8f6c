(** Property C145: the radial filter over sectors in floating point. *)
From Coq Require Import Reals Lra Floats.SpecFloat.
From Verif Require Import Base.Base Base.Num Model.MeanFloat Model.NrgfFloat Model.NrgfSector Spec.AngleSpec Spec.FloatSpec Spec.RoiSpec Spec.RingSpec Spec.SectorSpec
  Spec.SectorFilterSpec Proofs.SectorFacts Proofs.SectorFilterFacts.
Local Open Scope R_scope.

(** Images of whole numbers, sectors bounded by multiples of 30 or 45 degrees: every pixel in the sector of the output and in a ring
    is its deviation from the mean over the other sector of the exact ring, in units of the standard deviation there, up to a few roundings
    per pixel of the ring; it is 0 if that part of the ring is uniform or empty, and all other pixels are 0. *)
Theorem C145_filter at2 orders (data : arr b64) cy cx rho_min step m1 m2 o1 o2 top :
  usual_arctan2 at2 -> adds_all orders ->
  (0 < rows data <= 2 ^ 21)%Z -> (0 < cols data <= 2 ^ 21)%Z -> (Z.abs cy <= 2 ^ 21)%Z -> (Z.abs cx <= 2 ^ 21)%Z ->
  (0 <= rho_min)%Z -> (0 < step <= 2 ^ 24)%Z -> round_angle m1 -> round_angle m2 -> round_angle o1 -> round_angle o2 ->
  (Z.abs m1 < 2 ^ 53)%Z -> (Z.abs m2 < 2 ^ 53)%Z -> (Z.abs o1 < 2 ^ 53)%Z -> (Z.abs o2 < 2 ^ 53)%Z ->
  (0 <= top)%Z -> (rows data * cols data <= 2 ^ 40)%Z -> (rows data * cols data * top < 2 ^ 50)%Z ->
  (forall y x, (0 <= y < rows data)%Z -> (0 <= x < cols data)%Z -> exists m, (0 <= m <= top)%Z /\ is_value (cell data y x) (IZR m)) ->
  let h := rows data in let w := cols data in let f y x := fval (cell data y x) in
  exists out, nrgf64 at2 orders data cy cx rho_min step (nofZ m1) (nofZ m2) (nofZ o1) (nofZ o2) = Ok out /\ rows out = h /\ cols out = w /\
  forall y x, (0 <= y < h)%Z -> (0 <= x < w)%Z ->
    let sector r := in_sector (IZR y - IZR cy) (IZR x - IZR cx) (IZR r) (IZR (r + step)) (IZR o1) (IZR o2) in
    ((forall r, treated h w cy cx rho_min step r -> ~ sector r) -> cell out y x = S754_zero false) /\
    (forall r, treated h w cy cx rho_min step r -> sector r -> exists ps, lists_ring ps h w cy cx r step (IZR m1) (IZR m2) /\
      ((forall y1 x1 y2 x2, In (y1, x1) ps -> In (y2, x2) ps -> f y1 x1 = f y2 x2) -> cell out y x = S754_zero false) /\
      ((exists y1 x1 y2 x2, In (y1, x1) ps /\ In (y2, x2) ps /\ f y1 x1 <> f y2 x2) ->
       let z := (f y x - average ps f) / deviation ps f in
       0 < deviation ps f /\ finite64 (cell out y x) /\
       Rabs (fval (cell out y x) - z) <= ((4 * IZR top + 8) * INR (length ps) + 24) * powerRZ 2 (-53) * (1 + Rabs z))).
Proof. exact (c145_filter at2 orders data cy cx rho_min step m1 m2 o1 o2 top). Qed.
Print Assumptions C145_filter.

(** An image without pixels is refused, also a step of 0; a negative step gives an image of zeros. *)
Theorem C145_empty at2 orders (data : arr b64) cy cx rho_min step m1 m2 o1 o2 : (rows data <= 0 \/ cols data <= 0)%Z ->
  nrgf64 at2 orders data cy cx rho_min step m1 m2 o1 o2 = Raise ValueError.
Proof. exact (c145_empty at2 orders data cy cx rho_min step m1 m2 o1 o2). Qed.
Print Assumptions C145_empty.

Theorem C145_step at2 orders (data : arr b64) cy cx rho_min step m1 m2 o1 o2 :
  (0 < rows data <= 2 ^ 21)%Z -> (0 < cols data <= 2 ^ 21)%Z -> (Z.abs cy <= 2 ^ 21)%Z -> (Z.abs cx <= 2 ^ 21)%Z -> (step <= 0)%Z ->
  nrgf64 at2 orders data cy cx rho_min step m1 m2 o1 o2 = if (step =? 0)%Z then Raise ValueError else Ok (full (rows data) (cols data) (S754_zero false)).
Proof. exact (c145_step at2 orders data cy cx rho_min step m1 m2 o1 o2). Qed.
Print Assumptions C145_step.

(** A 5 x 5 image of counts y + x around (2, 2), rings of two pixels: the pixel (3, 2) is in the sector 90 to 180 of the first ring, the
    mean is over the sector 0 to 90 to which (3, 2) does not belong, with the pixels (2, 3) and (2, 4), which differ. *)
Example C145_case : let data := mkarr 5 5 (fun y x => nofZ (y + x)) in
  usual_arctan2 some_usual /\ adds_all one_by_one /\ round_angle 0 /\ round_angle 90 /\ round_angle 180 /\
  (forall y x, (0 <= y < rows data)%Z -> (0 <= x < cols data)%Z -> exists m, (0 <= m <= 8)%Z /\ is_value (cell data y x) (IZR m)) /\
  treated 5 5 2 2 0 2 0 /\ in_sector (IZR 3 - IZR 2) (IZR 2 - IZR 2) (IZR 0) (IZR (0 + 2)) (IZR 90) (IZR 180) /\
  in_sector (IZR 2 - IZR 2) (IZR 3 - IZR 2) (IZR 0) (IZR (0 + 2)) (IZR 0) (IZR 90) /\ in_sector (IZR 2 - IZR 2) (IZR 4 - IZR 2) (IZR 0) (IZR (0 + 2)) (IZR 0) (IZR 90) /\
  fval (cell data 2 3) <> fval (cell data 2 4).
Proof.
  intros data. split; [exact usual_exists|]. split; [exact one_by_one_adds|]. split; [left; reflexivity|]. split; [left; reflexivity|]. split; [left; reflexivity|].
  destruct c145_case_counts as [C D]. split; [exact C|]. split; [split; [exists 0%Z; split; [lia|reflexivity]|exists 2%Z, 3%Z; split; [lia|split; [lia|]]; unfold dist; cbn; rewrite sqrt_1; lra]|].
  destruct c145_case_sectors as (S1 & S2 & S3). split; [exact S1|]. split; [exact S2|]. split; [exact S3|exact D].
Qed.
