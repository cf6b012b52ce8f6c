(** C130: which pixels the radial filter reaches. *)
From Coq Require Import Reals Lra Lia.
From Verif Require Import Base.Base Base.Num Model.Nrgf Spec.RoiSpec Spec.SumSpec Spec.CodecSpec Proofs.ReachFacts.
Local Open Scope R_scope.

(** Full statement: every pixel of the output sector farther than rho_min from the centre
    becomes its deviation from the mean of its ring in units of the standard deviation.
    It holds up to every whole distance that some pixel reaches. *)
Theorem C130_value_partial data y0 x0 cy cx rho_min step tm t1 t2 out y x N :
  truncated y0 cy -> truncated x0 cx -> (0 < step)%Z ->
  nrgf data y0 x0 rho_min step tm (t1, t2) = Ok out ->
  (0 <= y < rows data)%Z -> (0 <= x < cols data)%Z ->
  (exists y' x', (0 <= y' < rows data)%Z /\ (0 <= x' < cols data)%Z /\ IZR N <= dist y' x' cy cx) ->
  IZR rho_min < dist y x cy cx <= IZR N ->
  in_sector (IZR y - IZR cy) (IZR x - IZR cx) (IZR rho_min) (IZR N) t1 t2 ->
  exists k, (0 <= k)%Z /\ IZR (rho_min + k * step) < dist y x cy cx <= IZR (rho_min + (k + 1) * step) /\
    forall P, ring_mask cy cx (rho_min + k * step) step (fst tm) (snd tm) P ->
      let n := rsum_over (rows data) (cols data) P (fun _ _ => 1) in
      let m := rsum_over (rows data) (cols data) P (cell data) / n in
      let v := rsum_over (rows data) (cols data) P (fun y x => Rsqr (cell data y x - m)) / n in
      (0 < n -> 0 < v -> cell out y x = (cell data y x - m) / sqrt v) /\
      (n = 0 \/ v = 0 -> cell out y x = 0).
Proof. exact (c130_value data y0 x0 cy cx rho_min step tm t1 t2 out y x N). Qed.
Print Assumptions C130_value_partial.

(** Beyond the ring that contains the last whole distance, the output is 0 whatever the data. *)
Theorem C130_missed data y0 x0 cy cx rho_min step tm to out y x N k :
  truncated y0 cy -> truncated x0 cx -> (0 < step)%Z ->
  nrgf data y0 x0 rho_min step tm to = Ok out ->
  (0 <= y < rows data)%Z -> (0 <= x < cols data)%Z ->
  (forall y' x', (0 <= y' < rows data)%Z -> (0 <= x' < cols data)%Z -> dist y' x' cy cx < IZR (N + 1)) ->
  (N <= rho_min + k * step)%Z -> IZR (rho_min + k * step) < dist y x cy cx ->
  cell out y x = 0.
Proof. exact (c130_missed data y0 x0 cy cx rho_min step tm to out y x N k). Qed.
Print Assumptions C130_missed.

(** So the corners of a 4 x 4 image filtered around its centre are lost, and the pixels next to them. *)
Theorem C130_corners_refuted data tm to : rows data = 4%Z -> cols data = 4%Z ->
  exists out, nrgf data 2 2 0 1 tm to = Ok out /\ cell out 0 0 = 0 /\ cell out 0 1 = 0 /\ cell out 1 0 = 0 /\
    IZR 0 < dist 0 0 2 2 /\ IZR 0 < dist 0 1 2 2 /\ IZR 0 < dist 1 0 2 2.
Proof. exact (c130_corners data tm to). Qed.
Print Assumptions C130_corners_refuted.

(** The 5 x 5 image y + x around (2, 2): pixel (1, 1) lies in the ring (1, 2], whose end is reached. *)
Example C130_case : let data := mkarr 5 5 (fun y x => IZR (y + x)) in
  truncated 2 2 /\ (exists out, nrgf data 2 2 1 1 (0, 360) (0, 360) = Ok out) /\
  (exists y' x', (0 <= y' < rows data)%Z /\ (0 <= x' < cols data)%Z /\ IZR 2 <= dist y' x' 2 2) /\
  IZR 1 < dist 1 1 2 2 <= IZR 2 /\ in_sector (IZR 1 - IZR 2) (IZR 1 - IZR 2) (IZR 1) (IZR 2) 0 360 /\
  (forall y' x', (0 <= y' < rows data)%Z -> (0 <= x' < cols data)%Z -> dist y' x' 2 2 < IZR (2 + 1)) /\
  (2 <= 1 + 1 * 1)%Z /\ IZR (1 + 1 * 1) < dist 0 0 2 2.
Proof. exact c130_case. Qed.
