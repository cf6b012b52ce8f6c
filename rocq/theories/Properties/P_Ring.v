(** C132: the radial filter in floating point. *)
From Coq Require Import Reals ZArith Lra Lia Floats.SpecFloat.
From Verif Require Import Base.Base Base.Num Model.MeanFloat Model.NrgfFloat Spec.AngleSpec Spec.FloatSpec Spec.CorrectSpec Spec.RoiSpec Spec.RingSpec Proofs.RingFacts.
Local Open Scope R_scope.

(** Rounding of distances moves no pixel to another ring: the output is that of the exact ring, and 0 in no ring. *)
Theorem C132_rings plan (data : arr b64) cy cx rho_min rho_max step k y x :
  (0 <= rho_min)%Z -> (0 < step)%Z -> (rho_max + step < 2 ^ 25)%Z ->
  (0 <= k)%Z -> (rho_min + k * step < rho_max)%Z -> IZR (rho_min + k * step) < dist y x cy cx <= IZR (rho_min + (k + 1) * step) ->
  exists out, nrgf_full plan data cy cx rho_min rho_max step = Ok out /\ rows out = rows data /\ cols out = cols data /\
    cell out y x = ring_output data (plan (rho_min + k * step)%Z) (cell data y x).
Proof. exact (nrgf_full_cell plan data cy cx rho_min rho_max step k y x). Qed.
Print Assumptions C132_rings.

Theorem C132_no_ring plan (data : arr b64) cy cx rho_min rho_max step y x :
  (0 <= rho_min)%Z -> (0 < step)%Z -> (rho_max + step < 2 ^ 25)%Z -> ((y - cy) * (y - cy) + (x - cx) * (x - cx) < 2 ^ 53)%Z ->
  (forall k, (0 <= k)%Z -> (rho_min + k * step < rho_max)%Z -> ~ IZR (rho_min + k * step) < dist y x cy cx <= IZR (rho_min + (k + 1) * step)) ->
  exists out, nrgf_full plan data cy cx rho_min rho_max step = Ok out /\ cell out y x = S754_zero false.
Proof. exact (nrgf_full_zero plan data cy cx rho_min rho_max step y x). Qed.
Print Assumptions C132_no_ring.

(** 16-bit counts, rings of at most 2^16 pixels [ps], added in any order: a uniform ring gives exactly 0,
    every other the deviation from the mean in units of the standard deviation up to 2^-18. *)
Theorem C132_camera_partial plan (data : arr b64) cy cx rho_min rho_max step k y x ps dd pl :
  (0 <= rho_min)%Z -> (0 < step)%Z -> (rho_max + step < 2 ^ 25)%Z ->
  (0 <= k)%Z -> (rho_min + k * step < rho_max)%Z -> IZR (rho_min + k * step) < dist y x cy cx <= IZR (rho_min + (k + 1) * step) ->
  In (y, x) ps -> plan (rho_min + k * step)%Z = Some pl -> plan_for ps dd pl -> (Z.of_nat dd <= 65536)%Z -> (Z.of_nat (length ps) <= 65536)%Z ->
  counts_at 65535 ps data ->
  let f y x := fval (cell data y x) in
  exists out, nrgf_full plan data cy cx rho_min rho_max step = Ok out /\
    ((forall y' x', In (y', x') ps -> f y' x' = f y x) -> cell out y x = S754_zero false) /\
    ((exists y' x', In (y', x') ps /\ f y' x' <> f y x) ->
     let z := (f y x - average ps f) / deviation ps f in
     0 < deviation ps f /\ finite64 (cell out y x) /\ Rabs (fval (cell out y x) - z) <= powerRZ 2 (-18) * (1 + Rabs z)).
Proof. exact (c132_camera plan data cy cx rho_min rho_max step k y x ps dd pl). Qed.
Print Assumptions C132_camera_partial.

(** Counts of any depth: the error is a few roundings times the contrast of the ring. *)
Theorem C132_counts (data : arr b64) ps dd pl top y x :
  plan_for ps dd pl -> (Z.of_nat dd <= 2 ^ 40)%Z -> (Z.of_nat (length ps) < 2 ^ 50)%Z -> counts_at top ps data -> (0 <= top)%Z ->
  (Z.of_nat (length ps) * top < 2 ^ 53)%Z -> In (y, x) ps ->
  let f y x := fval (cell data y x) in let s := deviation ps f in let z := (f y x - average ps f) / s in
  let out := ring_output data (Some pl) (cell data y x) in
  0 < s -> 4 * IZR top * powerRZ 2 (-53) <= s ->
  finite64 out /\ Rabs (fval out - z) <= (4 * IZR top / s + 8 * INR dd + 24) * powerRZ 2 (-53) * (1 + Rabs z).
Proof. exact (c132_counts_p data ps dd pl top y x). Qed.
Print Assumptions C132_counts.

(** A uniform ring of another value gives 0 or a number close to 1 or -1, nothing between. *)
Theorem C132_level (data : arr b64) ps dd pl r y x :
  plan_for ps dd pl -> (Z.of_nat dd <= 2 ^ 40)%Z -> (Z.of_nat (length ps) < 2 ^ 50)%Z -> In (y, x) ps ->
  0 < r -> moderate r -> (forall y' x', In (y', x') ps -> is_value (cell data y' x') r) ->
  let out := ring_output data (Some pl) (cell data y x) in
  out = S754_zero false \/ (finite64 out /\ Rabs (Rabs (fval out) - 1) <= (4 * INR dd + 12) * powerRZ 2 (-53)).
Proof. exact (c132_level_p data ps dd pl r y x). Qed.
Print Assumptions C132_level.

(** Full statement: a uniform ring gives 0.  In a 5 x 5 image of 0.1, the eight pixels of the ring (1, 2] are
    added one after the other, and the filtered image is 1 there. *)
Theorem C132_uniform_refuted : let data := full 5 5 tenth in
  nearest tenth (1 / 10) /\ plan_for eight 7 in_turn_plan /\
  (forall y x, (0 <= y < 5)%Z -> (0 <= x < 5)%Z -> (In (y, x) eight <-> IZR 1 < dist y x 2 2 <= IZR 2)) /\
  exists out, nrgf_full (fun _ => Some in_turn_plan) data 2 2 1 2 1 = Ok out /\ is_value (cell out 1 1) 1.
Proof. exact c132_refuted. Qed.
Print Assumptions C132_uniform_refuted.

(** The same ring with counts y + x. *)
Example C132_case : let data := mkarr 5 5 (fun y x => nofZ (y + x)) in
  IZR (1 + 0 * 1) < dist 1 1 2 2 <= IZR (1 + (0 + 1) * 1) /\ In (1%Z, 1%Z) eight /\ plan_for eight 7 in_turn_plan /\ counts_at 65535 eight data /\
  (exists y' x', In (y', x') eight /\ fval (cell data y' x') <> fval (cell data 1 1)).
Proof. exact c132_case. Qed.
