(** C134: missing pixels, values that are not numbers. *)
From Coq Require Import Reals Lra Permutation Floats.SpecFloat.
From Verif Require Import Base.Base Base.Num Model.Demosaic Model.Rebin Model.Ifov Model.Stokes Model.Pol
  Model.PolFloat Model.Demodulate Model.MeanFloat Model.FlatFloat Model.NrgfFloat
  Spec.MosaicSpec Spec.StokesSpec Spec.Terminates Spec.MeanSpec Spec.AngleSpec Spec.FloatSpec Spec.CorrectSpec Spec.RoiSpec Spec.RingSpec
  Spec.MissingSpec Proofs.MissingFacts.

(** Full statement: a missing pixel is missing in every result computed from it and in no other.
    Proved for Stokes and polarization parameters, demodulation, binning and demosaicing. *)
Theorem C134_stokes dic a (d : arr b64) k Y X :
  describes dic a -> mosaic d -> 0 <= k < 4 -> 0 <= Y < rows d / 2 -> 0 <= X < cols d / 2 -> sample d k Y X = S754_nan ->
  exists s, data_stokes dic d = Ok s /\ missing (sI s) Y X /\
    (k = p0 a \/ k = p90 a -> missing (sQ s) Y X) /\ (k = p45 a \/ k = pm45 a -> missing (sU s) Y X).
Proof. exact (c134_stokes dic a d k Y X). Qed.
Print Assumptions C134_stokes.

(** [arctan2] is the mathematical library's. *)
Theorem C134_parameters dic a arctan2 (d : arr b64) k Y X :
  (forall v, arctan2 S754_nan v = S754_nan /\ arctan2 v S754_nan = S754_nan) ->
  describes dic a -> mosaic d -> 0 <= k < 4 -> 0 <= Y < rows d / 2 -> 0 <= X < cols d / 2 -> sample d k Y X = S754_nan ->
  exists s, data_stokes dic d = Ok s /\ missing (pB s) Y X /\ missing (DoLP s) Y X /\ missing (AoLP64 arctan2 s) Y X.
Proof. exact (c134_parameters dic a arctan2 d k Y X). Qed.
Print Assumptions C134_parameters.

Theorem C134_demod (d : demodulator b64) (data : arr b64) old s k Y X :
  mosaic data -> t_rows (mij d) = rows data / 2 -> t_cols (mij d) = cols data / 2 -> fit_found_flags d = None ->
  demod_raw d data old = Ok s -> 0 <= k < 4 -> 0 <= Y < rows data / 2 -> 0 <= X < cols data / 2 ->
  (sample data k Y X = S754_nan -> missing (sI s) Y X /\ missing (sQ s) Y X /\ missing (sU s) Y X) /\
  (t_cell (mij d) 0 k Y X = S754_nan -> missing (sI s) Y X) /\
  (t_cell (mij d) 1 k Y X = S754_nan -> missing (sQ s) Y X) /\
  (t_cell (mij d) 2 k Y X = S754_nan -> missing (sU s) Y X).
Proof. exact (c134_demod d data old s k Y X). Qed.
Print Assumptions C134_demod.

Theorem C134_rebin (d : arr b64) b y x :
  mosaic d -> 1 <= b -> 0 <= y < 2 * b * (rows d / (2 * b)) -> 0 <= x < 2 * b * (cols d / (2 * b)) -> missing d y x ->
  returns (fun fuel => micropolarray_rebin fuel d b)
    (fun r => inb r (binned b y) (binned b x) /\ missing r (binned b y) (binned b x)).
Proof. exact (c134_rebin d b y x). Qed.
Print Assumptions C134_rebin.

Theorem C134_demosaic (d : arr b64) mode k y x :
  mosaic d -> mode = "mean"%string \/ mode = "adjacent"%string -> 0 <= k < 4 -> 0 <= y < rows d -> 0 <= x < cols d ->
  sample d k (y / 2) (x / 2) = S754_nan ->
  exists q, demosaic d mode = Ok q /\ missing (qnth q k) y x.
Proof. exact (c134_demosaic d mode k y x). Qed.
Print Assumptions C134_demosaic.

(** The field-of-view correction: missing in the interior, but 0 in the first two rows and columns. *)
Theorem C134_ifov_partial (d : arr b64) y x :
  mosaic d -> 0 <= y < rows d -> 0 <= x < cols d -> missing d y x ->
  exists r, ifov_jitcorrect d (rows d) (cols d) = Ok r /\
    (2 <= y -> 2 <= x -> missing r y x) /\ (y < 2 \/ x < 2 -> cell r y x = S754_zero false) /\
    (y + 2 < rows d -> x + 2 < cols d -> missing r (y + 2) (x + 2)).
Proof. exact (c134_ifov d y x). Qed.
Print Assumptions C134_ifov_partial.

(** One missing pixel of the flat field: every pixel of the corrected image is missing, in whatever
    order the mean is computed. *)
Theorem C134_flat_refuted (flat data : arr b64) junk o y x y' x' :
  same_shape data flat -> order_of flat o -> inb flat y x -> missing flat y x -> inb data y' x' ->
  exists c, flat_data_with (mean_in_order o (rows flat * cols flat)) junk data flat = Ok c /\ missing c y' x'.
Proof. exact (c134_flat flat data junk o y x y' x'). Qed.
Print Assumptions C134_flat_refuted.

(** One missing pixel in a ring: the radial filter gives 0 in the whole ring, the missing pixel included. *)
Theorem C134_ring_refuted plan (data : arr b64) cy cx rho_min rho_max step k y x y' x' ps dd pl :
  0 <= rho_min -> 0 < step -> rho_max + step < 2 ^ 25 -> 0 <= k -> rho_min + k * step < rho_max ->
  (IZR (rho_min + k * step) < dist y' x' cy cx <= IZR (rho_min + (k + 1) * step))%R ->
  plan (rho_min + k * step) = Some pl -> plan_for ps dd pl -> In (y, x) ps -> missing data y x ->
  exists out, nrgf_full plan data cy cx rho_min rho_max step = Ok out /\ cell out y' x' = S754_zero false.
Proof. exact (c134_ring plan data cy cx rho_min rho_max step k y x y' x' ps dd pl). Qed.
Print Assumptions C134_ring_refuted.

(** A 4 x 4 image of fives without its pixel (2, 3). *)
Definition holed (n : Z) : arr b64 := mkarr n n (fun y x => if (y =? 2) && (x =? 3) then S754_nan else nofZ 5).
Definition dots : demodulator b64 := mkdemodulator (mktensor 2 2 (fun i j _ _ => nofZ (i + j))) None.

Example C134_case :
  mosaic (holed 4) /\ missing (holed 4) 2 3 /\ sample (holed 4) 1 1 1 = S754_nan /\
  on_ok (fun s => to_list (sI s)) (data_stokes polarcam_angles (holed 4)) =
    Ok [[nofZ 10; nofZ 10]; [nofZ 10; S754_nan]] /\
  on_ok (fun s => to_list (sI s)) (demod_raw dots (holed 4) (mkstokes (full 2 2 n0) (full 2 2 n0) (full 2 2 n0))) =
    Ok [[nofZ 30; nofZ 30]; [nofZ 30; S754_nan]] /\
  (binned 2 2, binned 2 3) = (0, 1) /\ on_ok to_list (micropolarray_rebin 9 (holed 4) 2) = Ok [[nofZ 20; S754_nan]; [nofZ 20; nofZ 20]] /\
  on_ok (fun q => cell (qnth q 1) 3 3) (demosaic (holed 4) "mean") = Ok S754_nan /\
  on_ok to_list (ifov_jitcorrect (holed 4) 4 4) =
    Ok [[n0; n0; n0; n0]; [n0; n0; n0; n0]; [n0; n0; nofZ 5; S754_nan]; [n0; n0; nofZ 5; nofZ 5]].
Proof. split; [repeat split; discriminate|]. vm_compute. repeat split; reflexivity. Qed.

(** A flat 2, 2, 2 and a missing pixel; a 5 x 5 image with a missing pixel, at (2, 3) in the first and at (1, 3) in the second ring. *)
Definition bad_flat : arr b64 := of_list S754_nan 2 2 [nofZ 2; nofZ 2; nofZ 2; S754_nan].
Definition bad_order : order b64 := Plus (Plus (Pixel (nofZ 2)) (Pixel (nofZ 2))) (Plus (Pixel (nofZ 2)) (Pixel S754_nan)).
Example C134_flat_case :
  same_shape (full 2 2 (nofZ 7 : b64)) bad_flat /\ order_of bad_flat bad_order /\ inb bad_flat 1 1 /\ missing bad_flat 1 1 /\
  on_ok to_list (flat_data_with (mean_in_order bad_order 4) (fun _ _ => n0) (full 2 2 (nofZ 7)) bad_flat) =
    Ok [[S754_nan; S754_nan]; [S754_nan; S754_nan]].
Proof.
  split; [split; reflexivity|]. split; [apply Permutation_refl|]. split; [repeat split; reflexivity||discriminate|].
  split; reflexivity.
Qed.

Definition bad_disc : arr b64 := mkarr 5 5 (fun y x => if (y =? 1) && (x =? 3) then S754_nan else nofZ (y + 5 * x)).
Example C134_ring_case :
  plan_for eight 8 in_turn_plan /\ In (1, 3) eight /\ missing bad_disc 1 3 /\ (IZR (1 + 0 * 1) < dist 4 2 2 2 <= IZR (1 + (0 + 1) * 1))%R /\
  on_ok (fun out => (cell out 4 2, cell out 1 3)) (nrgf_full (fun _ => Some in_turn_plan) bad_disc 2 2 1 2 1) = Ok (n0, n0).
Proof.
  split; [split; [reflexivity|]; split; (split; [apply Permutation_refl|vm_compute; lia])|].
  split; [right; right; left; reflexivity|]. split; [reflexivity|]. split; [|vm_compute; reflexivity].
  unfold dist. replace (IZR (1 + 0 * 1)) with 1%R by reflexivity. cbn.
  match goal with |- (_ < sqrt ?a <= _)%R => replace a with (2 * 2)%R by (cbn; lra) end. rewrite sqrt_square by lra. lra.
Qed.
