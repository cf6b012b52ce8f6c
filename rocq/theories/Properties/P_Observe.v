(** C121: from an exposure, a dark and a flat image to the polarization of the light. *)
From Coq Require Import Reals Lra.
From Flocq Require Import Core.Raux.
From Verif Require Import Base.Base Base.Num Base.Bcast Model.Utils Model.Stokes Model.Pol Model.DemodFit Model.Demodulate
  Spec.MosaicSpec Spec.SumSpec Spec.PixelSpec Spec.DemodSpec Spec.FitSpec Spec.NearSpec Spec.AngleErr Spec.ObserveSpec
  Proofs.InvertFacts Proofs.ObserveFacts.
Local Open Scope R_scope.

(** subtract_dark and correct_flat leave the light behind the micropolarizers times the mean sensitivity; noise is
    amplified where the sensitivity is low. *)
Theorem C121_corrected junk raw dark flat gain low bright noise p I Q U :
  mosaic raw -> same_shape raw dark -> same_shape raw flat -> same_shape raw gain -> (0 < rows raw)%Z -> (0 < cols raw)%Z ->
  flat_of low bright gain flat -> observed noise p gain dark raw I Q U ->
  (forall Y X, (0 <= Y < rows raw / 2)%Z -> (0 <= X < cols raw / 2)%Z ->
     light (I Y X) (Q Y X) (U Y X) /\ forall k, (0 <= k < 4)%Z -> polarizer (f4 (p Y X) k)) ->
  low <= mean_of gain /\
  exists d f, dark_data raw dark = Ok d /\ flat_data junk d flat = Ok f /\ rows f = rows raw /\ cols f = cols raw /\
    forall Y X k, (0 <= Y < rows raw / 2)%Z -> (0 <= X < cols raw / 2)%Z -> (0 <= k < 4)%Z ->
      let q := f4 (p Y X) k in let g := mean_of gain in
      Rabs (sample f k Y X - recorded (p_t q) (p_e q) (p_phi q) (g * I Y X) (g * Q Y X) (g * U Y X)) <= g * (noise / low).
Proof. exact (corrected junk raw dark flat gain low bright noise p I Q U). Qed.
Print Assumptions C121_corrected.

(** Behind ideal micropolarizers the image then has the Stokes parameters of the light, times the mean sensitivity. *)
Theorem C121_ideal junk dic a raw dark flat gain low bright noise p I Q U :
  mosaic raw -> same_shape raw dark -> same_shape raw flat -> same_shape raw gain -> (0 < rows raw)%Z -> (0 < cols raw)%Z ->
  flat_of low bright gain flat -> observed noise p gain dark raw I Q U -> describes dic a ->
  (forall Y X, (0 <= Y < rows raw / 2)%Z -> (0 <= X < cols raw / 2)%Z ->
     light (I Y X) (Q Y X) (U Y X) /\
     f4 (p Y X) (p0 a) = (1, 1, 0) /\ f4 (p Y X) (p45 a) = (1, 1, PI / 4) /\
     f4 (p Y X) (pm45 a) = (1, 1, - (PI / 4)) /\ f4 (p Y X) (p90 a) = (1, 1, PI / 2)) ->
  exists d f s, dark_data raw dark = Ok d /\ flat_data junk d flat = Ok f /\ data_stokes dic f = Ok s /\
    forall Y X, (0 <= Y < rows raw / 2)%Z -> (0 <= X < cols raw / 2)%Z ->
      let g := mean_of gain in let e := 2 * (g * (noise / low)) in
      known_to e e e (g * I Y X) (g * Q Y X) (g * U Y X) (cell (sI s) Y X) (cell (sQ s) Y X) (cell (sU s) Y X).
Proof. exact (c121_ideal junk dic a raw dark flat gain low bright noise p I Q U). Qed.
Print Assumptions C121_ideal.

(** With a demodulator made for micropolarizers [q] close to the true ones [p]: Stokes parameters, AoLP and DoLP of the
    light, up to the errors of calibration and pixels. *)
Theorem C121_demodulated junk dic a (m : demodulator R) raw dark flat gain low bright noise p q dt de df I Q U h w :
  mosaic raw -> same_shape raw dark -> same_shape raw flat -> same_shape raw gain -> rows raw = (2 * h)%Z -> cols raw = (2 * w)%Z ->
  (1 <= h)%Z -> (1 <= w)%Z ->
  flat_of low bright gain flat -> observed noise p gain dark raw I Q U -> describes dic a ->
  t_rows (mij m) = h -> t_cols (mij m) = w -> (forall f, fit_found_flags m = Some f -> rows f = h /\ cols f = w) ->
  (forall Y X, (0 <= Y < h)%Z -> (0 <= X < w)%Z -> light (I Y X) (Q Y X) (U Y X) /\ forall k, (0 <= k < 4)%Z -> polarizer (f4 (p Y X) k)) ->
  exists d f old s, dark_data raw dark = Ok d /\ flat_data junk d flat = Ok f /\ data_stokes dic f = Ok old /\ demod_raw m f old = Ok s /\
    forall Y X, (0 <= Y < h)%Z -> (0 <= X < w)%Z -> (forall g, fit_found_flags m = Some g -> cell g Y X = 1) ->
      let M i j := t_cell (mij m) i j Y X in
      pseudo_inverse (entry43 (modulation_of (q Y X))) M -> rank3 (entry43 (modulation_of (q Y X))) ->
      (forall k, (0 <= k < 4)%Z -> polarizer (f4 (q Y X) k) /\ near dt de df (f4 (p Y X) k) (f4 (q Y X) k)) ->
      let g := mean_of gain in let e := (dt + de / 2 + df) * I Y X + noise / low in
      known_to (row_sum M 0 * (g * e)) (row_sum M 1 * (g * e)) (row_sum M 2 * (g * e))
        (g * I Y X) (g * Q Y X) (g * U Y X) (cell (sI s) Y X) (cell (sQ s) Y X) (cell (sU s) Y X) /\
      let E := (row_sum M 1 + row_sum M 2) * e in let true := scene h w I Q U in
      (E < cell (pB true) Y X -> close_angle PI (asin (E / cell (pB true) Y X) / 2) (cell (AoLP s) Y X) (cell (AoLP true) Y X)) /\
      (row_sum M 0 * e < I Y X ->
         Rabs (cell (DoLP s) Y X - cell (DoLP true) Y X) <= (E + cell (DoLP true) Y X * (row_sum M 0 * e)) / (I Y X - row_sum M 0 * e)).
Proof. exact (c121_demodulated junk dic a m raw dark flat gain low bright noise p q dt de df I Q U h w). Qed.
Print Assumptions C121_demodulated.

(** Pixels of sensitivity 1/2, 1, 1, 3/2, dark signal 10, light (100, 60, 0) and a demodulator for ideal micropolarizers:
    the Stokes parameters come out as they are. *)
Definition gain4 : arr R := mkarr 2 2 (fun y x => if (y =? x)%Z then (if (y =? 0)%Z then 1 / 2 else 3 / 2) else 1).
Definition raw4 : arr R := mkarr 2 2 (fun y x => if (y =? x)%Z then (if (y =? 0)%Z then 50 else 40) else 60).
Example C121_case junk :
  let m := mkdemodulator (mktensor 1 1 (fun i j _ _ => entry34 ideal_inverse i j)) None in
  observed 0 (fun _ _ => ideal_params) gain4 (full 2 2 10) raw4 (fun _ _ => 100) (fun _ _ => 60) (fun _ _ => 0) /\
  exists d f old s, dark_data raw4 (full 2 2 10) = Ok d /\ flat_data junk d (amap (fun v => v * 200) gain4) = Ok f /\
    data_stokes polarcam_angles f = Ok old /\ demod_raw m f old = Ok s /\
    cell (sI s) 0 0 = 100 /\ cell (sQ s) 0 0 = 60 /\ cell (sU s) 0 0 = 0.
Proof.
  intros m.
  assert (O : observed 0 (fun _ _ => ideal_params) gain4 (full 2 2 10) raw4 (fun _ _ => 100) (fun _ _ => 60) (fun _ _ => 0)).
  { intros Y X k HY HX Hk. cbv zeta. assert (Y = 0 /\ X = 0)%Z as (-> & ->) by (change (rows raw4 / 2)%Z with 1%Z in HY; change (cols raw4 / 2)%Z with 1%Z in HX; lia).
    right. assert (k = 0 \/ k = 1 \/ k = 2 \/ k = 3)%Z as [-> |[-> |[-> | ->]]] by lia;
      unfold recorded, p_t, p_e, p_phi; cbn [f4 ideal_params f_0 f_1 f_2 f_3 fst snd Z.eqb Pos.eqb].
    - rewrite Rmult_0_r, cos_0, sin_0. unfold sample. cbn. rewrite Rabs_pos_eq; lra.
    - replace (2 * (PI / 4)) with (PI / 2) by lra. rewrite cos_PI2, sin_PI2. unfold sample. cbn. rewrite Rabs_pos_eq; lra.
    - replace (2 * - (PI / 4)) with (- (PI / 2)) by lra. rewrite cos_neg, sin_neg, cos_PI2, sin_PI2. unfold sample. cbn. rewrite Rabs_pos_eq; lra.
    - replace (2 * (PI / 2)) with PI by lra. rewrite cos_PI, sin_PI. unfold sample. cbn. rewrite Rabs_pos_eq; lra. }
  split; [exact O|].
  assert (G : mean_of gain4 = 1).
  { change (mean_of gain4) with ((1 / 2 + (1 + 0) + (1 + (3 / 2 + 0) + 0)) / 4). lra. }
  destruct (C121_demodulated junk polarcam_angles (mkarrangement 0 1 2 3) m raw4 (full 2 2 10) (amap (fun v => v * 200) gain4) gain4 (1 / 2) 200 0
    (fun _ _ => ideal_params) (fun _ _ => ideal_params) 0 0 0 (fun _ _ => 100) (fun _ _ => 60) (fun _ _ => 0) 1 1) as (d & f & old & s & Ed & Ef & Eo & Es & Hs).
  - repeat split; cbn; try lia; reflexivity.
  - split; reflexivity.
  - split; reflexivity.
  - split; reflexivity.
  - reflexivity.
  - reflexivity.
  - lia.
  - lia.
  - split; [lra|]. split; [lra|]. intros y x _ _. split; [|reflexivity]. cbn. destruct (y =? x)%Z; [destruct (y =? 0)%Z|]; lra.
  - exact O.
  - unfold describes, arrangement_ok, polarcam_angles; cbn [p0 p45 pm45 p90 map fst].
    repeat split; try lia; try (repeat constructor; cbn; intuition lia); cbn; auto.
  - reflexivity.
  - reflexivity.
  - intros f E. discriminate E.
  - intros Y X _ _. split; [split; lra|]. intros k Hk.
    assert (k = 0 \/ k = 1 \/ k = 2 \/ k = 3)%Z as [-> |[-> |[-> | ->]]] by lia; split; cbn; lra.
  - exists d, f, old, s. split; [exact Ed|]. split; [exact Ef|]. split; [exact Eo|]. split; [exact Es|].
    specialize (Hs 0%Z 0%Z ltac:(lia) ltac:(lia)). cbv zeta in Hs.
    change (fun i j => t_cell (mij m) i j 0 0) with (entry34 ideal_inverse) in Hs.
    destruct Hs as ((HI & HQ & HU) & _).
    + intros f' E. discriminate E.
    + exact ideal_pseudo.
    + exact ideal_rank3.
    + intros k Hk. assert (k = 0 \/ k = 1 \/ k = 2 \/ k = 3)%Z as [-> |[-> |[-> | ->]]] by lia;
        (split; [split; cbn; lra|]); unfold near; rewrite !Rminus_eq_0, Rabs_R0; lra.
    + rewrite G in HI, HQ, HU. replace (1 * ((0 + 0 / 2 + 0) * 100 + 0 / (1 / 2))) with 0 in HI, HQ, HU by lra.
      rewrite Rmult_0_r in HI, HQ, HU. apply Rabs_le_inv in HI, HQ, HU. lra.
Qed.
