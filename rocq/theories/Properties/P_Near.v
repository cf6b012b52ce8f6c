(** C116: small errors of the calibration and of the pixels. *)
From Coq Require Import String Reals Lra Permutation.
From Verif Require Import Base.Base Model.Stokes Model.Demodulate Model.DemodFit Model.DemodLoad Model.DemodCov Model.Calibrate
  Spec.Terminates Spec.MosaicSpec Spec.DemodSpec Spec.FitSpec Spec.CalibSpec Spec.PipeSpec Spec.NearSpec
  Proofs.InvertFacts Proofs.NearFacts.
Local Open Scope R_scope.

(** The tensor was made for micropolarizers [q], the light came through [p]: the error of each Stokes parameter is
    at most the sum of a row of the matrix times the error of a pixel. *)
Theorem C116_bound : forall (d : demodulator R) (data : arr R) old h w (I Q U : Z -> Z -> R),
  mosaic data -> h = (rows data / 2)%Z -> w = (cols data / 2)%Z ->
  t_rows (mij d) = h -> t_cols (mij d) = w ->
  (forall f, fit_found_flags d = Some f ->
     (rows f = h /\ cols f = w) /\ (rows (sI old) = h /\ cols (sI old) = w) /\
     (rows (sQ old) = h /\ cols (sQ old) = w) /\ (rows (sU old) = h /\ cols (sU old) = w)) ->
  exists s, demod_raw d data old = Ok s /\
    forall Y X p q dt de df noise, (0 <= Y < h)%Z -> (0 <= X < w)%Z ->
      (forall f, fit_found_flags d = Some f -> cell f Y X = 1) ->
      let m i j := t_cell (mij d) i j Y X in
      pseudo_inverse (entry43 (modulation_of q)) m -> rank3 (entry43 (modulation_of q)) ->
      light (I Y X) (Q Y X) (U Y X) ->
      (forall k, (0 <= k < 4)%Z -> polarizer (f4 p k) /\ polarizer (f4 q k) /\ near dt de df (f4 p k) (f4 q k)) ->
      (forall k, (0 <= k < 4)%Z ->
         Rabs (sample data k Y X -
               recorded (p_t (f4 p k)) (p_e (f4 p k)) (p_phi (f4 p k)) (I Y X) (Q Y X) (U Y X)) <= noise) ->
      let bound := (dt + de / 2 + df) * I Y X + noise in
      known_to (row_sum m 0 * bound) (row_sum m 1 * bound) (row_sum m 2 * bound)
        (I Y X) (Q Y X) (U Y X) (cell (sI s) Y X) (cell (sQ s) Y X) (cell (sU s) Y X).
Proof. exact c116_bound. Qed.
Print Assumptions C116_bound.

(** After any calibration without occulter, whatever the fit found: wherever the flag says it succeeded, the error
    is at most 400 times that of a pixel, in which the parameters that were written count by their distance
    from the true ones. *)
Theorem C116_calibrated : forall W args os fs ps images dark norms h w,
  calibration_input W args os fs ps images dark norms h w ->
  exists o, evaluates (fun fuel => calibrate W args fuel os fs) o /\
    forall files, Permutation files (written_files (results o)) ->
    exists d t e f g, load files = Ok d /\ tk files = Ok t /\ eff files = Ok e /\ phi files = Ok f /\
      fit_found_flags d = Some g /\
      forall (data : arr R) old (I Q U : Z -> Z -> R),
        mosaic data -> rows data = (2 * h)%Z -> cols data = (2 * w)%Z ->
        (rows (sI old) = h /\ cols (sI old) = w) -> (rows (sQ old) = h /\ cols (sQ old) = w) ->
        (rows (sU old) = h /\ cols (sU old) = w) ->
        exists s, demod_raw d data old = Ok s /\
          forall Y X p dt de df noise, (0 <= Y < h)%Z -> (0 <= X < w)%Z -> cell g Y X = 1 ->
            let q k := (pixel_of t Y X k, pixel_of e Y X k, radians (pixel_of f Y X k)) in
            let M := modulation_of (mkfour (q 0%Z) (q 1%Z) (q 2%Z) (q 3%Z)) in
            pseudo_inverse (entry43 M) (entry34 (inverse W M)) -> rank3 (entry43 M) ->
            light (I Y X) (Q Y X) (U Y X) ->
            (forall k, (0 <= k < 4)%Z -> polarizer (f4 p k) /\ polarizer (q k) /\ near dt de df (f4 p k) (q k)) ->
            (forall k, (0 <= k < 4)%Z ->
               Rabs (sample data k Y X -
                     recorded (p_t (f4 p k)) (p_e (f4 p k)) (p_phi (f4 p k)) (I Y X) (Q Y X) (U Y X)) <= noise) ->
            let bound := 400 * ((dt + de / 2 + df) * I Y X + noise) in
            known_to bound bound bound (I Y X) (Q Y X) (U Y X) (cell (sI s) Y X) (cell (sQ s) Y X) (cell (sU s) Y X).
Proof. exact c116_calibrated. Qed.
Print Assumptions C116_calibrated.

(** An instrument calibrated as ideal, of which one micropolarizer passes only 0.99 and is turned by 0.01 rad, and
    unpolarized light of intensity 100, rounded to tenths: Stokes parameters are known to 4.2. *)
Definition worn : four param3 := mkfour (99/100, 1, 1/100) (1, 1, PI / 4) (1, 1, - (PI / 4)) (1, 1, PI / 2).
Example C116_case :
  let data := mkarr 2 2 (fun y x => if (y =? 0)%Z && (x =? 0)%Z then 495 / 10 else 50) in
  let d := mkdemodulator (mktensor 1 1 (fun i j _ _ => entry34 ideal_inverse i j)) None in
  exists s, demod_raw d data (mkstokes (full 1 1 0) (full 1 1 0) (full 1 1 0)) = Ok s /\
    known_to (42 / 10) (42 / 10) (42 / 10) 100 0 0 (cell (sI s) 0 0) (cell (sQ s) 0 0) (cell (sU s) 0 0).
Proof.
  intros data d.
  destruct (C116_bound d data (mkstokes (full 1 1 0) (full 1 1 0) (full 1 1 0)) 1 1 (fun _ _ => 100) (fun _ _ => 0) (fun _ _ => 0))
    as (s & Es & Hs).
  - repeat split; cbn; try lia; reflexivity.
  - reflexivity.
  - reflexivity.
  - reflexivity.
  - reflexivity.
  - intros f E. discriminate E.
  - exists s. split; [exact Es|].
    specialize (Hs 0%Z 0%Z worn ideal_params (1/100) 0 (1/100) (1/10) ltac:(lia) ltac:(lia)). cbv zeta in Hs.
    change (fun i j => t_cell (mij d) i j 0 0) with (fun i j => entry34 ideal_inverse i j) in Hs.
    change (fun i j => entry34 ideal_inverse i j) with (entry34 ideal_inverse) in Hs.
    destruct ideal_row_sums as (R0 & R1 & R2). rewrite R0, R1, R2 in Hs.
    replace (2 * ((1 / 100 + 0 / 2 + 1 / 100) * 100 + 1 / 10)) with (42 / 10) in Hs by lra.
    apply Hs.
    + intros f E. discriminate E.
    + exact ideal_pseudo.
    + exact ideal_rank3.
    + split; lra.
    + intros k Hk. assert (k = 0 \/ k = 1 \/ k = 2 \/ k = 3)%Z as [->|[->|[->| ->]]] by lia;
        (split; [|split]; [split; cbn; lra..|]); unfold near, p_t, p_e, p_phi; cbn [f4 worn ideal_params f_0 f_1 f_2 f_3 fst snd Z.eqb];
        repeat split; apply Rabs_le; cbn; lra.
    + intros k Hk. assert (k = 0 \/ k = 1 \/ k = 2 \/ k = 3)%Z as [->|[->|[->| ->]]] by lia;
        unfold recorded, sample, data; cbn; apply Rabs_le; lra.
Qed.
