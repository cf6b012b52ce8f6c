(** C129: of all ways to combine four pixels into a Stokes parameter without bias, the one
    used amplifies the noise of the pixels least, if it is the same for the four. *)
From Coq Require Import Reals Lra Lia.
From Verif Require Import Base.Base Base.Num Model.Demosaic Model.Stokes Model.Demodulate Model.DemodFit
  Spec.MosaicSpec Spec.DemodSpec Spec.FitSpec Spec.LeastSpec Spec.NoiseSpec Proofs.InvertFacts Proofs.LeastFacts Proofs.NoiseFacts.
Local Open Scope R_scope.

(** How a Stokes parameter follows a change of one pixel: by the entry of the matrix. *)
Theorem C129_response (d : demodulator R) (data : arr R) old Y X k delta : fits d data old ->
  (0 <= Y < rows data / 2)%Z -> (0 <= X < cols data / 2)%Z -> (0 <= k < 4)%Z -> (forall f, fit_found_flags d = Some f -> cell f Y X = 1) ->
  exists s s', demod_raw d data old = Ok s /\ demod_raw d (bumped (2 * Y + k / 2) (2 * X + k mod 2) delta data) old = Ok s' /\
    forall i, (0 <= i < 3)%Z -> stokes_at s' i Y X = stokes_at s i Y X + t_cell (mij d) i k Y X * delta.
Proof. exact (c129_response d data old Y X k delta). Qed.
Print Assumptions C129_response.

(** These weights are unbiased, and all other unbiased weights have a larger variance. *)
Theorem C129_least_noise (d : demodulator R) p Y X i : calibrated d p Y X -> (0 <= i < 3)%Z ->
  let P := t_cell (mij d) i in
  unbiased p i (fun k => P k Y X) /\
  forall s w, 0 < s -> unbiased p i w ->
    variance (fun _ => s) (fun k => P k Y X) <= variance (fun _ => s) w /\
    (variance (fun _ => s) w = variance (fun _ => s) (fun k => P k Y X) -> forall k, (0 <= k < 4)%Z -> w k = P k Y X).
Proof. exact (c129_least d p Y X i). Qed.
Print Assumptions C129_least_noise.

(** The same for images without a demodulator and ideal micropolarizers. *)
Theorem C129_theoretical_response dic a (d : arr R) Y X k delta : describes dic a -> mosaic d ->
  (0 <= Y < rows d / 2)%Z -> (0 <= X < cols d / 2)%Z -> (0 <= k < 4)%Z ->
  exists s s', data_stokes dic d = Ok s /\ data_stokes dic (bumped (2 * Y + k / 2) (2 * X + k mod 2) delta d) = Ok s' /\
    forall i, (0 <= i < 3)%Z -> stokes_at s' i Y X = stokes_at s i Y X + theoretical a i k * delta.
Proof. exact (c129_theoretical_response dic a d Y X k delta). Qed.
Print Assumptions C129_theoretical_response.

(** The variance of I is that of a pixel, those of Q and U are twice as large. *)
Theorem C129_theoretical a p i : ideal_at a p -> arrangement_ok a -> (0 <= i < 3)%Z ->
  unbiased p i (theoretical a i) /\
  forall s w, 0 < s -> unbiased p i w ->
    variance (fun _ => s) (theoretical a i) = (if (i =? 0)%Z then s else 2 * s) /\
    variance (fun _ => s) (theoretical a i) <= variance (fun _ => s) w /\
    (variance (fun _ => s) w = variance (fun _ => s) (theoretical a i) -> forall k, (0 <= k < 4)%Z -> w k = theoretical a i k).
Proof. exact (c129_theoretical a p i). Qed.
Print Assumptions C129_theoretical.

(** Ideal micropolarizers; and why equal noise is needed: behind them, completely polarized
    light (I, Q, U) = (1, 1, 0) with a variance equal to the signal (photon noise) is measured
    with half the variance by other weights. *)
Example C129_case : calibrated (only ideal_inverse) ideal_params 0 0 /\ ideal_at (mkarrangement 0 1 2 3) ideal_params /\ arrangement_ok (mkarrangement 0 1 2 3) /\
  unbiased ideal_params 1 (fun k => if (k =? 0)%Z then 1 else if (k =? 3)%Z then -1 else 0).
Proof.
  assert (Ha : arrangement_ok (mkarrangement 0 1 2 3)) by (unfold arrangement_ok; cbn; lia).
  assert (Hi : ideal_at (mkarrangement 0 1 2 3) ideal_params) by (repeat split).
  split; [exact calibrated_ideal|]. split; [exact Hi|]. split; [exact Ha|].
  exact (proj1 (C129_theoretical _ _ 1 Hi Ha ltac:(lia))).
Qed.
Definition other_weights (k : Z) : R := if (k =? 3)%Z then - (3 / 2) else 1 / 2.
Example C129_photon_noise :
  let v := fun k => recorded (p_t (f4 ideal_params k)) (p_e (f4 ideal_params k)) (p_phi (f4 ideal_params k)) 1 1 0 in
  unbiased ideal_params 1 other_weights /\ variance v other_weights = 1 / 2 /\ variance v (theoretical (mkarrangement 0 1 2 3) 1) = 1.
Proof.
  destruct C129_case as (_ & Hi & Ha & _). intros v.
  assert (E : forall I Q U, let r := fun k => recorded (p_t (f4 ideal_params k)) (p_e (f4 ideal_params k)) (p_phi (f4 ideal_params k)) I Q U in
    r 0%Z = (I + Q) / 2 /\ r 3%Z = (I - Q) / 2 /\ r 1%Z = (I + U) / 2 /\ r 2%Z = (I - U) / 2) by (intros; exact (ideal_recorded _ _ I Q U Hi Ha)).
  split; [|split].
  - intros I Q U. unfold sum4. destruct (E I Q U) as (-> & -> & -> & ->). unfold other_weights, component. cbn. field.
  - unfold variance, sum4, v. destruct (E 1 1 0) as (-> & -> & -> & ->). unfold other_weights, Rsqr. cbn. field.
  - unfold variance, sum4, v. destruct (E 1 1 0) as (-> & -> & -> & ->). unfold theoretical, Rsqr. cbn. field.
Qed.
