(** C126: demodulation is the least-squares fit to the four pixels of a superpixel, so it
    follows changes of the calibration as it should. *)
From Coq Require Import Reals Lra Lia.
From Verif Require Import Base.Base Base.Num Model.Demosaic Model.Stokes Model.Pol Model.Demodulate Model.DemodFit
  Spec.MosaicSpec Spec.DemodSpec Spec.FitSpec Spec.SymmetrySpec Spec.LeastSpec Proofs.InvertFacts Proofs.LeastFacts.
Local Open Scope R_scope.

(** No other light explains the four pixels as well; other light explains them worse by the
    squared differences of what it would have recorded. *)
Theorem C126_least_squares (d : demodulator R) (data : arr R) old : fits d data old ->
  exists s, demod_raw d data old = Ok s /\
    forall Y X p I Q U, (0 <= Y < rows data / 2)%Z -> (0 <= X < cols data / 2)%Z -> calibrated d p Y X ->
      let r := residual p (fun k => sample data k Y X) in
      let i := cell (sI s) Y X in let q := cell (sQ s) Y X in let u := cell (sU s) Y X in
      r I Q U = r i q u + residual p (fun _ => 0) (I - i) (Q - q) (U - u) /\
      r i q u <= r I Q U /\ (r I Q U = r i q u -> I = i /\ Q = q /\ U = u).
Proof. exact (c126_least d data old). Qed.
Print Assumptions C126_least_squares.

(** Without a demodulator the Stokes parameters are those for ideal micropolarizers; what
    remains unexplained is the difference of the two estimates of the intensity. *)
Theorem C126_theoretical dic a (d : arr R) p : describes dic a -> mosaic d -> ideal_at a p ->
  exists s, data_stokes dic d = Ok s /\
    forall Y X I Q U, (0 <= Y < rows d / 2)%Z -> (0 <= X < cols d / 2)%Z ->
      let r := residual p (fun k => sample d k Y X) in
      let i := cell (sI s) Y X in let q := cell (sQ s) Y X in let u := cell (sU s) Y X in
      r i q u = Rsqr (sample d (p0 a) Y X + sample d (p90 a) Y X - sample d (p45 a) Y X - sample d (pm45 a) Y X) / 4 /\
      r i q u <= r I Q U /\ (r I Q U = r i q u -> I = i /\ Q = q /\ U = u).
Proof. exact (c126_theoretical dic a d p). Qed.
Print Assumptions C126_theoretical.

(** A calibration whose orientations are all off by [theta] turns all directions by [theta] and
    changes neither I, pB nor DoLP, also for pixels that no light explains. *)
Theorem C126_reference theta (d d' : demodulator R) (data : arr R) old old' : fits d data old -> fits d' data old' ->
  exists s t, demod_raw d data old = Ok s /\ demod_raw d' data old' = Ok t /\
    forall Y X p p', (0 <= Y < rows data / 2)%Z -> (0 <= X < cols data / 2)%Z -> calibrated d p Y X -> calibrated d' p' Y X -> turned_by theta p p' ->
      cell (sI t) Y X = cell (sI s) Y X /\ cell (pB t) Y X = cell (pB s) Y X /\ cell (DoLP t) Y X = cell (DoLP s) Y X /\
      (0 < cell (pB s) Y X -> same_direction (cell (AoLP t) Y X) (cell (AoLP s) Y X + theta)).
Proof. exact (c126_turned theta d d' data old old'). Qed.
Print Assumptions C126_reference.

(** A calibration whose throughputs are all [c] times as large scales I, Q and U, and changes
    neither AoLP nor DoLP. *)
Theorem C126_throughput c (d d' : demodulator R) (data : arr R) old old' : 0 < c -> fits d data old -> fits d' data old' ->
  exists s t, demod_raw d data old = Ok s /\ demod_raw d' data old' = Ok t /\
    forall Y X p p', (0 <= Y < rows data / 2)%Z -> (0 <= X < cols data / 2)%Z -> calibrated d p Y X -> calibrated d' p' Y X -> brighter_by c p p' ->
      cell (sI s) Y X = c * cell (sI t) Y X /\ cell (sQ s) Y X = c * cell (sQ t) Y X /\ cell (sU s) Y X = c * cell (sU t) Y X /\
      cell (pB s) Y X = c * cell (pB t) Y X /\ cell (DoLP t) Y X = cell (DoLP s) Y X /\ cell (AoLP t) Y X = cell (AoLP s) Y X.
Proof. exact (c126_brighter c d d' data old old'). Qed.
Print Assumptions C126_throughput.

(** One superpixel whose pixels (8, 1, 1, 2) no light explains, ideal micropolarizers, the same
    turned by 90 degrees, and with half the throughput. *)
Definition odd_pixels : arr R := mkarr 2 2 (fun y x => if ((y =? 0) && (x =? 0))%Z then 8 else if ((y =? 1) && (x =? 1))%Z then 2 else 1).
Definition nothing : stokes R := mkstokes (full 1 1 0) (full 1 1 0) (full 1 1 0).
Example C126_case :
  fits (only ideal_inverse) odd_pixels nothing /\ fits (only turned_inverse) odd_pixels nothing /\ fits (only dim_inverse) odd_pixels nothing /\
  calibrated (only ideal_inverse) ideal_params 0 0 /\ calibrated (only turned_inverse) turned_params 0 0 /\ calibrated (only dim_inverse) dim_params 0 0 /\
  turned_by (PI / 2) ideal_params turned_params /\ brighter_by (1 / 2) ideal_params dim_params /\
  ideal_at (mkarrangement 0 1 2 3) ideal_params.
Proof.
  assert (F : forall m, fits (only m) odd_pixels nothing).
  { intros m. split; [unfold mosaic; cbn; lia|]. split; [reflexivity|]. split; [reflexivity|discriminate]. }
  split; [apply F|]. split; [apply F|]. split; [apply F|]. split; [exact calibrated_ideal|]. split; [exact calibrated_turned|]. split; [exact calibrated_dim|].
  split; [|split].
  - intros k Hk. assert (k = 0 \/ k = 1 \/ k = 2 \/ k = 3)%Z as [-> | [-> | [-> | ->]]] by lia; repeat split.
  - intros k Hk. assert (k = 0 \/ k = 1 \/ k = 2 \/ k = 3)%Z as [-> | [-> | [-> | ->]]] by lia; repeat split.
  - repeat split.
Qed.
Example C126_unexplained : exists s, data_stokes polarcam_angles odd_pixels = Ok s /\ cell (sI s) 0 0 = 6 /\ cell (sQ s) 0 0 = 6 /\ cell (sU s) 0 0 = 0 /\
  residual ideal_params (fun k => sample odd_pixels k 0 0) 6 6 0 = 16.
Proof.
  destruct (C126_theoretical polarcam_angles (mkarrangement 0 1 2 3) odd_pixels ideal_params) as (s & E & V).
  - unfold describes, arrangement_ok; cbn; repeat split; try lia; try tauto; repeat constructor; cbn; intuition discriminate.
  - unfold mosaic; cbn; lia.
  - repeat split.
  - exists s. split; [exact E|]. unfold data_stokes in E. cbn in E. injection E as E.
    assert (E1 : cell (sI s) 0 0 = 6) by (rewrite <- E; cbn; lra). assert (E2 : cell (sQ s) 0 0 = 6) by (rewrite <- E; cbn; lra).
    assert (E3 : cell (sU s) 0 0 = 0) by (rewrite <- E; cbn; lra). split; [exact E1|]. split; [exact E2|]. split; [exact E3|].
    destruct (V 0%Z 0%Z 0 0 0) as (R & _); [cbn; lia..|]. cbv zeta in R. rewrite E1, E2, E3 in R. rewrite R. unfold Rsqr. cbn. field.
Qed.
