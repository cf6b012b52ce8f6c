(** C125: results do not depend on how the sensor is mounted and how angles are counted. *)
From Coq Require Import Reals Lra Lia.
From Verif Require Import Base.Base Base.Num Model.Demosaic Model.Rebin Model.Stokes Model.Pol
  Spec.Terminates Spec.MosaicSpec Spec.SymmetrySpec Proofs.SymmetryFacts.

(** Rows and columns exchanged, in the image and in the arrangement of the polarizers. *)
Theorem C125_transpose_stokes dic dic' a (d : arr R) : describes dic a -> describes dic' (placed tpos a) -> mosaic d ->
  exists s t, data_stokes dic d = Ok s /\ data_stokes dic' (transposed d) = Ok t /\
    sI t =a= transposed (sI s) /\ sQ t =a= transposed (sQ s) /\ sU t =a= transposed (sU s).
Proof. exact (c125_transpose dic dic' a d). Qed.
Print Assumptions C125_transpose_stokes.

Theorem C125_transpose_bin (d : arr R) b : mosaic d -> 1 <= b ->
  exists r r', evaluates (fun fuel => micropolarray_rebin fuel d b) r /\
    evaluates (fun fuel => micropolarray_rebin fuel (transposed d) b) r' /\ r' =a= transposed r.
Proof. exact (c125_bin_transpose d b). Qed.
Print Assumptions C125_transpose_bin.

Theorem C125_transpose_adjacent (d : arr R) : mosaic d ->
  exists q q', demosaic d "adjacent" = Ok q /\ demosaic (transposed d) "adjacent" = Ok q' /\
    forall k, 0 <= k < 4 -> qnth q' (tpos k) =a= transposed (qnth q k).
Proof. exact (c125_adjacent_transpose d). Qed.
Print Assumptions C125_transpose_adjacent.

Theorem C125_transpose_mean (d : arr R) : mosaic d ->
  exists q q', demosaic d "mean" = Ok q /\ demosaic (transposed d) "mean" = Ok q' /\
    forall k, 0 <= k < 4 -> qnth q' (tpos k) =a= transposed (qnth q k).
Proof. exact (c125_mean_transpose d). Qed.
Print Assumptions C125_transpose_mean.

(** Upside down. *)
Theorem C125_upside_stokes dic dic' a (d : arr R) : describes dic a -> describes dic' (placed upos a) -> mosaic d ->
  exists s t, data_stokes dic d = Ok s /\ data_stokes dic' (upside d) = Ok t /\
    sI t =a= upside (sI s) /\ sQ t =a= upside (sQ s) /\ sU t =a= upside (sU s).
Proof. exact (c125_upside dic dic' a d). Qed.
Print Assumptions C125_upside_stokes.

Theorem C125_upside_bin (d : arr R) b : mosaic d -> 1 <= b -> rows d mod (2 * b) = 0 ->
  exists r r', evaluates (fun fuel => micropolarray_rebin fuel d b) r /\
    evaluates (fun fuel => micropolarray_rebin fuel (upside d) b) r' /\ r' =a= upside r.
Proof. exact (c125_bin_upside d b). Qed.
Print Assumptions C125_upside_bin.

Theorem C125_upside_mean (d : arr R) : mosaic d ->
  exists q q', demosaic d "mean" = Ok q /\ demosaic (upside d) "mean" = Ok q' /\
    forall k, 0 <= k < 4 -> qnth q' (upos k) =a= upside (qnth q k).
Proof. exact (c125_mean_upside d). Qed.
Print Assumptions C125_upside_mean.

(** False for "adjacent": the interpolation always looks down and to the right. *)
Theorem C125_upside_adjacent_refuted : exists (d : arr R) q q', mosaic d /\
  demosaic d "adjacent" = Ok q /\ demosaic (upside d) "adjacent" = Ok q' /\ ~ qnth q' (upos 0) =a= upside (qnth q 0).
Proof. exact c125_refuted. Qed.
Print Assumptions C125_upside_adjacent_refuted.

(** All polarizers said to be turned by 45 degrees: so are the directions of polarization. *)
Theorem C125_turned dic dic' a (d : arr R) : describes dic a -> describes dic' (turned a) -> mosaic d ->
  exists s t, data_stokes dic d = Ok s /\ data_stokes dic' d = Ok t /\
    forall y x, 0 <= y < rows d / 2 -> 0 <= x < cols d / 2 ->
      cell (sI t) y x = cell (sI s) y x /\ cell (sQ t) y x = (- cell (sU s) y x)%R /\ cell (sU t) y x = cell (sQ s) y x /\
      cell (pB t) y x = cell (pB s) y x /\ cell (DoLP t) y x = cell (DoLP s) y x /\
      ((0 < cell (pB s) y x)%R -> same_direction (cell (AoLP t) y x) (cell (AoLP s) y x + PI / 4)).
Proof. exact (c125_turn dic dic' a d). Qed.
Print Assumptions C125_turned.

(** Angles counted the other way round: so are the directions of polarization. *)
Theorem C125_opposite dic dic' a (d : arr R) : describes dic a -> describes dic' (opposite a) -> mosaic d ->
  exists s t, data_stokes dic d = Ok s /\ data_stokes dic' d = Ok t /\
    forall y x, 0 <= y < rows d / 2 -> 0 <= x < cols d / 2 ->
      cell (sI t) y x = cell (sI s) y x /\ cell (sQ t) y x = cell (sQ s) y x /\ cell (sU t) y x = (- cell (sU s) y x)%R /\
      cell (pB t) y x = cell (pB s) y x /\ cell (DoLP t) y x = cell (DoLP s) y x /\
      ((0 < cell (pB s) y x)%R -> same_direction (cell (AoLP t) y x) (- cell (AoLP s) y x)).
Proof. exact (c125_opposite dic dic' a d). Qed.
Print Assumptions C125_opposite.

(** The PolarCam dictionary, and those of the moved sensors; positions of a moved image. *)
Definition polarcam : arrangement := mkarrangement 0 1 2 3.
Ltac dictionary := unfold describes, arrangement_ok; cbn; repeat split; try lia; try tauto;
  repeat constructor; cbn; intuition discriminate.
Example C125_case :
  describes polarcam_angles polarcam /\
  describes [(0, 0); (45, 2); (-45, 1); (90, 3)] (placed tpos polarcam) /\
  describes [(0, 2); (45, 3); (-45, 0); (90, 1)] (placed upos polarcam) /\
  describes [(0, 2); (45, 0); (-45, 3); (90, 1)] (turned polarcam) /\
  describes [(0, 0); (45, 2); (-45, 1); (90, 3)] (opposite polarcam) /\
  to_list (transposed (mkarr 2 3 (fun y x => 10 * y + x))) = [[0; 10]; [1; 11]; [2; 12]] /\
  to_list (upside (mkarr 2 3 (fun y x => 10 * y + x))) = [[10; 11; 12]; [0; 1; 2]].
Proof. repeat (split; [dictionary|]). split; reflexivity. Qed.
