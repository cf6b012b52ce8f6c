(** C119: a pixel influences its neighbourhood only. *)
From Coq Require Import String Reals Lra.
From Verif Require Import Base.Base Base.Num Model.Demosaic Model.Rebin Model.Ifov Model.Stokes Model.Pol Model.Demodulate
  Spec.Terminates Spec.MosaicSpec Spec.FloatSpec Spec.LocalSpec Proofs.LocalFacts.
Local Open Scope string_scope.
Local Open Scope Z_scope.

(** In any number type, so also with pixels that are not numbers: the polarization parameters of a superpixel depend on
    its four pixels only, *)
Theorem C119_raw {A} `{Num A} dic (d d' : arr A) Y X :
  mosaic d -> agree (bin 1 Y X) d d' -> 0 <= Y < rows d / 2 -> 0 <= X < cols d / 2 ->
  same_outcome (same_light Y X) (data_stokes dic d) (data_stokes dic d').
Proof. exact (c119_raw dic d d' Y X). Qed.
Print Assumptions C119_raw.

(** also after binning, *)
Theorem C119_binned {A} `{Num A} dic (d d' : arr A) b Y X : mosaic d -> 1 <= b ->
  0 <= Y < rows d / (2 * b) -> 0 <= X < cols d / (2 * b) -> agree (bin b Y X) d d' ->
  exists r r', evaluates (fun fuel => micropolarray_rebin fuel d b) r /\ evaluates (fun fuel => micropolarray_rebin fuel d' b) r' /\
    same_outcome (same_light Y X) (data_stokes dic r) (data_stokes dic r').
Proof. exact (c119_binned dic d d' b Y X). Qed.
Print Assumptions C119_binned.

(** also with a demodulator; *)
Theorem C119_demodulated {A} `{Num A} (m : demodulator A) (d d' : arr A) old Y X : mosaic d ->
  t_rows (mij m) = rows d / 2 -> t_cols (mij m) = cols d / 2 ->
  (forall f, fit_found_flags m = Some f ->
     (rows f = rows d / 2 /\ cols f = cols d / 2) /\ (rows (sI old) = rows d / 2 /\ cols (sI old) = cols d / 2) /\
     (rows (sQ old) = rows d / 2 /\ cols (sQ old) = cols d / 2) /\ (rows (sU old) = rows d / 2 /\ cols (sU old) = cols d / 2)) ->
  0 <= Y < rows d / 2 -> 0 <= X < cols d / 2 -> agree (bin 1 Y X) d d' ->
  exists s s', demod_raw m d old = Ok s /\ demod_raw m d' old = Ok s' /\ same_light Y X s s'.
Proof. exact (c119_demod m d d' old Y X). Qed.
Print Assumptions C119_demodulated.

(** those of a pixel of a binned and demosaiced image on its bin and the next ones; *)
Theorem C119_demosaiced {A} `{Num A} dic (d d' : arr A) b o y x : mosaic d -> 1 <= b -> (o = "mean" \/ o = "adjacent") ->
  0 <= y < 2 * (rows d / (2 * b)) -> 0 <= x < 2 * (cols d / (2 * b)) -> agree (bins_ahead b (y / 2) (x / 2)) d d' ->
  exists r r', evaluates (fun fuel => micropolarray_rebin fuel d b) r /\ evaluates (fun fuel => micropolarray_rebin fuel d' b) r' /\
    same_outcome (same_light y x) (let* q := demosaic r o in theo_stokes dic q) (let* q := demosaic r' o in theo_stokes dic q).
Proof. exact (c119_chain dic d d' b o y x). Qed.
Print Assumptions C119_demosaiced.

(** a pixel of the IFOV-corrected image on four pixels. *)
Theorem C119_ifov {A} `{Num A} (d d' : arr A) y x : mosaic d -> 0 <= y < rows d -> 0 <= x < cols d ->
  agree (fun j i => (j = y - 2 \/ j = y) /\ (i = x - 2 \/ i = x)) d d' ->
  exists r r', ifov_jitcorrect d (rows d) (cols d) = Ok r /\ ifov_jitcorrect d' (rows d') (cols d') = Ok r' /\ cell r y x = cell r' y x.
Proof. exact (c119_ifov d d' y x). Qed.
Print Assumptions C119_ifov.

(** A pixel that is not a number in superpixel (1, 1): superpixel (0, 1) is not affected, the demosaiced pixels of superpixel (0, 0) may be. *)
Definition spoiled (v : b64) : arr b64 := mkarr 4 4 (fun y x => if (y =? 3) && (x =? 2) then v else b64_ofZ (y + x)).
Example C119_case :
  agree (bin 1 0 1) (spoiled (b64_ofZ 5)) (spoiled Floats.SpecFloat.S754_nan) /\
  ~ agree (bins_ahead 1 0 0) (spoiled (b64_ofZ 5)) (spoiled Floats.SpecFloat.S754_nan) /\ mosaic (spoiled (b64_ofZ 5)) /\
  on_ok (fun s => cell (sI s) 1 1) (data_stokes polarcam_angles (spoiled Floats.SpecFloat.S754_nan)) = Ok Floats.SpecFloat.S754_nan.
Proof.
  split; [|split; [|split; [repeat split; vm_compute; congruence|vm_compute; reflexivity]]].
  - split; [reflexivity|]. split; [reflexivity|]. intros j i _ _ (Hj & _). unfold spoiled. cbn [cell].
    replace (j =? 3) with false by (Z.to_euclidean_division_equations; lia). reflexivity.
  - intros (_ & _ & E). specialize (E 3 2 ltac:(split; vm_compute; congruence) ltac:(split; vm_compute; congruence) ltac:(unfold bins_ahead; cbn; lia)).
    vm_compute in E. discriminate E.
Qed.
