(** Properties C84 and C85: computing the Chen-Wan-Liang calibration. *)
From Coq Require Import Reals Lra Permutation.
From Verif Require Import Base.Base Base.Num Model.ChenFit Spec.ChenFitSpec Proofs.ChenFitFacts.
Local Open Scope Z_scope.

(** ** C84.  Full statement: without a flat the calibration is computed.  False: it never is,
    neither with the occulter (the default) nor without a flat (the default). *)
Theorem C84_default_refuted open pinv orientations names phases dark flat :
  (forall r, calculate_chen open pinv orientations names phases true dark flat <> Ok r) /\
  (acceptable orientations names -> (4 <= length phases)%nat -> Forall (readable open) names ->
   calculate_chen open pinv orientations names phases true dark flat = Raise AttributeError).
Proof. exact (default_fails open pinv orientations names phases dark flat). Qed.
Print Assumptions C84_default_refuted.

Theorem C84_no_flat_refuted open pinv orientations names phases occulter dark flat :
  no_name flat ->
  (forall r, calculate_chen open pinv orientations names phases occulter dark flat <> Ok r) /\
  (acceptable orientations names -> (4 <= length phases)%nat -> Forall (readable open) names ->
   (forall n, dark = Some n -> n <> ""%string -> readable open n) -> occulter = false ->
   calculate_chen open pinv orientations names phases occulter dark flat = Raise UnboundLocalError).
Proof. exact (no_flat_fails open pinv orientations names phases occulter dark flat). Qed.
Print Assumptions C84_no_flat_refuted.

(** With a flat, no dark and without the occulter it is computed from the flattened images. *)
Theorem C84_flat_partial open pinv orientations names phases fname fl h w :
  acceptable orientations names ->
  (exists i0 i45 im45 i90, placed phases 0 i0 /\ placed phases 45 i45 /\ placed phases (-45) im45 /\ placed phases 90 i90) ->
  0 < h -> 0 < w -> Z.Even h -> Z.Even w ->
  Forall (fun n => exists d, open n = Ok d /\ rows d = h /\ cols d = w) names ->
  fname <> ""%string -> open fname = Ok fl -> rows fl = h -> cols fl = w ->
  (exists y x, 0 <= y < h /\ 0 <= x < w /\ (0 < cell fl y x)%R) ->
  exists m names' images dic f,
    greatest fl m /\ Permutation names' names /\
    Forall2 (fun n im => exists d, open n = Ok d /\ flattened fl m d im) names' images /\
    phase_dic phases = Ok dic /\ chen_fit pinv images phases dic = Ok (h, w, f) /\
    calculate_chen open pinv orientations names phases false None (Some fname) = Ok (h, w, f).
Proof. exact (flat_run open pinv orientations names phases fname fl h w). Qed.
Print Assumptions C84_flat_partial.

Definition files (n : string) : result (arr R) :=
  if (String.length n =? 1)%nat then Ok (full 2 4 3%R)
  else if String.eqb n "flat" then Ok (mkarr 2 4 (fun y x => IZR (y + x))) else Raise FileNotFoundError.
Example C84_case :
  acceptable [0; 90; 45; -45]%R ["a"; "b"; "c"; "d"]%string /\
  Forall (readable files) ["a"; "b"; "c"; "d"]%string /\ ~ readable files "none" /\
  Forall (fun n => exists d, files n = Ok d /\ rows d = 2 /\ cols d = 4) ["a"; "b"; "c"; "d"]%string /\
  placed [90; 45; -45; 0]%R 0 3 /\ placed [90; 45; -45; 0]%R 45 1 /\
  placed [90; 45; -45; 0]%R (-45) 2 /\ placed [90; 45; -45; 0]%R 90 0 /\
  exists fl, files "flat" = Ok fl /\ (0 < cell fl 1 2)%R.
Proof.
  split; [repeat split; cbn; tauto|]. split; [repeat constructor; eexists; reflexivity|].
  split; [intros [a E]; discriminate|]. split; [repeat constructor; eexists; repeat split; reflexivity|].
  do 4 (split; [split; [lia|reflexivity]|]). eexists. split; [reflexivity|cbn; lra].
Qed.

(** ** C85.  Full statement: the calibration maps each calibration image to the ideal one; the
    images of an ideal sensor stay as they are.  True if all images agree in the superpixel
    (in particular with one image), *)
Theorem C85_equal_images_partial pinv images phases dic h w f y x p :
  inverts pinv -> phase_dic phases = Ok dic -> chen_fit pinv images phases dic = Ok (h, w, f) ->
  Forall (fun im => forall k, 0 <= k < 4 -> quadruple im y x k = p k) images ->
  exists c, f y x = Ok c /\
    forall k a i0 i45 im45 i90, placed phases a k ->
      placed phases 0 i0 -> placed phases 45 i45 -> placed phases (-45) im45 -> placed phases 90 i90 ->
      apply_fit c p k = ideal_pixel a (p i0 + p i90)%R (p i0 - p i90)%R (p i45 - p im45)%R.
Proof. exact (corrects_equal pinv images phases dic h w f y x p). Qed.
Print Assumptions C85_equal_images_partial.

(** but false for the four required orientations, whatever the intensity and the superpixel:
    matrices and offsets are averaged separately. *)
Theorem C85_ideal_sensor_refuted pinv h w v :
  inverts pinv -> (0 < v)%R -> Z.Even h -> Z.Even w ->
  exists dic f, phase_dic [0; 45; -45; 90]%R = Ok dic /\
    chen_fit pinv (map (ideal_image h w v) [-45; 0; 45; 90]%R) [0; 45; -45; 90]%R dic = Ok (h, w, f) /\
    forall y x, exists c k, f y x = Ok c /\ 0 <= k < 4 /\
      apply_fit c (quadruple (ideal_image h w v 0) y x) k <> quadruple (ideal_image h w v 0) y x k.
Proof. exact (ideal_changed pinv h w v). Qed.
Print Assumptions C85_ideal_sensor_refuted.

Example C85_case :
  inverts by_transposing /\
  exists dic f, phase_dic [45; 0; 90; -45]%R = Ok dic /\
    chen_fit by_transposing [full 2 2 1%R] [45; 0; 90; -45]%R dic = Ok (2, 2, f).
Proof.
  split; [exact by_transposing_inverts|]. eexists _, _. split; [reflexivity|].
  unfold chen_fit. cbn [rows cols full forallb negb Z.odd orb rdic_get].
  rewrite !Reqb_refl.
  rewrite (Reqb_neq 90 0), (Reqb_neq (-45) 0), (Reqb_neq 90 45), (Reqb_neq (-45) 45), (Reqb_neq 0 45), (Reqb_neq (-45) 90) by lra.
  reflexivity.
Qed.
