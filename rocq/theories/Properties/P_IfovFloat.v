(** Property C144: the IFOV correction and the superpixel calibration in floating point. *)
From Coq Require Import Reals Lra Floats.SpecFloat.
From Verif Require Import Base.Base Base.Num Model.Ifov Spec.AngleSpec Spec.MosaicSpec Spec.DemodSpec Spec.FloatSpec Spec.IfovSpec Proofs.ExactFacts Proofs.RoundFacts Proofs.RoundDemod Proofs.IfovFloatFacts.
Local Open Scope Z_scope.

(** ** IFOV correction *)
Theorem C144_counts (d : arr b64) top :
  counts top d -> 0 <= top -> 4 * top < 2 ^ 53 -> mosaic d ->
  exists r, ifov_jitcorrect d (rows d) (cols d) = Ok r /\ rows r = rows d /\ cols r = cols d /\
    forall y x, 0 <= y < rows d -> 0 <= x < cols d -> is_value (cell r y x) (smoothed (cell (values d)) y x).
Proof. exact (c144_counts d top). Qed.
Print Assumptions C144_counts.

Theorem C144_ifov (d : arr b64) top :
  bounded top d -> (0 <= top <= powerRZ 2 1000)%R -> mosaic d ->
  exists r, ifov_jitcorrect d (rows d) (cols d) = Ok r /\ rows r = rows d /\ cols r = cols d /\
    forall y x, 0 <= y < rows d -> 0 <= x < cols d ->
      off_by (powerRZ 2 (-50) * smoothed (cell (absolute d)) y x + powerRZ 2 (-1075)) (cell r y x) (smoothed (cell (values d)) y x).
Proof. exact (c144_ifov d top). Qed.
Print Assumptions C144_ifov.

(** Equal pixels are left alone to the last bit. *)
Theorem C144_equal (d : arr b64) y x c :
  mosaic d -> 2 <= y < rows d -> 2 <= x < cols d -> (Rabs c <= powerRZ 2 1000)%R ->
  is_value (cell d (y - 2) (x - 2)) c -> is_value (cell d (y - 2) x) c -> is_value (cell d y (x - 2)) c -> is_value (cell d y x) c ->
  exists r, ifov_jitcorrect d (rows d) (cols d) = Ok r /\ is_value (cell r y x) c.
Proof. exact (c144_equal d y x c). Qed.
Print Assumptions C144_equal.

(** ** Superpixel calibration *)
Theorem C144_calibration (C : Z -> Z -> arr b64) (offset data : arr b64) top big :
  mosaic data -> rows offset = rows data -> cols offset = cols data -> bounded top data -> bounded top offset ->
  entries (fun _ _ v => is_binary64 v /\ finite64 v /\ (Rabs (fval v) <= big)%R) C (rows data) (cols data) ->
  (0 <= top <= powerRZ 2 900)%R -> (0 <= big)%R -> (big * top <= powerRZ 2 900)%R ->
  exists r, chen_calibration C offset data = Ok r /\ rows r = rows data /\ cols r = cols data /\
    forall y x, 0 <= y < rows data -> 0 <= x < cols data ->
      off_by (powerRZ 2 (-48) * smoothed (size_corrected C offset data) y x + powerRZ 2 (-1065)) (cell r y x) (smoothed (exact_corrected C offset data) y x).
Proof. exact (c144_calibration C offset data top big). Qed.
Print Assumptions C144_calibration.

Theorem C144_exact_calibration (C : Z -> Z -> arr b64) (offset data : arr b64) top p big :
  mosaic data -> rows offset = rows data -> cols offset = cols data -> counts top data -> counts top offset ->
  entries (fun _ _ v => fixed_point p big v) C (rows data) (cols data) ->
  0 <= top -> 0 <= big -> 32 * big * top < 2 ^ 53 -> 0 <= p <= 900 -> big < 2 ^ 53 -> 2 * top < 2 ^ 53 ->
  exists r, chen_calibration C offset data = Ok r /\ rows r = rows data /\ cols r = cols data /\
    forall y x, 0 <= y < rows data -> 0 <= x < cols data -> is_value (cell r y x) (smoothed (exact_corrected C offset data) y x).
Proof. exact (c144_exact_calibration C offset data top p big). Qed.
Print Assumptions C144_exact_calibration.

Theorem C144_identity (C : Z -> Z -> arr b64) (offset data : arr b64) top :
  mosaic data -> rows offset = rows data -> cols offset = cols data -> bounded top data -> (0 <= top <= powerRZ 2 1000)%R ->
  entries (fun k l v => is_value v (if k =? l then 1 else 0)) C (rows data) (cols data) ->
  (forall y x, 0 <= y < rows data -> 0 <= x < cols data -> is_value (cell offset y x) 0) ->
  exists r i, chen_calibration C offset data = Ok r /\ ifov_jitcorrect data (rows data) (cols data) = Ok i /\
    forall y x, 0 <= y < rows data -> 0 <= x < cols data -> is_value (cell r y x) (fval (cell i y x)).
Proof. exact (c144_identity C offset data top). Qed.
Print Assumptions C144_identity.

(** Counts up to 33, offsets 1, matrices of halves; tenths that stay tenths, although three tenths are not three times a tenth *)
Definition counted : arr b64 := mkarr 4 4 (fun y x => b64_ofZ (10 * y + x)).
Definition ones : arr b64 := full 4 4 (b64_ofZ 1).
Definition halves (k l : Z) : arr b64 := full 4 4 (if k =? l then SFdiv 53 1024 (b64_ofZ 3) (b64_ofZ 2) else b64_ofZ (-1)).
Definition tenth : b64 := SFdiv 53 1024 (b64_ofZ 1) (b64_ofZ 10).
Example C144_case : counts 33 counted /\ counts 33 ones /\ mosaic counted /\ entries (fun _ _ v => fixed_point 1 3 v) halves 4 4 /\
  entries (fun _ _ v => is_binary64 v /\ finite64 v /\ (Rabs (fval v) <= 2)%R) halves 4 4 /\
  on_ok (fun r => b64_same (cell r 2 2) (b64_ofZ (-37)) && b64_same (cell r 3 3) (SFdiv 53 1024 (b64_ofZ (-19)) (b64_ofZ 2)))%bool (chen_calibration halves ones counted) = Ok true /\
  on_ok (fun r => b64_same (cell r 2 2) (b64_ofZ 11)) (ifov_jitcorrect counted 4 4) = Ok true /\
  on_ok (fun r => b64_same (cell r 3 3) tenth) (ifov_jitcorrect (full 4 4 tenth) 4 4) = Ok true /\
  b64_same (nadd (nadd tenth tenth) tenth) (SFdiv 53 1024 (b64_ofZ 3) (b64_ofZ 10)) = false.
Proof.
  assert (H1 : is_value (SFdiv 53 1024 (b64_ofZ 3) (b64_ofZ 2)) (IZR 3 * powerRZ 2 (- (1)))).
  { split; [reflexivity|]. split; [exact I|]. replace (IZR 3 * powerRZ 2 (- (1)))%R with (3 / 2)%R by (change (powerRZ 2 (- (1))) with (/ (2 * 1))%R; lra).
    match goal with |- fval ?c = _ => let v := eval vm_compute in c in change c with v end. cbn [fval].
    change (powerRZ 2 (-52)) with (/ (2 ^ 52))%R. cbn [cond_Zopp]. cbn [pow]. lra. }
  assert (H2 : is_value (b64_ofZ (-1)) (IZR (-2) * powerRZ 2 (- (1)))).
  { replace (IZR (-2) * powerRZ 2 (- (1)))%R with (-1)%R by (change (powerRZ 2 (- (1))) with (/ (2 * 1))%R; lra). exact (ofZ_value (-1) ltac:(reflexivity)). }
  assert (M : forall k l y x, matrix_at halves y x k l = if k =? l then SFdiv 53 1024 (b64_ofZ 3) (b64_ofZ 2) else b64_ofZ (-1)).
  { intros k l y x. unfold matrix_at, halves, full. reflexivity. }
  split; [|split; [|split; [repeat split; vm_compute; congruence|split; [|split; [|repeat split; vm_compute; reflexivity]]]]].
  - intros y x Hy Hx. exists (10 * y + x). change (rows counted) with 4 in Hy. change (cols counted) with 4 in Hx. split; [lia|]. apply (ofZ_value (10 * y + x)). lia.
  - intros y x Hy Hx. exists 1. split; [lia|]. apply (ofZ_value 1). reflexivity.
  - intros k l y x _ _ _ _. rewrite M. destruct (k =? l); [exists 3|exists (-2)]; (split; [vm_compute; congruence|assumption]).
  - intros k l y x _ _ _ _. rewrite M. destruct (k =? l).
    + destruct H1 as (A & B & ->). split; [exact A|]. split; [exact B|]. replace (IZR 3 * powerRZ 2 (- (1)))%R with (3 / 2)%R by (change (powerRZ 2 (- (1))) with (/ (2 * 1))%R; lra). rewrite Rabs_pos_eq; lra.
    + destruct H2 as (A & B & ->). split; [exact A|]. split; [exact B|]. replace (IZR (-2) * powerRZ 2 (- (1)))%R with (- (1))%R by (change (powerRZ 2 (- (1))) with (/ (2 * 1))%R; lra). rewrite Rabs_Ropp, Rabs_R1. lra.
Qed.
