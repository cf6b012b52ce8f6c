(** Property C138: resampling in floating point. *)
From Coq Require Import Reals Lra Lia.
From Verif Require Import Base.Base Base.Num Model.Stokes Model.Congrid Spec.AngleSpec Spec.MosaicSpec Spec.InterpSpec Spec.FloatSpec Spec.ResampleError
  Proofs.ExactFacts Proofs.ResampleFloat.
Local Open Scope Z_scope.

(** Every pixel is the exact one up to a few roundings for each sample of a row and column. *)
Theorem C138_error (a : arr b64) h w M y x :
  2 <= rows a <= 2 ^ 26 -> 2 <= cols a <= 2 ^ 26 -> 2 <= h <= 2 ^ 26 -> 2 <= w <= 2 ^ 26 ->
  bounded M a -> (M <= powerRZ 2 998)%R -> 0 <= y < h -> 0 <= x < w ->
  off_by (resample_error (rows a) (cols a) M) (cell (congrid a h w) y x) (cell (congrid (values a) h w) y x).
Proof. exact (resample_off a h w M y x). Qed.
Print Assumptions C138_error.

(** It leaves the range of the samples by no more, *)
Theorem C138_range_partial (a : arr b64) h w M lo hi y x :
  2 <= rows a <= 2 ^ 26 -> 2 <= cols a <= 2 ^ 26 -> 2 <= h <= 2 ^ 26 -> 2 <= w <= 2 ^ 26 ->
  bounded M a -> (M <= powerRZ 2 998)%R ->
  (forall i j, 0 <= i < rows a -> 0 <= j < cols a -> (lo <= fval (cell a i j) <= hi)%R) -> 0 <= y < h -> 0 <= x < w ->
  (lo - resample_error (rows a) (cols a) M <= fval (cell (congrid a h w) y x) <= hi + resample_error (rows a) (cols a) M)%R.
Proof. exact (c138_range a h w M lo hi y x). Qed.
Print Assumptions C138_range_partial.

(** for camera frames less than a millionth of a count, *)
Theorem C138_camera h w : 0 <= h <= 4096 -> 0 <= w <= 4096 -> (resample_error h w 65535 <= / 1000000)%R.
Proof. exact (c138_camera h w). Qed.
Print Assumptions C138_camera.

(** but it does leave it: an image without negative pixels gets one. *)
Definition falling_row : arr b64 := mkarr 2 8 (fun _ x => b64_ofZ (if x =? 6 then 1 else 0)).
Theorem C138_range_refuted :
  (forall i j, 0 <= i < 2 -> 0 <= j < 8 -> nleb (b64_ofZ 0) (cell falling_row i j) = true) /\
  nltb (cell (congrid falling_row 2 26) 0 25) (b64_ofZ 0) = true.
Proof.
  split; [|vm_compute; reflexivity]. intros i j _ _. unfold falling_row. cbn [cell]. destruct (j =? 6); vm_compute; reflexivity.
Qed.
Print Assumptions C138_range_refuted.

(** Grids 2^i and 2^j times as fine (also the same grid) are computed without any error for counts. *)
Theorem C138_exact (a : arr b64) n i j :
  2 <= rows a <= 2 ^ 26 -> 2 <= cols a <= 2 ^ 26 -> 0 <= i <= 26 -> 0 <= j <= 26 -> 0 <= n -> counts n a -> 9 * n * 2 ^ (i + j) < 2 ^ 53 ->
  exact_image (congrid a (2 ^ i * (rows a - 1) + 1) (2 ^ j * (cols a - 1) + 1)) (congrid (values a) (2 ^ i * (rows a - 1) + 1) (2 ^ j * (cols a - 1) + 1)).
Proof. exact (resample_exact a n i j). Qed.
Print Assumptions C138_exact.

(** The method of an image resamples each family of pixels on its own. *)
Theorem C138_image (data : arr b64) (S : stokes b64) ny nx M :
  mosaic data -> 4 <= rows data <= 2 ^ 26 -> 4 <= cols data <= 2 ^ 26 -> 4 <= ny <= 2 ^ 26 -> 4 <= nx <= 2 ^ 26 ->
  bounded M data -> (M <= powerRZ 2 998)%R ->
  exists d T, image_congrid data S ny nx = Ok (d, T) /\ rows d = 2 * (ny / 2) /\ cols d = 2 * (nx / 2) /\
    forall k Y X, 0 <= k < 4 -> 0 <= Y < ny / 2 -> 0 <= X < nx / 2 ->
      exists v, bilinear (family_image (values data) k) (spread (rows data / 2) (ny / 2) Y) (spread (cols data / 2) (nx / 2) X) v /\
        off_by (resample_error (rows data / 2) (cols data / 2) M) (sample d k Y X) v.
Proof. exact (c138_image data S ny nx M). Qed.
Print Assumptions C138_image.

(** A 16-bit image, and the middle of a refined one *)
Definition small_image : arr b64 := mkarr 2 2 (fun y x => b64_ofZ (if y =? x then 65535 else 2)).
Example C138_case : counts 65535 small_image /\ bounded 65535 small_image /\ 9 * 65535 * 2 ^ (1 + 2) < 2 ^ 53 /\
  b64_same (cell (congrid small_image 3 5) 1 1) (SpecFloat.SFdiv 53 1024 (b64_ofZ 65537) (b64_ofZ 2)) = true /\
  (65535 <= powerRZ 2 998)%R.
Proof.
  assert (C : forall y x, exists m, 0 <= m <= 65535 /\ is_value (cell small_image y x) (IZR m)).
  { intros y x. unfold small_image. cbn [cell]. destruct (y =? x); eexists; (split; [|apply ofZ_value; reflexivity]); lia. }
  split; [intros y x _ _; apply C|]. split.
  { intros y x _ _. destruct (C y x) as (m & Hm & B & F & E). split; [exact B|]. split; [exact F|]. rewrite E, Rabs_pos_eq by (apply (IZR_le 0); lia). apply IZR_le. lia. }
  split; [reflexivity|]. split; [vm_compute; reflexivity|].
  exact counts_not_vast.
Qed.
