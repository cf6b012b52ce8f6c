(** Property C66: resampling to an arbitrary size. *)
From Coq Require Import Reals Lra QArith Floats.SpecFloat.
From Verif Require Import Base.Base Base.Num Model.Stokes Model.Congrid Spec.MosaicSpec Spec.InterpSpec
  Proofs.CongridFacts.
Local Open Scope Z_scope.

(** ** C66.  Exact arithmetic. *)
Theorem C66_shape {A} `{Num A} (a : arr A) h w : rows (congrid a h w) = h /\ cols (congrid a h w) = w.
Proof. exact (conj eq_refl eq_refl). Qed.
Print Assumptions C66_shape.

Theorem C66_bilinear (a : arr R) h w y x :
  2 <= rows a -> 2 <= cols a -> 2 <= h -> 2 <= w -> 0 <= y < h -> 0 <= x < w ->
  bilinear a (spread (rows a) h y) (spread (cols a) w x) (cell (congrid a h w) y x).
Proof. exact (fun Hr Hc Hh Hw => congrid_bilinear a h w Hr Hc Hh Hw y x). Qed.
Print Assumptions C66_bilinear.

Theorem C66_same (a : arr R) y x :
  2 <= rows a -> 2 <= cols a -> 0 <= y < rows a -> 0 <= x < cols a ->
  cell (congrid a (rows a) (cols a)) y x = cell a y x.
Proof. exact (congrid_same a y x). Qed.
Print Assumptions C66_same.

Theorem C66_corners (a : arr R) h w :
  2 <= rows a -> 2 <= cols a -> 2 <= h -> 2 <= w ->
  cell (congrid a h w) 0 0 = cell a 0 0 /\
  cell (congrid a h w) 0 (w - 1) = cell a 0 (cols a - 1) /\
  cell (congrid a h w) (h - 1) 0 = cell a (rows a - 1) 0 /\
  cell (congrid a h w) (h - 1) (w - 1) = cell a (rows a - 1) (cols a - 1).
Proof. exact (congrid_corners a h w). Qed.
Print Assumptions C66_corners.

Theorem C66_range (a : arr R) h w lo hi y x :
  2 <= rows a -> 2 <= cols a -> 2 <= h -> 2 <= w ->
  (forall i j, 0 <= i < rows a -> 0 <= j < cols a -> (lo <= cell a i j <= hi)%R) ->
  0 <= y < h -> 0 <= x < w -> (lo <= cell (congrid a h w) y x <= hi)%R.
Proof. exact (fun Hr Hc Hh Hw => congrid_range a h w Hr Hc Hh Hw lo hi y x). Qed.
Print Assumptions C66_range.

(** The method of an image: each family is resampled on its own. *)
Theorem C66_image (data : arr R) (S : stokes R) ny nx :
  mosaic data -> 4 <= rows data -> 4 <= cols data -> 4 <= ny -> 4 <= nx ->
  let h := ny - ny mod 2 in let w := nx - nx mod 2 in
  exists d T, image_congrid data S ny nx = Ok (d, T) /\
    (rows d = h /\ cols d = w) /\
    (forall k Y X, 0 <= k < 4 -> 0 <= Y < h / 2 -> 0 <= X < w / 2 ->
       bilinear (family_image data k) (spread (rows data / 2) (h / 2) Y) (spread (cols data / 2) (w / 2) X)
         (sample d k Y X)) /\
    (rows (sI T) = h /\ cols (sI T) = w) /\ (rows (sQ T) = h /\ cols (sQ T) = w) /\ (rows (sU T) = h /\ cols (sU T) = w).
Proof. exact (image_congrid_ok data S ny nx). Qed.
Print Assumptions C66_image.

(** In binary64 neither bound nor identity is exact: the last position of 26 over 8 samples is
    slightly beyond the last sample, and differences of far apart values are rounded. *)
Definition step_row : arr b64 := mkarr 2 8 (fun _ x => b64_ofZ (if x =? 7 then 1 else 0)).
Definition far_apart : arr b64 := mkarr 2 2 (fun _ x => if x =? 0 then b64_ofZ (2 ^ 60) else b64_ofZ 1).

Theorem C66_float_refuted :
  ((forall i j, 0 <= i < 2 -> 0 <= j < 8 -> nleb (cell step_row i j) (b64_ofZ 1) = true) /\
   nltb (b64_ofZ 1) (cell (congrid step_row 2 26) 0 25) = true) /\
  (cell far_apart 0 1 = b64_ofZ 1 /\ cell (congrid far_apart 2 2) 0 1 = b64_ofZ 0).
Proof.
  split; split.
  - intros i j _ _. unfold step_row. cbn [cell]. destruct (j =? 7); vm_compute; reflexivity.
  - vm_compute. reflexivity.
  - reflexivity.
  - vm_compute. reflexivity.
Qed.
Print Assumptions C66_float_refuted.

Example C66_case :
  let a := mkarr 2 3 (fun y x => inject_Z (10 * y + x * x)) in
  map (map Qred) (to_list (congrid a 3 5)) =
    [[0; 1 # 2; 1; 5 # 2; 4]; [5; 11 # 2; 6; 15 # 2; 9]; [10; 21 # 2; 11; 25 # 2; 14]]%Q /\
  map (map Qred) (to_list (congrid a 2 3)) = [[0; 1; 4]; [10; 11; 14]]%Q.
Proof. split; vm_compute; reflexivity. Qed.

Example C66_image_case :
  let data := mkarr 4 4 (fun y x => inject_Z (10 * y + x)) in
  let s := mkstokes (full 2 2 1%Q) (full 2 2 2%Q) (full 2 2 3%Q) in
  (mosaic data /\ 4 <= rows data /\ 4 <= cols data /\ 4 <= 6 /\ 4 <= 5) /\
  on_ok (fun r => map (map Qred) (to_list (fst r))) (image_congrid data s 6 5) =
    Ok [[0; 1; 2; 3]; [10; 11; 12; 13]; [10; 11; 12; 13]; [20; 21; 22; 23]; [20; 21; 22; 23]; [30; 31; 32; 33]]%Q.
Proof. split; [repeat split; vm_compute; congruence || reflexivity|vm_compute; reflexivity]. Qed.
