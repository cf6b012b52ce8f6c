(** Property C114: images of integers. *)
From Coq Require Import Reals Lra Lia.
From Verif Require Import Base.Base Base.Num Model.Stokes Model.Ifov Model.IntData Spec.MosaicSpec Spec.StokesSpec
  Spec.ChenSpec Spec.IntSpec Proofs.IntFacts.
Local Open Scope Z_scope.

(** ** C114.  Full statement: the Stokes parameters of sums and differences of images are the sums and
    differences of theirs.  Missing: pixels where the result is outside of the range of the type. *)
Theorem C114_sum_partial t dic a (d1 d2 : arr Z) :
  0 < bits t -> describes dic a -> mosaic d1 -> same_shape d1 d2 ->
  (forall y x, 0 <= y < rows d1 -> 0 <= x < cols d1 -> representable t (cell d1 y x + cell d2 y x)) ->
  exists d s1 s2 s, image_op t Plus d1 d2 = Ok d /\ int_stokes dic d1 = Ok s1 /\ int_stokes dic d2 = Ok s2 /\
    int_stokes dic d = Ok s /\
    stokes_is s (rows d1 / 2) (cols d1 / 2)
      (fun Y X => cell (sI s1) Y X + cell (sI s2) Y X)%R
      (fun Y X => cell (sQ s1) Y X + cell (sQ s2) Y X)%R
      (fun Y X => cell (sU s1) Y X + cell (sU s2) Y X)%R.
Proof. exact (c114_sum_in_range t dic a d1 d2). Qed.
Print Assumptions C114_sum_partial.

Theorem C114_difference_partial t dic a (d1 d2 : arr Z) :
  0 < bits t -> describes dic a -> mosaic d1 -> same_shape d1 d2 ->
  (forall y x, 0 <= y < rows d1 -> 0 <= x < cols d1 -> representable t (cell d1 y x - cell d2 y x)) ->
  exists d s1 s2 s, image_op t Minus d1 d2 = Ok d /\ int_stokes dic d1 = Ok s1 /\ int_stokes dic d2 = Ok s2 /\
    int_stokes dic d = Ok s /\
    stokes_is s (rows d1 / 2) (cols d1 / 2)
      (fun Y X => cell (sI s1) Y X - cell (sI s2) Y X)%R
      (fun Y X => cell (sQ s1) Y X - cell (sQ s2) Y X)%R
      (fun Y X => cell (sU s1) Y X - cell (sU s2) Y X)%R.
Proof. exact (c114_difference_in_range t dic a d1 d2). Qed.
Print Assumptions C114_difference_partial.

(** Every pixel, whatever the type and the operation (also multiplication). *)
Theorem C114_pixels t op (d1 d2 : arr Z) :
  0 < bits t -> same_shape d1 d2 ->
  exists d, image_op t op d1 d2 = Ok d /\ same_shape d d1 /\
    forall y x, 0 <= y < rows d1 -> 0 <= x < cols d1 ->
      stored t (match op with Plus => cell d1 y x + cell d2 y x | Minus => cell d1 y x - cell d2 y x
                | Times => cell d1 y x * cell d2 y x end) (cell d y x).
Proof. exact (c114_each t op d1 d2). Qed.
Print Assumptions C114_pixels.

(** Unsigned images: every pixel of the first image that is smaller than that of the second adds 2^bits. *)
Theorem C114_difference_refuted t dic a (d1 d2 : arr Z) :
  0 < bits t -> describes dic a -> mosaic d1 -> same_shape d1 d2 -> is_signed t = false ->
  (forall y x, 0 <= y < rows d1 -> 0 <= x < cols d1 -> representable t (cell d1 y x)) ->
  (forall y x, 0 <= y < rows d1 -> 0 <= x < cols d1 -> representable t (cell d2 y x)) ->
  exists d s1 s2 s, image_op t Minus d1 d2 = Ok d /\ int_stokes dic d1 = Ok s1 /\ int_stokes dic d2 = Ok s2 /\
    int_stokes dic d = Ok s /\
    let n := IZR (2 ^ bits t) in let b k Y X := borrow (sample d1 k Y X) (sample d2 k Y X) in
    stokes_is s (rows d1 / 2) (cols d1 / 2)
      (fun Y X => cell (sI s1) Y X - cell (sI s2) Y X + n / 2 * (b 0%Z Y X + b 1%Z Y X + b 2%Z Y X + b 3%Z Y X))%R
      (fun Y X => cell (sQ s1) Y X - cell (sQ s2) Y X + n * (b (p0 a) Y X - b (p90 a) Y X))%R
      (fun Y X => cell (sU s1) Y X - cell (sU s2) Y X + n * (b (p45 a) Y X - b (pm45 a) Y X))%R.
Proof. exact (c114_difference t dic a d1 d2). Qed.
Print Assumptions C114_difference_refuted.

(** Every pair of pixels whose sum does not fit takes 2^bits away. *)
Theorem C114_sum_refuted t dic a (d1 d2 : arr Z) :
  0 < bits t -> describes dic a -> mosaic d1 -> same_shape d1 d2 -> is_signed t = false ->
  (forall y x, 0 <= y < rows d1 -> 0 <= x < cols d1 -> representable t (cell d1 y x)) ->
  (forall y x, 0 <= y < rows d1 -> 0 <= x < cols d1 -> representable t (cell d2 y x)) ->
  exists d s1 s2 s, image_op t Plus d1 d2 = Ok d /\ int_stokes dic d1 = Ok s1 /\ int_stokes dic d2 = Ok s2 /\
    int_stokes dic d = Ok s /\
    let n := IZR (2 ^ bits t) in let c k Y X := carry t (sample d1 k Y X) (sample d2 k Y X) in
    stokes_is s (rows d1 / 2) (cols d1 / 2)
      (fun Y X => cell (sI s1) Y X + cell (sI s2) Y X - n / 2 * (c 0%Z Y X + c 1%Z Y X + c 2%Z Y X + c 3%Z Y X))%R
      (fun Y X => cell (sQ s1) Y X + cell (sQ s2) Y X - n * (c (p0 a) Y X - c (p90 a) Y X))%R
      (fun Y X => cell (sU s1) Y X + cell (sU s2) Y X - n * (c (p45 a) Y X - c (pm45 a) Y X))%R.
Proof. exact (c114_sum t dic a d1 d2). Qed.
Print Assumptions C114_sum_refuted.

(** Pixels 10 everywhere minus pixels 9, 11, 12, 9. *)
Example C114_case :
  let d1 : arr Z := full 2 2 10 in
  let d2 : arr Z := mkarr 2 2 (fun y x => if (y =? 0) && (x =? 0) then 9 else if (y =? 1) && (x =? 1) then 9 else 11 + y) in
  (0 < bits uint16 /\ mosaic d1 /\ same_shape d1 d2 /\ is_signed uint16 = false) /\
  (forall y x, 0 <= y < rows d1 -> 0 <= x < cols d1 ->
     representable uint16 (cell d1 y x) /\ representable uint16 (cell d2 y x)) /\
  on_ok to_list (image_op uint16 Minus d1 d2) = Ok [[1; 65535]; [65534; 1]] /\
  on_ok to_list (image_op uint16 Times d1 (full 2 2 7000)) = Ok [[4464; 4464]; [4464; 4464]].
Proof.
  cbv zeta. split; [repeat split; vm_compute; congruence || reflexivity|]. split; [|split; vm_compute; reflexivity].
  intros y x Hy Hx. unfold representable, uint16. cbn [is_signed bits cell full rows cols] in *. change (2 ^ 16) with 65536.
  destruct (_ && _); [lia|]. destruct (_ && _); lia.
Qed.

(** ** The superpixel calibration of an integer image *)

(** Full statement: it is that of the same image as floats.  Here: it is less by less than 1, and equal only
    where the four corrected numbers are whole. *)
Theorem C114_calibration_refuted t oor C dij (data : arr Z) :
  0 < bits t -> mosaic data -> rows dij = rows data -> cols dij = cols data ->
  let f := corrected (fun k l Y X => cell (C k l) (2 * Y) (2 * X)) dij (amap IZR data) in
  (forall y x, 0 <= y < rows data -> 0 <= x < cols data -> (0 <= f y x < IZR (2 ^ (bits t - 1)))%R) ->
  exists r e, chen_calibration_int t oor C dij data = Ok r /\ chen_calibration C dij (amap IZR data) = Ok e /\
    same_shape r data /\ same_shape e data /\
    forall y x, 0 <= y < rows data -> 0 <= x < cols data ->
      (cell e y x - 1 < cell r y x <= cell e y x)%R /\
      (2 <= y -> 2 <= x ->
        (cell r y x = cell e y x <-> whole (f (y - 2) (x - 2)) /\ whole (f (y - 2) x) /\ whole (f y (x - 2)) /\ whole (f y x))).
Proof. exact (c114_chen t oor C dij data). Qed.
Print Assumptions C114_calibration_refuted.

(** Matrices 1/2 and pixels 7: all corrected numbers are 7/2. *)
Example C114_calibration_case :
  let C k l : arr R := full 4 4 (if k =? l then 1 / 2 else 0)%R in
  let data : arr Z := full 4 4 7 in
  (0 < bits uint16 /\ mosaic data /\ rows (full 4 4 0%R) = rows data /\ cols (full 4 4 0%R) = cols data) /\
  (forall y x, corrected (fun k l Y X => cell (C k l) (2 * Y) (2 * X)) (full 4 4 0%R) (amap IZR data) y x = 7 / 2)%R /\
  (0 <= 7 / 2 < IZR (2 ^ (bits uint16 - 1)))%R.
Proof.
  cbv zeta. split; [repeat split; vm_compute; congruence || reflexivity|]. split.
  - intros y x. unfold corrected, sample. cbn [full cell amap nadd nsub nmul Num_R].
    assert (K : family y x = 0 \/ family y x = 1 \/ family y x = 2 \/ family y x = 3)
      by (unfold family; pose proof (Z.mod_pos_bound y 2); pose proof (Z.mod_pos_bound x 2); lia).
    destruct K as [-> | [-> | [-> | ->]]]; cbn [Z.eqb Pos.eqb]; lra.
  - replace (2 ^ (bits uint16 - 1)) with 32768 by reflexivity. lra.
Qed.
