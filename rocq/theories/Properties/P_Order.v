(** C124: which corrections of an image can be exchanged, and which can not. *)
From Coq Require Import Reals Lra Lia.
From Verif Require Import Base.Base Base.Num Model.Rebin Model.Shift Model.Stokes Model.Utils
  Spec.Terminates Spec.MosaicSpec Spec.PixelSpec Spec.OrderSpec Proofs.OrderFacts.

(** Two shifts in the same direction are one shift by the sum. *)
Theorem C124_shift_shift {A} `{Num A} (d : arr A) y1 x1 y2 x2 m : mosaic d -> 0 <= y1 * y2 -> 0 <= x1 * x2 ->
  exists r r' s, shift_micropol d y1 x1 m = Ok r /\ shift_micropol r y2 x2 m = Ok r' /\
    shift_micropol d (y1 + y2) (x1 + x2) m = Ok s /\ r' =a= s.
Proof. exact (c124_shifts d y1 x1 y2 x2 m). Qed.
Print Assumptions C124_shift_shift.

(** Shifting back recovers the pixels that stayed inside the image; the others are lost. *)
Theorem C124_shift_back {A} `{Num A} (d : arr A) y x m : mosaic d ->
  exists r r', shift_micropol d y x m = Ok r /\ shift_micropol r (- y) (- x) m = Ok r' /\ same_shape r' d /\
    forall j i, 0 <= j < rows d -> 0 <= i < cols d ->
      (0 <= j + 2 * y < rows d -> 0 <= i + 2 * x < cols d -> cell r' j i = cell d j i) /\
      (~ (0 <= j + 2 * y < rows d) \/ ~ (0 <= i + 2 * x < cols d) -> cell r' j i = m).
Proof. exact (c124_back d y x m). Qed.
Print Assumptions C124_shift_back.

(** The Stokes images of a shifted image are the shifted Stokes images. *)
Theorem C124_shift_stokes dic b (d : arr R) y x m : describes dic b -> mosaic d ->
  exists s r t TI TQ TU, data_stokes dic d = Ok s /\ shift_micropol d y x m = Ok r /\ data_stokes dic r = Ok t /\
    shift (sI s) y x (2 * m)%R = Ok TI /\ shift (sQ s) y x 0%R = Ok TQ /\ shift (sU s) y x 0%R = Ok TU /\
    sI t =a= TI /\ sQ t =a= TQ /\ sU t =a= TU.
Proof. exact (c124_stokes dic b d y x m). Qed.
Print Assumptions C124_shift_stokes.

(** Binning an image shifted by a multiple of the bin shifts the binned image, if the bins
    cover the image exactly. *)
Theorem C124_shift_bin (d : arr R) b y x m : mosaic d -> 1 <= b -> rows d mod (2 * b) = 0 -> cols d mod (2 * b) = 0 ->
  exists d' r r' s, shift_micropol d (b * y) (b * x) m = Ok d' /\
    evaluates (fun fuel => micropolarray_rebin fuel d b) r /\ evaluates (fun fuel => micropolarray_rebin fuel d' b) r' /\
    shift_micropol r y x (IZR (b * b) * m)%R = Ok s /\ r' =a= s.
Proof. exact (c124_shift_bin d b y x m). Qed.
Print Assumptions C124_shift_bin.

(** Binning an image after its dark was subtracted never gives less than subtracting the
    binned dark from the binned image. The two agree where no pixel is below its dark, and
    differ where pixels both below and above their dark are added up. *)
Theorem C124_dark_bin (data dark : arr R) b : same_shape data dark -> mosaic data -> 1 <= b ->
  exists c r k rc e, dark_data data dark = Ok c /\
    evaluates (fun fuel => micropolarray_rebin fuel data b) r /\ evaluates (fun fuel => micropolarray_rebin fuel dark b) k /\
    evaluates (fun fuel => micropolarray_rebin fuel c b) rc /\ dark_data r k = Ok e /\ same_shape rc e /\
    forall Y X, 0 <= Y < rows rc -> 0 <= X < cols rc ->
      (cell e Y X <= cell rc Y X)%R /\
      (all_pixels data dark b Y X Rge -> cell e Y X = cell rc Y X) /\
      (some_pixel data dark b Y X Rlt -> some_pixel data dark b Y X Rgt -> (cell e Y X < cell rc Y X)%R).
Proof. exact (c124_dark data dark b). Qed.
Print Assumptions C124_dark_bin.

(** Two flats can be applied in either order. *)
Theorem C124_flats junk (data f g : arr R) : same_shape data f -> same_shape data g -> amean f <> 0%R -> amean g <> 0%R ->
  exists a a' c c', flat_data junk data f = Ok a /\ flat_data junk a g = Ok a' /\ flat_data junk data g = Ok c /\ flat_data junk c f = Ok c' /\
    forall y x, 0 <= y < rows data -> 0 <= x < cols data -> cell f y x <> 0%R -> cell g y x <> 0%R -> cell a' y x = cell c' y x.
Proof. exact (c124_flats junk data f g). Qed.
Print Assumptions C124_flats.

(** The scale of a flat, such as its exposure time, has no effect. *)
Theorem C124_flat_scale junk (data f : arr R) k : same_shape data f -> amean f <> 0%R -> k <> 0%R ->
  exists a c, flat_data junk data f = Ok a /\ flat_data junk data (amap (fun v => k * v)%R f) = Ok c /\
    forall y x, 0 <= y < rows data -> 0 <= x < cols data -> cell f y x <> 0%R -> cell c y x = cell a y x.
Proof. exact (c124_flat_scale junk data f k). Qed.
Print Assumptions C124_flat_scale.

(** A 4 by 4 image in which one pixel of a bin is below its dark and another is above it. *)
Definition o_data : arr R := mkarr 4 4 (fun y x => if (y =? 0) && (x =? 0) then 5 else 1)%R.
Definition o_dark : arr R := mkarr 4 4 (fun y x => if (y =? 0) && (x =? 2) then 3 else 1)%R.
Example C124_case :
  mosaic o_data /\ rows o_data mod (2 * 2) = 0 /\ cols o_data mod (2 * 2) = 0 /\ same_shape o_data o_dark /\
  some_pixel o_data o_dark 2 0 0 Rlt /\ some_pixel o_data o_dark 2 0 0 Rgt /\ all_pixels o_data o_dark 2 1 1 Rge.
Proof.
  split; [repeat split; cbn; lia|]. split; [reflexivity|]. split; [reflexivity|]. split; [split; reflexivity|].
  split; [exists 0, 1; split; [lia|]; split; [lia|]; cbn; lra|].
  split; [exists 0, 0; split; [lia|]; split; [lia|]; cbn; lra|].
  intros u v Hu Hv. assert (u = 0 \/ u = 1) as [-> | ->] by lia; assert (v = 0 \/ v = 1) as [-> | ->] by lia; cbn; lra.
Qed.
Example C124_shift_case : exists r r', shift_micropol o_data 1 0 7%R = Ok r /\ shift_micropol r (-1) 0 7%R = Ok r' /\
  cell r' 0 0 = 5%R /\ cell r' 2 0 = 7%R /\ cell o_data 2 0 = 1%R.
Proof.
  destruct (C124_shift_back o_data 1 0 7%R) as (r & r' & E & E' & _ & V); [repeat split; cbn; lia|].
  exists r, r'. split; [exact E|]. split; [exact E'|]. destruct (V 0 0) as [V1 _]; [cbn; lia..|]. destruct (V 2 0) as [_ V2]; [cbn; lia..|].
  split; [rewrite V1 by (cbn; lia); reflexivity|]. split; [apply V2; left; cbn; lia|reflexivity].
Qed.
