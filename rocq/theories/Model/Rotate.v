(** Image.fromarray(a).rotate(angle) of pillow 10.3.0 (requirements.txt 81) and the way back by np.asarray, as
    micropol_image.py 899-901 and 906-908 use them: no resampling filter, same size, centre of the picture.

    Left out: angles that are no multiples of 90 degrees (a parameter), overflow (pixels of 2^128 and more). *)
From Coq Require Import Reals.
From Flocq Require Import Core.
From Verif Require Import Base.Base Base.Num.
Local Open Scope R_scope.

(** An array of binary64 numbers becomes a picture of mode "F": 24-bit floats, rounded to even. *)
Definition single (v : R) : R := round radix2 (FLT_exp (-149) 24) ZnearestE v.

(** Image.transform with an affine map: every pixel is the one of [p] that contains its position, 0 outside. *)
Definition affine (p : arr R) (src : Z -> Z -> Z * Z) : arr R :=
  mkarr (rows p) (cols p) (fun y x => let (i, j) := src y x in
    if (0 <=? i)%Z && (i <? rows p)%Z && (0 <=? j)%Z && (j <? cols p)%Z then cell p i j else 0).

(** Image.rotate: transposition for 0 and 180 degrees and for 90 and 270 degrees of square pictures, otherwise the
    affine map about (w / 2, h / 2), whose cosine is 0 after rounding to 15 digits.  Positions of pixels are those of
    their centres. *)
Definition pil_rotate (other : R -> arr R -> arr R) (angle : R) (a : arr R) : arr R :=
  let angle := angle - 360 * IZR (Zfloor (angle / 360)) in
  let p := amap single a in
  let h := rows p in
  let w := cols p in
  if Reqb angle 0 then p
  else if Reqb angle 180 then mkarr h w (fun y x => cell p (h - 1 - y) (w - 1 - x))
  else if Reqb angle 90 && (w =? h)%Z then mkarr w h (fun y x => cell p x (w - 1 - y))
  else if Reqb angle 270 && (w =? h)%Z then mkarr w h (fun y x => cell p (h - 1 - x) y)
  else if Reqb angle 90 then affine p (fun y x => ((2 * x + 1 + (h - w)) / 2, (h + w - (2 * y + 1)) / 2)%Z)
  else if Reqb angle 270 then affine p (fun y x => ((h + w - (2 * x + 1)) / 2, (2 * y + 1 + (w - h)) / 2)%Z)
  else other angle p.
