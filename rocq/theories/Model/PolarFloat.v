(** Polar regions of interest in binary64: micropolarray/processing/nrgf.py 36-81 and 92-103 with whole numbers for the
    centre and the radii (as every caller in the package passes them) and binary64 numbers for the angles.
    [arctan2] is np.arctan2.  The sum of squares under the root is a whole number (Model/NrgfFloat.v, [distance]). *)
From Verif Require Import Base.Base Base.Num Base.Bcast Model.Codec Model.AnglesFloat Model.NrgfFloat Model.Roi.

Section Polar.
  Variable arctan2 : b64 -> b64 -> b64.

  (** nrgf.py 100-102 before [% 360] *)
  Definition turned (dy dx : Z) : b64 := ((arctan2 (nofZ dy) (nofZ dx) *! nofZ 180) /! pi64) +! nofZ 360.
  (** [v % 360] for 0 <= v < 720 (np.remainder is exact there); C143_angle shows that [turned] lies in this range *)
  Definition remainder360 (v : b64) : b64 := if nltb v (nofZ 360) then v else v -! nofZ 360.
  Definition phi64 (cy cx y x : Z) : b64 := remainder360 (turned (y - cy) (x - cx)).

  (** nrgf.py 66-71 *)
  Definition selected (cy cx r1 r2 : Z) (t1 t2 : b64) (y x : Z) : bool :=
    let rho : b64 := distance cy cx y x in
    (nltb (nofZ r1) rho && nleb rho (nofZ r2)) &&
    (nleb t1 (phi64 cy cx y x) && nltb (phi64 cy cx y x) t2).

  (** nrgf.py 36-75: [int(v / 2)] of a whole number is [Z.quot v 2] *)
  Definition roi_boolean64 {A} (data : arr A) (center : option (Z * Z)) (r1 r2 : Z) (t1 t2 : b64) (incl : bool) : arr bool :=
    let (cy, cx) := match center with None => (Z.quot (rows data) 2, Z.quot (cols data) 2) | Some c => c end in
    if incl then repeat2 (mkarr (Z.quot (rows data) 2) (Z.quot (cols data) 2)
      (selected (Z.quot cy 2) (Z.quot cx 2) (Z.quot r1 2) (Z.quot r2 2) t1 t2))
    else mkarr (rows data) (cols data) (selected cy cx r1 r2 t1 t2).
  (** nrgf.py 77-81 *)
  Definition roi64 {A} (data : arr A) center r1 r2 t1 t2 (fill : A) incl : result (arr A) :=
    where_fill (roi_boolean64 data center r1 r2 t1 t2 incl) data fill.
End Polar.
