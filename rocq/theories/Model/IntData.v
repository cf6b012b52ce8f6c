(** Images of integers: MicropolImage keeps the data type of the array it is made from
    (image.py 34, [np.array(input_data)]). *)
From Coq Require Import Reals.
From Verif Require Import Base.Base Base.Num Base.Bcast Model.Stokes Model.Codec Model.Ifov.

(** A numpy integer type, for instance uint16 or int16. *)
Record itype : Type := mkitype { bits : Z; is_signed : bool }.
Definition uint16 : itype := mkitype 16 false.

(** What an integer of the type keeps of a result: the low bits. *)
Definition least (t : itype) : Z := if is_signed t then - 2 ^ (bits t - 1) else 0.
Definition wrap (t : itype) (z : Z) : Z := (z - least t) mod 2 ^ bits t + least t.

Inductive operator : Type := Plus | Minus | Times.
Definition exact_op (op : operator) : Z -> Z -> Z :=
  match op with Plus => Z.add | Minus => Z.sub | Times => Z.mul end.

(** Data of [image op image], micropol_image.py 1002-1064, for two images of the same type. *)
Definition image_op (t : itype) (op : operator) (d1 d2 : arr Z) : result (arr Z) :=
  bmap2 (fun a b => wrap t (exact_op op a b)) d1 d2.

(** micropol_image.py 266-282 for integer data: split_polarizations (demosaic.py 89-98) converts to float.
    Integers of 53 bits and more would be rounded. *)
Definition int_stokes (dic : angle_dic) (d : arr Z) : result (stokes R) := data_stokes dic (amap IZR d).

(** Assignment of a float to an element of an integer array: truncated; [oor] where the truncated number does not
    fit. *)
Definition fits_type (t : itype) (z : Z) : bool := (least t <=? z) && (z <? least t + 2 ^ bits t).
Definition assign (t : itype) (oor : R -> Z) (v : R) : R :=
  IZR (if fits_type t (rtrunc v) then rtrunc v else oor v).

(** chen_wan_liang_calibration.py 260-305 for integer data ([np.zeros_like(data)], 274). *)
Definition chen_calibration_int (t : itype) (oor : R -> Z) (C : Z -> Z -> arr R) (dij : arr R) (data : arr Z)
  : result (arr R) :=
  chen_calibration_with (assign t oor) C dij (amap IZR data).
