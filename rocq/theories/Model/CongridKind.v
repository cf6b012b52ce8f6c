(** Resampling without interpolation: micropolarray/processing/congrid.py 32-72 with [kind] "nearest", "nearest-up",
    "previous" or "next", in binary64.  The picking of samples is that of scipy.interpolate.interp1d (scipy 1.13:
    _call_nearest, _call_previousnext and the filling of values outside, with fill_value="extrapolate"). *)
From Coq Require Import Floats.SpecFloat.
From Verif Require Import Base.Base Base.Num Model.Congrid.

Inductive kind : Type := Nearest | NearestUp | Previous | Next.

(** numpy.searchsorted of [v] in [b 0, ..., b (n - 1)] with side="left" and with side="right" *)
Definition search_left (n : Z) (b : Z -> b64) (v : b64) : Z := Z.of_nat (length (filter (fun i => nltb (b i) v) (zrange n))).
Definition search_right (n : Z) (b : Z -> b64) (v : b64) : Z := Z.of_nat (length (filter (fun i => nleb (b i) v) (zrange n))).
Definition clip (v lo hi : Z) : Z := Z.min (Z.max v lo) hi.
(** x[1:] / 2.0 + x[:-1] / 2.0 *)
Definition half_way (i : Z) : b64 := (nofZ (i + 1) /! nofZ 2) +! (nofZ i /! nofZ 2).

(** The sample of [0, 1, ..., n - 1] that stands for the position [v]; [None] is NaN.
    "previous" searches [v] among np.nextafter(x, -inf) with side="left": a binary64 number exceeds the
    predecessor of i when it is not below i.  "next" searches it among np.nextafter(x, inf) with side="right". *)
Definition pick (k : kind) (n : Z) (v : b64) : option Z :=
  match k with
  | Nearest => Some (clip (search_left (n - 1) half_way v) 0 (n - 1))
  | NearestUp => Some (clip (search_right (n - 1) half_way v) 0 (n - 1))
  | Previous =>
      if nltb v (nofZ 0) then None else if nltb (nofZ (n - 1)) v then Some (n - 1)
      else Some (clip (search_right n nofZ v) 1 n - 1)
  | Next =>
      if nltb v (nofZ 0) then Some 0 else if nltb (nofZ (n - 1)) v then None
      else Some (clip (search_left n nofZ v) 0 (n - 1))
  end.
Definition picked (k : kind) (n : Z) (y : Z -> b64) (v : b64) : b64 :=
  match pick k n v with Some i => y i | None => S754_nan end.

(** congrid.py 32-72 *)
Definition congrid_kind (k : kind) (a : arr b64) (newy newx : Z) : arr b64 :=
  let newa := mkarr (rows a) newx (fun y i => picked k (cols a) (fun x => cell a y x) (position (cols a) newx i)) in
  let newa := mkarr newx (rows a) (fun x y => cell newa y x) in
  let newa := mkarr newx newy (fun x i => picked k (rows a) (fun y => cell newa x y) (position (rows a) newy i)) in
  mkarr newy newx (fun y x => cell newa x y).
