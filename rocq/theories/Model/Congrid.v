(** Resampling to an arbitrary size: micropolarray/processing/congrid.py 32-72 and
    micropolarray/micropol_image.py 862-892. *)
From Coq Require Import Reals.
From Verif Require Import Base.Base Base.Num Model.Demosaic Model.Stokes.

Section Congrid.
  Context {A : Type} `{Num A}.

  (** numpy.searchsorted([0., 1., ..., n-1.], v), side="left": how many are below [v]. *)
  Definition searchsorted (n : Z) (v : A) : Z :=
    Z.of_nat (length (filter (fun i => nltb (nofZ i) v) (zrange n))).

  (** scipy.interpolate.interp1d(arange(n), y, kind="linear", fill_value="extrapolate")(v), as in
      scipy 1.13 (interp1d._call_linear); [n >= 2]. *)
  Definition interp1d (n : Z) (y : Z -> A) (v : A) : A :=
    let i := searchsorted n v in
    let i := Z.min (Z.max i 1) (n - 1) in
    let lo := i - 1 in
    let hi := i in
    let slope := (y hi -! y lo) /! (nofZ hi -! nofZ lo) in
    slope *! (v -! nofZ lo) +! y lo.

  (** 51-53: [(old - 1) / (new - 1) * base] *)
  Definition position (old new k : Z) : A := (nofZ (old - 1) /! nofZ (new - 1)) *! nofZ k.

  (** 32-72 for a two-dimensional array with sides of at least 2 and new sides of at least 2
      (a new side of 1 divides by zero). *)
  Definition congrid (a : arr A) (newy newx : Z) : arr A :=
    let newa := mkarr (rows a) newx (fun y k => interp1d (cols a) (fun x => cell a y x) (position (cols a) newx k)) in
    let newa := mkarr newx (rows a) (fun x y => cell newa y x) in
    let newa := mkarr newx newy (fun x k => interp1d (rows a) (fun y => cell newa x y) (position (rows a) newy k)) in
    mkarr newy newx (fun y x => cell newa x y).

  (** micropol_image.py 872-881: down to the next even number *)
  Definition trim (n : Z) : Z := n - n mod 2.

  (** micropol_image.py 862-892: the data and Stokes vector of the new image *)
  Definition image_congrid (data : arr A) (S : stokes A) (newdim_y newdim_x : Z) : result (arr A * stokes A) :=
    let newdim_y := trim newdim_y in
    let newdim_x := trim newdim_x in
    let* subs := split_polarizations data in
    let subs := quad_map (fun a => congrid a (newdim_y / 2) (newdim_x / 2)) subs in
    let c a := congrid a newdim_y newdim_x in
    Ok (merge_polarizations subs, mkstokes (c (sI S)) (c (sQ S)) (c (sU S))).
End Congrid.
