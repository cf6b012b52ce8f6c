(** Occulter search by circles and by fits, and the defaults of the radial filter:
    micropolarray/processing/nrgf.py 106-135, 177-223 and 226-360 (method="sigmoid").
    Exact real arithmetic. *)
From Coq Require Import Reals.
From Verif Require Import Base.Base Base.Num Model.Codec Model.Nrgf.

(** ** nrgf.py 177-223 *)

(** cv2 calls: the blurred 8-bit image of a scaled image, and the circles (x, y, r) found in it
    for an accumulator threshold and bounds of the radius.  [None] is Python's None; the result
    is an array of shape (1, n, 3) otherwise. *)
Record opencv (B : Type) : Type := mkopencv {
  blur : arr R -> B;
  circles_of : B -> Z -> Z -> R -> R -> option (list (R * R * R))
}.
Arguments mkopencv {B} blur circles_of.
Arguments blur {B} o.
Arguments circles_of {B} o.

(** 210-224: the loop; the second component is the accumulator. [len(None[0])] raises TypeError,
    which ends the loop. *)
Definition more_than_one (c : option (list (R * R * R))) : bool :=
  match c with Some l => (1 <? length l)%nat | None => false end.
Definition retry (f : Z -> option (list (R * R * R))) (s : option (list (R * R * R)) * Z) :=
  let acc := snd s + 5 in (f acc, acc).

(** [x, y, r = circles[0, 0]; return y, x, r] *)
Definition first_circle (c : option (list (R * R * R))) : result (R * R * R) :=
  match c with
  | None => Raise TypeError
  | Some [] => Raise IndexError
  | Some ((x, y, r) :: _) => Ok (y, x, r)
  end.

Definition find_occulter_hough {B} (cv : opencv B) (fuel : nat) (data : arr R) (minr : R) (maxr : option R)
  : result (R * R * R) :=
  let side := Z.max (rows data) (cols data) in
  let maxr := match maxr with None => IZR side | Some m => m end in
  let* m := amax data in
  let blurred := blur cv (amap (fun v => 255 * v / m)%R data) in
  let f acc := circles_of cv blurred side acc minr maxr in
  let* s := while_loop fuel (fun s => more_than_one (fst s)) (retry f) (f 10, 10) in
  first_circle (fst s).

(** ** nrgf.py 244-295 and 343-360, method="sigmoid" *)

(** [curve_fit(sigmoid, arange(len(values)), values, [max, min, slope, intercept])]: the fitted
    parameters or an exception (no convergence, fewer samples than parameters). *)
Definition sigmoid_fit : Type := list R -> R * R * R * R -> result (R * R * R * R).

Definition lmax (l : list R) : result R :=
  match l with [] => Raise ValueError | v :: l => Ok (fold_left Rmax l v) end.
Definition lmin (l : list R) : result R :=
  match l with [] => Raise ValueError | v :: l => Ok (fold_left Rmin l v) end.

(** 263-287 for one half profile *)
Definition fit_edge (fit : sigmoid_fit) (half_array : list R) : result R :=
  let* mx := lmax half_array in
  let* mn := lmin half_array in
  let* (_, _, _, intercept) := fit half_array (mx, mn, 1 / 2, INR (length half_array) / 2)%R in
  Ok intercept.

(** 343-354 *)
Definition centre_and_radius (b0 b1 b2 b3 : R) : Z * Z * Z :=
  (rtrunc ((b0 + b1) / 2), rtrunc ((b2 + b3) / 2),
   rtrunc ((Rabs (b1 - b0) / 2 + Rabs (b3 - b2) / 2) / 2)).

Definition find_occulter_sigmoid (fit : sigmoid_fit) (data : arr R) : result (Z * Z * Z) :=
  let half_y := Z.quot (rows data) 2 in
  let half_x := Z.quot (cols data) 2 in
  if negb (0 <? rows data) || negb (0 <? cols data) then Raise IndexError
  else
    let values_x_0 := rev (row_values data half_y 0 half_x) in
    let values_x_1 := row_values data half_y half_x (cols data - half_x) in
    let values_y_0 := rev (col_values data half_x 0 half_y) in
    let values_y_1 := col_values data half_x half_y (rows data - half_y) in
    let* p0 := fit_edge fit values_y_0 in
    let* p1 := fit_edge fit values_y_1 in
    let* p2 := fit_edge fit values_x_0 in
    let* p3 := fit_edge fit values_x_1 in
    Ok (centre_and_radius (IZR half_y - p0) (IZR half_y + p1) (IZR half_x - p2) (IZR half_x + p3)).

(** nrgf.py 106-135: optional arguments *)
Definition nrgf_call (fit : sigmoid_fit) (data : arr R) (y_center x_center : option R) (rho_min : option Z)
    (step : Z) (phi_to_mean output_phi : R * R) : result (arr R) :=
  match y_center, x_center, rho_min with
  | Some y, Some x, Some r => nrgf data y x r step phi_to_mean output_phi
  | _, _, _ =>
      let* (y, x, r) := find_occulter_sigmoid fit data in
      nrgf data (IZR y) (IZR x) r step phi_to_mean output_phi
  end.
