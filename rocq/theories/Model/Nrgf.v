(** Radial filter and occulter search: micropolarray/processing/nrgf.py 106-174 and
    226-360.  Exact real arithmetic. *)
From Coq Require Import Reals.
From Verif Require Import Base.Base Base.Num Model.Roi Model.Codec Spec.SumSpec.

(** np.mean(data, where=mask), np.std(data, where=mask); [None] is NaN (empty mask). *)
Definition masked_sum (mask : arr bool) (f : Z -> Z -> R) : R :=
  rsum2 (rows mask) (cols mask) (fun y x => if cell mask y x then f y x else 0%R).
Definition mean_where (data : arr R) (mask : arr bool) : option R :=
  let n := masked_sum mask (fun _ _ => 1%R) in
  if Reqb n 0 then None else Some (masked_sum mask (cell data) / n)%R.
Definition std_where (data : arr R) (mask : arr bool) : option R :=
  let n := masked_sum mask (fun _ _ => 1%R) in
  match mean_where data mask with
  | None => None
  | Some m => Some (sqrt (masked_sum mask (fun y x => (cell data y x - m) * (cell data y x - m)) / n))%R
  end.

(** np.max; raises on an empty array. *)
Definition amax (a : arr R) : result R :=
  match concat (to_list a) with
  | [] => Raise ValueError
  | v :: l => Ok (fold_left Rmax l v)
  end.

(** nrgf.py 106-174 with explicit centre and [rho_min] (otherwise they come from
    find_occulter_position).  A negative step makes every ring empty; [range] rejects a
    zero step. *)
Definition nrgf_from (polar : Z -> Z -> R -> R -> arr R * arr R) (data : arr R) (y_center x_center : R) (rho_min step : Z)
    (phi_to_mean output_phi : R * R) : result (arr R) :=
  let yc := IZR (rtrunc y_center) in
  let xc := IZR (rtrunc x_center) in
  let newdata := full (rows data) (cols data) 0%R in
  let (rho_coords, phi_coords) := polar (rows data) (cols data) yc xc in
  let mean_phi_condition :=
    amap (fun p => Rleb (fst phi_to_mean) p && Rltb p (snd phi_to_mean)) phi_coords in
  let out_phi_condition :=
    amap (fun p => Rleb (fst output_phi) p && Rltb p (snd output_phi)) phi_coords in
  let* rmax := amax rho_coords in
  let rho_max := rtrunc rmax in
  if step =? 0 then Raise ValueError
  else if step <? 0 then Ok newdata
  else
    for_range rho_min rho_max step (fun r newdata =>
      let rho_condition := amap (fun v => Rltb (IZR r) v && Rleb v (IZR (r + step))) rho_coords in
      let condition := amap2 andb rho_condition out_phi_condition in
      let mean_condition := amap2 andb rho_condition mean_phi_condition in
      let mean_over_ROI := mean_where data mean_condition in
      let std_over_ROI := std_where data mean_condition in
      match mean_over_ROI, std_over_ROI with
      | Some m, Some s =>
          if Rltb 0 s then
            Ok (mkarr (rows data) (cols data) (fun y x =>
                  if cell condition y x then ((cell data y x - m) / s)%R else cell newdata y x))
          else
            Ok (mkarr (rows data) (cols data) (fun y x =>
                  if cell condition y x then 0%R else cell newdata y x))
      | _, _ => (* NaN > 0 is False *)
          Ok (mkarr (rows data) (cols data) (fun y x =>
                if cell condition y x then 0%R else cell newdata y x))
      end) newdata.
Definition nrgf := nrgf_from map_polar_coordinates.

(** ** find_occulter_position(method="algo") *)

(** np.mean(values[:i]) with [0 < i <= len] *)
Definition prefix_mean (values : list R) (i : nat) : R :=
  (fold_right Rplus 0 (firstn i values) / INR i)%R.

(** nrgf.py 303-326: [enumerate] with [break] at the first index above [min_points] whose
    value exceeds [threshold] times the mean of the values before it. *)
Fixpoint first_jump (values rest : list R) (i : nat) (threshold : R) : option nat :=
  match rest with
  | [] => None
  | val :: rest' =>
      if (5 <? i)%nat && Rltb (threshold * prefix_mean values i) val then Some i
      else first_jump values rest' (S i) threshold
  end.

Definition occulter_edge (values : list R) (threshold : R) : option nat :=
  first_jump values values 0 threshold.

(** nrgf.py 244-249: the four half profiles.  [data[half_y, ...]] raises IndexError on
    an image without rows (columns). *)
Definition row_values (data : arr R) (y x0 n : Z) : list R :=
  map (fun i => cell data y (x0 + i)) (zrange n).
Definition col_values (data : arr R) (x y0 n : Z) : list R :=
  map (fun i => cell data (y0 + i) x) (zrange n).

(** nrgf.py 226-360 with method="algo"; any method name other than "sigmoid" and "algo"
    leaves the bounds at 0. *)
Definition find_occulter_algo (data : arr R) (threshold : R) : result (Z * Z * Z) :=
  let half_y := Z.quot (rows data) 2 in
  let half_x := Z.quot (cols data) 2 in
  if negb (0 <? rows data) || negb (0 <? cols data) then Raise IndexError
  else
    let values_x_0 := rev (row_values data half_y 0 half_x) in
    let values_x_1 := row_values data half_y half_x (cols data - half_x) in
    let values_y_0 := rev (col_values data half_x 0 half_y) in
    let values_y_1 := col_values data half_x half_y (rows data - half_y) in
    match occulter_edge values_x_0 threshold, occulter_edge values_x_1 threshold,
          occulter_edge values_y_0 threshold, occulter_edge values_y_1 threshold with
    | Some x0, Some x1, Some y0, Some y1 =>
        let b0 := half_y - Z.of_nat y0 in
        let b1 := half_y + Z.of_nat y1 in
        let b2 := half_x - Z.of_nat x0 in
        let b3 := half_x + Z.of_nat x1 in
        Ok (rtrunc ((IZR b0 + IZR b1) / 2),
            rtrunc ((IZR b2 + IZR b3) / 2),
            rtrunc ((Rabs (IZR b1 - IZR b0) / 2 + Rabs (IZR b3 - IZR b2) / 2) / 2))
    | _, _, _, _ => Raise ValueError
    end.
