(** micropolarray/utils.py 49-52 (sigma_DN), 64-117 (limits for plots) and 219-248
    (get_Bsun_units).  Real numbers; [None] is the NaN of an empty array. *)
From Coq Require Import Reals.
From Verif Require Import Base.Base Base.Num Model.Histogram Model.Cleaning.
Local Open Scope R_scope.

(** 49-52 *)
Definition gain : R := 693 / 100.
Definition sigma_DN (pix_DN : R) : R := sqrt (gain * pix_DN) / gain.

(** [np.mean], [np.std] of all values *)
Definition array_mean (a : arr R) : option R :=
  match pixels a with [] => None | l => Some (mean l) end.
Definition array_std (a : arr R) : option R :=
  match pixels a with [] => None | l => Some (sqrt (var l)) end.

Definition lift2 (f : R -> R -> R) (u v : option R) : option R :=
  match u, v with Some u, Some v => Some (f u v) | _, _ => None end.

(** 64-74, 77-87 *)
Definition mean_minus_std (data : arr R) (stds_n : R) : option R :=
  lift2 (fun m s => m - stds_n * s) (array_mean data) (array_std data).
Definition mean_plus_std (data : arr R) (stds_n : R) : option R :=
  lift2 (fun m s => m + stds_n * s) (array_mean data) (array_std data).

(** 90-102, 105-117 *)
Definition median_std (data : arr R) : option R :=
  match median (pixels data) with
  | None => None
  | Some m => median (pixels (amap (fun v => Rabs (v - m)) data))
  end.
Definition median_minus_std (data : arr R) (stds_n : R) : option R :=
  lift2 (fun m s => m - stds_n * s) (median (pixels data)) (median_std data).
Definition median_plus_std (data : arr R) (stds_n : R) : option R :=
  lift2 (fun m s => m + stds_n * s) (median (pixels data)) (median_std data).

(** Division of Python floats *)
Definition pydiv (a b : R) : result R := if Reqb b 0 then Raise ZeroDivisionError else Ok (a / b).

(** 219-248; the first assignment of Bsun_unit is overwritten but evaluated. *)
Definition get_Bsun_units (diffuser_I texp_image texp_diffuser : R) : result R :=
  let diffusion_solid_angle := 1083 / 1000 * (1 / 100000) in
  let diffuser_transmittancy := 28 / 100 in
  let* _ := pydiv (diffusion_solid_angle * diffuser_transmittancy * texp_diffuser) texp_image in
  let* a := pydiv 1 texp_image in
  let* b := pydiv diffuser_I texp_diffuser in
  pydiv (a * diffuser_transmittancy * diffusion_solid_angle) b.
