(** Polar regions of interest: micropolarray/processing/nrgf.py 13-103, the camera
    masks of micropolarray/cameras.py 8-110 and MicropolImage.mask_occulter
    (micropolarray/micropol_image.py 915-961).

    Geometry is in exact real arithmetic; the [lru_cache] on map_polar_coordinates is
    modelled in Model/Cache.v. *)
From Coq Require Import Reals.
From Verif Require Import Base.Base Base.Num Base.Bcast Model.Pol Model.Codec Model.Stokes.

(** [x % 360] on floats *)
Definition fmod360 (v : R) : R := (v - 360 * IZR (Int_part (v / 360)))%R.

(** nrgf.py 92-103: distance and angle (degrees, [0, 360)) of pixel (y, x) *)
Definition rho_at (yc xc : R) (y x : Z) : R :=
  sqrt ((IZR x - xc) * (IZR x - xc) + (IZR y - yc) * (IZR y - yc))%R.
Definition phi_at (yc xc : R) (y x : Z) : R :=
  fmod360 (atan2 (IZR y - yc) (IZR x - xc) * 180 / PI + 360)%R.

Definition map_polar_coordinates (height width : Z) (yc xc : R) : arr R * arr R :=
  (mkarr height width (rho_at yc xc), mkarr height width (phi_at yc xc)).

(** [cond.repeat(2, axis=0).repeat(2, axis=1)] *)
Definition repeat2 {A} (a : arr A) : arr A :=
  mkarr (2 * rows a) (2 * cols a) (fun y x => cell a (y / 2) (x / 2)).

(** [int(v / 2)] of a number *)
Definition int_half (v : R) : R := IZR (rtrunc (v / 2)).

(** nrgf.py 36-75: the boolean selection.  [rho_min, rho_max = rho] comes before the
    test [rho is None], so [None] fails to unpack. *)
Definition roi_condition_from {A} (polar : Z -> Z -> R -> R -> arr R * arr R) (data : arr A) (center rho : option (R * R)) (theta : R * R)
    (include_superpixels : bool) : result (arr bool) :=
  let height := rows data in
  let width := cols data in
  let (theta_min, theta_max) := theta in
  match rho with
  | None => Raise TypeError
  | Some (rho_min, rho_max) =>
      let (yc, xc) := match center with
                      | None => (IZR (Z.quot height 2), IZR (Z.quot width 2))
                      | Some c => c
                      end in
      let '(height, width, rho_min, rho_max, yc, xc) :=
        if include_superpixels
        then (Z.quot height 2, Z.quot width 2, int_half rho_min, int_half rho_max,
              int_half yc, int_half xc)
        else (height, width, rho_min, rho_max, yc, xc) in
      let (rho_coords, phi_coords) := polar height width yc xc in
      let theta_condition := amap (fun p => Rleb theta_min p && Rltb p theta_max) phi_coords in
      let rho_condition := amap (fun r => Rltb rho_min r && Rleb r rho_max) rho_coords in
      let condition := amap2 andb rho_condition theta_condition in
      Ok (if include_superpixels then repeat2 condition else condition)
  end.
Definition roi_condition {A} := @roi_condition_from A map_polar_coordinates.

(** nrgf.py 13-81 with return_boolean=True *)
Definition roi_boolean {A} (data : arr A) center rho theta incl : result (arr bool) :=
  roi_condition data center rho theta incl.

(** nrgf.py 13-81 with return_boolean=False *)
Definition roi_from_polar {A} (data : arr A) center rho theta (fill : A) incl : result (arr A) :=
  let* condition := roi_condition data center rho theta incl in
  where_fill condition data fill.

Definition full_circle : R * R := (0%R, 360%R).

(** ** Cameras *)

(** cameras.py: the attributes used by the mask methods; [None] = attribute not set
    (class Kasi does not define occulter_pos_last). *)
Record camera : Type := mkcamera {
  h_image : Z; w_image : Z; occulter_pos_last : option (Z * Z * Z)
}.
Definition PolarCam : camera := mkcamera 1952 1952 (Some (919, 941, 536)).
Definition Kasi : camera := mkcamera 3000 4096 None.

(** cameras.py 12-28 *)
Definition occulter_roi {A} (c : camera) (data : arr A) (fill : A) (overoccult : Z)
    : result (arr A) :=
  match occulter_pos_last c with
  | None => Raise AttributeError
  | Some (y, x, r) =>
      roi_from_polar data (Some (IZR y, IZR x)) (Some (IZR (r + overoccult), 5000%R))
        full_circle fill true
  end.

(** cameras.py 30-52 *)
Definition occulter_mask (c : camera) (overoccult : Z) (rmax : option Z) : result (arr bool) :=
  match occulter_pos_last c with
  | None => Raise AttributeError
  | Some (y, x, r) =>
      let r := r + overoccult in
      let rmax := match rmax with None => Z.min y x | Some v => v end in
      let* roi := roi_from_polar (full (h_image c) (w_image c) 1%R)
                    (Some (IZR y, IZR x)) (Some (IZR r, IZR rmax)) full_circle 0%R true in
      Ok (amap (fun v => if negb (Reqb v 0) then true else false) roi)
  end.

(** ** micropol_image.py 915-961 on a raw (not demosaiced) image: data and Stokes vector.
    [self.Stokes_vec[i] = ...] stores a component of unchanged shape. *)
Definition mask_raw (data : arr R) (s : stokes R) (y x r overoccult : Z) (fill : R)
    : result (arr R * stokes R) :=
  let r := r + overoccult in
  let* data' := roi_from_polar data (Some (IZR y, IZR x))
                  (Some (IZR r, IZR (2 * Z.max (rows data) (cols data)))) full_circle fill true in
  let y := Z.quot y 2 in
  let x := Z.quot x 2 in
  let r := Z.quot r 2 in
  let mask_component c :=
    roi_from_polar c (Some (IZR y, IZR x))
      (Some (IZR r, IZR (2 * Z.max (rows c) (cols c)))) full_circle fill false in
  let* i := mask_component (sI s) in
  let* q := mask_component (sQ s) in
  let* u := mask_component (sU s) in
  Ok (data', mkstokes i q u).
