(** What the calibration of a superpixel must be, and when two results are the same. *)
From Coq Require Import Reals.
From Verif Require Import Base.Base Model.DemodFit.

(** Pixel k (row by row) of superpixel (Y, X) *)
Definition pixel_of {A} (a : arr A) (Y X k : Z) : A := cell a (2 * Y + k / 2) (2 * X + k mod 2).

(** Sample and error of pixel k of superpixel (Y, X) in every image of the series; an error
    of exactly zero stands for 1e-5. *)
Definition series (c : chunk) (Y X k : Z) : list R :=
  map (fun image => image (2 * Y + k / 2) (2 * X + k mod 2)) (c_data c).
Definition errors (c : chunk) (Y X k : Z) : list R :=
  map (fun image => let e := image (2 * Y + k / 2) (2 * X + k mod 2) in
                    if Req_EM_T e 0 then (1 / 100000)%R else e) (c_err c).

Definition occulted (c : chunk) (Y X : Z) : Prop :=
  exists k, 0 <= k < 4 /\ pixel_of (c_occ c) Y X k <> 0%R.
Definition dark (samples : list R) : Prop := Forall (fun v => v = 0%R) samples.

(** Expected throughput, efficiency and phase of pixel k, and the intervals they are searched
    in: the ones given (value, lowest, highest) or 0.5 in [0.1, 1 - 1e-6]; the phase within 15
    degrees. *)
Definition expected (b : option param3) : param3 :=
  match b with Some b => b | None => (1/2, 1/10, 1 - 1/1000000)%R end.
Definition first_guess (S : settings) (k : Z) : param3 :=
  (p_t (expected (tk_boundary S)), p_t (expected (eff_boundary S)), f4 (phases S) k).
Definition search_box (S : settings) (k : Z) : param3 * param3 :=
  let t := expected (tk_boundary S) in
  let e := expected (eff_boundary S) in
  ((p_e t, p_e e, f4 (phases S) k - 15 * (PI / 180)),
   (p_phi t, p_phi e, f4 (phases S) k + 15 * (PI / 180)))%R.

(** The fit of pixel k of superpixel (Y, X) gives parameters [p] and covariance [v]. *)
Definition fit_gives (S : settings) (c : chunk) (Y X k : Z) (p : param3) (v : mat33) : Prop :=
  ~ dark (series c Y X k) /\
  curve_fit S (angles_rad S) (series c Y X k) (first_guess S k) (errors c Y X k) (search_box S k)
  = Some (p, v).

Definition no_fit (S : settings) (c : chunk) (Y X : Z) : Prop :=
  occulted c Y X \/ exists k, 0 <= k < 4 /\ forall p v, ~ fit_gives S c Y X k p v.

(** Entry (i, k) of a demodulation matrix *)
Definition entry34 (m : mat34) (i k : Z) : R :=
  let '(r0, r1, r2) := m in f4 (if i =? 0 then r0 else if i =? 1 then r1 else r2) k.
Definition within_100 (m : mat34) : Prop :=
  forall i k, 0 <= i < 3 -> 0 <= k < 4 -> (-100 <= entry34 m i k <= 100)%R.

(** Modulation by polarizers of throughput t, efficiency e and orientation phi, and the one
    by ideal polarizers at the expected orientations *)
Definition row_of (p : param3) : R * R * R :=
  (1/2 * p_t p, 1/2 * p_t p * p_e p * cos (2 * p_phi p), 1/2 * p_t p * p_e p * sin (2 * p_phi p))%R.
Definition matrix_of (S : settings) (p0 p1 p2 p3 : param3) : mat34 :=
  pinv S (mkfour (row_of p0) (row_of p1) (row_of p2) (row_of p3)).
Definition theoretical (S : settings) : mat34 :=
  let ideal phi := (1/2, 1/2 * cos (2 * phi), 1/2 * sin (2 * phi))%R in
  let a := phases S in
  pinv S (mkfour (ideal (f_0 a)) (ideal (f_1 a)) (ideal (f_2 a)) (ideal (f_3 a))).

(** Sum of the squared residuals over the errors, divided by the degrees of freedom: number
    of images, less phase and one more, less the parameters that were not given. *)
Definition free (b : option param3) : Z := match b with None => 1 | Some _ => 0 end.
Definition reduced_chisq (S : settings) (p : param3) (samples sigma : list R) : R :=
  let residual x v := (1/2 * p_t p * (p_e p * cos (2 * x - 2 * p_phi p) + 1) - v)%R in
  let fix total xs vs ss : R :=
    match xs, vs, ss with
    | x :: xs', v :: vs', s :: ss' => (residual x v * residual x v / s + total xs' vs' ss')%R
    | _, _, _ => 0%R
    end in
  (total (angles_rad S) samples sigma /
   IZR (Z.of_nat (length (angles_rad S)) - 2 - free (tk_boundary S) - free (eff_boundary S)))%R.

(** The result [o] at superpixel (Y, X) of the series [c]. *)
Definition calibrated (S : settings) (c : chunk) (o : maps) (Y X : Z) : Prop :=
  (no_fit S c Y X /\
   cell (o_m o) Y X = theoretical S /\ cell (o_found o) Y X = 0%R /\
   forall k, 0 <= k < 4 ->
     pixel_of (o_tk o) Y X k = p_t (expected (tk_boundary S)) /\
     pixel_of (o_eff o) Y X k = p_t (expected (eff_boundary S)) /\
     pixel_of (o_phase o) Y X k = f4 (phases S) k /\
     pixel_of (o_cov o) Y X k = (fun _ _ => 0%R) /\
     pixel_of (o_chisq o) Y X k = 0%R)
  \/
  (~ occulted c Y X /\
   exists p0 p1 p2 p3 v,
     let p := mkfour p0 p1 p2 p3 in
     (forall k, 0 <= k < 4 -> fit_gives S c Y X k (f4 p k) (f4 v k)) /\
     let m := matrix_of S p0 p1 p2 p3 in
     ((within_100 m /\ cell (o_m o) Y X = m /\ cell (o_found o) Y X = 1%R) \/
      (~ within_100 m /\ cell (o_m o) Y X = theoretical S /\ cell (o_found o) Y X = 0%R)) /\
     forall k, 0 <= k < 4 ->
       pixel_of (o_tk o) Y X k = p_t (f4 p k) /\
       pixel_of (o_eff o) Y X k = p_e (f4 p k) /\
       pixel_of (o_phase o) Y X k = p_phi (f4 p k) /\
       pixel_of (o_cov o) Y X k = f4 v k /\
       pixel_of (o_chisq o) Y X k = reduced_chisq S (f4 p k) (series c Y X k) (errors c Y X k)).

(** All the maps have one value for each of the h x w superpixels, or one for each pixel. *)
Definition maps_shape (o : maps) (h w : Z) : Prop :=
  (rows (o_m o) = h /\ cols (o_m o) = w) /\ (rows (o_found o) = h /\ cols (o_found o) = w) /\
  (rows (o_tk o) = 2 * h /\ cols (o_tk o) = 2 * w) /\
  (rows (o_eff o) = 2 * h /\ cols (o_eff o) = 2 * w) /\
  (rows (o_phase o) = 2 * h /\ cols (o_phase o) = 2 * w) /\
  (rows (o_cov o) = 2 * h /\ cols (o_cov o) = 2 * w) /\
  (rows (o_chisq o) = 2 * h /\ cols (o_chisq o) = 2 * w).

(** Superpixel (Y, X) of [o] and superpixel (Y', X') of [o'] hold the same calibration. *)
Definition same_superpixel (o : maps) (Y X : Z) (o' : maps) (Y' X' : Z) : Prop :=
  cell (o_m o) Y X = cell (o_m o') Y' X' /\ cell (o_found o) Y X = cell (o_found o') Y' X' /\
  forall k, 0 <= k < 4 ->
    pixel_of (o_tk o) Y X k = pixel_of (o_tk o') Y' X' k /\
    pixel_of (o_eff o) Y X k = pixel_of (o_eff o') Y' X' k /\
    pixel_of (o_phase o) Y X k = pixel_of (o_phase o') Y' X' k /\
    pixel_of (o_cov o) Y X k = pixel_of (o_cov o') Y' X' k /\
    pixel_of (o_chisq o) Y X k = pixel_of (o_chisq o') Y' X' k.

(** The series of [c] at (Y, X) and of [c'] at (Y', X') are the same. *)
Definition same_input (c : chunk) (Y X : Z) (c' : chunk) (Y' X' : Z) : Prop :=
  forall k, 0 <= k < 4 ->
    series c Y X k = series c' Y' X' k /\ errors c Y X k = errors c' Y' X' k /\
    pixel_of (c_occ c) Y X k = pixel_of (c_occ c') Y' X' k.

(** A series of images of 2h x 2w pixels *)
Definition series_shape (c : chunk) (h w : Z) : Prop :=
  c_h c = 2 * h /\ c_w c = 2 * w /\ rows (c_occ c) = 2 * h /\ cols (c_occ c) = 2 * w /\
  0 <= h /\ 0 <= w.

(** Entry (k, i) of a modulation matrix *)
Definition entry43 (m : mat43) (k i : Z) : R :=
  let '(a, b, c) := f4 m k in if i =? 0 then a else if i =? 1 then b else c.

(** The modulation matrix of four micropolarizers *)
Definition modulation_of (p : four param3) : mat43 :=
  mkfour (row_of (f_0 p)) (row_of (f_1 p)) (row_of (f_2 p)) (row_of (f_3 p)).
