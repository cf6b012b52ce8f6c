(** Property C102: masking the occulter of image objects, raw, demosaiced and copied. *)
From Coq Require Import Reals Lra.
From Verif Require Import Base.Base Base.Num Model.Demosaic Model.Stokes Model.Roi Model.ImageObj Spec.MosaicSpec
  Spec.PixelSpec Spec.CodecSpec Spec.RoiSpec Spec.StokesSpec Spec.ImageSpec Proofs.ObjWitness Proofs.MaskObj.

(** ** C102.  Full statement: after mask_occulter the data, the demosaiced images and the Stokes
    vector of the image are masked in one and the same place, and no other image changes.  It
    holds for the image itself while it is not demosaiced, ... *)
Theorem C102_raw_partial hist h i v W y0 x0 r over fill :
  reached hist h -> view_of h i = Some v -> v_demosaiced v = false ->
  exists h' u, exec W (MaskOcculter i y0 x0 r over fill) h = (h', Ok None) /\ view_of h' i = Some u /\
    mask_raw (v_data v) (v_vector v) y0 x0 r over fill = Ok (v_data u, v_vector u) /\
    v_demosaiced u = false /\ v_dic u = v_dic v /\ header_fits u.
Proof. exact (c102_raw hist h i v W y0 x0 r over fill). Qed.
Print Assumptions C102_raw_partial.

Theorem C102_shows_partial hist h i v W y0 x0 r over :
  reached hist h -> view_of h i = Some v -> v_demosaiced v = false -> shows_its_data v ->
  exists h' u, exec W (MaskOcculter i y0 x0 r over 0%R) h = (h', Ok None) /\ view_of h' i = Some u /\
    v_demosaiced u = false /\ shows_its_data u.
Proof. exact (c102_shows hist h i v W y0 x0 r over). Qed.
Print Assumptions C102_shows_partial.

(** ... and for every other image whose Stokes vector is not the same array; the other parts of
    every other image stay as they were. *)
Theorem C102_others_partial hist h i j u v W y0 x0 r over fill h' res :
  reached hist h -> i <> j -> view_of h i = Some u -> view_of h j = Some v -> header_fits u ->
  exec W (MaskOcculter i y0 x0 r over fill) h = (h', res) ->
  view_of h' j = Some v \/
  (v_vector v = v_vector u /\
   exists w, view_of h' i = Some w /\ view_of h' j = Some (with_vector v (v_vector w))).
Proof. exact (c102_others hist h i j u v W y0 x0 r over fill h' res). Qed.
Print Assumptions C102_others_partial.

(** Masking a copy masks the Stokes vector of the original, not its data. *)
Theorem C102_copy_refuted hist h i v W W' y0 x0 r over fill :
  reached hist h -> view_of h i = Some v -> v_demosaiced v = false ->
  exists h1 k h2 u w,
    exec W (CopyOf i None None None) h = (h1, Ok (Some k)) /\ k <> i /\ view_of h1 k = Some v /\
    exec W' (MaskOcculter k y0 x0 r over fill) h1 = (h2, Ok None) /\
    view_of h2 i = Some u /\ view_of h2 k = Some w /\ v_data u = v_data v /\
    mask_raw (v_data v) (v_vector v) y0 x0 r over fill = Ok (v_data w, v_vector u).
Proof. exact (c102_copy hist h i v W W' y0 x0 r over fill). Qed.
Print Assumptions C102_copy_refuted.

(** What is masked of a demosaiced image: whole superpixels of the data and of the demosaiced
    images, single pixels of the Stokes vector. *)
Theorem C102_demosaiced_partial hist h i v q W y0 x0 r over fill :
  reached hist h -> view_of h i = Some v -> v_demosaiced v = true -> v_quad v = Some q ->
  0 <= y0 < rows (v_data v) -> 0 <= x0 < cols (v_data v) ->
  (forall k, 0 <= k < 4 -> same_shape (qnth q k) (v_data v)) ->
  same_shape (sI (v_vector v)) (v_data v) -> same_shape (sQ (v_vector v)) (v_data v) ->
  same_shape (sU (v_vector v)) (v_data v) ->
  exists h' u q', exec W (MaskOcculter i y0 x0 r over fill) h = (h', Ok None) /\
    view_of h' i = Some u /\ v_demosaiced u = true /\ v_quad u = Some q' /\
    (let beyond y x := Rlt_dec (IZR (Z.quot (r + over) 2)) (dist (y / 2) (x / 2) (y0 / 2) (x0 / 2)) in
     holds (v_data u) (v_data v) (fun y x => if beyond y x then cell (v_data v) y x else fill) /\
     forall k, 0 <= k < 4 -> holds (qnth q' k) (qnth q k) (fun y x => if beyond y x then cell (qnth q k) y x else fill)) /\
    (let beyond y x := Rlt_dec (IZR (r + over)) (dist y x y0 x0) in
     stokes_is (v_vector u) (rows (v_data v)) (cols (v_data v))
       (fun y x => if beyond y x then cell (sI (v_vector v)) y x else fill)
       (fun y x => if beyond y x then cell (sQ (v_vector v)) y x else fill)
       (fun y x => if beyond y x then cell (sU (v_vector v)) y x else fill)).
Proof. exact (c102_demosaiced hist h i v q W y0 x0 r over fill). Qed.
Print Assumptions C102_demosaiced_partial.

(** A demosaiced image that is masked with a radius of one pixel: at pixel (1, 1) the data and all
    four demosaiced images are dark, the intensity of the Stokes vector is not. *)
Theorem C102_demosaiced_refuted :
  exists h u q, reached (after_calls [Create (ones 4 4) None None None; DemosaicImage 0 "adjacent";
                                      MaskOcculter 0 0 0 1 0 0%R]) h /\
    view_of h 0 = Some u /\ v_demosaiced u = true /\ v_quad u = Some q /\
    (cell (v_data u) 1 1 = 0 /\ (forall k, (0 <= k < 4)%Z -> cell (qnth q k) 1 1 = 0) /\
     cell (sI (v_vector u)) 1 1 = 2)%R.
Proof. exact c102_dark. Qed.
Print Assumptions C102_demosaiced_refuted.

(** Such images: one that shows its data, masked in a copy. *)
Example C102_case :
  let calls := [Create (ones 4 4) None None None] in
  let hist := after_calls calls in
  let h := run_history hist empty_heap in
  reached hist h /\
  (exists v, view_of h 0 = Some v /\ v_demosaiced v = false /\ header_fits v /\ shows_its_data v) /\
  exists h2 u, run_history (after_calls [CopyOf 0 None None None; MaskOcculter 1 0 0 1 0 0%R]) h = h2 /\
    view_of h2 0 = Some u /\ (cell (v_data u) 0 0 = 1 /\ cell (sI (v_vector u)) 0 0 = 0)%R.
Proof. exact c102_case. Qed.
