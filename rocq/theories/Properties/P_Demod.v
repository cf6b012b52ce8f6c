(** Properties C24-C34, C74 and C75: demodulation, saved tensors and calibration. *)
From Coq Require Import Reals Lra Permutation QArith.
From Verif Require Import Base.Base Base.Num Model.Stokes Model.Demodulate Model.DemodFit Model.DemodLoad
  Model.Calibrate Spec.Terminates Spec.SumSpec Spec.MosaicSpec Spec.StokesSpec Spec.AngleSpec Spec.RoiSpec
  Spec.DemodSpec Spec.FitSpec Spec.LoadSpec Spec.CalibSpec
  Proofs.DemodFacts Proofs.GridFacts Proofs.InvertFacts Proofs.LoadFacts Proofs.FamilyFacts
  Proofs.CalibFacts.
Local Open Scope Z_scope.

(** ** C24 *)
Theorem C24_product {A} `{Num A} (d : demodulator A) (data : arr A) old h w :
  mosaic data -> h = rows data / 2 -> w = cols data / 2 ->
  t_rows (mij d) = h -> t_cols (mij d) = w ->
  (forall f, fit_found_flags d = Some f ->
     (rows f = h /\ cols f = w) /\ (rows (sI old) = h /\ cols (sI old) = w) /\
     (rows (sQ old) = h /\ cols (sQ old) = w) /\ (rows (sU old) = h /\ cols (sU old) = w)) ->
  exists s, demod_raw d data old = Ok s /\
    let found Y X := match fit_found_flags d with None => true | Some f => neqb (cell f Y X) n1 end in
    let product i Y X := row_product (fun i j => t_cell (mij d) i j Y X) (fun k => sample data k Y X) i in
    stokes_is s h w
      (fun Y X => if found Y X then product 0 Y X else cell (sI old) Y X)
      (fun Y X => if found Y X then product 1 Y X else cell (sQ old) Y X)
      (fun Y X => if found Y X then product 2 Y X else cell (sU old) Y X).
Proof. exact (c24_product d data old h w). Qed.
Print Assumptions C24_product.

Example C24_case :
  let one := mkarr 1 1 (fun _ _ => 1%Q) in
  let d := mkdemodulator (mktensor 1 1 (fun i j _ _ => inject_Z (i + j))) (Some one) in
  let data := mkarr 2 2 (fun y x => inject_Z (10 * y + x)) in
  on_ok (fun s => (to_list (sI s), to_list (sQ s), to_list (sU s))) (demod_raw d data (mkstokes one one one))
  = Ok ([[54%Q]], [[76%Q]], [[98%Q]]).
Proof. vm_compute. reflexivity. Qed.

(** Full statement: every tensor of another shape is rejected.  Missing: tensors with a single
    row or column, and images with a single row or column of superpixels (broadcasting). *)
Theorem C24_other_shape_partial {A} `{Num A} (d : demodulator A) (data : arr A) old :
  mosaic data -> rows data <> 2 -> cols data <> 2 -> t_rows (mij d) <> 1 -> t_cols (mij d) <> 1 ->
  t_rows (mij d) <> rows data / 2 \/ t_cols (mij d) <> cols data / 2 ->
  demod_raw d data old = Raise ValueError.
Proof. exact (c24_shape d data old). Qed.
Print Assumptions C24_other_shape_partial.

Example C24_other_shape_case :
  demod_raw (mkdemodulator (mktensor 3 2 (fun _ _ _ _ => 1%Q)) None) (mkarr 4 4 (fun _ _ => 1%Q))
    (mkstokes (full 2 2 0%Q) (full 2 2 0%Q) (full 2 2 0%Q)) = Raise ValueError.
Proof. vm_compute. reflexivity. Qed.

(** A one-row tensor is accepted for an image of any height. *)
Theorem C24_one_row_refuted {A} `{Num A} (d : demodulator A) (data : arr A) old :
  mosaic data -> t_rows (mij d) = 1 -> t_cols (mij d) = cols data / 2 -> fit_found_flags d = None ->
  exists s, demod_raw d data old = Ok s /\
    let product i Y X := row_product (fun i j => t_cell (mij d) i j 0 X) (fun k => sample data k Y X) i in
    stokes_is s (rows data / 2) (cols data / 2) (product 0) (product 1) (product 2).
Proof. exact (c24_shape_broadcast d data old). Qed.
Print Assumptions C24_one_row_refuted.

Example C24_one_row_case :
  on_ok (fun s => to_list (sI s))
    (demod_raw (mkdemodulator (mktensor 1 1 (fun _ _ _ _ => 1%Q)) None) (mkarr 4 2 (fun y x => inject_Z y))
       (mkstokes (full 2 1 0%Q) (full 2 1 0%Q) (full 2 1 0%Q))) = Ok [[2%Q]; [10%Q]].
Proof. vm_compute. reflexivity. Qed.

(** ** C25 *)
Theorem C25_inverts (d : demodulator R) (data : arr R) old h w
    (pinv : mat43 -> mat34) (p : Z -> Z -> four param3) (I Q U : Z -> Z -> R) :
  mosaic data -> h = rows data / 2 -> w = cols data / 2 ->
  t_rows (mij d) = h -> t_cols (mij d) = w ->
  (forall f, fit_found_flags d = Some f ->
     (rows f = h /\ cols f = w) /\ (rows (sI old) = h /\ cols (sI old) = w) /\
     (rows (sQ old) = h /\ cols (sQ old) = w) /\ (rows (sU old) = h /\ cols (sU old) = w)) ->
  exists s, demod_raw d data old = Ok s /\
    forall Y X, 0 <= Y < h -> 0 <= X < w ->
      (forall f, fit_found_flags d = Some f -> cell f Y X = 1%R) ->
      (forall i j, 0 <= i < 3 -> 0 <= j < 4 ->
         t_cell (mij d) i j Y X = entry34 (pinv (modulation_of (p Y X))) i j) ->
      pseudo_inverse (entry43 (modulation_of (p Y X))) (entry34 (pinv (modulation_of (p Y X)))) ->
      rank3 (entry43 (modulation_of (p Y X))) ->
      (forall k, 0 <= k < 4 ->
         sample data k Y X =
         recorded (p_t (f4 (p Y X) k)) (p_e (f4 (p Y X) k)) (p_phi (f4 (p Y X) k)) (I Y X) (Q Y X) (U Y X)) ->
      cell (sI s) Y X = I Y X /\ cell (sQ s) Y X = Q Y X /\ cell (sU s) Y X = U Y X.
Proof. exact (c25_invert d data old h w pinv p I Q U). Qed.
Print Assumptions C25_inverts.

(** From the series of calibration images to demodulated light: wherever the superpixel was
    visible and the fits gave its true parameters. *)
Theorem C25_calibrated S whole h w ny nx order hy hx o (data : arr R) old
    (p : Z -> Z -> four param3) (v : Z -> Z -> four mat33) (I Q U : Z -> Z -> R) :
  series_shape whole h w -> 0 < ny -> 0 < nx -> ny * hy = h -> nx * hx = w ->
  Permutation order (zrange (ny * nx)) ->
  compute_grid S whole ny nx order = Ok o ->
  mosaic data -> rows data = 2 * h -> cols data = 2 * w ->
  (rows (sI old) = h /\ cols (sI old) = w) -> (rows (sQ old) = h /\ cols (sQ old) = w) ->
  (rows (sU old) = h /\ cols (sU old) = w) ->
  exists s,
    demod_raw (mkdemodulator (mktensor h w (fun i j Y X => entry34 (cell (o_m o) Y X) i j)) (Some (o_found o)))
      data old = Ok s /\
    forall Y X, 0 <= Y < h -> 0 <= X < w ->
      ~ occulted whole Y X ->
      (forall k, 0 <= k < 4 -> fit_gives S whole Y X k (f4 (p Y X) k) (f4 (v Y X) k)) ->
      within_100 (pinv S (modulation_of (p Y X))) ->
      pseudo_inverse (entry43 (modulation_of (p Y X))) (entry34 (pinv S (modulation_of (p Y X)))) ->
      rank3 (entry43 (modulation_of (p Y X))) ->
      (forall k, 0 <= k < 4 ->
         sample data k Y X =
         recorded (p_t (f4 (p Y X) k)) (p_e (f4 (p Y X) k)) (p_phi (f4 (p Y X) k)) (I Y X) (Q Y X) (U Y X)) ->
      cell (sI s) Y X = I Y X /\ cell (sQ s) Y X = Q Y X /\ cell (sU s) Y X = U Y X.
Proof. exact (c25_end_to_end S whole h w ny nx order hy hx o data old p v I Q U). Qed.
Print Assumptions C25_calibrated.

(** Ideal polarizers at 0, 45, -45 and 90 degrees meet the hypotheses. *)
Example C25_case :
  rank3 (entry43 (modulation_of ideal_params)) /\
  pseudo_inverse (entry43 (modulation_of ideal_params)) (entry34 ideal_inverse) /\
  within_100 ideal_inverse.
Proof. exact (conj ideal_rank3 (conj ideal_pseudo ideal_within)). Qed.

(** ** C26.  Full statement: also for demodulators without fit flags (see below). *)
Theorem C26_demosaicing_partial {A} `{Num A} dic a (d : demodulator A) (data : arr A) f h w :
  describes dic a -> mosaic data -> h = rows data / 2 -> w = cols data / 2 ->
  t_rows (mij d) = h -> t_cols (mij d) = w ->
  fit_found_flags d = Some f -> rows f = h -> cols f = w ->
  exists s, demod_with_demosaic dic d data = Ok s /\
    let found y x := neqb (cell f (y / 2) (x / 2)) n1 in
    let v k y x := interpolated data k y x in
    let product i y x :=
      row_product (fun i j => t_cell (mij d) i j (y / 2) (x / 2)) (fun k => v k y x) i in
    stokes_is s (rows data) (cols data)
      (fun y x => if found y x then product 0 y x
                  else nhalf *! (((v 0 y x +! v 1 y x) +! v 2 y x) +! v 3 y x))
      (fun y x => if found y x then product 1 y x else v (p0 a) y x -! v (p90 a) y x)
      (fun y x => if found y x then product 2 y x else v (p45 a) y x -! v (pm45 a) y x).
Proof. exact (c26_demosaic dic a d data f h w). Qed.
Print Assumptions C26_demosaicing_partial.

Theorem C26_no_flags_refuted {A} `{Num A} dic a (d : demodulator A) (data : arr A) :
  describes dic a -> mosaic data -> fit_found_flags d = None ->
  demod_with_demosaic dic d data = Raise AttributeError.
Proof. exact (c26_no_flags dic a d data). Qed.
Print Assumptions C26_no_flags_refuted.

Example C26_case :
  let dic := [(0, 0); (45, 1); (-45, 2); (90, 3)] in
  let d := mkdemodulator (mktensor 1 2 (fun i j _ _ => inject_Z (i + j)))
             (Some (mkarr 1 2 (fun _ x => inject_Z x))) in
  let data := mkarr 2 4 (fun y x => inject_Z (10 * y + x)) in
  describes dic (mkarrangement 0 1 2 3) /\
  on_ok (fun s => to_list (sQ s)) (demod_with_demosaic dic d data)
  = Ok [[(-11)%Q; (-11)%Q; 96%Q; 96%Q]; [(-11)%Q; (-11)%Q; 96%Q; 96%Q]].
Proof.
  split; [|vm_compute; reflexivity].
  unfold describes, arrangement_ok; cbn [p0 p45 pm45 p90 map fst].
  repeat split; try lia; try (repeat constructor; cbn; intuition lia); cbn; auto.
Qed.

(** ** C27.  Any listing order; further files without two digits in a row in their names. *)
Theorem C27_roundtrip {A} `{Num A} (c : calibration A) (extra files : folder A) :
  Permutation files (written_files c ++ extra) ->
  NoDup (map fst files) -> (forall n f, In (n, f) extra -> unnumbered n) ->
  exists d, load files = Ok d /\ same_tensor (mij d) (k_m c) /\ fit_found_flags d = Some (k_found c).
Proof. exact (c27_roundtrip c extra files). Qed.
Print Assumptions C27_roundtrip.

Example C27_case :
  let one := mkarr 1 1 (fun _ _ => 1%Q) in
  let c := mkcalibration (mktensor 1 1 (fun i j _ _ => inject_Z (10 * i + j))) one one one one in
  NoDup (map fst (rev (written_files c))) /\
  on_ok (fun d => map (fun k => t_cell (mij d) (k / 4) (k mod 4) 0 0) (zrange 12)) (load (rev (written_files c)))
  = Ok (map inject_Z [0; 1; 2; 3; 10; 11; 12; 13; 20; 21; 22; 23]).
Proof.
  split; [|vm_compute; reflexivity].
  cbn. repeat (constructor; [cbn; intuition discriminate|]). constructor.
Qed.

(** ** C28.  Full statement: without the second hypothesis (no two files numbered alike), which
    fails (see below). *)
Theorem C28_missing_partial {A} `{Num A} (files : folder A) i j :
  NoDup (map fst files) ->
  (forall n n' f f' i' j', In (n, f) files -> In (n', f') files ->
     numbered n i' j' -> numbered n' i' j' -> n = n') ->
  0 <= i < 3 -> 0 <= j < 4 -> (forall n f, In (n, f) files -> ~ numbered n i j) ->
  raises (load files).
Proof. exact (c28_missing files i j). Qed.
Print Assumptions C28_missing_partial.

Example C28_case :
  let c := mkcalibration (mktensor 1 1 (fun i j _ _ => 1%Q)) (full 1 1 1%Q) (full 1 1 1%Q) (full 1 1 1%Q)
             (full 1 1 1%Q) in
  raises (load (tl (written_files c))).
Proof. eexists. vm_compute. reflexivity. Qed.

(** A second file numbered 01 makes up for the missing M00, which is left at zero. *)
Theorem C28_copy_refuted {A} `{Num A} (m : tensor A) (copy : arr A) :
  rows copy = t_rows m -> cols copy = t_cols m ->
  exists d, load (tl (matrix_files m) ++ [("M01_copy.fits"%string, Image copy)]) = Ok d /\
    forall y x, t_cell (mij d) 0 0 y x = n0.
Proof. exact (c28_copy m copy). Qed.
Print Assumptions C28_copy_refuted.

Example C28_copy_case :
  ~ In "M00.fits"%string (map fst (tl (matrix_files (mktensor 1 1 (fun _ _ _ _ => 5%Q))))).
Proof. vm_compute. intuition discriminate. Qed.

(** ** C29.  Full statement: for every accepted grid.  Missing: grids that do not divide the
    image; there the remaining rows and columns are zero (see below). *)
Theorem C29_grid_partial S whole h w ny nx order hy hx :
  series_shape whole h w -> 0 < ny -> 0 < nx -> ny * hy = h -> nx * hx = w ->
  Permutation order (zrange (ny * nx)) ->
  exists o o1, compute_grid S whole ny nx order = Ok o /\ compute_grid S whole 1 1 [0] = Ok o1 /\
    maps_shape o h w /\ maps_shape o1 h w /\
    forall Y X, 0 <= Y < h -> 0 <= X < w -> same_superpixel o Y X o1 Y X /\ calibrated S whole o Y X.
Proof. exact (c29_grid S whole h w ny nx order hy hx). Qed.
Print Assumptions C29_grid_partial.

Theorem C29_covered_partial S whole h w ny nx order hy hx :
  series_shape whole h w -> 0 < ny -> 0 < nx ->
  Z.quot (2 * h) ny = 2 * hy -> Z.quot (2 * w) nx = 2 * hx ->
  Permutation order (zrange (ny * nx)) ->
  exists o, compute_grid S whole ny nx order = Ok o /\ maps_shape o h w /\
    (forall Y X, 0 <= Y < ny * hy -> 0 <= X < nx * hx -> calibrated S whole o Y X) /\
    (forall Y X, 0 <= Y < h -> 0 <= X < w -> ny * hy <= Y \/ nx * hx <= X ->
       cell (o_m o) Y X = zero34 /\ cell (o_found o) Y X = 0%R /\
       forall k, 0 <= k < 4 -> pixel_of (o_tk o) Y X k = 0%R /\ pixel_of (o_eff o) Y X k = 0%R /\
         pixel_of (o_phase o) Y X k = 0%R).
Proof. exact (c29_leftover S whole h w ny nx order hy hx). Qed.
Print Assumptions C29_covered_partial.

Theorem C29_leftover_refuted :
  exists S whole ny nx order o o1,
    series_shape whole 5 1 /\ Permutation order (zrange (ny * nx)) /\
    compute_grid S whole ny nx order = Ok o /\ compute_grid S whole 1 1 [0] = Ok o1 /\
    entry34 (cell (o_m o) 4 0) 0 0 = 0%R /\ entry34 (cell (o_m o1) 4 0) 0 0 = 1%R.
Proof. exact c29_witness. Qed.
Print Assumptions C29_leftover_refuted.

(** Grids with odd chunks are refused. *)
Theorem C29_refused S whole ny nx order :
  0 < ny -> 0 < nx ->
  Z.quot (c_h whole) ny mod 2 <> 0 \/ Z.quot (c_w whole) nx mod 2 <> 0 ->
  compute_grid S whole ny nx order = Raise ValueError.
Proof. exact (c29_refused S whole ny nx order). Qed.
Print Assumptions C29_refused.

Example C29_case :
  series_shape (mkchunk 8 12 [fun _ _ => 1%R] [fun _ _ => 1%R] (full 8 12 0%R)) 4 6 /\
  2 * 2 = 4 /\ 3 * 2 = 6 /\ Permutation [5; 0; 3; 1; 2; 4] (zrange (2 * 3)).
Proof.
  split; [repeat split; cbn; lia || reflexivity|]. split; [reflexivity|]. split; [reflexivity|].
  apply NoDup_Permutation.
  - repeat (constructor; [cbn; intuition discriminate|]). constructor.
  - apply BaseFacts.NoDup_zrange.
  - intros x. rewrite BaseFacts.in_zrange by lia. cbn. lia.
Qed.

(** ** C30 *)
Theorem C30_calibrated S c h w :
  series_shape c h w ->
  exists o, compute_chunk S c = Ok o /\ maps_shape o h w /\
    forall Y X, 0 <= Y < h -> 0 <= X < w -> calibrated S c o Y X.
Proof. exact (c30_calibrated S c h w). Qed.
Print Assumptions C30_calibrated.

Theorem C30_own_samples S c h w o c' h' w' o' Y X Y' X' :
  series_shape c h w -> series_shape c' h' w' ->
  compute_chunk S c = Ok o -> compute_chunk S c' = Ok o' ->
  0 <= Y < h -> 0 <= X < w -> 0 <= Y' < h' -> 0 <= X' < w' ->
  same_input c Y X c' Y' X' -> same_superpixel o Y X o' Y' X'.
Proof. exact (c30_local S c h w o c' h' w' o' Y X Y' X'). Qed.
Print Assumptions C30_own_samples.

Example C30_case :
  let c := mkchunk 4 2 [fun y x => IZR (y mod 2 + x)] [fun _ _ => 1%R] (full 4 2 0%R) in
  series_shape c 2 1 /\ same_input c 0 0 c 1 0.
Proof.
  split; [repeat split; cbn; lia || reflexivity|].
  intros k Hk. assert (k = 0 \/ k = 1 \/ k = 2 \/ k = 3) as D by lia.
  destruct D as [-> | [-> | [-> | ->]]]; repeat split; reflexivity.
Qed.

(** ** C31 *)
Theorem C31_families phi h w a :
  rows phi = 2 * h -> cols phi = 2 * w -> 0 < h -> 0 < w -> arrangement_ok a ->
  (let mean k := (rsum2 h w (fun Y X => cell phi (k / 2 + 2 * Y) (k mod 2 + 2 * X)) / IZR (h * w))%R in
   close_to 0 (mean (p0 a)) /\ close_to 45 (mean (p45 a)) /\ close_to (-45) (mean (pm45 a)) /\
   close_to 90 (mean (p90 a))) ->
  evaluates (fun fuel => fitted_angle_dic fuel phi)
    [(0, p0 a); (45, p45 a); (-45, pm45 a); (90, p90 a)].
Proof. exact (c31_families phi h w a). Qed.
Print Assumptions C31_families.

Example C31_case :
  arrangement_ok (mkarrangement 3 1 2 0) /\
  close_to 0 (-22) /\ close_to 45 (67) /\ close_to (-45) (-24) /\ close_to 90 (-80).
Proof.
  split; [unfold arrangement_ok; cbn; lia|].
  repeat split; [exists 0%Z|exists 0%Z|exists 0%Z|exists (-1)%Z]; cbn; apply Rabs_def1; lra.
Qed.

(** ** C32.  Full statement: four different families always.  True exactly when the families
    nearest to 0, 45 and -45 are different (the last one is then repaired). *)
Theorem C32_families_partial l : length l = 4%nat ->
  returns (fun fuel => angle_dic_of fuel l)
    (fun dic => exists a b c d, dic = [(0, a); (45, b); (-45, c); (90, d)] /\
       (0 <= a < 4 /\ 0 <= b < 4 /\ 0 <= c < 4 /\ 0 <= d < 4) /\
       (exists l', Forall2 (reduced 180) l l' /\
          forall k i, In (i, k) [(0, a); (45, b); (-45, c)] ->
            exists v, item l' k v /\
              forall k' v', item l' k' v' -> (Rabs (v - IZR i) <= Rabs (v' - IZR i))%R) /\
       (NoDup [a; b; c; d] <-> NoDup [a; b; c])).
Proof. exact (c32_distinct l). Qed.
Print Assumptions C32_families_partial.

Theorem C32_equal_phases_refuted :
  evaluates (fun fuel => angle_dic_of fuel [0; 0; 0; 0]%R) [(0, 0); (45, 0); (-45, 0); (90, 1)].
Proof. exact c32_equal_phases. Qed.
Print Assumptions C32_equal_phases_refuted.

(** ** C33.  Full statement: distance at most the radius, including the centre superpixel,
    which is never flagged (see below). *)
Theorem C33_flags_partial h w b y0 x0 r :
  0 <= h -> 0 <= w ->
  exists f, occulter_flag (2 * h) (2 * w) b (Some (y0, x0, r)) = Ok f /\
    rows f = 2 * h /\ cols f = 2 * w /\
    forall Y X k, 0 <= Y < h -> 0 <= X < w -> 0 <= k < 4 ->
      let d := dist Y X (Z.quot (Z.quot y0 b) 2) (Z.quot (Z.quot x0 b) 2) in
      ((0 < d <= IZR (Z.quot (Z.quot r b) 2))%R /\ pixel_of f Y X k = 1%R) \/
      (~ (0 < d <= IZR (Z.quot (Z.quot r b) 2))%R /\ pixel_of f Y X k = 0%R).
Proof. exact (c33_flag h w b y0 x0 r). Qed.
Print Assumptions C33_flags_partial.

Theorem C33_not_fitted S c o h w b y0 x0 r Y X :
  series_shape c h w -> occulter_flag (2 * h) (2 * w) b (Some (y0, x0, r)) = Ok (c_occ c) ->
  0 <= Y < h -> 0 <= X < w ->
  (0 < dist Y X (Z.quot (Z.quot y0 b) 2) (Z.quot (Z.quot x0 b) 2) <= IZR (Z.quot (Z.quot r b) 2))%R ->
  calibrated S c o Y X ->
  cell (o_m o) Y X = theoretical S /\ cell (o_found o) Y X = 0%R.
Proof. exact (c33_not_fitted S c o h w b y0 x0 r Y X). Qed.
Print Assumptions C33_not_fitted.

Theorem C33_centre_refuted h w b y0 x0 r f k :
  0 <= h -> 0 <= w -> 0 <= Z.quot (Z.quot y0 b) 2 < h -> 0 <= Z.quot (Z.quot x0 b) 2 < w -> 0 <= k < 4 ->
  occulter_flag (2 * h) (2 * w) b (Some (y0, x0, r)) = Ok f ->
  pixel_of f (Z.quot (Z.quot y0 b) 2) (Z.quot (Z.quot x0 b) 2) k = 0%R.
Proof. exact (c33_center h w b y0 x0 r f k). Qed.
Print Assumptions C33_centre_refuted.

(** PolarCam's occulter, binning 2: superpixel (229, 230) is inside, (229, 235) is the centre. *)
Example C33_case :
  Z.quot (Z.quot 919 2) 2 = 229 /\ Z.quot (Z.quot 941 2) 2 = 235 /\ Z.quot (Z.quot 536 2) 2 = 134 /\
  (0 < dist 229 230 229 235 <= IZR 134)%R.
Proof.
  repeat split; unfold dist;
    replace (IZR ((229 - 229) * (229 - 229) + (230 - 235) * (230 - 235))) with (5 * 5)%R by (cbn; lra);
    rewrite sqrt_square; lra.
Qed.

(** ** C34.  Full statement: every corrected value is non-zero.  Negative values become 1 and
    others are kept, so that this holds exactly where the value was not zero. *)
Theorem C34_corrected_partial norms n : In n norms ->
  exists m, In m (correct_S norms) /\ same_shape m n /\
    forall y x, (0 <= cell n y x -> cell m y x = cell n y x)%R /\ (cell n y x < 0 -> cell m y x = 1)%R.
Proof. exact (c34_values norms n). Qed.
Print Assumptions C34_corrected_partial.

Theorem C34_zero_kept_refuted :
  exists n : arr R, exists m, correct_S [n] = [m] /\ inb m 0 0 /\ cell m 0 0 = 0%R.
Proof. exact c34_zero. Qed.
Print Assumptions C34_zero_kept_refuted.

Example C34_case : (0 <= cell (mkarr 1 2 (fun _ x => IZR x - 1)) 0 1)%R /\
                   (cell (mkarr 1 2 (fun _ x => IZR x - 1)) 0 0 < 0)%R.
Proof. cbn. lra. Qed.

(** ** C74.  A folder that holds a complete older tensor of the same size.  Full statement:
    never a mixture.  True while a matrix file is missing or cut short ... *)
Theorem C74_cut_partial {A} `{Num A} (old new : calibration A) k how files :
  0 <= k < 12 -> how <> Untouched ->
  Permutation files (interrupted new (Z.to_nat k) how (written_files old)) ->
  raises (load files).
Proof. exact (c74_cut_matrix old new k how files). Qed.
Print Assumptions C74_cut_partial.

(** ... but between two files the folder loads as a mixture. *)
Theorem C74_mixture_refuted {A} `{Num A} (old new : calibration A) k files :
  t_rows (k_m new) = t_rows (k_m old) -> t_cols (k_m new) = t_cols (k_m old) ->
  0 <= k <= 16 ->
  Permutation files (interrupted new (Z.to_nat k) Untouched (written_files old)) ->
  exists d, load files = Ok d /\
    t_rows (mij d) = t_rows (k_m old) /\ t_cols (mij d) = t_cols (k_m old) /\
    (forall i j y x, 0 <= i < 3 -> 0 <= j < 4 -> 0 <= y < t_rows (k_m old) -> 0 <= x < t_cols (k_m old) ->
      t_cell (mij d) i j y x =
      if 4 * i + j <? k then t_cell (k_m new) i j y x else t_cell (k_m old) i j y x) /\
    fit_found_flags d = Some (if k =? 16 then k_found new else k_found old).
Proof. exact (c74_mixture old new k files). Qed.
Print Assumptions C74_mixture_refuted.

(** In a new folder: an error, or the new tensor (the flags may be missing). *)
Theorem C74_new_folder_partial {A} `{Num A} (c : calibration A) k how files :
  Permutation files (interrupted c k how []) ->
  raises (load files) \/
  exists d, load files = Ok d /\ same_tensor (mij d) (k_m c) /\
    (fit_found_flags d = None \/ fit_found_flags d = Some (k_found c)).
Proof. exact (c74_fresh c k how files). Qed.
Print Assumptions C74_new_folder_partial.

Example C74_case :
  let one := mkarr 1 1 (fun _ _ => 1%Q) in
  let cal v := mkcalibration (mktensor 1 1 (fun _ _ _ _ => v)) one one one one in
  on_ok (fun d => map (fun k => t_cell (mij d) (k / 4) (k mod 4) 0 0) (zrange 12))
    (load (interrupted (cal 2%Q) 5 Untouched (written_files (cal 1%Q))))
  = Ok [2%Q; 2%Q; 2%Q; 2%Q; 2%Q; 1%Q; 1%Q; 1%Q; 1%Q; 1%Q; 1%Q; 1%Q].
Proof. vm_compute. reflexivity. Qed.

(** ** C75.  Full statement: every permutation, also of the normalising images of a series,
    and lists of different lengths are rejected.  These two fail (see below). *)
Theorem C75_order_partial W args fuel os fs os' fs' :
  length os = length fs -> length os' = length fs' ->
  Permutation (combine os fs) (combine os' fs') ->
  calibrate W args fuel os fs = calibrate W args fuel os' fs'.
Proof. exact (c75_order W args fuel os fs os' fs'). Qed.
Print Assumptions C75_order_partial.

(** Each file with its own orientation, from the files to the calibration of every superpixel:
    the i-th fit sample is the i-th image by orientation over the i-th normalising image. *)
Theorem C75_matched_partial W args os fs ps images dark norms h w hy hx :
  Permutation ps (combine os fs) -> by_orientation ps -> ps <> [] ->
  1 <= a_binning args -> 0 <= h -> 0 <= w ->
  Forall2 (fun p r => file_image W (a_binning args) h w (snd p) r) ps images ->
  dark_is W args h w dark -> a_flat args = None ->
  norms_are W args dark ps images h w norms -> (0 < a_gain args)%R ->
  (forall r y x, In r images -> 0 <= y < 2 * h -> 0 <= x < 2 * w -> (0 <= level dark r y x)%R) ->
  0 < a_ny args -> 0 < a_nx args -> a_ny args * hy = h -> a_nx args * hx = w ->
  Permutation (finish W) (zrange (a_ny args * a_nx args)) ->
  exists c o,
    evaluates (fun fuel => calibrate W args fuel os fs) o /\
    series_shape c h w /\ maps_shape o h w /\
    same_images h w (c_data c) (relative dark images norms) /\
    same_images h w (c_err c) (noise dark (a_gain args) images norms) /\
    occulter_flag (2 * h) (2 * w) (a_binning args) (a_occulter args) = Ok (c_occ c) /\
    forall Y X, 0 <= Y < h -> 0 <= X < w -> calibrated (settings_of W args ps) c o Y X.
Proof. exact (c75_matched W args os fs ps images dark norms h w hy hx). Qed.
Print Assumptions C75_matched_partial.

Theorem C75_lengths_refuted W args fuel os fs extra :
  length os = length fs ->
  calibrate W args fuel os (fs ++ extra) = calibrate W args fuel os fs.
Proof. exact (c75_lengths W args fuel os fs extra). Qed.
Print Assumptions C75_lengths_refuted.

(** To estimate the signal, images at 0, 45, 90 and one of 135, -45 degrees are needed. *)
Theorem C75_missing_orientation W args fuel os fs : a_norm args = NormEstimate ->
  (exists v, In v [0; 45; 90]%R /\ ~ In v os) \/ ~ In 135%R os /\ ~ In (-45)%R os ->
  calibrate W args fuel os fs = Raise ValueError.
Proof. exact (c75_missing W args fuel os fs). Qed.
Print Assumptions C75_missing_orientation.

Example C75_missing_case : ~ In 135%R [0; 45; 90]%R /\ ~ In (-45)%R [0; 45; 90]%R.
Proof. split; intros [E|[E|[E|[]]]]; lra. Qed.

(** Two orders of the same (orientation, file, normalising image) triples, two results. *)
Theorem C75_series_refuted :
  exists W (args : list (arr R) -> arguments) (a b : R * string) (na nb : arr R) o o',
    (forall l, a_norm (args l) = NormSeries l) /\
    evaluates (fun fuel => calibrate W (args [na; nb]) fuel [fst a; fst b] [snd a; snd b]) o /\
    evaluates (fun fuel => calibrate W (args [nb; na]) fuel [fst b; fst a] [snd b; snd a]) o' /\
    cell (o_tk o) 0 0 <> cell (o_tk o') 0 0.
Proof. exact c75_series. Qed.
Print Assumptions C75_series_refuted.

(** The hypotheses of [C75_matched_partial] are met (two files, listed out of order). *)
Example C75_case :
  exists o, evaluates (fun fuel => calibrate flat_world (series_args [full 2 2 2%R; full 2 2 1%R]) fuel
                                     [90; 0]%R ["b"; "a"]%string) o /\
            pixel_of (o_tk o) 0 0 0 = (1 / 2)%R.
Proof.
  assert (Hs : by_orientation [(0%R, "a"%string); (90%R, "b"%string)]).
  { constructor; [constructor; constructor|]. constructor. left. cbn. lra. }
  destruct (flat_returns [90; 0]%R ["b"; "a"]%string [(0%R, "a"%string); (90%R, "b"%string)] 2 1
              ltac:(lra) ltac:(lra) (perm_swap _ _ _) Hs eq_refl) as (o & E).
  exists o. split; [exact E|].
  exact (flat_calibration [90; 0]%R ["b"; "a"]%string _ 2 1 o ltac:(lra) ltac:(lra) (perm_swap _ _ _) Hs eq_refl E).
Qed.

(** And when the normalising signal is estimated: half the sum of the images at 0, 45, 90 and 135 degrees. *)
Definition first_pixel_world : world :=
  mkworld (fun _ => Ok (full 2 2 1%R)) (fun t => Ok (cell t 0 0)) (fun _ _ _ _ _ => None)
    (fun _ => zero34) (fun v => v) (fun v => v) [0].
Definition estimate_args : arguments := mkarguments (all4 0%R) 1%R 1 None 1 1 None None NormEstimate None None.
Example C75_estimate_case :
  let ps := [(-45, "e"); (0, "a"); (45, "b"); (90, "c"); (135, "d")]%R%string in
  exists r, Forall (fun p => file_image first_pixel_world 1 1 1 (snd p) r) ps /\
    norms_are first_pixel_world estimate_args None ps [r; r; r; r; r] 1 1 (repeat (fun _ _ => 2%R) 5).
Proof.
  intros ps. destruct (bin1 1) as (r & Br & Vr). exists r. split.
  - repeat constructor; exists (full 2 2 1%R); (split; [reflexivity|exact Br]).
  - split; [reflexivity|]. split.
    + intros s y x Hs _ _. apply repeat_spec in Hs. rewrite Hs. lra.
    + exists [0; 45; 90; 135]%R, 2%R. split; [|split; [|intros f Hf; exact (repeat_spec _ _ _ Hf)]].
      * split; [|left; reflexivity]. repeat constructor; eexists; cbn; eauto 8.
      * intros t (_ & _ & Ht). cbn [estimate first_pixel_world]. rewrite Ht by lia. f_equal. unfold ps. cbn [combine map fst snd level].
        destruct (in_dec Req_EM_T (-45)%R [0; 45; 90; 135]%R) as [I|_]; [exfalso; cbn in I; destruct I as [I|[I|[I|[I|[]]]]]; lra|].
        repeat match goal with |- context [in_dec Req_EM_T ?v ?l] => destruct (in_dec Req_EM_T v l) as [_|N]; [|exfalso; apply N; cbn; auto 6] end.
        rewrite Vr by lia. unfold CleanSpec.total. cbn. lra.
Qed.

(** ** C77 *)
Theorem C77_flat_refuted W args fuel os fs name o :
  a_flat args = Some name -> calibrate W args fuel os fs <> Ok o.
Proof. exact (flat_raises W args fuel os fs name o). Qed.
Print Assumptions C77_flat_refuted.
