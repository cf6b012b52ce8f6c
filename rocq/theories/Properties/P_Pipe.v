(** Properties C98 and C100: the other results of a calibration, and the whole way from
    calibration images to Stokes parameters. *)
From Coq Require Import String Reals Lra Permutation QArith.
From Verif Require Import Base.Base Base.Num Model.Stokes Model.Demodulate Model.DemodFit Model.DemodLoad Model.DemodCov
  Model.Calibrate Spec.Terminates Spec.MosaicSpec Spec.StokesSpec Spec.DemodSpec Spec.FitSpec Spec.CalibSpec Spec.LoadSpec Spec.CovSpec Spec.PipeSpec
  Proofs.CovFacts Proofs.PipeFacts Proofs.PipeCase.
Local Open Scope string_scope.
Local Open Scope list_scope.
Local Open Scope Z_scope.

(** ** C98.  Full statement: the maps and the covariance tensor are read back as written, in
    whatever order the files are listed and whatever other files there are. *)
Theorem C98_maps {A} `{Num A} (c : calibration A) (extra files : folder A) :
  Permutation files (written_files c ++ extra) -> NoDup (map fst files) ->
  tk files = Ok (k_tk c) /\ eff files = Ok (k_eff c) /\ phi files = Ok (k_phase c).
Proof. exact (c98_maps c extra files). Qed.
Print Assumptions C98_maps.

(** The tensor: true if the other files are images of the same size without a number, *)
Theorem C98_covariance_partial {A} `{Num A} (c : tensor A) chisq (extra files : folder A) :
  rows chisq = t_rows c -> cols chisq = t_cols c ->
  Permutation files (cov_written c chisq ++ extra) ->
  (forall n f, In (n, f) extra -> unnumbered n /\ exists a, f = Image a /\ rows a = t_rows c /\ cols a = t_cols c) ->
  exists m, Cij files = Ok (Some m) /\ same_tensor33 m c.
Proof. exact (c98_cov c chisq extra files). Qed.
Print Assumptions C98_covariance_partial.

(** false for a file that cannot be read, if it happens to be listed first. *)
Theorem C98_stray_refuted {A} `{Num A} n (rest : folder A) : Cij ((n, Broken) :: rest) = Raise OSError.
Proof. exact (c98_first_broken n rest). Qed.
Print Assumptions C98_stray_refuted.

(** A missing file is noticed, *)
Theorem C98_missing_partial {A} `{Num A} (files : folder A) i j :
  files <> [] -> NoDup (map fst files) ->
  (forall n n' f f' i' j', In (n, f) files -> In (n', f') files -> numbered n i' j' -> numbered n' i' j' -> n = n') ->
  0 <= i < 3 -> 0 <= j < 3 -> (forall n f, In (n, f) files -> ~ numbered n i j) ->
  raises (Cij files).
Proof. exact (c98_missing files i j). Qed.
Print Assumptions C98_missing_partial.

(** but not if there are two of another number; *)
Theorem C98_copy_refuted {A} `{Num A} (c : tensor A) (copy chisq : arr A) :
  rows copy = t_rows c -> cols copy = t_cols c ->
  exists m, Cij (tl (cov_written c chisq) ++ [("C01_copy.fits", Image copy)]) = Ok (Some m) /\
    forall y x, t_cell m 0 0 y x = n0.
Proof. exact (c98_copy c copy chisq). Qed.
Print Assumptions C98_copy_refuted.

(** a missing map too. *)
Theorem C98_no_map {A} `{Num A} (files : folder A) :
  (~ In "transmittancies.fits" (map fst files) -> tk files = Raise FileNotFoundError) /\
  (~ In "efficiences.fits" (map fst files) -> eff files = Raise FileNotFoundError) /\
  (~ In "phases.fits" (map fst files) -> phi files = Raise FileNotFoundError).
Proof. exact (conj (c98_no_map "transmittancies.fits" files) (conj (c98_no_map "efficiences.fits" files) (c98_no_map "phases.fits" files))). Qed.
Print Assumptions C98_no_map.

(** What a calibration writes: at every pixel that was fitted, the covariances of the parameters found there;
    zero at the others.  ([C100_case] is such a calibration.) *)
Theorem C98_calibrated W args os fs ps images dark norms h w :
  calibration_input W args os fs ps images dark norms h w ->
  let S := settings_of W args ps in
  exists c o, evaluates (fun fuel => calibrate W args fuel os fs) o /\
    same_images h w (c_data c) (relative dark images norms) /\
    same_images h w (c_err c) (noise dark (a_gain args) images norms) /\
    forall files, Permutation files (cov_results o) ->
    exists m, Cij files = Ok (Some m) /\
      forall Y X, 0 <= Y < h -> 0 <= X < w ->
        forall k i j, 0 <= k < 4 -> 0 <= i < 3 -> 0 <= j < 3 ->
        (no_fit S c Y X -> t_cell m i j (2 * Y + k / 2) (2 * X + k mod 2) = 0%R) /\
        (~ no_fit S c Y X -> exists p v, fit_gives S c Y X k p v /\
           t_cell m i j (2 * Y + k / 2) (2 * X + k mod 2) = v i j).
Proof. exact (c98_calibrated W args os fs ps images dark norms h w). Qed.
Print Assumptions C98_calibrated.

Example C98_case :
  let c := mktensor 1 1 (fun i j _ _ => inject_Z (10 * i + j)) in
  let chisq := full 1 1 5%Q in
  on_ok (option_map (fun m => map (fun k => t_cell m (k / 3) (k mod 3) 0 0) (zrange 9))) (Cij (rev (cov_written c chisq)))
  = Ok (Some (map inject_Z [0; 1; 2; 10; 11; 12; 20; 21; 22])) /\
  raises (Cij (tl (cov_written c chisq))) /\
  unnumbered "reduced_chisquare_old.fits" /\
  phi (rev (written_files (mkcalibration c (full 1 1 1%Q) (full 1 1 2%Q) (full 1 1 3%Q) (full 1 1 4%Q)))) = Ok (full 1 1 3%Q).
Proof.
  cbv zeta. split; [vm_compute; reflexivity|]. split; [eexists; vm_compute; reflexivity|]. split; [|reflexivity].
  apply LoadFacts.two_digits_none. reflexivity.
Qed.

(** ** C100.  From the calibration images, through the files, to the true Stokes parameters:
    with at least three orientations and a fit that finds exact solutions. *)
Theorem C100_recovered W args os fs ps images dark norms h w (p : Z -> Z -> four param3) :
  calibration_input W args os fs ps images dark norms h w ->
  let S := settings_of W args ps in
  three_different (angles_rad S) -> positive_bounds S ->
  (forall k, 0 <= k < 4 -> finds_exact (fit W) (angles_rad S) (search_box S k)) ->
  lamp_recorded S (relative dark images norms) h w p ->
  exists o, evaluates (fun fuel => calibrate W args fuel os fs) o /\
    forall files, Permutation files (written_files (results o)) ->
    exists d t e f, load files = Ok d /\ tk files = Ok t /\ eff files = Ok e /\ phi files = Ok f /\
      (forall Y X k, 0 <= Y < h -> 0 <= X < w -> 0 <= k < 4 ->
         pixel_of t Y X k = p_t (f4 (p Y X) k) /\ pixel_of e Y X k = p_e (f4 (p Y X) k) /\
         pixel_of f Y X k = degrees (p_phi (f4 (p Y X) k))) /\
      forall (data : arr R) old (I Q U : Z -> Z -> R),
        mosaic data -> rows data = 2 * h -> cols data = 2 * w ->
        (rows (sI old) = h /\ cols (sI old) = w) -> (rows (sQ old) = h /\ cols (sQ old) = w) ->
        (rows (sU old) = h /\ cols (sU old) = w) ->
        exists s, demod_raw d data old = Ok s /\
          forall Y X, 0 <= Y < h -> 0 <= X < w ->
            within_100 (inverse W (modulation_of (p Y X))) ->
            pseudo_inverse (entry43 (modulation_of (p Y X))) (entry34 (inverse W (modulation_of (p Y X)))) ->
            rank3 (entry43 (modulation_of (p Y X))) ->
            (forall k, 0 <= k < 4 ->
               sample data k Y X =
               recorded (p_t (f4 (p Y X) k)) (p_e (f4 (p Y X) k)) (p_phi (f4 (p Y X) k)) (I Y X) (Q Y X) (U Y X)) ->
            cell (sI s) Y X = I Y X /\ cell (sQ s) Y X = Q Y X /\ cell (sU s) Y X = U Y X.
Proof. exact (c100_pipeline W args os fs ps images dark norms h w p). Qed.
Print Assumptions C100_recovered.

(** Three orientations determine the parameters. *)
Theorem C100_determined S k angles samples p q :
  three_different angles -> positive_bounds S ->
  explains angles samples (search_box S k) p -> explains angles samples (search_box S k) q -> q = p.
Proof. exact (c100_determined S k angles samples p q). Qed.
Print Assumptions C100_determined.

(** Four ideal micropolarizers, files listed out of order *)
Example C100_case : exists o d,
  evaluates (fun fuel => calibrate lamp_world lamp_args fuel [45; 0; 90]%R ["b"; "a"; "c"]) o /\
  load (written_files (results o)) = Ok d /\
  forall I Q U, exists s, demod_raw d (recording I Q U) (mkstokes (full 1 1 0%R) (full 1 1 0%R) (full 1 1 0%R)) = Ok s /\
    cell (sI s) 0 0 = I /\ cell (sQ s) 0 0 = Q /\ cell (sU s) 0 0 = U.
Proof. exact lamp_case. Qed.
