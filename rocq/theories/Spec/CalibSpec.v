(** What the calibration must be given the files it is called with. *)
From Coq Require Import Reals Sorting.Sorted Permutation.
From Verif Require Import Base.Base Base.Num Model.Rebin Model.DemodFit Model.Calibrate
  Spec.Terminates Spec.MosaicSpec Spec.CleanSpec.

(** Order of the fits: by orientation, equal orientations by file name. *)
Definition before (p q : R * string) : Prop :=
  (fst p < fst q)%R \/ (fst p = fst q /\ String.leb (snd p) (snd q) = true).
Definition by_orientation (ps : list (R * string)) : Prop := Sorted before ps.

(** [r] (2h x 2w pixels) is the image in file [name], binned. *)
Definition binned_to (b h w : Z) (d r : arr R) : Prop :=
  mosaic d /\ evaluates (fun fuel => micropolarray_rebin fuel d b) r /\
  rows r = 2 * h /\ cols r = 2 * w.
Definition file_image (W : world) (b h w : Z) (name : string) (r : arr R) : Prop :=
  exists d, read W name = Ok d /\ binned_to b h w d r.

(** Signal of a pixel: above the dark, not below zero; the dark is optional. *)
Definition level (dark : option (arr R)) (image : arr R) (y x : Z) : R :=
  match dark with
  | None => cell image y x
  | Some d => Rmax 0 (cell image y x - cell d y x)
  end.
Definition dark_is (W : world) (args : arguments) (h w : Z) (dark : option (arr R)) : Prop :=
  match a_dark args, dark with
  | None, None => True
  | Some name, Some r => name <> EmptyString /\ file_image W (a_binning args) h w name r
  | _, _ => False
  end.

(** The four orientations whose images are added up for the estimate: 135 degrees is preferred
    to -45 degrees if there are images at both. *)
Definition measured (ps : list (R * string)) (v : R) : Prop := exists name, In (v, name) ps.
Definition summed_orientations (ps : list (R * string)) (l : list R) : Prop :=
  Forall (measured ps) l /\
  (l = [0; 45; 90; 135]%R \/ (l = [0; 45; 90; -45]%R /\ ~ measured ps 135%R)).
(** [t]: half the sum of the images at these orientations *)
Definition half_sum (dark : option (arr R)) (l : list R) (ps : list (R * string)) (images : list (arr R)) (h w : Z)
    (t : arr R) : Prop :=
  rows t = 2 * h /\ cols t = 2 * w /\
  forall y x, 0 <= y < 2 * h -> 0 <= x < 2 * w ->
    cell t y x = (total (map (fun q => if in_dec Req_EM_T (fst (fst q)) l then level dark (snd q) y x else 0)
                           (combine ps images)) / 2)%R.

(** [norms] are the normalising images of the files, all positive: the number estimated from the
    files, the number given (binning adds up b^2 pixels), the binned image given, or the binned
    images given in this order. *)
Definition norms_are (W : world) (args : arguments) (dark : option (arr R)) (ps : list (R * string)) (images : list (arr R))
    (h w : Z) (norms : list (Z -> Z -> R)) : Prop :=
  length norms = length ps /\
  (forall s y x, In s norms -> 0 <= y < 2 * h -> 0 <= x < 2 * w -> (0 < s y x)%R) /\
  match a_norm args with
  | NormEstimate => exists l s, summed_orientations ps l /\
      (forall t, half_sum dark l ps images h w t -> estimate W t = Ok s) /\ forall f, In f norms -> f = fun _ _ => s
  | NormNumber s => forall f, In f norms -> f = fun _ _ => (s * IZR (a_binning args * a_binning args))%R
  | NormImage a => exists r, binned_to (a_binning args) h w a r /\ forall f, In f norms -> f = cell r
  | NormSeries l => exists rs, Forall2 (binned_to (a_binning args) h w) l rs /\ norms = map cell rs
  end.

(** The series that is fitted: signal over norm, with the photon noise of gain [g], in the
    order of [images] and [norms]. *)
Definition relative (dark : option (arr R)) (images : list (arr R)) (norms : list (Z -> Z -> R))
    : list (Z -> Z -> R) :=
  map (fun q y x => (level dark (fst q) y x / snd q y x)%R) (combine images norms).
Definition noise (dark : option (arr R)) (g : R) (images : list (arr R)) (norms : list (Z -> Z -> R))
    : list (Z -> Z -> R) :=
  map (fun q y x => sqrt (level dark (fst q) y x / snd q y x / (snd q y x * g)))%R
    (combine images norms).

(** Same series on 2h x 2w pixels. *)
Definition same_images (h w : Z) (l l' : list (Z -> Z -> R)) : Prop :=
  Forall2 (fun f f' => forall y x, 0 <= y < 2 * h -> 0 <= x < 2 * w -> f y x = f' y x) l l'.

(** Degrees to radians *)
Definition radians (v : R) : R := (v / 180 * PI)%R.

(** What is given to every fit: orientations of the files [ps], expected phases and bounds *)
Definition settings_of (W : world) (args : arguments) (ps : list (R * string)) : settings :=
  mksettings (fit W) (inverse W) (map (fun p => radians (fst p)) ps)
    (map4 radians (a_phases args)) (a_tk args) (a_eff args).
