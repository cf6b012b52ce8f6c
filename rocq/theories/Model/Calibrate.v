(** calculate_demodulation_tensor (micropolarray/processing/demodulation.py 269-709): collecting
    the series of images, dark correction, occulter flags and normalisation before the fit. *)
From Coq Require Import Reals.
From Verif Require Import Base.Base Base.Num Base.Bcast Model.Rebin Model.Roi Model.DemodFit.

(** Argument normalizing_S *)
Inductive norm_S : Type :=
| NormEstimate                       (* None *)
| NormNumber (s : R)
| NormImage (a : arr R)              (* 2-D array *)
| NormSeries (l : list (arr R)).     (* 3-D array *)

(** Arguments other than the two lists; output_dir is left out, DEBUG = False.  Binning and
    occulter position are integers. *)
Record arguments : Type := mkarguments {
  a_phases : four R; a_gain : R; a_binning : Z; a_occulter : option (Z * Z * Z);
  a_ny : Z; a_nx : Z; a_dark : option string; a_flat : option string; a_norm : norm_S;
  a_tk : option param3; a_eff : option param3
}.

(** What the code calls or leaves to the machine. *)
Record world : Type := mkworld {
  read : string -> result (arr R);       (* fits.open(name)[0].data as floats *)
  estimate : arr R -> result R;          (* histogram and Gaussian fit of 429-472 *)
  fit : list R -> list R -> param3 -> list R -> param3 * param3 -> option (param3 * mat33);
  inverse : mat43 -> mat34;              (* np.linalg.pinv *)
  over_zero : R -> R;                    (* the inf or nan of x / 0 *)
  root_negative : R -> R;                (* the nan of sqrt(x), x < 0 *)
  finish : list Z                        (* order in which the pool's tasks finish *)
}.

(** [sorted(zip(orientations, filenames))]: by orientation, equal orientations by name (326-328). *)
Definition pair_leb (p q : R * string) : bool :=
  if Rltb (fst p) (fst q) then true
  else if Rltb (fst q) (fst p) then false
  else String.leb (snd p) (snd q).
Fixpoint insert_pair (p : R * string) (l : list (R * string)) : list (R * string) :=
  match l with
  | [] => [p]
  | q :: rest => if pair_leb p q then p :: l else q :: insert_pair p rest
  end.
Definition sorted_pairs (l : list (R * string)) : list (R * string) := fold_right insert_pair [] l.

(** [pol in list], [np.all(np.isin(angles, orientations))] *)
Definition among (v : R) (l : list R) : bool := existsb (Reqb v) l.
Definition all_among (angles orientations : list R) : bool :=
  forallb (fun v => among v orientations) angles.
Definition norm_with_m45 : list R := [0; 45; 90; -45]%R.
Definition norm_with_135 : list R := [0; 45; 90; 135]%R.

(** demodulation.py 341-364: 1 where a superpixel has a pixel inside the occulter *)
Definition occulter_flag (h w binning : Z) (occulter : option (Z * Z * Z)) : result (arr R) :=
  match occulter with
  | None => Ok (full h w 0%R)
  | Some (y, x, r) =>
      let y := Z.quot y binning in
      let x := Z.quot x binning in
      let r := Z.quot r binning in
      let* flag := roi_from_polar (full h w 1%R) (Some (IZR y, IZR x)) (Some (0%R, IZR r))
                     full_circle 0%R true in
      for_range 0 (rows flag) 2 (fun super_y =>
        for_range 0 (cols flag) 2 (fun super_x flag =>
          if any22 flag super_y super_x
          then Ok (set_block flag super_y (super_y + 2) super_x (super_x + 2) 1%R)
          else Ok flag)) flag
  end.

(** [a -= b] and the like: [b] is stretched to the shape of [a] or ValueError. *)
Definition inplace (f : R -> R -> R) (a b : arr R) : result (arr R) :=
  if ((rows b =? rows a) || (rows b =? 1)) && ((cols b =? cols a) || (cols b =? 1))
  then Ok (mkarr (rows a) (cols a) (fun y x => f (cell a y x) (bcell b y x)))
  else Raise ValueError.

Fixpoint map_result {A B} (f : A -> result B) (l : list A) : result (list B) :=
  match l with
  | [] => Ok []
  | a :: rest => let* b := f a in let* bs := map_result f rest in Ok (b :: bs)
  end.

(** Each image with its normalising image: as many, or one for all. *)
Definition divide_series (f : R -> R -> R) (data S : list (arr R)) : result (list (arr R)) :=
  match S with
  | [s] => map_result (fun a => inplace f a s) data
  | _ => if Nat.eqb (length S) (length data)
         then map_result (fun p => inplace f (fst p) (snd p)) (combine data S)
         else Raise ValueError
  end.

Section Calibrate.
  Variables (W : world) (args : arguments) (fuel : nat).

  Definition read_binned (name : string) : result (arr R) :=
    let* data := read W name in micropolarray_rebin fuel data (a_binning args).

  (** 366-371 *)
  Definition collect_dark : result (option (arr R)) :=
    match a_dark args with
    | None | Some EmptyString => Ok None
    | Some name => let* d := read_binned name in Ok (Some d)
    end.

  (** 372-390: [np.float] does not exist in numpy 1.26, so that a flat always raises. *)
  Definition collect_flat : result unit :=
    match a_flat args with
    | None | Some EmptyString => Ok tt
    | Some name => let* _ := read W name in Raise AttributeError
    end.

  (** 394-415; an empty name is not None, but nothing was read for it. *)
  Definition collect_image (dark : option (arr R)) (name : string) : result (arr R) :=
    let* data := read_binned name in
    let* data :=
      match a_dark args with
      | None => Ok data
      | Some _ =>
          match dark with
          | None => Raise UnboundLocalError
          | Some d => let* data := inplace Rminus data d in
                      Ok (amap (fun v => if Rleb 0 v then v else 0%R) data)
          end
      end in
    match a_flat args with
    | None => Ok data
    | Some _ => Raise UnboundLocalError
    end.

  (** 419-429: [S_max] *)
  Definition sum_image (h w : Z) (chosen : list R) (pairs : list (R * string)) (data : list (arr R))
      : arr R :=
    fold_left (fun S q => if among (fst (fst q)) chosen
                          then amap2 (fun s v => s + 1/2 * v)%R S (snd q) else S)
      (combine pairs data) (full h w 0%R).

  (** 417-489 *)
  Definition normalisation (h w : Z) (pairs : list (R * string)) (data : list (arr R))
      : result (list (arr R)) :=
    let b := a_binning args in
    match a_norm args with
    | NormEstimate =>
        let orientations := map fst pairs in
        let* chosen := if all_among norm_with_135 orientations then Ok norm_with_135
                       else if all_among norm_with_m45 orientations then Ok norm_with_m45
                       else Raise UnboundLocalError in
        let* s := estimate W (sum_image h w chosen pairs data) in
        Ok [full h w s]
    | NormNumber s => Ok [full h w (1 * (s * IZR (b * b)))%R]
    | NormImage a => let* a := micropolarray_rebin fuel a b in Ok [a]
    | NormSeries l => map_result (fun a => micropolarray_rebin fuel a b) l
    end.

  (** 492: [np.where(S >= 0, S, 1)] *)
  Definition correct_S (S : list (arr R)) : list (arr R) :=
    map (amap (fun v => if Rleb 0 v then v else 1%R)) S.

  (** numpy division and square root *)
  Definition np_div (x s : R) : R := if Reqb s 0 then over_zero W x else (x / s)%R.
  Definition np_sqrt (v : R) : R := if Rltb v 0 then root_negative W v else sqrt v.

  Definition fit_settings (pairs : list (R * string)) : settings :=
    mksettings (fit W) (inverse W) (map (fun p => fst p * (PI / 180))%R pairs)
      (map4 (fun p => p * (PI / 180))%R (a_phases args)) (a_tk args) (a_eff args).

  (** 269-709; the results are in radians and not yet written. *)
  Definition calibrate (polarizer_orientations : list R) (filenames_list : list string)
      : result maps :=
    let estimated := match a_norm args with NormEstimate => true | _ => false end in
    if estimated && negb (all_among norm_with_m45 polarizer_orientations)
       && negb (all_among norm_with_135 polarizer_orientations)
    then Raise ValueError else
    let pairs := sorted_pairs (combine polarizer_orientations filenames_list) in
    match pairs with
    | [] => Raise ValueError         (* nothing to unpack *)
    | first :: _ =>
        let* data := read_binned (snd first) in
        let height := rows data in
        let width := cols data in
        if a_binning args =? 0 then Raise ZeroDivisionError else
        let* occ := occulter_flag height width (a_binning args) (a_occulter args) in
        let* dark := collect_dark in
        let* _ := collect_flat in
        let* data := map_result (fun p => collect_image dark (snd p)) pairs in
        (* np.array of images of different shapes *)
        if negb (forallb (fun a => (rows a =? height) && (cols a =? width)) data)
        then Raise ValueError else
        let* norms := normalisation height width pairs data in
        let norms := correct_S norms in
        if (a_ny args =? 0) || (a_nx args =? 0) then Raise ZeroDivisionError else
        let* data := divide_series np_div data norms in
        let* errs := divide_series (fun v s => np_sqrt (np_div v (s * a_gain args))) data norms in
        compute_grid (fit_settings pairs)
          (mkchunk height width (map cell data) (map cell errs) occ)
          (a_ny args) (a_nx args) (finish W)
    end.
End Calibrate.
