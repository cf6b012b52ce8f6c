(** micropolarray/processing/image_cleaning.py.  Real numbers; scipy's median filter is an oracle
    that keeps the shape. *)
From Coq Require Import Reals String.
From Verif Require Import Base.Base Base.Num Model.Demosaic Model.Histogram.
Local Open Scope R_scope.

Definition filter_oracle : Type := arr R -> Z -> Z -> Z -> R.
Definition median_filter (F : filter_oracle) (a : arr R) (size : Z) : arr R := mkarr (rows a) (cols a) (F a size).

(** ** Lines 9-22: get_hot_pixels *)

(** The methods and properties of MicropolImage (micropol_image.py) and Image (image.py), and the
    attributes set by their constructors from an image. *)
Definition micropol_attributes : list string :=
  ["__init__"; "_initialize_internal_variables"; "_import_image_parameters"; "I"; "Q"; "U"; "pB"; "AoLP"; "DoLP";
   "polparam_list"; "single_pol_subimages"; "pol0"; "pol45"; "pol_45"; "pol90"; "_update_data_and_Stokes";
   "demodulate"; "_get_theo_Stokes_vec_components"; "_get_Stokes_from_demodulator"; "subtract_dark";
   "correct_flat"; "correct_ifov"; "show_with_pol_params"; "show_pol_params"; "show_single_pol_images";
   "show_demo_images"; "show_pol_param"; "show_histogram"; "save_single_pol_images"; "save_param_as_fits";
   "save_all_pol_params_as_fits"; "save_demosaiced_images_as_fits"; "demosaic"; "rebin"; "congrid"; "rotate";
   "mask_occulter"; "shift"; "clean_hot_pixels"; "__add__"; "__sub__"; "__mul__"; "__truediv__";
   "_init_image_from_data"; "_init_image_from_file"; "_init_image_from_image"; "data"; "save_as_fits";
   "save_as_raw"; "show"; "first_call";
   "_data"; "_is_demodulated"; "_is_demosaiced"; "_binning"; "_flat_subtracted"; "_dark_subtracted";
   "demosaiced_images"; "angle_dic"; "_num_of_images"; "header"; "height"; "width"; "Stokes_vec"]%string.
Definition getattr (l : list string) (name : string) : result unit :=
  if existsb (String.eqb name) l then Ok tt else Raise AttributeError.

(** Lines 10-15.  A NaN contrast (0 / 0) is not above any threshold; the division of reals by zero gives
    zero here. *)
Definition hot_map (F : filter_oracle) (threshold : R) (subimage : arr R) : arr R :=
  let blurred := median_filter F subimage 2 in
  mkarr (rows subimage) (cols subimage) (fun y x =>
    let contrast := (cell subimage y x - cell blurred y x) / (cell subimage y x + cell blurred y x) in
    if Rltb threshold contrast then 1 else 0).

(** Python looks the method up before it evaluates the argument. *)
Definition get_hot_pixels (F : filter_oracle) (data : arr R) (threshold : R) : result (arr R) :=
  let* subimages := split_polarizations data in
  let diff := quad_map (hot_map F threshold) subimages in
  let* _ := getattr micropol_attributes "_set_data_and_Stokes" in
  Ok (merge_polarizations diff).

(** ** numpy.median of a list; [None] is the NaN of an empty one *)

Fixpoint insert_real (v : R) (l : list R) : list R :=
  match l with
  | [] => [v]
  | u :: l' => if Rleb v u then v :: l else u :: insert_real v l'
  end.
Definition sort_reals (l : list R) : list R := fold_right insert_real [] l.
Definition median (l : list R) : option R :=
  match l with
  | [] => None
  | _ => let s := sort_reals l in
         let n := length l in
         if Nat.even n then Some ((nth (n / 2 - 1) s 0 + nth (n / 2) s 0) / 2) else Some (nth (n / 2) s 0)
  end.

(** ** Lines 25-37: remove_outliers_simple (the lines after the first return are unreachable).
    [data[neighbours:-neighbours]] is a view: it shows the elements already replaced. *)
Definition step_outlier (neighbours i : Z) (data : list R) : list R :=
  let element := nth (Z.to_nat (i + neighbours)) data 0 in
  let window := pyslice data (i - neighbours) (i + neighbours) in
  match median window with
  | None => data
  | Some m =>
      match median (map (fun v => Rabs (v - m)) window) with
      | None => data
      | Some std =>
          if Rltb element (m - 3 * std) || Rltb (m + 3 * std) element
          then firstn (Z.to_nat i) data ++ m :: skipn (Z.to_nat i + 1) data
          else data
      end
  end.
Definition remove_outliers_simple (original : list R) (neighbours : Z) : list R :=
  fold_left (fun data i => step_outlier neighbours i data)
    (zrange (Z.of_nat (length (pyslice original neighbours (- neighbours))))) original.

(** ** Lines 58-62: reject_outliers *)
Definition reject_outliers (data : list R) (m : R) : list R :=
  match median data with
  | None => []
  | Some med =>
      match median (map (fun v => Rabs (v - med)) data) with
      | None => []
      | Some mdev =>
          filter (fun v => Rltb (if Reqb mdev 0 then 0 else Rabs (v - med) / mdev) m) data
      end
  end.

(** ** Lines 65-97: auto_threshold *)

Definition sum (l : list R) : R := fold_left Rplus l 0.
Definition mean (l : list R) : R := sum l / INR (length l).
Definition var (l : list R) : R := mean (map (fun v => (v - mean l) * (v - mean l)) l).

(** np.mean(cls) * np.var(data, where=cls); NaN for an empty class, which nansum drops *)
Definition contribution (data : list R) (cls : R -> bool) : R :=
  let l := filter cls data in
  match l with
  | [] => 0
  | _ => INR (length l) / INR (length data) * var l
  end.
Definition otsu_intraclass_variance (data : list R) (threshold : R) : R :=
  contribution data (fun v => Rleb threshold v) + contribution data (fun v => Rltb v threshold).

(** np.linspace(start, stop, num) *)
Definition linspace (start stop : R) (num : Z) : list R :=
  map (fun k => start + IZR k * ((stop - start) / IZR (num - 1))) (zrange num).

(** Python's min(l, key): the first element with the smallest key *)
Fixpoint min_by (key : R -> R) (best : R) (l : list R) : R :=
  match l with
  | [] => best
  | v :: l => min_by key (if Rltb (key v) (key best) then v else best) l
  end.

Definition auto_threshold (F : filter_oracle) (data : arr R) : result R :=
  let data := pixels (median_filter F data 10) in
  match data with
  | [] => Raise ValueError
  | v :: l =>
      match linspace (smallest v l + 1) (largest v l) (Z.min (Z.of_nat (length data)) 1000) with
      | [] => Raise ValueError
      | t :: ts => Ok (min_by (otsu_intraclass_variance data) t ts)
      end
  end.
