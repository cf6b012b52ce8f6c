(** Model of calculate_chen_wan_lian_calibration
    (micropolarray/processing/chen_wan_liang_calibration.py 15-257).

    Pixel values are real numbers (a FITS file of unsigned integers would make
    [flat -= dark] and [data -= dark] wrap around).  Opening a file gives its first image or
    raises.  The matrices and offsets are returned instead of being written to [output_dir]. *)
From Coq Require Import Reals.
From Verif Require Import Base.Base Base.Num Base.Bcast Model.Pol Model.Codec Model.Stokes Model.Roi Model.Shift.
Local Open Scope Z_scope.

(** Matrices, indexed from 0; the dimensions are those of the code. *)
Definition mat : Type := Z -> Z -> R.

(** [np.sum] of [f 0 .. f (n-1)] *)
Definition mat_sum (n : Z) (f : Z -> R) : R := fold_right Rplus 0%R (map f (zrange n)).

(** [A @ B], [n] columns of [A] *)
Definition mat_mul (n : Z) (a b : mat) : mat := fun i j => mat_sum n (fun k => (a i k * b k j)%R).

(** [np.linalg.pinv] of a matrix with the given numbers of rows and columns; [None] stands for
    LinAlgError, which the code catches for the second call only. *)
Definition pinv_fun : Type := Z -> Z -> mat -> option mat.

(** 159-171: [W_ideal] *)
Definition deg2rad (v : R) : R := (v * PI / 180)%R.
Definition w_ideal (phase : Z -> R) : mat := fun i j =>
  if j =? 0 then (/ 2)%R
  else if j =? 1 then (/ 2 * cos (2 * deg2rad (phase i)))%R
  else (/ 2 * sin (2 * deg2rad (phase i)))%R.

(** 222-257: [S_input] of a superpixel with the values of the families 0, 45, -45, 90 *)
Definition s_input (v0 v45 vm45 v90 : R) : mat := fun i _ =>
  if i =? 0 then (v0 + v90)%R
  else if i =? 1 then (v0 - v90)%R
  else if i =? 2 then (v45 - vm45)%R
  else 1%R.

(** 185-205: matrix and offsets of one superpixel [p] (row-major) of one image *)
Definition fit_superpixel (pinv : pinv_fun) (ideal : mat) (s : mat) (p : Z -> R) : result (mat * (Z -> R)) :=
  match pinv 4 1 s with
  | None => Raise ValueError
  | Some s_inv =>
      let w_d := mat_mul 1 (fun i _ => p i) s_inv in
      let d i := w_d i 3 in
      let w_inv := match pinv 4 3 w_d with Some m => m | None => fun i j => (0 * w_d j i)%R end in
      Ok (mat_mul 3 ideal w_inv, d)
  end.

(** [{phases[i]: i for i in range(4)}]: of equal keys the last one stays. *)
Definition phase_dic (phases : list R) : result (list (R * Z)) :=
  match phases with
  | a :: b :: c :: d :: _ => Ok [(d, 3); (c, 2); (b, 1); (a, 0)]
  | _ => Raise IndexError
  end.

Fixpoint rdic_get (d : list (R * Z)) (k : R) : result Z :=
  match d with
  | [] => Raise KeyError
  | (k', v) :: d => if Reqb k' k then Ok v else rdic_get d k
  end.

(** 129-211, from the corrected images.  [np.mean(..., axis=0)]; a ragged stack of images and
    [reshape(4, 1)] of an incomplete superpixel raise ValueError. *)
Definition superpixel (a : arr R) (y x : Z) : Z -> R :=
  fun k => cell a (2 * (y / 2) + k / 2) (2 * (x / 2) + k mod 2).

Definition rmean (l : list R) : R := (fold_right Rplus 0 l / IZR (Z.of_nat (length l)))%R.

(** One superpixel of every image *)
Fixpoint fit_all (pinv : pinv_fun) (ideal : mat) (i0 i45 im45 i90 : Z) (ps : list (Z -> R))
    : result (list (mat * (Z -> R))) :=
  match ps with
  | [] => Ok []
  | p :: ps =>
      let* c := fit_superpixel pinv ideal (s_input (p i0) (p i45) (p im45) (p i90)) p in
      let* cs := fit_all pinv ideal i0 i45 im45 i90 ps in
      Ok (c :: cs)
  end.

Definition mean_fit (cs : list (mat * (Z -> R))) : mat * (Z -> R) :=
  (fun i j => rmean (map (fun c => fst c i j) cs), fun i => rmean (map (fun c => snd c i) cs)).

(** The value returned is the function from superpixels (given by any of their pixels) to
    averaged matrix and offsets; an exception of [fit_superpixel] would end the whole run. *)
Definition chen_fit (pinv : pinv_fun) (images : list (arr R)) (phases : list R)
    (dic : list (R * Z)) : result (Z * Z * (Z -> Z -> result (mat * (Z -> R)))) :=
  match images with
  | [] => Raise ValueError
  | a :: rest =>
      if negb (forallb (same_shapeb a) rest) then Raise ValueError else
      let height := rows a in
      let width := cols a in
      if Z.odd height || Z.odd width then Raise ValueError else
      let* i0 := rdic_get dic 0 in
      let* i45 := rdic_get dic 45 in
      let* im45 := rdic_get dic (-45) in
      let* i90 := rdic_get dic 90 in
      let ideal := w_ideal (fun i => nth (Z.to_nat i) phases 0%R) in
      Ok (height, width, fun y x =>
        let* cs := fit_all pinv ideal i0 i45 im45 i90 (map (fun im => superpixel im y x) images) in
        Ok (mean_fit cs))
  end.

(** [sorted(zip(orientations, names))] *)
Definition pair_leb (a b : R * string) : bool :=
  Rltb (fst a) (fst b) || (Reqb (fst a) (fst b) && String.leb (snd a) (snd b)).
Fixpoint insert_pair (a : R * string) (l : list (R * string)) : list (R * string) :=
  match l with
  | [] => [a]
  | b :: l => if pair_leb a b then a :: b :: l else b :: insert_pair a l
  end.
Definition sort_pairs (l : list (R * string)) : list (R * string) := fold_right insert_pair [] l.

(** [a -= b] in place: the result must have the shape of [a] *)
Definition isub (a b : arr R) : result (arr R) :=
  let* r := bmap2 Rminus a b in
  if same_shapeb r a then Ok r else Raise ValueError.

(** truth value of a file name that may be None *)
Definition truthy (name : option string) : bool :=
  match name with Some (String _ _) => true | _ => false end.

(** A local variable that may not have been assigned *)
Definition bound {A} (v : option A) : result A :=
  match v with Some a => Ok a | None => Raise UnboundLocalError end.

Definition open_if (open : string -> result (arr R)) (name : option string) : result (option (arr R)) :=
  match name with
  | Some (String _ _ as n) => let* a := open n in Ok (Some a)
  | _ => Ok None
  end.

(** [np.max] of all values; empty arrays raise *)
Definition rmax_list (v : R) (l : list R) : R := fold_left Rmax l v.
Definition array_max (a : arr R) : result R :=
  match concat (to_list a) with [] => Raise ValueError | v :: l => Ok (rmax_list v l) end.

(** 104-118: one image, corrected *)
Definition correct_image (dark_given flat_given : bool) (dark : option (arr R)) (nflat data : arr R)
    : result (arr R) :=
  let* data := if dark_given
               then let* dk := bound dark in
                    let* e := isub data dk in
                    Ok (amap (fun v => if Rleb 0 v then v else 0%R) e)
               else Ok data in
  if flat_given
  then bmap2 (fun f v => if negb (Reqb f 0) then (v / f)%R else v) nflat data
  else Ok data.

Fixpoint correct_all (open : string -> result (arr R)) (dark_given flat_given : bool)
    (dark : option (arr R)) (nflat : arr R) (names : list string) : result (list (arr R)) :=
  match names with
  | [] => Ok []
  | n :: names =>
      let* data := open n in
      let* a := correct_image dark_given flat_given dark nflat data in
      let* rest := correct_all open dark_given flat_given dark nflat names in
      Ok (a :: rest)
  end.

Definition is_some {A} (v : option A) : bool := match v with Some _ => true | None => false end.

(** 15-219.  With [occulter] true line 69 reads [PolarCam().occulter_pos_nov2022]; class
    PolarCam (cameras.py 76-110) has no such attribute, so lines 72-83 and 99 are never
    reached.  With [occulter] false the flag is 0 everywhere. *)
Definition calculate_chen (open : string -> result (arr R)) (pinv : pinv_fun)
    (orientations : list R) (names : list string) (phases : list R)
    (occulter : bool) (dark_name flat_name : option string)
    : result (Z * Z * (Z -> Z -> result (mat * (Z -> R)))) :=
  if negb (length orientations =? length names)%nat then Raise ValueError else
  if negb (forallb (fun v => existsb (Reqb v) orientations) [0; 45; 90; -45]%R)
  then Raise ValueError else
  let pairs := sort_pairs (combine orientations names) in
  let* dic := phase_dic phases in
  let* data := match pairs with [] => Raise IndexError | (_, n) :: _ => open n end in
  if occulter then Raise AttributeError else
  let flag := amap (fun _ => false) data in
  let* dark := open_if open dark_name in
  let* flat := open_if open flat_name in
  let* flat :=
    if truthy flat_name && truthy dark_name
    then let* f := bound flat in
         let* dk := bound dark in
         let* f := isub f dk in
         Ok (Some (amap (fun v => if Rltb 0 v then v else 1%R) f))
    else Ok flat in
  let* flat := bound flat in
  let* flat_max := array_max flat in
  let* nflat := bmap2 (fun (c : bool) v => if c then 1%R else (v / flat_max)%R) flag flat in
  let* images := correct_all open (is_some dark_name) (is_some flat_name) dark nflat (map snd pairs) in
  chen_fit pinv images phases dic.
