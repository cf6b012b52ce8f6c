(** Saving and loading demodulation tensors
    (micropolarray/processing/demodulation.py 105-193 and 722-754). *)
From Coq Require Import String Ascii Reals.
From Verif Require Import Base.Base Base.Num Base.Bcast Model.Stokes Model.Demodulate Model.Angles.
Local Open Scope string_scope.
Local Open Scope list_scope.
Local Open Scope Z_scope.

(** What [fits.open(...)[0].data] finds: a two-dimensional image, or a file that cannot be
    read (empty, cut short). *)
Inductive fits_file (A : Type) : Type := Image (a : arr A) | Broken.
Arguments Image {A} a.
Arguments Broken {A}.

(** The *.fits files of a folder (base names), in the order glob lists them. *)
Definition folder (A : Type) : Type := list (string * fits_file A).

Definition digit (c : ascii) : option Z :=
  let n := Z.of_N (N_of_ascii c) in
  if (48 <=? n) && (n <=? 57) then Some (n - 48) else None.

(** [re.search("[0-9]{2}", s)]: the leftmost two consecutive digits *)
Fixpoint two_digits (s : string) : option (Z * Z) :=
  match s with
  | String a rest =>
      match digit a, rest with
      | Some i, String b _ =>
          match digit b with
          | Some j => Some (i, j)
          | None => two_digits rest
          end
      | _, _ => two_digits rest
      end
  | EmptyString => None
  end.

Definition read_fits {A} (f : fits_file A) : result (arr A) :=
  match f with Image a => Ok a | Broken => Raise OSError end.

Section Load.
  Context {A : Type} `{Num A}.

  (** demodulation.py 157-161: the first file whose name has two digits; [None] leaves
      [sample_matrix] undefined *)
  Fixpoint sample_matrix (files : folder A) : option (fits_file A) :=
    match files with
    | [] => None
    | (name, f) :: rest =>
        match two_digits name with
        | Some _ => Some f
        | None => sample_matrix rest
        end
    end.

  (** [Mij[i, j] = data] for an array of shape (3, 4, h, w) *)
  Definition put_matrix (m : tensor A) (i j : Z) (data : arr A) : result (tensor A) :=
    if negb ((i <? 3) && (j <? 4)) then Raise IndexError
    else if negb (((rows data =? t_rows m) || (rows data =? 1)) &&
                  ((cols data =? t_cols m) || (cols data =? 1))) then Raise ValueError
    else Ok (mktensor (t_rows m) (t_cols m)
               (fun i' j' => if (i' =? i) && (j' =? j) then bcell data else t_cell m i' j')).

  Record loading : Type := mkloading { l_m : tensor A; l_flags : option (arr A); l_matches : Z }.

  (** demodulation.py 175-188: one file.  All names end in ".fits", so the stem is
      "fit_found_flag" for one name only. *)
  Definition load_file (st : loading) (file : string * fits_file A) : result loading :=
    let (name, f) := file in
    let* st :=
      match two_digits name with
      | Some (i, j) =>
          let* data := read_fits f in
          let* m := put_matrix (l_m st) i j data in
          Ok (mkloading m (l_flags st) (l_matches st + 1))
      | None => Ok st
      end in
    if String.eqb name "fit_found_flag.fits" then
      let* data := read_fits f in
      Ok (mkloading (l_m st) (Some data) (l_matches st))
    else Ok st.

  Fixpoint load_files (st : loading) (files : folder A) : result loading :=
    match files with
    | [] => Ok st
    | file :: rest => let* st := load_file st file in load_files st rest
    end.

  (** demodulation.py 134-193 for an existing folder *)
  Definition load (files : folder A) : result (demodulator A) :=
    match files with
    | [] => Raise FileNotFoundError
    | _ =>
        match sample_matrix files with
        | None => Raise UnboundLocalError
        | Some f =>
            let* sample := read_fits f in
            let m := mktensor (rows sample) (cols sample) (fun _ _ _ _ => n0) in
            let* st := load_files (mkloading m None 0) files in
            if negb (l_matches st =? 12) then Raise ValueError
            else Ok (mkdemodulator (l_m st) (l_flags st))
        end
    end.
End Load.

(** demodulation.py 722-752: what the calibration writes into the folder, in order (the files
    in the covariance_tensor subfolder are not listed by [load]). *)
Definition digit_char (k : Z) : string := String (ascii_of_N (Z.to_N (48 + k))) "".
Definition matrix_name (i j : Z) : string := ("M" ++ digit_char i ++ digit_char j ++ ".fits")%string.

Record calibration (A : Type) : Type := mkcalibration {
  k_m : tensor A; k_tk : arr A; k_eff : arr A; k_phase : arr A; k_found : arr A
}.
Arguments mkcalibration {A} k_m k_tk k_eff k_phase k_found.
Arguments k_m {A} c.
Arguments k_tk {A} c.
Arguments k_eff {A} c.
Arguments k_phase {A} c.
Arguments k_found {A} c.

Definition matrix_files {A} (m : tensor A) : folder A :=
  map (fun k => (matrix_name (k / 4) (k mod 4), Image (tslice m (k / 4) (k mod 4)))) (zrange 12).
Definition written_files {A} (c : calibration A) : folder A :=
  matrix_files (k_m c) ++
  [("transmittancies.fits", Image (k_tk c)); ("efficiences.fits", Image (k_eff c));
   ("phases.fits", Image (k_phase c)); ("fit_found_flag.fits", Image (k_found c))].

(** A file is replaced in place or added at the end of the listing; a removed one leaves it. *)
Fixpoint put_file {A} (name : string) (f : fits_file A) (l : folder A) : folder A :=
  match l with
  | [] => [(name, f)]
  | (n, g) :: rest => if String.eqb n name then (n, f) :: rest else (n, g) :: put_file name f rest
  end.
Definition remove_file {A} (name : string) (l : folder A) : folder A :=
  filter (fun e => negb (String.eqb (fst e) name)) l.

Definition write_all {A} (files : folder A) (l : folder A) : folder A :=
  fold_left (fun l e => put_file (fst e) (snd e) l) files l.

(** The folder after an interruption: [k] files are written; the next one is untouched, has
    just been removed (astropy removes the old file first) or is cut short. *)
Inductive cut : Type := Untouched | Removed | Truncated.
Definition interrupted {A} (c : calibration A) (k : nat) (how : cut) (l : folder A) : folder A :=
  let done := write_all (firstn k (written_files c)) l in
  match nth_error (written_files c) k with
  | None => done
  | Some (name, _) =>
      match how with
      | Untouched => done
      | Removed => remove_file name done
      | Truncated => put_file name Broken (remove_file name done)
      end
  end.

(** ** Families from fitted phases *)

(** [l.index(min(l, key=lambda x: abs(x - i)))]: min returns the first element with the
    smallest key, index the first position of an equal element *)
Fixpoint min_by (key : R -> R) (best : R) (l : list R) : R :=
  match l with
  | [] => best
  | x :: rest => min_by key (if Rltb (key x) (key best) then x else best) rest
  end.
Fixpoint index_of (v : R) (l : list R) : result Z :=
  match l with
  | [] => Raise ValueError
  | x :: rest => if Reqb x v then Ok 0 else let* n := index_of v rest in Ok (n + 1)
  end.
Definition nearest (l : list R) (i : Z) : result Z :=
  match l with
  | [] => Raise ValueError
  | x :: rest => index_of (min_by (fun v => Rabs (v - IZR i)) x rest) l
  end.

(** np.mean of [phi[dy::2, dx::2]] *)
Definition family_mean (phi : arr R) (dy dx : Z) : R :=
  let n := Z.max 0 ((rows phi - dy + 1) / 2) in
  let m := Z.max 0 ((cols phi - dx + 1) / 2) in
  (fold_right Rplus 0
     (map (fun y => fold_right Rplus 0
                      (map (fun x => cell phi (dy + 2 * y) (dx + 2 * x)) (zrange m))) (zrange n))
   / IZR (n * m))%R.

Definition four_means (phi : arr R) : list R :=
  [family_mean phi 0 0; family_mean phi 0 1; family_mean phi 1 0; family_mean phi 1 1].

(** demodulation.py 112-131.  [list(all_indexes - assigned_indexes)[0]]: small integers leave
    a set in increasing order. *)
Definition angle_dic_of (fuel : nat) (phis_ij : list R) : result angle_dic :=
  let* (phis_ij, _) := normalize2pi fuel (AList phis_ij) in
  let* a := nearest phis_ij 0 in
  let* b := nearest phis_ij 45 in
  let* c := nearest phis_ij (-45) in
  let* d := nearest phis_ij 90 in
  let missing := filter (fun k => negb (existsb (Z.eqb k) [a; b; c; d])) [0; 1; 2; 3] in
  let d := match missing with [] => d | k :: _ => k end in
  Ok [(0, a); (45, b); (-45, c); (90, d)].

Definition fitted_angle_dic (fuel : nat) (phi : arr R) : result angle_dic :=
  angle_dic_of fuel (four_means phi).
