(** The other results of a calibration: Cij, eff, tk and phi of a Demodulator
    (micropolarray/processing/demodulation.py 43-103), and how they are written
    (709 and 722-752). *)
From Coq Require Import String Reals.
From Verif Require Import Base.Base Base.Num Base.Bcast Model.Stokes Model.Demodulate Model.DemodFit Model.DemodLoad.
Local Open Scope string_scope.
Local Open Scope list_scope.
Local Open Scope Z_scope.

Section Cov.
  Context {A : Type} `{Num A}.

  (** [Cij[i, j] = data] for an array of shape (3, 3, h, w) *)
  Definition put_cov (m : tensor A) (i j : Z) (data : arr A) : result (tensor A) :=
    if negb ((i <? 3) && (j <? 3)) then Raise IndexError
    else if negb (((rows data =? t_rows m) || (rows data =? 1)) &&
                  ((cols data =? t_cols m) || (cols data =? 1))) then Raise ValueError
    else Ok (mktensor (t_rows m) (t_cols m)
               (fun i' j' => if (i' =? i) && (j' =? j) then bcell data else t_cell m i' j')).

  (** demodulation.py 64-74 *)
  Fixpoint cov_loop (m : tensor A) (matches : Z) (files : folder A) : result (tensor A * Z) :=
    match files with
    | [] => Ok (m, matches)
    | (name, f) :: rest =>
        match two_digits name with
        | Some (i, j) =>
            let* data := read_fits f in
            let* m := put_cov m i j data in
            cov_loop m (matches + 1) rest
        | None => cov_loop m matches rest
        end
    end.

  (** demodulation.py 43-79; [files] are the entries of the folder covariance_tensor as glob
      lists them, none if there is no such folder.  The first one, whatever its name, gives
      the shape. *)
  Definition Cij (files : folder A) : result (option (tensor A)) :=
    match files with
    | [] => Ok None
    | (_, first) :: _ =>
        let* sample := read_fits first in
        let* (m, matches) := cov_loop (mktensor (rows sample) (cols sample) (fun _ _ _ _ => n0)) 0 files in
        if negb (matches =? 9) then Raise ValueError else Ok (Some m)
    end.

  (** demodulation.py 81-103 *)
  Definition read_map (name : string) (files : folder A) : result (arr A) :=
    match find (fun e => String.eqb (fst e) name) files with
    | None => Raise FileNotFoundError
    | Some (_, f) => read_fits f
    end.
  Definition eff (files : folder A) := read_map "efficiences.fits" files.
  Definition tk (files : folder A) := read_map "transmittancies.fits" files.
  Definition phi (files : folder A) := read_map "phases.fits" files.
End Cov.

(** demodulation.py 728-752: the files of the folder covariance_tensor *)
Definition cov_name (i j : Z) : string := ("C" ++ digit_char i ++ digit_char j ++ ".fits")%string.
Definition cov_written {A} (c : tensor A) (chisq : arr A) : folder A :=
  map (fun k => (cov_name (k / 3) (k mod 3), Image (tslice c (k / 3) (k mod 3)))) (zrange 9) ++
  [("reduced_chisquare.fits", Image chisq)].

(** demodulation.py 709: phases in degrees; 722-752: what is written of the results [o]. *)
Definition rad2deg (v : R) : R := (v * (180 / PI))%R.
Definition m_entry (m : mat34) (i k : Z) : R :=
  let '(r0, r1, r2) := m in
  if i =? 0 then f4 r0 k else if i =? 1 then f4 r1 k else f4 r2 k.
Definition results (o : maps) : calibration R :=
  mkcalibration (mktensor (rows (o_m o)) (cols (o_m o)) (fun i j y x => m_entry (cell (o_m o) y x) i j))
    (o_tk o) (o_eff o) (amap rad2deg (o_phase o)) (o_found o).
Definition cov_results (o : maps) : folder R :=
  cov_written (mktensor (rows (o_cov o)) (cols (o_cov o)) (fun i j y x => cell (o_cov o) y x i j)) (o_chisq o).
