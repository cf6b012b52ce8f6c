(** Turning, flipping and binning a Demodulator
    (micropolarray/processing/demodulation.py 231-267). *)
From Verif Require Import Base.Base Base.Num Model.Rebin Model.Stokes Model.Demodulate Model.DemodLoad.

(** np.flip(m, axis) of a two-dimensional array; numpy's AxisError is a ValueError *)
Definition flip_rows {A} (m : arr A) : arr A := mkarr (rows m) (cols m) (fun y x => cell m (rows m - 1 - y) x).
Definition flip_cols {A} (m : arr A) : arr A := mkarr (rows m) (cols m) (fun y x => cell m y (cols m - 1 - x)).
Definition transpose {A} (m : arr A) : arr A := mkarr (cols m) (rows m) (fun y x => cell m x y).
Definition np_flip {A} (m : arr A) (axis : Z) : result (arr A) :=
  if (axis =? 0) || (axis =? -2) then Ok (flip_rows m)
  else if (axis =? 1) || (axis =? -1) then Ok (flip_cols m)
  else Raise ValueError.

(** np.rot90(m, k) (numpy/lib/function_base.py) *)
Definition np_rot90 {A} (m : arr A) (k : Z) : arr A :=
  let k := k mod 4 in
  if k =? 0 then m
  else if k =? 2 then flip_cols (flip_rows m)
  else if k =? 1 then transpose (flip_cols m)
  else flip_cols (transpose m).

Section Turn.
  Context {A : Type} `{Num A}.

  (** The two loops over the matrices: [mij[i, j] = g(i, j)].  The right-hand side may be a view
      of the memory assigned to; numpy copies it first. *)
  Definition each_matrix (g : Z -> Z -> tensor A -> result (arr A)) (m : tensor A) : result (tensor A) :=
    for_range 0 3 1 (fun i m =>
      for_range 0 4 1 (fun j m => let* data := g i j m in put_matrix m i j data) m) m.

  (** demodulation.py 257-261: the flags stay as they are. *)
  Definition demod_rot90 (d : demodulator A) (k : Z) : result (demodulator A) :=
    let* m := each_matrix (fun i j m => Ok (np_rot90 (tslice m i j) k)) (mij d) in
    Ok (mkdemodulator m (fit_found_flags d)).

  (** demodulation.py 263-266 *)
  Definition demod_flip (d : demodulator A) (axis : Z) : result (demodulator A) :=
    let* m := each_matrix (fun i j m => np_flip (tslice m i j) axis) (mij d) in
    Ok (mkdemodulator m (fit_found_flags d)).

  (** demodulation.py 231-255.  [files] is what the folder of the demodulator holds at the time
      of the call. *)
  Definition demod_rebin (fuel : nat) (files : folder A) (d : demodulator A) (binning : Z)
    : result (demodulator A) :=
    if binning =? 0 then Raise ZeroDivisionError
    else if negb (Z.quot (t_rows (mij d)) binning mod 2 =? 0) || negb (Z.quot (t_cols (mij d)) binning mod 2 =? 0)
    then Raise ValueError
    else
      let* new := load files in
      let* z := zeros (Z.quot (t_rows (mij new)) binning) (Z.quot (t_cols (mij new)) binning) in
      let* m :=
        each_matrix (fun j i _ =>
          let* r := standard_rebin fuel (tslice (mij new) j i) binning in
          Ok (amap (fun v => v /! nofZ (binning * binning)) r))
          (mktensor (rows z) (cols z) (fun _ _ => cell z)) in
      Ok (mkdemodulator m (fit_found_flags new)).
End Turn.
