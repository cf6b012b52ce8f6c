(** Model of micropolarray/processing/shift.py. *)
From Verif Require Import Base.Base Base.Num Model.Demosaic.

Definition b2z (b : bool) : Z := if b then 1 else 0.

Section Shift.
  Context {A : Type} `{Num A}.

  (** shift.py 7-14; [missing_value * np.ones_like(data)] is the constant array. *)
  Definition shift (data : arr A) (y x : Z) (missing_value : A) : result (arr A) :=
    let newdata := full_like data missing_value in
    for_range (b2z (y >? 0) * y) (rows newdata - Z.abs y * b2z (y <? 0)) 1 (fun j =>
      for_range (b2z (x >? 0) * x) (cols newdata - Z.abs x * b2z (x <? 0)) 1 (fun i newdata =>
        let* v := get data (j - y) (i - x) in
        set newdata j i v)) newdata.

  (** shift.py 17-34.  [new_single_pol_subimages] is completely overwritten by the
      enumerate loop, so it is built directly. *)
  Definition shift_micropol (data : arr A) (y x : Z) (missing_value : A) : result (arr A) :=
    let* s := split_polarizations data in
    let* s0 := shift (q0 s) y x missing_value in
    let* s1 := shift (q1 s) y x missing_value in
    let* s2 := shift (q2 s) y x missing_value in
    let* s3 := shift (q3 s) y x missing_value in
    Ok (merge_polarizations (mkquad s0 s1 s2 s3)).
End Shift.
