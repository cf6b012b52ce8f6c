(** Aligning data and header keywords: micropolarray/utils.py 159-216. *)
From Coq Require Import Reals String.
From Verif Require Import Base.Base Base.Num Model.Demosaic Model.LinRoi.

(** Values of header keywords; astropy's value checks are not modelled. *)
Inductive hval (A : Type) : Type :=
| HInt (z : Z)
| HNum (v : A)
| HStr (s : string).
Arguments HInt {A} z.
Arguments HNum {A} v.
Arguments HStr {A} s.

Definition header (A : Type) : Type := list (string * hval A).

(** [header[k]] *)
Fixpoint hget {A} (h : header A) (k : string) : result (hval A) :=
  match h with
  | [] => Raise KeyError
  | (k', v) :: h => if String.eqb k' k then Ok v else hget h k
  end.

(** [header[k] = v] *)
Fixpoint hset {A} (h : header A) (k : string) (v : hval A) : header A :=
  match h with
  | [] => [(k, v)]
  | (k', v') :: h => if String.eqb k' k then (k', v) :: h else (k', v') :: hset h k v
  end.

(** [+] of two strings *)
Definition hstr {A} (v : hval A) : result string :=
  match v with HStr s => Ok s | _ => Raise TypeError end.

(** np.rot90(a, k=-1) and np.flip(a, axis=0) *)
Definition rot90_cw {A} (a : arr A) : arr A := mkarr (cols a) (rows a) (fun i j => cell a (rows a - 1 - j) i).
Definition flip0 {A} (a : arr A) : arr A := mkarr (rows a) (cols a) (fun i j => cell a (rows a - 1 - i) j).

(** [stack[i] = a]: the shapes must agree (a [w x h] array only broadcasts to [h x w] if square). *)
Definition assign_plane {A} (old new : arr A) : result (arr A) :=
  if (rows old =? rows new) && (cols old =? cols new) then Ok new else Raise ValueError.

Section Align.
  Context {A : Type} `{Num A} `{ToInt A}.

  Definition turn_plane {D} (a : arr D) : result (arr D) :=
    let* a := assign_plane a (rot90_cw a) in
    assign_plane a (flip0 a).

  Definition align_keywords_and_data {D} `{Num D} (h : header A) (data : arr D) (sun_center : A * A)
      (platescale : A) (binning : Z) : result (header A * arr D) :=
    let* s := split_polarizations data in
    let* s0 := turn_plane (q0 s) in
    let* s1 := turn_plane (q1 s) in
    let* s2 := turn_plane (q2 s) in
    let* s3 := turn_plane (q3 s) in
    let data := merge_polarizations (mkquad s0 s1 s2 s3) in
    let height := rows data in
    let width := cols data in
    let h := hset h "NAXIS1" (HInt height) in
    let h := hset h "NAXIS2" (HInt width) in
    let platescale := if 1 <? binning then platescale *! nofZ binning else platescale in
    let* date := hget h "DATE-OBS" in
    let* date := hstr date in
    let* time := hget h "TIME-OBS" in
    let* time := hstr time in
    let h := hset h "DATE-OBS" (HStr (date ++ "T" ++ time)) in
    let h := hset h "WCSNAME" (HStr "helioprojective-cartesian") in
    let h := hset h "CTYPE1" (HStr "HPLN-TAN") in
    let h := hset h "CTYPE2" (HStr "HPLT-TAN") in
    let h := hset h "CDELT1" (HNum platescale) in
    let h := hset h "CDELT2" (HNum platescale) in
    let h := hset h "CUNIT1" (HStr "arcsec") in
    let h := hset h "CUNIT2" (HStr "arcsec") in
    let h := hset h "CRVAL1" (HInt 0) in
    let h := hset h "CRVAL2" (HInt 0) in
    let h := hset h "CROTA2" (HInt (-9)) in
    let '(y, x) := sun_center in
    let relative_y := y /! nofZ 1952 in
    let relative_x := x /! nofZ 1952 in
    let* sun_x := toint (nofZ width *! relative_x) in
    let* sun_y := toint (nofZ height *! relative_y) in
    let h := hset h "CRPIX1" (HInt (height - sun_y)) in
    let h := hset h "CRPIX2" (HInt (width - sun_x)) in
    Ok (h, data).
End Align.
