(** Pixel-wise corrections: micropolarray/utils.py 55-61 (fix_data),
    micropol_image.py 381-417 (subtract_dark, correct_flat), the division operators
    of image.py 298-303 and micropol_image.py 1056-1065. *)
From Coq Require Import Reals.
From Verif Require Import Base.Base Base.Num Base.Bcast Spec.SumSpec.

Section Utils.
  Context {A : Type} `{Num A}.

  (** Truth value of a Python [None] or number. *)
  Definition truthy (v : option A) : bool :=
    match v with
    | None => false
    | Some v => negb (neqb v n0)
    end.

  (** utils.py 55-61 *)
  Definition fix_data (data : arr A) (mn mx : option A) : arr A :=
    if negb (truthy mn && truthy mx) then data
    else
      match mn, mx with
      | Some lo, Some hi =>
          let fixed := amap (fun v => if nltb lo v then v else lo) data in
          amap (fun v => if nltb v hi then v else hi) fixed
      | _, _ => data
      end.

  (** micropol_image.py 390-391: [data - dark], then negative values become 0.  The
      subtraction is a parameter because numpy uses the one of the arrays' dtype. *)
  Definition dark_data_with (sub : A -> A -> A) (geb0 : A -> bool) (zero : A)
      (data dark : arr A) : result (arr A) :=
    let* d := bmap2 sub data dark in
    Ok (amap (fun v => if geb0 v then v else zero) d).

  (** ... on float data. *)
  Definition dark_data (data dark : arr A) : result (arr A) :=
    dark_data_with nsub (fun v => nleb n0 v) n0 data dark.

  (** [np.divide(a, b, where=cond)] without [out]: where the condition fails the
      result keeps whatever the freshly allocated output buffer [junk] contained. *)
  Definition divide_where (junk : Z -> Z -> A) (a b : arr A) : result (arr A) :=
    let* q := bmap2 (fun u v => (u, v)) a b in
    Ok (mkarr (rows q) (cols q)
          (fun y x => let (u, v) := cell q y x in
                      if negb (neqb v n0) then u /! v else junk y x)).

  (** [np.divide(a, s, where=s != 0)] with a scalar [s]. *)
  Definition divide_scalar (junk : Z -> Z -> A) (a : arr A) (s : A) : arr A :=
    mkarr (rows a) (cols a)
      (fun y x => if negb (neqb s n0) then cell a y x /! s else junk y x).
End Utils.

(** Unsigned 16-bit subtraction (numpy wraps around silently): the dtype of detector
    images that are not first converted to float. *)
Definition u16_sub (a b : Z) : Z := (a - b) mod 65536.
Definition dark_data_u16 (data dark : arr Z) : result (arr Z) :=
  dark_data_with u16_sub (fun v => 0 <=? v) 0 data dark.

(** np.mean over all pixels, in exact arithmetic (no pairwise-summation rounding). *)
Definition amean (a : arr R) : R :=
  (rsum2 (rows a) (cols a) (cell a) / IZR (rows a * cols a))%R.

(** micropol_image.py 405-411 *)
Definition flat_data (junk : Z -> Z -> R) (data flat : arr R) : result (arr R) :=
  let m := amean flat in
  let normalized_flat := amap (fun v => (v / m)%R) flat in
  divide_where junk data normalized_flat.
