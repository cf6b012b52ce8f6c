(** Images of integers of different types, and of integers and whole numbers: micropol_image.py 1004-1064 and
    image.py 277-296 with the rules of numpy 1.26.4 (requirements.txt 55) for the type of a result.

    Boolean images and images of floats: Kinds.v.  Left out: whole numbers beyond 64 bits (arrays of objects). *)
From Verif Require Import Base.Base Base.Num Base.Bcast Model.IntData.

(** Data of an image: integers of a type, or binary64 numbers. *)
Inductive pixels : Type := Ints (t : itype) (d : arr Z) | Floats (d : arr b64).

(** [np.promote_types] of two integer types; [None] is float64. *)
Definition promote (t1 t2 : itype) : option itype :=
  if Bool.eqb (is_signed t1) (is_signed t2) then Some (mkitype (Z.max (bits t1) (bits t2)) (is_signed t1))
  else
    let s := if is_signed t1 then bits t1 else bits t2 in
    let u := if is_signed t1 then bits t2 else bits t1 in
    if u <? s then Some (mkitype s true) else if u <? 64 then Some (mkitype (2 * u) true) else None.

Definition float_op (op : operator) : b64 -> b64 -> b64 :=
  match op with Plus => nadd | Minus => nsub | Times => nmul end.

(** [data1 op data2]: both are converted to the common type, then the loop of that type runs. *)
Definition mixed_op (op : operator) (t1 : itype) (d1 : arr Z) (t2 : itype) (d2 : arr Z) : result pixels :=
  match promote t1 t2 with
  | Some t => let* d := bmap2 (fun a b => wrap t (exact_op op (wrap t a) (wrap t b))) d1 d2 in Ok (Ints t d)
  | None => let* d := bmap2 (fun a b => float_op op (b64_ofZ a) (b64_ofZ b)) d1 d2 in Ok (Floats d)
  end.

(** [np.min_scalar_type] of a whole number: the width *)
Definition width_unsigned (k : Z) : Z :=
  if k <? 2 ^ 8 then 8 else if k <? 2 ^ 16 then 16 else if k <? 2 ^ 32 then 32 else 64.
Definition width_signed (k : Z) : Z :=
  if - 2 ^ 7 <=? k then 8 else if - 2 ^ 15 <=? k then 16 else if - 2 ^ 31 <=? k then 32 else 64.

(** Type of [array op number] (value-based casting): the number takes part with the smallest type it fits; beside a
    signed array a non-negative number takes the signed type of that width if it fits. *)
Definition number_type (t : itype) (k : Z) : option itype :=
  if k <? 0 then promote t (mkitype (width_signed k) true)
  else let w := width_unsigned k in promote t (mkitype w (is_signed t && (k <? 2 ^ (w - 1)))).

Definition with_number (op : operator) (t : itype) (d : arr Z) (k : Z) : pixels :=
  match number_type t k with
  | Some u => Ints u (amap (fun a => wrap u (exact_op op (wrap u a) (wrap u k))) d)
  | None => Floats (amap (fun a => float_op op (b64_ofZ a) (b64_ofZ k)) d)
  end.

(** [np.divide(data1, data2, where=data2 != 0)], micropol_image.py 1066-1076: float64 for integers of every type. *)
Definition int_quotient (memory : Z -> Z -> b64) (d1 d2 : arr Z) : result (arr b64) :=
  let* d := bmap2 (fun a b => if b =? 0 then None else Some (ndiv (b64_ofZ a) (b64_ofZ b))) d1 d2 in
  Ok (mkarr (rows d) (cols d) (fun y x => match cell d y x with Some v => v | None => memory y x end)).
