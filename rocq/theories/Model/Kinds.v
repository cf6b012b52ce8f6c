(** Images of integers, floats and truth values together: micropol_image.py 1004-1064 and image.py 277-296 with the
    rules of numpy 1.26.4 (requirements.txt 55) for the type of a result.  [self.data op second] is the same whether
    [second] is an array or the data of an image.

    Left out: float32 and other widths of floats, complex numbers. *)
From Verif Require Import Base.Base Base.Num Base.Bcast Model.IntData Model.IntTypes.

(** Data of an image or an array: truth values, or numbers *)
Inductive contents : Type := Mask (d : arr bool) | Numbers (p : pixels).

(** A truth value converted to a number *)
Definition mask_int (b : bool) : Z := if b then 1 else 0.

(** [data1 op data2]: [np.promote_types] takes truth values to any number, integers to float64.  For two arrays of
    truth values + is "or", * is "and", and - raises TypeError before the shapes are looked at. *)
Definition any_op (op : operator) (a b : contents) : result contents :=
  match a, b with
  | Mask m, Mask n =>
      match op with
      | Plus => let* d := bmap2 orb m n in Ok (Mask d)
      | Times => let* d := bmap2 andb m n in Ok (Mask d)
      | Minus => Raise TypeError
      end
  | Mask m, Numbers (Ints t d) =>
      let* r := bmap2 (fun u v => wrap t (exact_op op (mask_int u) v)) m d in Ok (Numbers (Ints t r))
  | Numbers (Ints t d), Mask m =>
      let* r := bmap2 (fun u v => wrap t (exact_op op u (mask_int v))) d m in Ok (Numbers (Ints t r))
  | Mask m, Numbers (Floats d) =>
      let* r := bmap2 (fun u v => float_op op (b64_ofZ (mask_int u)) v) m d in Ok (Numbers (Floats r))
  | Numbers (Floats d), Mask m =>
      let* r := bmap2 (fun u v => float_op op u (b64_ofZ (mask_int v))) d m in Ok (Numbers (Floats r))
  | Numbers (Ints t1 d1), Numbers (Ints t2 d2) => let* p := mixed_op op t1 d1 t2 d2 in Ok (Numbers p)
  | Numbers (Ints _ d1), Numbers (Floats d2) =>
      let* r := bmap2 (fun u v => float_op op (b64_ofZ u) v) d1 d2 in Ok (Numbers (Floats r))
  | Numbers (Floats d1), Numbers (Ints _ d2) =>
      let* r := bmap2 (fun u v => float_op op u (b64_ofZ v)) d1 d2 in Ok (Numbers (Floats r))
  | Numbers (Floats d1), Numbers (Floats d2) =>
      let* r := bmap2 (float_op op) d1 d2 in Ok (Numbers (Floats r))
  end.

(** [data op number] for a Python float: its kind is above that of integers, so the result is float64 whatever the
    width of the integers. *)
Definition with_float (op : operator) (a : contents) (f : b64) : arr b64 :=
  match a with
  | Mask m => amap (fun u => float_op op (b64_ofZ (mask_int u)) f) m
  | Numbers (Ints _ d) => amap (fun u => float_op op (b64_ofZ u) f) d
  | Numbers (Floats d) => amap (fun u => float_op op u f) d
  end.
