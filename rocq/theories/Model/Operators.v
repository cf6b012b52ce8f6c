(** Arithmetic expressions with images: micropolarray/image.py 277-303 and micropol_image.py 1004-1091,
    with Python's rules for binary operators.

    Neither class defines [__radd__], [__rsub__], [__rmul__] or [__rtruediv__], and none of them defines
    [__array_priority__] or [__array_ufunc__].  Left out: headers, flags and demosaiced images (Model/ImageObj.v),
    division of numbers or arrays by zero without an image (inf and nan of numpy). *)
From Coq Require Import Reals.
From Verif Require Import Base.Base Base.Num Base.Bcast Model.Utils Model.Stokes Model.ImageObj.

(** Numbers, numpy arrays, objects of class Image and of class MicropolImage with their dictionary. *)
Inductive value : Type :=
| Number (s : R)
| Array (a : arr R)
| Plain (a : arr R)
| Micropol (a : arr R) (dic : angle_dic).

(** numpy's operators on objects that are no arrays: the operator is applied to every element of the array
    and the object, which is a TypeError since numbers know nothing of images and images have no reflected
    operators.  An array without elements gives an array without elements. *)
Definition with_object (a : arr R) : result (arr R) :=
  if (rows a <=? 0) || (cols a <=? 0) then Ok a else Raise TypeError.

(** [self.data + second] and the like, [second] not being of the class of [self] *)
Definition with_other (W : outside) (f : arith) (data : arr R) (second : value) : result (arr R) :=
  match second with
  | Number s => Ok (combine_number W f data s)
  | Array b => combine_arrays W f data b
  | Plain _ | Micropol _ _ => with_object data
  end.

(** [Image(data)] and [MicropolImage(data, angle_dic)], which computes the Stokes parameters *)
Definition new_micropol (data : arr R) (dic : angle_dic) : result value :=
  let* _ := data_stokes dic data in Ok (Micropol data dic).

(** Operators of numbers and arrays alone *)
Definition number_op (f : arith) (s t : R) : result R :=
  match f with
  | Add => Ok (s + t)%R
  | Sub => Ok (s - t)%R
  | Mul => Ok (s * t)%R
  | Div => if Reqb t 0 then Raise ZeroDivisionError else Ok (s / t)%R
  end.
Definition array_op (f : arith) : R -> R -> R :=
  match f with Add => Rplus | Sub => Rminus | Mul => Rmult | Div => Rdiv end.

(** [left f right] *)
Definition operate (W : outside) (f : arith) (left right : value) : result value :=
  match left, right with
  | Number s, Number t => let* r := number_op f s t in Ok (Number r)
  | Number s, Array b => Ok (Array (amap (fun v => array_op f s v) b))
  | Array a, Number t => Ok (Array (amap (fun v => array_op f v t) a))
  | Array a, Array b => let* r := bmap2 (array_op f) a b in Ok (Array r)
  (* [float.__add__] gives NotImplemented, there is no [__radd__] *)
  | Number _, (Plain _ | Micropol _ _) => Raise TypeError
  | Array a, (Plain _ | Micropol _ _) => let* r := with_object a in Ok (Array r)
  (* image.py 277-303 *)
  | Plain a, Plain b => let* d := combine_arrays W f a b in Ok (Plain d)
  | Plain a, _ => let* d := with_other W f a right in Ok (Plain d)
  (* micropol_image.py 1004-1091: the dictionary of the first image *)
  | Micropol a dic, Micropol b _ => let* d := combine_arrays W f a b in new_micropol d dic
  | Micropol a dic, _ => let* d := with_other W f a right in new_micropol d dic
  end.

Inductive expr : Type :=
| Leaf (v : value)
| Op (f : arith) (l r : expr).

Fixpoint eval (W : outside) (e : expr) : result value :=
  match e with
  | Leaf v => Ok v
  | Op f l r => let* u := eval W l in let* v := eval W r in operate W f u v
  end.

(** Python's [sum(values)] *)
Fixpoint sum_from (W : outside) (acc : value) (l : list value) : result value :=
  match l with
  | [] => Ok acc
  | v :: l => let* acc := operate W Add acc v in sum_from W acc l
  end.
Definition py_sum (W : outside) (l : list value) : result value := sum_from W (Number 0) l.
