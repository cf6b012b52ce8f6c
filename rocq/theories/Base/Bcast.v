(** numpy broadcasting of two-dimensional arrays (equal sides, or a side of 1 is
    stretched; anything else raises ValueError). *)
From Verif Require Import Base.Base.

Definition bdim (a b : Z) : option Z :=
  if a =? b then Some a
  else if a =? 1 then Some b
  else if b =? 1 then Some a
  else None.

Definition bcell {A} (a : arr A) (y x : Z) : A :=
  cell a (if rows a =? 1 then 0 else y) (if cols a =? 1 then 0 else x).

Definition bmap2 {A B C} (f : A -> B -> C) (a : arr A) (b : arr B) : result (arr C) :=
  match bdim (rows a) (rows b), bdim (cols a) (cols b) with
  | Some h, Some w => Ok (mkarr h w (fun y x => f (bcell a y x) (bcell b y x)))
  | _, _ => Raise ValueError
  end.

(** [np.where(cond, a, fill)] with an array [a] and a scalar [fill]. *)
Definition where_fill {A} (cond : arr bool) (a : arr A) (fill : A) : result (arr A) :=
  bmap2 (fun (c : bool) v => if c then v else fill) cond a.
