(** scipy.ndimage.median_filter(a, size) of scipy 1.13.0 (requirements.txt 108), which micropol_image.py 992 and
    image_cleaning.py 12 call with size 2 and image_cleaning.py 90 with size 10: the window of size x size elements that
    starts size // 2 elements before the pixel in each direction, continued beyond the borders by mode "reflect"
    (d c b a | a b c d | d c b a), sorted; the element of rank size * size // 2, counted from 0.

    Left out: the order of NaN among numbers, arguments other than [size]. *)
From Verif Require Import Base.Base.

Section Filter.
  Context {A : Type} (leb : A -> A -> bool).

  Definition reflect (n i : Z) : Z := let k := i mod (2 * n) in if k <? n then k else 2 * n - 1 - k.

  Definition window (a : arr A) (size y x : Z) : list A :=
    flat_map (fun i => map (fun j =>
      cell a (reflect (rows a) (y - size / 2 + i)) (reflect (cols a) (x - size / 2 + j))) (zrange size)) (zrange size).

  Fixpoint insert (v : A) (l : list A) : list A :=
    match l with
    | [] => [v]
    | u :: l' => if leb v u then v :: l else u :: insert v l'
    end.
  Definition sort (l : list A) : list A := fold_right insert [] l.

  (** Windows hold size * size elements; the default of [nth] is never reached for size > 0. *)
  Definition window_median (a : arr A) (size y x : Z) : A :=
    nth (Z.to_nat (size * size / 2)) (sort (window a size y x)) (cell a y x).
  Definition filtered (a : arr A) (size : Z) : arr A := mkarr (rows a) (cols a) (window_median a size).
End Filter.
