(** Quarter turns about the centre of a picture, 24-bit floats. *)
From Coq Require Import Reals.
From Verif Require Import Base.Base Model.ImageObj Model.Rotate.

(** Pillow turns pictures as the model says. *)
Definition pillow (W : outside) : Prop := exists other, forall angle a, turn W angle a = Ok (pil_rotate other angle a).

(** [q] quarter turns counter-clockwise about the centre of h x w pixels take the centre of pixel (y, x) to the centre of
    pixel (y', x').  Twice the distances from the centre are whole numbers; rows are counted downwards. *)
Definition turned (q h w y x y' x' : Z) : Prop :=
  let down := 2 * y + 1 - h in let right := 2 * x + 1 - w in
  let down' := 2 * y' + 1 - h in let right' := 2 * x' + 1 - w in
  (q mod 4 = 0 /\ down' = down /\ right' = right) \/
  (q mod 4 = 1 /\ down' = - right /\ right' = down) \/
  (q mod 4 = 2 /\ down' = - down /\ right' = - right) \/
  (q mod 4 = 3 /\ down' = right /\ right' = - down).

Definition inside (h w y x : Z) : Prop := 0 <= y < h /\ 0 <= x < w.

(** [b] is [a] turned: pixels that come from outside are 0, values are rounded to 24 bits *)
Definition turned_picture (q : Z) (a b : arr R) : Prop :=
  rows b = rows a /\ cols b = cols a /\
  (forall y x y' x', inside (rows a) (cols a) y x -> inside (rows a) (cols a) y' x' -> turned q (rows a) (cols a) y x y' x' ->
     cell b y' x' = single (cell a y x)) /\
  (forall y x y' x', ~ inside (rows a) (cols a) y x -> inside (rows a) (cols a) y' x' -> turned q (rows a) (cols a) y x y' x' ->
     cell b y' x' = 0%R).

(** Quarter turns take pixels to pixels. *)
Definition fits (q h w : Z) : Prop := q mod 2 = 0 \/ (h + w) mod 2 = 0.

(** Whole numbers of at most 24 bits times a power of two *)
Definition fits_single (v : R) : Prop := exists m e : Z, (Z.abs m < 2 ^ 24 /\ -149 <= e)%Z /\ v = (IZR m * powerRZ 2 e)%R.

(** The same for the upper left corner of pixel (y, x) instead of its centre *)
Definition turned_corner (q h w y x y' x' : Z) : Prop :=
  let down := 2 * y - h in let right := 2 * x - w in
  let down' := 2 * y' + 1 - h in let right' := 2 * x' + 1 - w in
  (q mod 4 = 0 /\ down' = down /\ right' = right) \/
  (q mod 4 = 1 /\ down' = - right /\ right' = down) \/
  (q mod 4 = 2 /\ down' = - down /\ right' = - right) \/
  (q mod 4 = 3 /\ down' = right /\ right' = - down).

(** [b] is [a] turned so that centres of pixels come from corners of pixels. *)
Definition turned_to_corners (q : Z) (a b : arr R) : Prop :=
  rows b = rows a /\ cols b = cols a /\
  (forall y x y' x', inside (rows a) (cols a) y x -> inside (rows a) (cols a) y' x' -> turned_corner q (rows a) (cols a) y x y' x' ->
     cell b y' x' = single (cell a y x)) /\
  (forall y x y' x', ~ inside (rows a) (cols a) y x -> inside (rows a) (cols a) y' x' -> turned_corner q (rows a) (cols a) y x y' x' ->
     cell b y' x' = 0%R).
