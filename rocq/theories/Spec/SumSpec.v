(** Small specification vocabulary for sums over blocks of pixels. *)
From Coq Require Import Reals.
From Verif Require Import Base.Base Base.Num.

(** The pixels of the [b] x [b] same-family block that superpixel binning by [b]
    assigns to output pixel (Y, X), in row-major order: superpixel block (Y/2, X/2),
    row parity of Y, column parity of X. *)
Definition family_block {A} (data : arr A) (b Y X : Z) : list A :=
  map (fun p => cell data (2 * b * (Y / 2) + Y mod 2 + 2 * fst p)
                          (2 * b * (X / 2) + X mod 2 + 2 * snd p))
      (list_prod (zrange b) (zrange b)).

(** The pixels of the plain [b] x [b] block at (b Y, b X), in row-major order. *)
Definition plain_block {A} (data : arr A) (b Y X : Z) : list A :=
  map (fun p => cell data (b * Y + fst p) (b * X + snd p))
      (list_prod (zrange b) (zrange b)).

(** Left-to-right sum starting from 0, in any number type. *)
Definition lsum {A} `{Num A} (l : list A) : A := fold_left nadd l n0.

(** Sum of [f 0 + ... + f (n-1)] over the reals, and over a rectangle. *)
Definition rsum (n : Z) (f : Z -> R) : R := fold_right Rplus 0%R (map f (zrange n)).
Definition rsum2 (h w : Z) (f : Z -> Z -> R) : R := rsum h (fun y => rsum w (f y)).

(** Sum of [f] over the pixels of an [h] x [w] image selected by [P]. *)
Definition rsum_over (h w : Z) (P : Z -> Z -> bool) (f : Z -> Z -> R) : R :=
  rsum2 h w (fun y x => if P y x then f y x else 0%R).
