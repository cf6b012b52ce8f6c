(** Ranks, mirrored images, pixels of the same family next to each other. *)
From Coq Require Import Reals.
From Verif Require Import Base.Base Base.Num Model.ImageObj Model.MedianFilter.

(** A way of comparing that orders all values *)
Definition orders {A} (leb : A -> A -> bool) : Prop :=
  (forall u v, leb u v = true \/ leb v u = true) /\ (forall u v w, leb u v = true -> leb v w = true -> leb u w = true).

(** [v] is an element of [l] with at most [k] smaller ones and at most [length l - 1 - k] larger ones. *)
Definition ranked {A} (leb : A -> A -> bool) (k : nat) (l : list A) (v : A) : Prop :=
  In v l /\ (length (filter (fun u => negb (leb v u)) l) <= k)%nat /\
  (length (filter (fun u => negb (leb u v)) l) + k < length l)%nat.

(** The image continued by its mirror image for as many rows and columns again on every side *)
Definition mirrored {A} (a : arr A) (y x : Z) : A :=
  let side n i := if i <? 0 then - 1 - i else if i <? n then i else 2 * n - 1 - i in
  cell a (side (rows a) y) (side (cols a) x).

(** Rows [y - size // 2] to [y - size // 2 + size - 1] of the mirrored image, the same columns *)
Definition around {A} (a : arr A) (size y x : Z) : list A :=
  flat_map (fun i => map (fun j => mirrored a (y - size / 2 + i) (x - size / 2 + j)) (zrange size)) (zrange size).

(** scipy's median filter is the one of the model. *)
Definition scipy_median (W : outside) : Prop := forall a y x, median W a y x = window_median Rleb a 2 y x.

(** The neighbours of the same family above, to the left, and above to the left *)
Definition above {A} (a : arr A) (y x : Z) : A := cell a (y - 2) x.
Definition left {A} (a : arr A) (y x : Z) : A := cell a y (x - 2).
Definition corner {A} (a : arr A) (y x : Z) : A := cell a (y - 2) (x - 2).
Definition largest3 (a b c : R) : R := Rmax a (Rmax b c).
Definition middle3 (a b c : R) : R := Rmax (Rmin a b) (Rmin (Rmax a b) c).
