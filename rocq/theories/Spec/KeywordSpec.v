(** Where the pixels of a square mosaic of n x n superpixels go, and keyword lookup. *)
From Coq Require Import String.
From Verif Require Import Base.Base Model.Keywords.

(** Superpixel (Y, X) goes to (n-1-X, n-1-Y), each pixel keeping its place in the superpixel. *)
Definition moved_row (n y x : Z) : Z := 2 * (n - 1 - x / 2) + y mod 2.
Definition moved_col (n y x : Z) : Z := 2 * (n - 1 - y / 2) + x mod 2.

Definition square (n : Z) {A} (d : arr A) : Prop := 0 <= n /\ rows d = 2 * n /\ cols d = 2 * n.

(** The keyword [k] has value [v]. *)
Inductive keyword {A} : header A -> string -> hval A -> Prop :=
| kw_here k v h : keyword ((k, v) :: h) k v
| kw_later k v k' v' h : k' <> k -> keyword h k v -> keyword ((k', v') :: h) k v.

(** Keywords that the function writes. *)
Definition written : list string :=
  ["NAXIS1"; "NAXIS2"; "DATE-OBS"; "WCSNAME"; "CTYPE1"; "CTYPE2"; "CDELT1"; "CDELT2"; "CUNIT1"; "CUNIT2";
   "CRVAL1"; "CRVAL2"; "CROTA2"; "CRPIX1"; "CRPIX2"]%string.

(** Every pixel of [data] is found in [d] where it has been moved. *)
Definition all_moved (n : Z) {A} (data d : arr A) : Prop :=
  rows d = 2 * n /\ cols d = 2 * n /\
  forall y x, 0 <= y < 2 * n -> 0 <= x < 2 * n -> cell d (moved_row n y x) (moved_col n y x) = cell data y x.
