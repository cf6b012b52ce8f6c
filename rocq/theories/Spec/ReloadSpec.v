(** What a file format and a disk must do for images to come back (vocabulary for C139). *)
From Coq Require Import String Reals.
From Verif Require Import Base.Base Model.Paths Model.Codec Model.Fs Model.Keywords Model.FileInit Model.Stokes Spec.FilesSpec.

(** Pixels that are finite binary64 numbers. *)
Definition storable (a : arr R) : Prop :=
  forall y x, 0 <= y < rows a -> 0 <= x < cols a ->
    exists m e : Z, Z.abs m < 2 ^ 53 /\ -1074 <= e <= 971 /\ cell a y x = (IZR m * powerRZ 2 e)%R.

(** Such images can be read back from the bytes written for them, with the header [head]. *)
Definition reads_back (fits : list (list R) -> bytes) (parse : bytes -> result (arr R * Keywords.header R))
    (head : Keywords.header R) : Prop :=
  forall a, 0 < rows a -> 0 < cols a -> storable a -> exists b, parse (fits (to_list a)) = Ok (b, head) /\ b =a= a.

(** The same numbers in the three components. *)
Definition same_stokes (s t : stokes R) : Prop := sI s =a= sI t /\ sQ s =a= sQ t /\ sU s =a= sU t.
