(** Flat correction with a given mean (micropolarray/micropol_image.py 405-411).  [np.mean] adds in
    an order of its own, so in floating point its result is a parameter. *)
From Verif Require Import Base.Base Base.Num Model.Utils.

Section Flat.
  Context {A : Type} `{Num A}.

  Definition flat_data_with (mean : A) (junk : Z -> Z -> A) (data flat : arr A) : result (arr A) :=
    let normalized_flat := amap (fun v => v /! mean) flat in
    divide_where junk data normalized_flat.
End Flat.
