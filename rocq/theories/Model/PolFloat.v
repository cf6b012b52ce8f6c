(** AoLP in binary64: micropolarray/polarization_functions.py 14-30. *)
From Verif Require Import Base.Base Base.Num Model.Stokes.

(** 0.5 * np.arctan2(1.0 * U, 1.0 * Q).  [arctan2] is the mathematical library's function, of which only
    what a theorem assumes is known. *)
Definition AoLP64 (arctan2 : b64 -> b64 -> b64) (s : stokes b64) : arr b64 :=
  amap2 (fun u q => nhalf *! arctan2 (n1 *! u) (n1 *! q)) (sU s) (sQ s).
